(** Lemmas about the Nelder-Mead loop. *)
From Coq Require Import String ZArith List Bool Lia Permutation Sorted.
From RecordUpdate Require Import RecordSet.
From Verif Require Import Num NumFacts Py PyFacts ModelPulse ModelControls ModelLinalg ModelState ModelSearch SpecSearch.
Import ListNotations RecordSetNotations.
Open Scope list_scope.
Open Scope run_scope.

Section Lists.
  Context {A B : Type}.

  Lemma py_set_last (l l' : list A) x : py_set l (-1) x = Ok l' -> l <> [] /\ l' = removelast l ++ [x].
  Proof.
    unfold py_set. change (-1 <? 0)%Z with true. cbn iota.
    replace (Z.to_nat (-1 + Z.of_nat (length l))) with (pred (length l)) by lia. destruct (_ || _)%bool eqn:E; [discriminate|]. intros [= <-].
    apply orb_false_elim in E as [E _]. apply Z.ltb_ge in E.
    assert (l <> []) as K by (intros ->; cbn in E; lia). split; [assumption|].
    destruct (exists_last K) as (m & y & ->). rewrite removelast_last.
    replace (pred _) with (length m) by (rewrite app_length; cbn; lia).
    clear. induction m as [|a m IH]; cbn; [reflexivity|now rewrite IH].
  Qed.
  Lemma py_nth_In (l : list A) i x : py_nth l i = Ok x -> In x l.
  Proof.
    unfold py_nth. destruct (_ || _)%bool; [discriminate|]. destruct (nth_error _ _) eqn:E; [|discriminate].
    intros [= <-]. now apply nth_error_In in E.
  Qed.
  Lemma py_nth_first (l : list A) x : py_nth l 0 = Ok x -> exists t, l = x :: t.
  Proof. unfold py_nth. destruct l; cbn; [discriminate|]. intros [= <-]. eauto. Qed.
  Lemma py_nth_last (l : list A) x : py_nth l (-1) = Ok x -> l = removelast l ++ [x].
  Proof.
    unfold py_nth. change (-1 <? 0)%Z with true. cbn iota.
    replace (Z.to_nat (-1 + Z.of_nat (length l))) with (pred (length l)) by lia. destruct (_ || _)%bool eqn:E; [discriminate|].
    apply orb_false_elim in E as [E _]. apply Z.ltb_ge in E.
    assert (l <> []) as K by (intros ->; cbn in E; lia).
    destruct (nth_error _ _) eqn:F; [|discriminate]. intros [= <-].
    destruct (exists_last K) as (m & y & ->). rewrite removelast_last.
    replace (pred _) with (length m) in F by (rewrite app_length; cbn; lia).
    rewrite nth_error_app2, Nat.sub_diag in F by lia. now injection F as ->.
  Qed.
  Lemma py_nth_nat (l : list A) i x : py_nth l (Z.of_nat i) = Ok x -> nth_error l i = Some x.
  Proof. rewrite py_nth_nonneg. destruct (nth_error l i); [now intros [= <-]|discriminate]. Qed.
  Lemma py_set_nat (l l' : list A) i x : py_set l (Z.of_nat i) x = Ok l' -> l' = set_nth l i x /\ (i < length l)%nat.
  Proof.
    unfold py_set. replace (Z.of_nat i <? 0)%Z with false by (symmetry; apply Z.ltb_ge; lia).
    destruct (_ || _)%bool eqn:E; [discriminate|]. intros [= <-]. rewrite Nat2Z.id. split; [reflexivity|].
    apply orb_false_elim in E as [_ E]. apply Z.leb_gt in E. lia.
  Qed.
  Lemma gather_map (d : A) (l l' : list A) ind : gather l (map Z.of_nat ind) = Ok l' ->
    l' = map (fun i => nth i l d) ind.
  Proof.
    unfold gather. revert l'. induction ind as [|i ind IH]; cbn; intros l' H.
    - now injection H.
    - apply rbind_ok in H as (b & E & H). apply rbind_ok in H as (bs & E' & H). injection H as <-.
      f_equal; [|auto]. apply py_nth_nat in E. symmetry. now apply nth_error_nth.
  Qed.
  Lemma gather_all (d : A) (l : list A) ind : (forall i, In i ind -> (i < length l)%nat) ->
    gather l (map Z.of_nat ind) = Ok (map (fun i => nth i l d) ind).
  Proof.
    unfold gather. induction ind as [|i ind IH]; cbn; intros H; [reflexivity|].
    rewrite py_nth_nonneg. destruct (nth_error l i) eqn:E.
    - cbn. rewrite IH by auto. cbn. erewrite nth_error_nth by eassumption. reflexivity.
    - apply nth_error_None in E. specialize (H i (or_introl eq_refl)). lia.
  Qed.
  Lemma map_nth_seq (d : A) l : map (fun i => nth i l d) (seq 0 (length l)) = l.
  Proof.
    induction l as [|a l IH]; [reflexivity|]. cbn. f_equal. now rewrite <- seq_shift, map_map.
  Qed.
  Lemma combine_map {C} (f : C -> A) (g : C -> B) l : combine (map f l) (map g l) = map (fun c => (f c, g c)) l.
  Proof. induction l; cbn; congruence. Qed.
  Lemma combine_snoc (l : list A) (m : list B) a b : length l = length m ->
    combine (l ++ [a]) (m ++ [b]) = combine l m ++ [(a, b)].
  Proof. revert m. induction l as [|x l IH]; intros [|y m]; cbn; intros E; try discriminate; [reflexivity|]. f_equal. auto. Qed.
  Lemma combine_set_nth (l : list A) (m : list B) i a b :
    combine (set_nth l i a) (set_nth m i b) = set_nth (combine l m) i (a, b).
  Proof. revert m i. induction l as [|x l IH]; intros [|y m] [|i]; cbn; try reflexivity. now rewrite IH. Qed.
  Lemma In_set_nth (l : list A) i a x : In x (set_nth l i a) -> x = a \/ In x l.
  Proof. revert i. induction l as [|y l IH]; intros [|i]; cbn; intuition. apply IH in H0 as [|]; auto. Qed.
  Lemma length_removelast (l : list A) : length (removelast l) = pred (length l).
  Proof.
    destruct l as [|a l]; [reflexivity|]. assert (a :: l <> []) as K by discriminate. revert K.
    generalize (a :: l) as m. intros m K. destruct (exists_last K) as (k & y & ->).
    rewrite removelast_last, app_length. cbn. lia.
  Qed.
  Lemma In_removelast (l : list A) x : In x (removelast l) -> In x l.
  Proof. induction l as [|a [|b l] IH]; cbn in *; intuition. Qed.
  Lemma combine_removelast (l : list A) (m : list B) : length l = length m ->
    combine (removelast l) (removelast m) = removelast (combine l m).
  Proof.
    revert m. induction l as [|a [|b l] IH]; intros [|x [|y m]]; cbn; intros E; try discriminate; try reflexivity.
    f_equal. apply (IH (y :: m)). cbn. lia.
  Qed.
  Lemma In_combine_snd (l : list A) (m : list B) b : length l = length m -> In b m -> exists a, In (a, b) (combine l m).
  Proof.
    revert m. induction l as [|x l IH]; intros [|y m]; cbn; intros E I; try easy.
    destruct I as [->|I]; [eauto|]. destruct (IH m ltac:(lia) I) as (a & K). eauto.
  Qed.
End Lists.

Section NM.
  Context {N : Num} (NO : NumOrder N) (G : settings) (W : world).

  Lemma bind_ok {A B} (m : M A) (k : A -> M B) s b s' : bind m k s = (Ok b, s') ->
    exists a s1, m s = (Ok a, s1) /\ k a s1 = (Ok b, s').
  Proof. unfold bind. destruct (m s) as [[a|e] s1]; [eauto|discriminate]. Qed.
  Lemma lift_ok {A} (r : res A) s a s' : lift r s = (Ok a, s') -> r = Ok a /\ s' = s.
  Proof. unfold lift. now intros [= -> ->]. Qed.

  Lemma le_refl (a : num) : nisnan a = false -> (a <=? a)%num = true.
  Proof. intros H. now destruct (nle_total _ NO a a H H). Qed.
  Lemma lt_le (a b : num) : (a <? b)%num = true -> (a <=? b)%num = true.
  Proof. rewrite (nlt_le _ NO). now destruct (a <=? b)%num. Qed.
  Lemma not_lt_le (a b : num) : nisnan a = false -> nisnan b = false -> (a <? b)%num = false -> (b <=? a)%num = true.
  Proof.
    intros Ha Hb H. rewrite (nlt_le _ NO) in H. destruct (b <=? a)%num eqn:E; [reflexivity|].
    destruct (nle_total _ NO a b Ha Hb) as [K|K]; [|congruence]. rewrite K in H. discriminate.
  Qed.

  (** shapes *)
  Lemma vadd_length a b n : length a = n -> length b = n -> length (vadd a b) = n.
  Proof. unfold vadd. rewrite map2_length. lia. Qed.
  Lemma vsub_length a b n : length a = n -> length b = n -> length (vsub a b) = n.
  Proof. unfold vsub. rewrite map2_length. lia. Qed.
  Lemma vscale_length c a n : length a = n -> length (vscale c a) = n.
  Proof. unfold vscale. now rewrite map_length. Qed.
  Lemma vdiv_length a c n : length a = n -> length (vdiv a c) = n.
  Proof. unfold vdiv. now rewrite map_length. Qed.
  Lemma total_length rows n : (forall x, In x rows -> length x = n) ->
    length (match rows with [] => zeros n | r :: rows => fold_left vadd rows r end) = n.
  Proof.
    destruct rows as [|r rows]; [intros _; apply zeros_length|]. intros H.
    assert (length r = n) as K by (apply H; now left).
    assert (forall x, In x rows -> length x = n) as H' by (intros x I; apply H; now right).
    clear H. revert r K. induction rows as [|x rows IH]; cbn; intros r K; [assumption|].
    apply IH; [intros y I; apply H'; now right|]. apply vadd_length; [assumption|]. apply H'. now left.
  Qed.

  Definition shape (dim : nat) (L : nm) : Prop := simplex_of dim (n_sim L) (n_fsim L).
  Definition stored (L : nm) : list (vec * num) := combine (n_sim L) (n_fsim L).

  Hypothesis SO : sorts W.

  Lemma sort_spec dim L s L' s' : shape dim L -> sort_simplex W L s = (Ok L', s') ->
    s' = s /\ shape dim L' /\ Permutation (stored L) (stored L') /\ Permutation (n_fsim L) (n_fsim L') /\
    n_calls L' = n_calls L /\ n_it L' = n_it L /\ (nan_free (n_fsim L) -> increasing (n_fsim L')).
  Proof.
    intros [R C V] H. unfold sort_simplex in H.
    apply bind_ok in H as (sim & s1 & E & H). apply lift_ok in E as [E ->].
    apply bind_ok in H as (fsim & s1 & F & H). apply lift_ok in F as [F ->].
    injection H as <- <-.
    destruct (SO (n_fsim L)) as [P I].
    apply (gather_map (A := vec) []) in E. apply (gather_map (of_Z 0)) in F. subst sim fsim.
    assert (length (w_argsort W (n_fsim L)) = S dim) as K by (rewrite (Permutation_length P), seq_length; assumption).
    split; [reflexivity|]. split; [|split; [|split; [|now split]]].
    - constructor; cbn.
      + now rewrite map_length.
      + intros x X. apply in_map_iff in X as (i & <- & X). 
        apply (Permutation_in _ P) in X. apply in_seq in X.
        assert (i < length (n_sim L))%nat as K' by lia. apply C. now apply nth_In.
      + now rewrite map_length.
    - unfold stored. cbn. rewrite combine_map.
      rewrite P.
      rewrite <- (map_nth_seq (A := vec) [] (n_sim L)) at 1.
      rewrite <- (map_nth_seq (of_Z 0) (n_fsim L)) at 1.
      rewrite R, V. rewrite combine_map. reflexivity.
    - cbn. rewrite P. now rewrite map_nth_seq.
  Qed.

  Lemma put_last_spec dim x f calls L s o s' : shape dim L -> length x = dim -> put_last x f calls L s = (Ok o, s') ->
    s' = s /\ exists L', o = Goes L' /\ shape dim L' /\ n_calls L' = calls /\ n_it L' = n_it L /\
    n_fsim L' = removelast (n_fsim L) ++ [f] /\ stored L' = removelast (stored L) ++ [(x, f)].
  Proof.
    intros [R C V] X H. unfold put_last in H.
    apply bind_ok in H as (sim & s1 & E & H). apply lift_ok in E as [E ->].
    apply bind_ok in H as (fsim & s1 & F & H). apply lift_ok in F as [F ->].
    injection H as <- <-. split; [reflexivity|]. eexists. split; [reflexivity|].
    apply py_set_last in E as [E ->]. apply py_set_last in F as [F ->].
    split; [|repeat split; cbn].
    - constructor; cbn.
      + rewrite app_length, length_removelast, R. cbn. lia.
      + intros y Y. apply in_app_or in Y as [Y|[<-|[]]]; [|assumption]. apply C. now apply In_removelast.
      + rewrite app_length, length_removelast, V. cbn. lia.
    - unfold stored. cbn. rewrite combine_snoc by (rewrite !length_removelast; lia).
      rewrite combine_removelast by lia. reflexivity.
  Qed.

  Section Func.
    Variable func : vec -> nat -> option num -> M num.
    Variables (rho chi psi sigma : num) (dim : nat) (drift_min : num) (drift_avg : Z).

    Lemma call_ok x it v calls s r s' : call func x it v calls s = (Ok r, s') ->
      func x it v s = (Ok (fst r), s') /\ snd r = S calls.
    Proof. unfold call. intros H. apply bind_ok in H as (y & s1 & E & H). injection H as <- <-. now split. Qed.

    Section Sane.
    (** every stored value is among the possible answers *)
    Variable P : num -> Prop.
    Hypothesis FP : forall x it s y s', func x it None s = (Ok y, s') -> P y.
    Definition sane (L : nm) : Prop := shape dim L /\ forall y, In y (n_fsim L) -> P y.

    Lemma shrink_shape js L s L' s' : sane L -> shrink_rows G W func sigma js L s = (Ok L', s') -> sane L'.
    Proof.
      revert L s. induction js as [|j js IH]; intros L s [S VP] H; [injection H as <- <-; now split|].
      cbn [shrink_rows] in H; cbv zeta in H.
      apply bind_ok in H as (s0 & s1 & E0 & H). apply lift_ok in E0 as [E0 ->].
      apply bind_ok in H as (sj & s1 & Ej & H). apply lift_ok in Ej as [Ej ->].
      apply bind_ok in H as (sim & s1 & Es & H). apply lift_ok in Es as [Es ->].
      apply py_set_nat in Es as [-> Lj]. destruct S as [R C V].
      assert (shape dim (mk_nm (set_nth (n_sim L) j (vadd s0 (vscale sigma (vsub sj s0)))) (n_fsim L) (n_calls L) (n_it L) (n_drift L))) as S'.
      { constructor; cbn; [now rewrite set_nth_length| |assumption].
        intros x X. apply In_set_nth in X as [->|X]; [|auto].
        apply py_nth_In in E0, Ej.
        apply vadd_length; [auto|]. apply vscale_length, vsub_length; auto. }
      apply bind_ok in H as (c & s1 & Ec & H). destruct c; [injection H as <- <-; now split|].
      apply bind_ok in H as ([y calls] & s2 & Ey & H). apply call_ok in Ey as [Ey _]. apply FP in Ey.
      apply bind_ok in H as (fsim & s3 & Ef & H). apply lift_ok in Ef as [Ef ->].
      apply py_set_nat in Ef as [-> Lf].
      eapply IH; [|exact H]. destruct S' as [R' C' V']. cbn in *. split.
      - constructor; cbn; [assumption..|]. now rewrite set_nth_length.
      - cbn. intros z Z. apply In_set_nth in Z as [->|Z]; auto.
    Qed.

    Definition goes_sane (o : outcome) : Prop := match o with Goes L | Broke L => sane L end.

    Lemma move_points L last : shape dim L -> py_nth (n_sim L) (-1) = Ok last ->
      length last = dim /\
      length (vdiv (match removelast (n_sim L) with [] => zeros dim | r :: rows => fold_left vadd rows r end)
                   (of_Z (Z.of_nat dim))) = dim.
    Proof.
      intros [R C V] H. split.
      - apply C. now apply py_nth_In in H.
      - apply vdiv_length, total_length. intros x X. apply C. now apply In_removelast.
    Qed.

    Lemma move_shape L s o s' : sane L ->
      nm_move G W func rho chi psi sigma dim L s = (Ok o, s') -> goes_sane o.
    Proof.
      intros [S VP] H. unfold nm_move in H.
      apply bind_ok in H as (last & s1 & E & H). apply lift_ok in E as [E ->].
      destruct (move_points L last S E) as [Kl Kb].
      set (xbar := vdiv _ _) in *. clearbody xbar.
      apply bind_ok in H as ([fxr calls] & s1 & Er & H). apply call_ok in Er as [Er _]. apply FP in Er. cbn in Er.
      apply bind_ok in H as (f0 & s2 & E0 & H). apply lift_ok in E0 as [E0 ->].
      assert (forall calls, sane (with_calls calls L)) as SB by (intros; now split).
      assert (forall calls L s o s', sane L -> shrink G W func sigma dim calls L s = (Ok o, s') -> goes_sane o) as SH.
      { clear - FP. intros calls L s o s' S H. unfold shrink in H. apply bind_ok in H as (L' & s1 & E & H). injection H as <- <-.
        cbn. eapply shrink_shape; [|exact E]. exact S. }
      assert (forall x f calls s o s', length x = dim -> P f -> put_last x f calls L s = (Ok o, s') -> goes_sane o) as SP.
      { intros x f c t o' t' X Pf E'. destruct (put_last_spec dim x f c L t o' t' S X E') as (_ & L' & -> & K & _ & _ & K' & _).
        split; [exact K|]. rewrite K'. intros y Y. apply in_app_or in Y as [Y|[<-|[]]]; [|assumption]. apply VP. now apply In_removelast. }
      assert (forall a b, length (vsub (vscale a xbar) (vscale b last)) = dim) as LX
        by (intros; apply vsub_length; now apply vscale_length).
      assert (forall a b, length (vadd (vscale a xbar) (vscale b last)) = dim) as LY
        by (intros; apply vadd_length; now apply vscale_length).
      destruct (fxr <? f0)%num.
      - apply bind_ok in H as (c & s2 & Ec & H). destruct c; [injection H as <- <-; apply SB|].
        apply bind_ok in H as ([fxe calls'] & s3 & Ee & H). apply call_ok in Ee as [Ee _]. apply FP in Ee. cbn in Ee.
        destruct (fxe <? fxr)%num; (eapply SP; [| |exact H]); auto.
      - apply bind_ok in H as (f2 & s2 & E2 & H). apply lift_ok in E2 as [E2 ->].
        destruct (fxr <? f2)%num; [eapply SP; [| |exact H]; auto|].
        apply bind_ok in H as (fl & s2 & El & H). apply lift_ok in El as [El ->].
        destruct (fxr <? fl)%num.
        + apply bind_ok in H as (c & s2 & Ec & H). destruct c; [injection H as <- <-; apply SB|].
          apply bind_ok in H as ([fxc calls'] & s3 & Ee & H). apply call_ok in Ee as [Ee _]. apply FP in Ee. cbn in Ee.
          destruct (fxc <=? fxr)%num; [eapply SP; [| |exact H]; auto|]. eapply SH; [|exact H]. now split.
        + apply bind_ok in H as (c & s2 & Ec & H). destruct c; [injection H as <- <-; apply SB|].
          apply bind_ok in H as ([fxc calls'] & s3 & Ee & H). apply call_ok in Ee as [Ee _]. apply FP in Ee. cbn in Ee.
          destruct (fxc <? fl)%num; [eapply SP; [| |exact H]; auto|]. eapply SH; [|exact H]. now split.
    Qed.

    Lemma sort_sane L s L' s' : sane L -> sort_simplex W L s = (Ok L', s') -> sane L'.
    Proof.
      intros [S VP] H. destruct (sort_spec dim L s L' s' S H) as (_ & S' & _ & K & _).
      split; [assumption|]. intros y Y. apply VP. now apply (Permutation_in _ (Permutation_sym K)).
    Qed.
    Hypothesis DP : no_drift drift_min \/ forall y, P y.
    Lemma drift_sane L s L' s' : sane L -> nm_drift G W func drift_min drift_avg L s = (Ok L', s') ->
      sane L' /\ (no_drift drift_min -> L' = L).
    Proof.
      intros [S VP] H. unfold nm_drift in H.
      destruct (of_Z 0 <? drift_min)%num eqn:ED; cbn [negb] in H; [|injection H as <- <-; now split].
      assert (forall y, P y) as AP by (destruct DP as [D|D]; [unfold no_drift in D; congruence|assumption]).
      assert (no_drift drift_min -> L' = L) as Z by (unfold no_drift; congruence).
      assert (shape dim L' -> sane L' /\ (no_drift drift_min -> L' = L)) as R by (intros K; split; [split; [exact K|auto]|exact Z]).
      apply R. clear R Z.
      apply bind_ok in H as (c & s1 & E1 & H). destruct c; [injection H as <- <-; assumption|].
      apply bind_ok in H as (t & s2 & E2 & H). destruct (negb _); [injection H as <- <-; assumption|].
      apply bind_ok in H as (prev & s3 & E3 & H). apply bind_ok in H as (x & s4 & E4 & H).
      apply bind_ok in H as ([total calls] & s5 & E5 & H). destruct (drift_avg =? 0)%Z; [discriminate|].
      apply bind_ok in H as (t' & s6 & E6 & H). apply bind_ok in H as ([y calls'] & s7 & E7 & H).
      injection H as <- <-. destruct S as [R C V]. constructor; cbn; [assumption..|].
      destruct (n_fsim L); [exact V|]. cbn in *. now rewrite map_length.
    Qed.
    Lemma iter_sane L s L' s' : sane L ->
      nm_iter G W func rho chi psi sigma dim drift_min drift_avg L s = (Ok (Goes L'), s') ->
      sane L' /\ (no_drift drift_min -> (forall y, P y -> nisnan y = false) -> increasing (n_fsim L')).
    Proof.
      intros S H. unfold nm_iter in H.
      apply bind_ok in H as (o & s1 & E1 & H). pose proof (move_shape L s o s1 S E1) as S1.
      destruct o as [L1|L1]; [discriminate|].
      apply bind_ok in H as (L2 & s2 & E2 & H). pose proof (sort_sane L1 s1 L2 s2 S1 E2) as S2.
      destruct S1 as [S1 VP1]. destruct (sort_spec dim L1 s1 L2 s2 S1 E2) as (_ & _ & _ & _ & _ & _ & IN).
      apply bind_ok in H as (L3 & s3 & E3 & H). destruct (drift_sane L2 s2 L3 s3 S2 E3) as [S3 D].
      apply bind_ok in H as (r & s4 & _ & H). apply bind_ok in H as (u & s5 & _ & H).
      apply bind_ok in H as (u' & s6 & _ & H). injection H as <- <-. split.
      - destruct S3 as [A B]. split; [exact A|exact B].
      - intros nd NF. cbn. rewrite (D nd). apply IN. intros y Y. apply NF. now apply VP1.
    Qed.
    Lemma start_sane sim s fsim calls s1 it t L s2 : length sim = S dim -> (forall x, In x sim -> length x = dim) ->
      eval_rows func sim 0 0 s = (Ok (fsim, calls), s1) -> sort_simplex W (mk_nm sim fsim calls it t) s1 = (Ok L, s2) ->
      sane L /\ ((forall y, P y -> nisnan y = false) -> increasing (n_fsim L)).
    Proof.
      intros R C E1 E2.
      assert (forall rows it c s r s', eval_rows func rows it c s = (Ok r, s') ->
                length (fst r) = length rows /\ forall y, In y (fst r) -> P y) as K.
      { clear - FP. induction rows as [|x rows IH]; intros it c s r s' H; cbn [eval_rows] in H.
        - injection H as <- <-. now split.
        - apply bind_ok in H as ([y c1] & s1 & E1 & H). apply call_ok in E1 as [E1 _]. apply FP in E1.
          apply bind_ok in H as ([ys c2] & s2 & E2 & H). apply IH in E2 as [E2 E3]. injection H as <- <-. cbn in *.
          split; [now rewrite E2|]. intros z [<-|Z]; auto. }
      destruct (K _ _ _ _ _ _ E1) as [K1 K2]. cbn [fst] in *.
      assert (sane (mk_nm sim fsim calls it t)) as S0.
      { split; [constructor; cbn; [assumption..|now rewrite K1]|exact K2]. }
      split; [eapply sort_sane; eassumption|]. intros NF. destruct S0 as [S0 V0].
      destruct (sort_spec dim _ _ _ _ S0 E2) as (_ & _ & _ & _ & _ & _ & IN). apply IN. intros y Y. apply NF. now apply V0.
    Qed.
    End Sane.

    (** ** Searches that nobody disturbs *)
    Section Undisturbed.
      Variables (Q : st -> Prop) (log : st -> list (vec * num)) (log0 : list (vec * num)).
      Hypothesis Qsc : forall f s, Q (s <|s_sc ::= f|>) <-> Q s.
      Hypothesis Qcnt : forall f s, Q (s <|s_cnt ::= f|>) <-> Q s.
      Hypothesis Lsc : forall f s, log (s <|s_sc ::= f|>) = log s.
      Hypothesis Lcnt : forall f s, log (s <|s_cnt ::= f|>) = log s.
      Hypothesis Qpoll : forall s s', poll G W s = (Ok tt, s') -> Q s' ->
        Q s /\ sc_conv (s_sc s') = sc_conv (s_sc s) /\ log s' = log s.
      Hypothesis Qfunc : forall x it s y s', func x it None s = (Ok y, s') -> Q s' ->
        Q s /\ sc_conv (s_sc s') = sc_conv (s_sc s) /\ log s' = log s ++ [(x, y)].
      Hypothesis Qnum : forall s new, Q s -> log s = log0 ++ new -> nan_free (map snd new).

      Definition anti {A} (m : M A) : Prop := forall s a s', m s = (Ok a, s') -> Q s' -> Q s.
      Definition tri {A} (P : st -> Prop) (m : M A) (R : A -> st -> Prop) : Prop :=
        forall s a s', m s = (Ok a, s') -> Q s' -> P s -> R a s'.

      Lemma anti_bind {A B} (m : M A) (k : A -> M B) : anti m -> (forall a, anti (k a)) -> anti (bind m k).
      Proof. intros Hm Hk s b s' H K. apply bind_ok in H as (a & s1 & E & H). eapply Hm; eauto. eapply Hk; eauto. Qed.
      Lemma anti_ret {A} (a : A) : anti (ret a).
      Proof. intros s b s' H K. injection H as <- <-. assumption. Qed.
      Lemma anti_lift {A} (r : res A) : anti (lift r).
      Proof. intros s b s' H K. apply lift_ok in H as [_ ->]. assumption. Qed.
      Lemma anti_raise {A} e : anti (raise (A := A) e).
      Proof. intros s b s' H. discriminate. Qed.
      Lemma anti_get : anti get.
      Proof. intros s b s' H K. injection H as <- <-. assumption. Qed.
      Lemma anti_poll : anti (poll G W).
      Proof. intros s [] s' H K. now apply (Qpoll s s'). Qed.
      Lemma anti_func x it : anti (func x it None).
      Proof. intros s y s' H K. now apply (Qfunc x it s y s'). Qed.
      Lemma anti_sc f : anti (upd (fun s => s <|s_sc ::= f|>)).
      Proof. intros s u s' H K. injection H as <- <-. now apply Qsc in K. Qed.
      Lemma anti_cnt f : anti (upd (fun s => s <|s_cnt ::= f|>)).
      Proof. intros s u s' H K. injection H as <- <-. now apply Qcnt in K. Qed.
      Ltac an := repeat first
        [ solve [auto] | apply anti_ret | apply anti_lift | apply anti_raise | apply anti_get | apply anti_poll
        | apply anti_func | apply anti_sc | apply anti_cnt | apply anti_bind
        | match goal with
          | |- forall _, _ => intro
          | |- anti (if ?c then _ else _) => destruct c
          | |- anti (match ?c with _ => _ end) => destruct c
          | |- anti (let _ := _ in _) => cbv zeta
          end ].
      Lemma anti_is_conv : anti (is_conv G W). Proof. unfold is_conv. an. Qed.
      Lemma anti_now : anti (now W). Proof. unfold now. an. Qed.
      Lemma anti_call x it calls : anti (call func x it None calls). Proof. unfold call. an. Qed.
      Lemma anti_sort L : anti (sort_simplex W L). Proof. unfold sort_simplex. an. Qed.
      Lemma anti_put x f calls L : anti (put_last x f calls L). Proof. unfold put_last. an. Qed.
      Lemma anti_rows js L : anti (shrink_rows G W func sigma js L).
      Proof.
        revert L. induction js as [|j js IH]; intros L; [apply anti_ret|]. cbn [shrink_rows].
        pose proof anti_is_conv. pose proof anti_call. an; auto.
      Qed.
      Lemma anti_shrink calls L : anti (shrink G W func sigma dim calls L).
      Proof. unfold shrink. pose proof anti_rows. an; auto. Qed.
      Lemma anti_move L : anti (nm_move G W func rho chi psi sigma dim L).
      Proof.
        unfold nm_move. pose proof anti_is_conv. pose proof anti_call. pose proof anti_put. pose proof anti_shrink.
        an; auto.
      Qed.
      Lemma anti_set_check b r : anti (set_check G W b r).
      Proof. unfold set_check, set_conv, set_sc_reason. pose proof anti_is_conv. an. Qed.
      Lemma anti_check sim fsim calls : anti (check_stopping_nm G W sim fsim calls).
      Proof.
        unfold check_stopping_nm, set_conv, set_sc_reason, check_time_out.
        pose proof anti_is_conv. pose proof anti_set_check. pose proof anti_now. an; auto.
      Qed.
      Hypothesis ND : no_drift drift_min.
      Lemma no_drift_ret L : nm_drift G W func drift_min drift_avg L = ret L.
      Proof. unfold nm_drift. unfold no_drift in ND. now rewrite ND. Qed.
      Lemma anti_iter L : anti (nm_iter G W func rho chi psi sigma dim drift_min drift_avg L).
      Proof.
        unfold nm_iter, get_running, set_conv, set_sc_reason.
        pose proof anti_move. pose proof anti_sort. pose proof anti_check. an; auto. rewrite no_drift_ret. an.
      Qed.
      Lemma anti_loop fuel L : anti (nm_loop G W func rho chi psi sigma dim drift_min drift_avg fuel L).
      Proof.
        revert L. induction fuel as [|fuel IH]; intros L; [apply anti_raise|]. cbn [nm_loop].
        pose proof anti_is_conv. pose proof anti_iter. an; auto.
      Qed.
      Lemma anti_eval rows it calls : anti (eval_rows func rows it calls).
      Proof.
        revert calls. induction rows as [|x rows IH]; intros calls; [apply anti_ret|]. cbn [eval_rows].
        pose proof anti_call. an; auto.
      Qed.

      Lemma tri_bind {A B} (P : st -> Prop) (m : M A) (k : A -> M B) (R : A -> st -> Prop) (T : B -> st -> Prop) :
        tri P m R -> (forall a, anti (k a)) -> (forall a, tri (R a) (k a) T) -> tri P (bind m k) T.
      Proof.
        intros Hm Ha Hk s b s' H K p. apply bind_ok in H as (a & s1 & E & H).
        eapply Hk; eauto. eapply Hm; eauto. eapply Ha; eauto.
      Qed.

      (** nothing found: the flag is not raised *)
      Definition calm (s : st) : Prop := sc_conv (s_sc s) = false.
      Lemma is_conv_same s c s' : is_conv G W s = (Ok c, s') -> Q s' ->
        c = sc_conv (s_sc s) /\ sc_conv (s_sc s') = sc_conv (s_sc s) /\ log s' = log s.
      Proof.
        unfold is_conv. intros H K. apply bind_ok in H as ([] & s1 & E & H). injection H as <- <-.
        destruct (Qpoll s s1 E K) as (_ & F & L). rewrite F. now split.
      Qed.

      (** every stored value is an answer for its vertex, and no answer is smaller than all stored values *)
      Record cov (L : nm) (s : st) : Prop := mk_cov {
        cv_shape : shape dim L;
        cv_new : exists new, log s = log0 ++ new /\ n_calls L = length new /\ incl (stored L) new /\
                   forall p, In p new -> exists f, In f (n_fsim L) /\ (f <=? snd p)%num = true
      }.

      Lemma cov_ext L s s' : log s' = log s -> cov L s -> cov L s'.
      Proof. intros E [S (new & F & R)]. constructor; [assumption|]. exists new. now rewrite E. Qed.

      Lemma put_cov L s0 s ext x f calls o s' : cov L s0 -> log s = log s0 ++ ext -> calls = (n_calls L + length ext)%nat ->
        length x = dim -> In (x, f) ext ->
        (forall fl, n_fsim L = removelast (n_fsim L) ++ [fl] -> (f <=? fl)%num = true) ->
        (forall p, In p ext -> (f <=? snd p)%num = true) ->
        put_last x f calls L s = (Ok o, s') -> s' = s /\ exists L', o = Goes L' /\ cov L' s'.
      Proof.
        intros [S (new & F & Ec & I & C)] E -> X Ix Hl He H.
        destruct (put_last_spec dim x f _ L s o s' S X H) as (-> & L' & -> & S' & K1 & K2 & K3 & K4).
        split; [reflexivity|]. exists L'. split; [reflexivity|]. constructor; [assumption|].
        exists (new ++ ext). rewrite E, F, app_assoc. split; [reflexivity|]. rewrite K1, Ec, app_length. split; [reflexivity|].
        split.
        - rewrite K4. intros p P. apply in_app_or in P as [P|[<-|[]]]; apply in_or_app; [left|now right].
          apply I. now apply In_removelast.
        - rewrite K3. intros p P. apply in_app_or in P as [P|P].
          + destruct (C p P) as (g & Ig & Lg).
            assert (n_fsim L <> []) as NE by (intros Z; rewrite Z in Ig; destruct Ig).
            destruct (exists_last NE) as (m & y & D). rewrite D in Ig, Hl |- *. rewrite removelast_last in *. apply in_app_or in Ig as [Ig|[<-|[]]].
            * exists g. split; [apply in_or_app; now left|assumption].
            * exists f. split; [apply in_or_app; right; now left|]. eapply nle_trans; [exact NO| |exact Lg].
              apply Hl. reflexivity.
          + exists f. split; [apply in_or_app; right; now left|]. now apply He.
      Qed.

      Lemma increasing_first f t : increasing (f :: t) -> forall g, In g t -> (f <=? g)%num = true.
      Proof. intros H. apply StronglySorted_inv in H as [_ H]. now rewrite Forall_forall in H. Qed.
      Lemma increasing_last m f : increasing (m ++ [f]) -> forall g, In g m -> (g <=? f)%num = true.
      Proof.
        induction m as [|a m IH]; cbn; [easy|]. intros H g [->|I].
        - apply (increasing_first g (m ++ [f])); [assumption|]. apply in_or_app. right. now left.
        - apply IH; [|assumption]. now apply StronglySorted_inv in H as [H _].
      Qed.

      (** replacing vertices 1, 2, ... one after the other *)
      Lemma rows_cov f0 j m L s L' s' : shape dim L -> nth_error (n_fsim L) 0 = Some f0 -> (1 <= j)%nat ->
        calm s -> (exists new, log s = log0 ++ new /\ n_calls L = length new /\ incl (stored L) new /\
          forall p, In p new -> (f0 <=? snd p)%num = true \/ exists i, (i < j)%nat /\ nth_error (n_fsim L) i = Some (snd p)) ->
        shrink_rows G W func sigma (seq j m) L s = (Ok L', s') -> Q s' ->
        shape dim L' /\ nth_error (n_fsim L') 0 = Some f0 /\ calm s' /\
        (exists new, log s' = log0 ++ new /\ n_calls L' = length new /\ incl (stored L') new /\
          forall p, In p new -> (f0 <=? snd p)%num = true \/ exists i, (i < j + m)%nat /\ nth_error (n_fsim L') i = Some (snd p)).
      Proof.
        revert j L s. induction m as [|m IH]; intros j L s S F0 J Ca (new & El & Ec & I & C) H K.
        - injection H as <- <-. rewrite Nat.add_0_r. do 3 (split; [assumption|]). eauto.
        - pose proof anti_is_conv as A1. pose proof anti_call as A2. pose proof anti_rows as A3.
          cbn [seq shrink_rows] in H; cbv zeta in H.
          apply bind_ok in H as (s0 & s1 & E0 & H). apply lift_ok in E0 as [E0 ->].
          apply bind_ok in H as (sj & s1 & Ej & H). apply lift_ok in Ej as [Ej ->].
          apply bind_ok in H as (sim & s1 & Es & H). apply lift_ok in Es as [Es ->].
          apply py_set_nat in Es as [-> Lj].
          set (x := vadd s0 (vscale sigma (vsub sj s0))) in *.
          assert (length x = dim) as Lx.
          { destruct S as [R Co V]. apply py_nth_In in E0, Ej. apply vadd_length; [auto|]. apply vscale_length, vsub_length; auto. }
          apply bind_ok in H as (c & s1 & E1 & H). assert (Q s1) as K1 by (refine ((_ : anti _) _ _ _ H K); an).
          destruct (is_conv_same _ _ _ E1 K1) as (-> & Ca1 & L1). rewrite Ca in H, Ca1.
          cbn [n_it n_calls n_fsim n_sim] in H.
          apply bind_ok in H as ([y calls] & s2 & Ey & H). assert (Q s2) as K2 by (refine ((_ : anti _) _ _ _ H K); an).
          apply call_ok in Ey as [Ey Ecalls]. cbn in Ey, Ecalls. destruct (Qfunc _ _ _ _ _ Ey K2) as (_ & Ca2 & L2).
          apply bind_ok in H as (fsim & s3 & Ef & H). apply lift_ok in Ef as [Ef ->].
          apply py_set_nat in Ef as [-> Lf].
          assert (j <> 0)%nat as Nj by lia.
          rewrite L1, El, <- app_assoc in L2.
          apply IH in H; [| |cbn [n_fsim]; rewrite set_nth_other by assumption; assumption|lia|unfold calm in *; congruence| |assumption].
          + rewrite <- plus_n_Sm. exact H.
          + destruct S as [R Co V]. constructor; cbn; rewrite ?set_nth_length; [assumption| |assumption].
            intros z Z. apply In_set_nth in Z as [->|Z]; auto.
          + exists (new ++ [(x, y)]). split; [assumption|]. cbn [n_calls n_sim n_fsim]. rewrite app_length. cbn.
            split; [subst calls; rewrite Ec; lia|]. split.
            * unfold stored. cbn [n_sim n_fsim]. rewrite combine_set_nth. intros p P. apply in_or_app.
              apply In_set_nth in P as [->|P]; [right; now left|left; now apply I].
            * intros p P. apply in_app_or in P as [P|[<-|[]]].
              -- destruct (C p P) as [D|(i & D1 & D2)]; [now left|]. right. exists i. split; [lia|].
                 rewrite set_nth_other by lia. assumption.
              -- right. exists j. split; [lia|]. now apply set_nth_same.
      Qed.

      Lemma shrink_cov L s0 s ext calls o s' : cov L s0 -> increasing (n_fsim L) -> log s = log s0 ++ ext ->
        calls = (n_calls L + length ext)%nat -> calm s ->
        (forall p, In p ext -> exists f, In f (n_fsim L) /\ (f <=? snd p)%num = true) ->
        shrink G W func sigma dim calls L s = (Ok o, s') -> Q s' -> exists L', o = Goes L' /\ cov L' s' /\ calm s'.
      Proof.
        intros [S (new & F & Ec & I & C)] IN E -> Ca He H K. unfold shrink in H.
        apply bind_ok in H as (L' & s1 & Er & H). injection H as <- <-. exists L'. split; [reflexivity|].
        destruct (n_fsim L) as [|f0 t] eqn:EF; [destruct S as [_ _ V]; rewrite EF in V; discriminate|].
        rewrite F, <- app_assoc in E.
        assert (forall p, In p (new ++ ext) -> (f0 <=? snd p)%num = true) as LB.
        { intros p P. assert (exists f, In f (f0 :: t) /\ (f <=? snd p)%num = true) as (f & [<-|If] & Lf).
          { apply in_app_or in P as [P|P]; auto. }
          - assumption.
          - eapply nle_trans; [exact NO| |exact Lf]. now apply (increasing_first f0 t). }
        apply (rows_cov f0) in Er; cbn [n_sim n_fsim n_calls]; [| |reflexivity|lia|assumption| |assumption].
        - destruct Er as (S' & F0 & Ca' & new' & E1 & E2 & E3 & E4). split; [|assumption].
          constructor; [assumption|]. exists new'. split; [assumption|]. split; [assumption|]. split; [assumption|].
          intros p P. destruct (E4 p P) as [D|(i & _ & D)].
          + exists f0. split; [|assumption]. now apply nth_error_In in F0.
          + exists (snd p). split; [now apply nth_error_In in D|]. apply le_refl.
            apply (Qnum s1 new' K E1). now apply in_map.
        - destruct S as [R Co V]. rewrite EF in V. constructor; cbn; assumption.
        - exists (new ++ ext). split; [assumption|]. rewrite app_length, Ec. split; [reflexivity|]. split.
          + unfold stored in *. cbn. rewrite EF in I. apply incl_appl. exact I.
          + intros p P. left. now apply LB.
      Qed.

      Lemma move_cov L s o s' : cov L s -> increasing (n_fsim L) -> calm s ->
        nm_move G W func rho chi psi sigma dim L s = (Ok o, s') -> Q s' -> exists L', o = Goes L' /\ cov L' s' /\ calm s'.
      Proof.
        intros CV IN Ca H K. pose proof CV as [S (new & F & Ec & I & C)].
        pose proof anti_is_conv as A1. pose proof anti_call as A2. pose proof anti_put as A3. pose proof anti_shrink as A4.
        unfold nm_move in H.
        apply bind_ok in H as (last & s1 & E & H). apply lift_ok in E as [E ->].
        destruct (move_points L last S E) as [Kl Kb].
        set (xbar := vdiv _ _) in *. clearbody xbar.
        assert (forall a b, length (vsub (vscale a xbar) (vscale b last)) = dim) as LX
          by (intros; apply vsub_length; now apply vscale_length).
        assert (forall a b, length (vadd (vscale a xbar) (vscale b last)) = dim) as LY
          by (intros; apply vadd_length; now apply vscale_length).
        apply bind_ok in H as ([fxr calls] & s1 & Er & H). assert (Q s1) as K1 by (refine ((_ : anti _) _ _ _ H K); an).
        apply call_ok in Er as [Er Ecalls]. cbn [fst snd] in Er, Ecalls. destruct (Qfunc _ _ _ _ _ Er K1) as (_ & Ca1 & L1).
        unfold calm in Ca. rewrite Ca in Ca1.
        set (xr := vsub (vscale (of_Z 1 + rho)%num xbar) (vscale rho last)) in *.
        apply bind_ok in H as (f0 & s2 & E0 & H). apply lift_ok in E0 as [E0 ->].
        apply py_nth_first in E0 as (t & E0).
        assert (forall y, In y (n_fsim L) -> nisnan y = false) as NF.
        { intros y Y. destruct (In_combine_snd (n_sim L) (n_fsim L) y) as (a & P);
            [destruct S as [R _ V]; congruence|assumption|].
          assert (Q s) as Ks by (refine ((_ : anti _) _ _ _ Er K1); an).
          apply (Qnum s new Ks F). change y with (snd (a, y)). apply in_map. now apply I. }
        assert (nisnan fxr = false) as Nr.
        { apply (Qnum s1 (new ++ [(xr, fxr)]) K1).
          - now rewrite L1, F, app_assoc.
          - rewrite map_app. apply in_or_app. right. now left. }
        assert (forall g, In g (n_fsim L) -> (f0 <=? g)%num = true) as Lo.
        { intros g Ig. rewrite E0 in Ig, IN. destruct Ig as [<-|Ig]; [|now apply (increasing_first f0 t)].
          apply le_refl. apply NF. rewrite E0. now left. }
        assert (forall fl, n_fsim L = removelast (n_fsim L) ++ [fl] -> forall g, In g (n_fsim L) -> (g <=? fl)%num = true) as Hi.
        { intros fl Efl g Ig. pose proof IN as IN'. rewrite Efl in Ig, IN'. apply in_app_or in Ig as [Ig|[<-|[]]].
          - now apply (increasing_last (removelast (n_fsim L)) fl).
          - apply le_refl. apply NF. rewrite Efl. apply in_or_app. right. now left. }
        assert (In f0 (n_fsim L)) as I0 by (rewrite E0; now left).
        destruct (fxr <? f0)%num eqn:B1.
        - set (xe := vsub (vscale (of_Z 1 + rho * chi)%num xbar) (vscale (rho * chi)%num last)) in *.
          apply bind_ok in H as (c & s2 & E2 & H). assert (Q s2) as K2 by (refine ((_ : anti _) _ _ _ H K); an).
          destruct (is_conv_same _ _ _ E2 K2) as (-> & Ca2 & L2). rewrite Ca1 in H, Ca2.
          apply bind_ok in H as ([fxe calls'] & s3 & Ee & H). assert (Q s3) as K3 by (refine ((_ : anti _) _ _ _ H K); an).
          apply call_ok in Ee as [Ee Ecalls']. cbn [fst snd] in Ee, Ecalls'. destruct (Qfunc _ _ _ _ _ Ee K3) as (_ & Ca3 & L3).
          assert (log s3 = log s ++ [(xr, fxr); (xe, fxe)]) as L4 by (rewrite L3, L2, L1, <- app_assoc; reflexivity).
          assert (nisnan fxe = false) as Ne.
          { apply (Qnum s3 (new ++ [(xr, fxr); (xe, fxe)]) K3).
            - now rewrite L4, F, app_assoc.
            - rewrite map_app. apply in_or_app. right. right. now left. }
          destruct (fxe <? fxr)%num eqn:B2.
          + eapply put_cov in H; [| |exact L4| | | | |]; [destruct H as (-> & L' & -> & D)| | | | | |]; try eassumption.
            * exists L'. split; [reflexivity|]. split; [assumption|]. unfold calm. congruence.
            * cbn. subst calls' calls. lia.
            * apply LX.
            * right. now left.
            * intros fl Efl. apply lt_le in B1, B2. eapply nle_trans; [exact NO|exact B2|].
              eapply nle_trans; [exact NO|exact B1|]. now apply Hi.
            * intros p [<-|[<-|[]]]; cbn; [now apply lt_le|now apply le_refl].
          + eapply put_cov in H; [| |exact L4| | | | |]; [destruct H as (-> & L' & -> & D)| | | | | |]; try eassumption.
            * exists L'. split; [reflexivity|]. split; [assumption|]. unfold calm. congruence.
            * cbn. subst calls' calls. lia.
            * apply LX.
            * now left.
            * intros fl Efl. apply lt_le in B1. eapply nle_trans; [exact NO|exact B1|]. now apply Hi.
            * intros p [<-|[<-|[]]]; cbn; [now apply le_refl|]. now apply not_lt_le.
        - apply bind_ok in H as (f2 & s2 & E2 & H). apply lift_ok in E2 as [E2 ->]. apply py_nth_In in E2.
          destruct (fxr <? f2)%num eqn:B2.
          + eapply put_cov in H; [| |exact L1| | | | |]; [destruct H as (-> & L' & -> & D)| | | | | |]; try eassumption.
            * exists L'. split; [reflexivity|]. split; [assumption|]. exact Ca1.
            * cbn. subst calls. lia.
            * apply LX.
            * now left.
            * intros fl Efl. apply lt_le in B2. eapply nle_trans; [exact NO|exact B2|]. now apply Hi.
            * intros p [<-|[]]; cbn. now apply le_refl.
          + apply bind_ok in H as (fl & s2 & El & H). apply lift_ok in El as [El ->].
            pose proof (py_nth_In _ _ _ El) as Ifl. apply py_nth_last in El.
            assert ((f0 <=? fxr)%num = true) as LBr by (apply not_lt_le; auto).
            destruct (fxr <? fl)%num eqn:B3.
            * set (xc := vsub (vscale (of_Z 1 + psi * rho)%num xbar) (vscale (psi * rho)%num last)) in *.
              apply bind_ok in H as (c & s2 & E3 & H). assert (Q s2) as K2 by (refine ((_ : anti _) _ _ _ H K); an).
              destruct (is_conv_same _ _ _ E3 K2) as (-> & Ca2 & L2). rewrite Ca1 in H, Ca2.
              apply bind_ok in H as ([fxc calls'] & s3 & Ee & H). assert (Q s3) as K3 by (refine ((_ : anti _) _ _ _ H K); an).
              apply call_ok in Ee as [Ee Ecalls']. cbn [fst snd] in Ee, Ecalls'. destruct (Qfunc _ _ _ _ _ Ee K3) as (_ & Ca3 & L3).
              assert (log s3 = log s ++ [(xr, fxr); (xc, fxc)]) as L4 by (rewrite L3, L2, L1, <- app_assoc; reflexivity).
              assert (nisnan fxc = false) as Ne.
              { apply (Qnum s3 (new ++ [(xr, fxr); (xc, fxc)]) K3).
                - now rewrite L4, F, app_assoc.
                - rewrite map_app. apply in_or_app. right. right. now left. }
              destruct (fxc <=? fxr)%num eqn:B4.
              -- eapply put_cov in H; [| |exact L4| | | | |]; [destruct H as (-> & L' & -> & D)| | | | | |]; try eassumption.
                 ++ exists L'. split; [reflexivity|]. split; [assumption|]. unfold calm. congruence.
                 ++ cbn. subst calls' calls. lia.
                 ++ apply LX.
                 ++ right. now left.
                 ++ intros fl' Efl. rewrite El in Efl at 1. apply app_inj_tail in Efl as [_ <-].
                    apply lt_le in B3. eapply nle_trans; [exact NO|exact B4|exact B3].
                 ++ intros p [<-|[<-|[]]]; cbn; [assumption|now apply le_refl].
              -- eapply shrink_cov in H; [exact H| |assumption|exact L4| | | |assumption]; try eassumption.
                 ++ cbn. subst calls' calls. lia.
                 ++ unfold calm. congruence.
                 ++ intros p [<-|[<-|[]]]; cbn; exists f0; (split; [assumption|]); [assumption|].
                    eapply nle_trans; [exact NO|exact LBr|].
                    destruct (nle_total _ NO fxr fxc Nr Ne) as [D|D]; [assumption|congruence].
            * set (xc := vadd (vscale (of_Z 1 - psi)%num xbar) (vscale psi last)) in *.
              apply bind_ok in H as (c & s2 & E3 & H). assert (Q s2) as K2 by (refine ((_ : anti _) _ _ _ H K); an).
              destruct (is_conv_same _ _ _ E3 K2) as (-> & Ca2 & L2). rewrite Ca1 in H, Ca2.
              apply bind_ok in H as ([fxc calls'] & s3 & Ee & H). assert (Q s3) as K3 by (refine ((_ : anti _) _ _ _ H K); an).
              apply call_ok in Ee as [Ee Ecalls']. cbn [fst snd] in Ee, Ecalls'. destruct (Qfunc _ _ _ _ _ Ee K3) as (_ & Ca3 & L3).
              assert (log s3 = log s ++ [(xr, fxr); (xc, fxc)]) as L4 by (rewrite L3, L2, L1, <- app_assoc; reflexivity).
              assert (nisnan fxc = false) as Ne.
              { apply (Qnum s3 (new ++ [(xr, fxr); (xc, fxc)]) K3).
                - now rewrite L4, F, app_assoc.
                - rewrite map_app. apply in_or_app. right. right. now left. }
              assert ((fl <=? fxr)%num = true) as LBl by (apply not_lt_le; auto).
              destruct (fxc <? fl)%num eqn:B4.
              -- eapply put_cov in H; [| |exact L4| | | | |]; [destruct H as (-> & L' & -> & D)| | | | | |]; try eassumption.
                 ++ exists L'. split; [reflexivity|]. split; [assumption|]. unfold calm. congruence.
                 ++ cbn. subst calls' calls. lia.
                 ++ apply LY.
                 ++ right. now left.
                 ++ intros fl' Efl. rewrite El in Efl at 1. apply app_inj_tail in Efl as [_ <-]. now apply lt_le.
                 ++ intros p [<-|[<-|[]]]; cbn; [|now apply le_refl]. apply lt_le in B4.
                    eapply nle_trans; [exact NO|exact B4|exact LBl].
              -- eapply shrink_cov in H; [exact H| |assumption|exact L4| | | |assumption]; try eassumption.
                 ++ cbn. subst calls' calls. lia.
                 ++ unfold calm. congruence.
                 ++ intros p [<-|[<-|[]]]; cbn; [exists f0; now split|]. exists fl. split; [assumption|].
                    now apply not_lt_le; auto.
      Qed.

      Definition quiet {A} (m : M A) : Prop := forall s a s', m s = (Ok a, s') -> Q s' -> Q s /\ log s' = log s.
      Lemma quiet_bind {A B} (m : M A) (k : A -> M B) : quiet m -> (forall a, quiet (k a)) -> quiet (bind m k).
      Proof.
        intros Hm Hk s b s' H K. apply bind_ok in H as (a & s1 & E & H).
        destruct (Hk a s1 b s' H K) as [K1 L1]. destruct (Hm s a s1 E K1) as [K0 L0]. split; congruence.
      Qed.
      Lemma quiet_ret {A} (a : A) : quiet (ret a).
      Proof. intros s b s' H K. injection H as <- <-. auto. Qed.
      Lemma quiet_lift {A} (r : res A) : quiet (lift r).
      Proof. intros s b s' H K. apply lift_ok in H as [_ ->]. auto. Qed.
      Lemma quiet_get : quiet get.
      Proof. intros s b s' H K. injection H as <- <-. auto. Qed.
      Lemma quiet_poll : quiet (poll G W).
      Proof. intros s [] s' H K. destruct (Qpoll s s' H K) as (? & _ & ?). auto. Qed.
      Lemma quiet_sc f : quiet (upd (fun s => s <|s_sc ::= f|>)).
      Proof. intros s u s' H K. injection H as <- <-. apply Qsc in K. auto. Qed.
      Lemma quiet_cnt f : quiet (upd (fun s => s <|s_cnt ::= f|>)).
      Proof. intros s u s' H K. injection H as <- <-. apply Qcnt in K. auto. Qed.
      Ltac qu := repeat first
        [ solve [auto] | apply quiet_ret | apply quiet_lift | apply quiet_get | apply quiet_poll
        | apply quiet_sc | apply quiet_cnt | apply quiet_bind
        | match goal with
          | |- forall _, _ => intro
          | |- quiet (if ?c then _ else _) => destruct c
          end ].
      Lemma quiet_is_conv : quiet (is_conv G W). Proof. unfold is_conv. qu. Qed.
      Lemma quiet_set_check b r : quiet (set_check G W b r).
      Proof. pose proof quiet_is_conv. unfold set_check, set_conv, set_sc_reason. qu. Qed.
      Lemma quiet_check sim fsim calls : quiet (check_stopping_nm G W sim fsim calls).
      Proof.
        pose proof quiet_is_conv. pose proof quiet_set_check.
        unfold check_stopping_nm, set_conv, set_sc_reason, check_time_out, now. qu.
      Qed.

      Lemma sort_cov L s L' s' : cov L s -> Q s -> sort_simplex W L s = (Ok L', s') ->
        s' = s /\ cov L' s /\ increasing (n_fsim L').
      Proof.
        intros [S (new & E & Ec & I & C)] K H.
        destruct (sort_spec dim L s L' s' S H) as (-> & S' & P & P' & D & _ & IN). split; [reflexivity|]. split.
        - constructor; [assumption|]. exists new. split; [assumption|]. split; [congruence|]. split.
          + intros p J. apply I. now apply (Permutation_in _ (Permutation_sym P)).
          + intros p J. destruct (C p J) as (f & If & Lf). exists f. split; [now apply (Permutation_in _ P')|assumption].
        - apply IN. intros y Y. destruct (In_combine_snd (n_sim L) (n_fsim L) y) as (a & J);
            [destruct S as [R _ V]; congruence|assumption|].
          apply (Qnum s new K E). change y with (snd (a, y)). apply in_map. now apply I.
      Qed.

      Definition head (L : nm) (s : st) : Prop := cov L s /\ increasing (n_fsim L).

      Lemma iter_head L s o s' : head L s -> calm s ->
        nm_iter G W func rho chi psi sigma dim drift_min drift_avg L s = (Ok o, s') -> Q s' ->
        exists L', o = Goes L' /\ head L' s'.
      Proof.
        intros [CV IN] Ca H K. unfold nm_iter in H.
        pose proof anti_sort as A1. pose proof anti_check as A2.
        apply bind_ok in H as (o1 & s1 & E1 & H).
        assert (Q s1) as K1.
        { refine ((_ : anti _) _ _ _ H K). destruct o1; [apply anti_ret|].
          apply anti_bind; [auto|]. intros L1. rewrite no_drift_ret. unfold get_running, set_conv, set_sc_reason. an. }
        destruct (move_cov L s o1 s1 CV IN Ca E1 K1) as (L1 & -> & CV1 & Ca1).
        apply bind_ok in H as (L2 & s2 & E2 & H).
        destruct (sort_cov L1 s1 L2 s2 CV1 K1 E2) as (-> & CV2 & IN2).
        rewrite no_drift_ret in H. apply bind_ok in H as (L3 & s3 & E3 & H). injection E3 as <- <-. cbv zeta in H.
        assert (o = Goes (mk_nm (n_sim L2) (n_fsim L2) (n_calls L2) (S (n_it L2)) (n_drift L2)) /\ log s' = log s1) as [-> Lg].
        { apply bind_ok in H as (r & s2 & E2' & H). apply bind_ok in H as (u & s3 & E3 & H).
          apply bind_ok in H as (u' & s4 & E4 & H). injection H as <- <-. split; [reflexivity|].
          destruct (quiet_check _ _ _ _ _ _ E4 K) as [K3 L3].
          assert (quiet (if r then ret tt else poll G W;;; set_conv true;;; set_sc_reason "User stopped the optimization or higher order stopping criterion has been reached")) as Q1
            by (unfold set_conv, set_sc_reason; qu).
          destruct (Q1 _ _ _ E3 K3) as [K2 L2'].
          assert (quiet (get_running G W)) as Q2 by (unfold get_running; qu).
          destruct (Q2 _ _ _ E2' K2) as [_ L1']. congruence. }
        eexists. split; [reflexivity|]. split; [|exact IN2].
        apply (cov_ext _ s1); [assumption|]. destruct CV2 as [S2 X]. constructor; [exact S2|exact X].
      Qed.

      Lemma loop_head fuel L s L' s' : head L s ->
        nm_loop G W func rho chi psi sigma dim drift_min drift_avg fuel L s = (Ok L', s') -> Q s' -> head L' s'.
      Proof.
        revert L s. induction fuel as [|fuel IH]; intros L s HD H K; [discriminate|]. cbn [nm_loop] in H.
        pose proof anti_iter as A1. pose proof anti_loop as A2.
        apply bind_ok in H as (c & s1 & E1 & H). assert (Q s1) as K1 by (refine ((_ : anti _) _ _ _ H K); an).
        destruct (is_conv_same _ _ _ E1 K1) as (-> & Ca1 & L1).
        assert (head L s1) as HD1 by (destruct HD as [CV IN]; split; [now apply (cov_ext _ s)|assumption]).
        destruct (sc_conv (s_sc s)) eqn:Ca; [injection H as <- <-; assumption|].
        apply bind_ok in H as (o & s2 & E2 & H). assert (Q s2) as K2 by (refine ((_ : anti _) _ _ _ H K); an).
        destruct (iter_head L s1 o s2 HD1 Ca1 E2 K2) as (L2 & -> & HD2). eapply IH; eassumption.
      Qed.

      Lemma eval_log rows it calls s r s' : eval_rows func rows it calls s = (Ok r, s') -> Q s' ->
        log s' = log s ++ combine rows (fst r) /\ length (fst r) = length rows /\ snd r = (calls + length rows)%nat.
      Proof.
        revert calls s r. induction rows as [|x rows IH]; intros calls s r H K; cbn [eval_rows] in H.
        - injection H as <- <-. cbn. now rewrite app_nil_r, Nat.add_0_r.
        - pose proof anti_eval as A. apply bind_ok in H as ([y c1] & s1 & E1 & H).
          assert (Q s1) as K1 by (refine ((_ : anti _) _ _ _ H K); an).
          apply call_ok in E1 as [E1 E1']. cbn [fst snd] in E1, E1'. destruct (Qfunc _ _ _ _ _ E1 K1) as (_ & _ & L1).
          apply bind_ok in H as ([ys c2] & s2 & E2 & H). injection H as <- <-.
          apply IH in E2 as (L2 & L3 & L4); [|assumption]. cbn in *. rewrite L2, L1, <- app_assoc. cbn.
          split; [reflexivity|]. split; [now rewrite L3|]. subst c1. lia.
      Qed.

      Lemma start_head sim s fsim calls s1 t it L s2 : log s = log0 -> length sim = S dim ->
        (forall x, In x sim -> length x = dim) ->
        eval_rows func sim 0 0 s = (Ok (fsim, calls), s1) -> sort_simplex W (mk_nm sim fsim calls it t) s1 = (Ok L, s2) ->
        Q s2 -> head L s2.
      Proof.
        intros E0 R C E1 E2 K2. pose proof (anti_sort _ _ _ _ E2 K2) as K1.
        destruct (eval_log _ _ _ _ _ _ E1 K1) as (L1 & L2 & L3). cbn [fst snd] in *. rewrite E0 in L1.
        assert (cov (mk_nm sim fsim calls it t) s1) as CV.
        { constructor; [constructor; cbn; [assumption|assumption|rewrite L2; exact R]|].
          exists (combine sim fsim). split; [assumption|]. cbn. split.
          - pose proof (combine_length sim fsim); unfold vec in *; lia.
          - split; [apply incl_refl|]. intros [x f] P. exists f. split; [now apply in_combine_r in P|].
            apply le_refl. apply (Qnum s1 (combine sim fsim) K1 L1). change f with (snd (x, f)). now apply in_map. }
        destruct (sort_cov _ _ _ _ CV K1 E2) as (-> & CV2 & IN). now split.
      Qed.

      (** what is returned *)
      Lemma head_result L s x f : head L s -> py_nth (n_sim L) 0 = Ok x -> py_nth (n_fsim L) 0 = Ok f -> Q s ->
        exists new, log s = log0 ++ new /\ n_calls L = length new /\ In (x, f) new /\
                    forall p, In p new -> (f <=? snd p)%num = true.
      Proof.
        intros [[S (new & E & Ec & I & C)] IN] X F K. exists new. do 2 (split; [assumption|]).
        apply py_nth_first in X as (xs & X), F as (fs & F).
        assert (In (x, f) new) as J by (apply I; unfold stored; rewrite X, F; now left).
        split; [assumption|]. intros p P. destruct (C p P) as (g & Ig & Lg). rewrite F in Ig, IN. destruct Ig as [<-|Ig]; [assumption|].
        eapply nle_trans; [exact NO| |exact Lg]. now apply (increasing_first f fs).
      Qed.
    End Undisturbed.
  End Func.
End NM.
