(** What of a Controls object matters for the next evaluation; start point; end of a super-iteration. *)
From Coq Require Import String ZArith List Bool Lia Reals Lra.
From Verif Require Import Num NumFacts Py PyFacts ModelPulse ModelControls SpecControls ProofControls ProofLimits ProofShrink
  ProofTimes ProofIndex ProofPipeline.
Import ListNotations.
Open Scope list_scope.

(** ** numpy scatter / gather on consecutive blocks *)
Section Blocks.
  Context {A : Type}.

  Lemma set_nth_app (l1 l2 : list A) a v : set_nth (l1 ++ a :: l2) (length l1) v = l1 ++ v :: l2.
  Proof. induction l1; cbn; congruence. Qed.

  Lemma scatter_list_seq (pre old post vs : list A) : length old = length vs ->
    scatter_list (pre ++ old ++ post) (map Z.of_nat (seq (length pre) (length vs))) vs = Ok (pre ++ vs ++ post).
  Proof.
    revert pre old; induction vs as [|v vs IH]; intros pre [|o old] H; cbn in H; try discriminate; [reflexivity|].
    cbn [length seq map scatter_list app].
    rewrite py_set_nonneg by (rewrite app_length; cbn; lia). cbn [rbind].
    rewrite set_nth_app.
    specialize (IH (pre ++ [v]) old ltac:(lia)). rewrite app_length in IH. cbn [length] in IH.
    rewrite <- !app_assoc in IH. cbn [app] in IH. now rewrite Nat.add_1_r in IH.
  Qed.

  Lemma scatter_seq (pre old post vs : list A) : length old = length vs ->
    scatter (pre ++ old ++ post) (map Z.of_nat (seq (length pre) (length vs))) vs = Ok (pre ++ vs ++ post).
  Proof.
    intros H. unfold scatter. rewrite map_length, seq_length, Nat.eqb_refl. now apply scatter_list_seq.
  Qed.

  Lemma gather_seq (pre b post : list A) :
    gather (pre ++ b ++ post) (map Z.of_nat (seq (length pre) (length b))) = Ok b.
  Proof.
    unfold gather. revert pre; induction b as [|x b IH]; intros pre; [reflexivity|].
    cbn [length seq map rmap app]. rewrite py_nth_nonneg.
    rewrite nth_error_app2 by lia. rewrite Nat.sub_diag. cbn [nth_error rbind].
    specialize (IH (pre ++ [x])). rewrite app_length in IH. cbn [length] in IH.
    rewrite <- !app_assoc in IH. cbn [app] in IH. rewrite Nat.add_1_r in IH. now rewrite IH.
  Qed.

  Lemma gather_agree (x y : list A) (js : list nat) :
    (forall j, In j js -> nth_error x j = nth_error y j) ->
    gather x (map Z.of_nat js) = gather y (map Z.of_nat js).
  Proof.
    intros H. unfold gather. apply rmap_ext. intros a Ha. apply in_map_iff in Ha as (j & <- & Hj).
    rewrite !py_nth_nonneg. now rewrite H.
  Qed.
End Blocks.

Section Ess.
  Context {N : Num}.

  Fixpoint blocks_at (m : nat) (bs : list (list Z * list num)) : Prop :=
    match bs with
    | [] => True
    | (i, x) :: bs => i = map Z.of_nat (seq m (length x)) /\ blocks_at (m + length x) bs
    end.

  Lemma scatter_all_blocks bs (pre old post : list num) :
    blocks_at (length pre) bs -> length old = length (concat (map snd bs)) ->
    scatter_all bs (pre ++ old ++ post) = Ok (pre ++ concat (map snd bs) ++ post).
  Proof.
    revert pre old; induction bs as [|[i x] bs IH]; intros pre old H L; cbn [blocks_at map concat scatter_all snd] in *.
    - destruct old; [reflexivity|discriminate].
    - destruct H as [-> H]. rewrite app_length in L.
      rewrite <- (firstn_skipn (length x) old), <- app_assoc.
      rewrite scatter_seq by (rewrite firstn_length; lia). cbn [rbind].
      specialize (IH (pre ++ x) (skipn (length x) old)). rewrite app_length in IH.
      specialize (IH H). rewrite skipn_length in IH. specialize (IH ltac:(lia)).
      rewrite <- !app_assoc in IH. now rewrite <- app_assoc.
  Qed.

  Lemma blocks_at_app m b1 b2 : blocks_at m b1 -> blocks_at (m + length (concat (map snd b1))) b2 -> blocks_at m (b1 ++ b2).
  Proof.
    revert m; induction b1 as [|[i x] b1 IH]; intros m H1 H2; cbn in *.
    - now rewrite Nat.add_0_r in H2.
    - destruct H1 as [E H1]. split; [assumption|]. apply IH; [assumption|]. rewrite app_length in H2. now rewrite <- Nat.add_assoc.
  Qed.

  Lemma chained_blocks (g : pulse -> list num) (m : nat) ps m' :
    chained (Z.of_nat m - 1) ps m' -> (forall p, In p ps -> length (g p) = pc_nctrl (core p)) ->
    blocks_at m (map (fun p => (pc_indices (core p), g p)) ps) /\
    m' = (Z.of_nat (m + length (concat (map g ps))) - 1)%Z.
  Proof.
    revert m; induction ps as [|p ps IH]; intros m H L; cbn [chained map blocks_at concat] in *.
    - split; [exact I|]. cbn. rewrite H. lia.
    - destruct H as (A & B & C). rewrite (L p (or_introl eq_refl)).
      replace (pc_last (core p)) with (Z.of_nat (m + pc_nctrl (core p)) - 1)%Z in C by lia.
      specialize (IH _ C (fun q Hq => L q (or_intror Hq))) as [E1 E2].
      split; [split; [now rewrite A, index_list_seq|assumption]|].
      rewrite E2, app_length, (L p (or_introl eq_refl)). lia.
  Qed.
  Lemma rchained_blocks (g : param -> num) (m : nat) rs :
    rchained (Z.of_nat m - 1) rs -> blocks_at m (map (fun r => (pa_indices r, [g r])) rs).
  Proof.
    revert m; induction rs as [|r rs IH]; intros m H; cbn [rchained map blocks_at] in *; [exact I|].
    destruct H as (A & B & C). cbn [length]. split; [now rewrite A, index_list_seq|].
    apply IH. now replace (Z.of_nat (m + 1) - 1)%Z with (pa_last r) by lia.
  Qed.

  Lemma concat_singletons {B C} (g : B -> C) rs : concat (map (fun r => [g r]) rs) = map g rs.
  Proof. induction rs; cbn; congruence. Qed.

  Lemma length_concat_nctrl (g : pulse -> list num) ps :
    (forall p, In p ps -> length (g p) = pc_nctrl (core p)) ->
    length (concat (map g ps)) = list_sum (map (fun p => pc_nctrl (core p)) ps).
  Proof.
    induction ps as [|p ps IH]; intros L; [reflexivity|]. cbn [map concat]. rewrite app_length, IH, lsum_cons by (intros; apply L; now right).
    now rewrite (L p (or_introl eq_refl)).
  Qed.

  Lemma scatter_controls (g : pulse -> list num) (h : param -> num) c :
    well_indexed c -> (forall p, In p (c_pulses c) -> length (g p) = pc_nctrl (core p)) ->
    scatter_all (map (fun p => (pc_indices (core p), g p)) (c_pulses c) ++ map (fun r => (pa_indices r, [h r])) (c_params c))
      (zeros (get_control_parameters_number c)) = Ok (concat (map g (c_pulses c)) ++ map h (c_params c)).
  Proof.
    intros (_ & mid & C & D) L. rewrite Z_m1 in C.
    destruct (chained_blocks g 0 _ _ C L) as [B1 ->].
    assert (B2 := rchained_blocks h _ _ D).
    set (bs := map (fun p => (pc_indices (core p), g p)) (c_pulses c)) in *.
    set (cs := map (fun r => (pa_indices r, [h r])) (c_params c)) in *.
    assert (E1 : map snd bs = map g (c_pulses c)) by (unfold bs; now rewrite map_map).
    assert (E2 : concat (map snd cs) = map h (c_params c)) by (unfold cs; rewrite map_map; apply concat_singletons).
    pose proof (scatter_all_blocks (bs ++ cs) [] (zeros (get_control_parameters_number c)) []) as S.
    cbn [app length] in S. rewrite !app_nil_r in S. rewrite map_app, concat_app, E1, E2 in S. apply S.
    - apply blocks_at_app; [assumption|]. now rewrite E1.
    - rewrite zeros_length, app_length, map_length, number_eq, (length_concat_nctrl g) by assumption. reflexivity.
  Qed.

  (** ** essential part of the state *)
  Definition essp (p : pulse) : pulse := with_core (set_opt [] (set_grid (of_Z 0) [] (core p))) p.
  Definition essr (r : param) : param :=
    {| pa_name := pa_name r; pa_value := of_Z 0; pa_lower := pa_lower r; pa_upper := pa_upper r;
       pa_ampl := pa_ampl r; pa_indices := pa_indices r; pa_last := pa_last r |}.
  Definition esst (t : timep) : timep :=
    {| ti_time := ti_time t; ti_variation := ti_variation t; ti_alpha := option_map essr (ti_alpha t) |}.
  Definition ess (c : controls) : controls :=
    {| c_pulses := map essp (c_pulses c); c_params := map essr (c_params c);
       c_times := map (fun kt => (fst kt, esst (snd kt))) (c_times c) |}.

  Lemma prepare_ess v T p : prepare v T (essp p) = prepare v T p.
  Proof. reflexivity. Qed.
  Lemma essp_prepare v T p : essp (prepare v T p) = essp p.
  Proof. reflexivity. Qed.
  Lemma rmap_map {A B C} (f : B -> res C) (g : A -> B) l : rmap f (map g l) = rmap (fun a => f (g a)) l.
  Proof. induction l; cbn; [reflexivity|]. now rewrite IHl. Qed.

  Lemma set_times_ess x d : set_times x (map (fun kt => (fst kt, esst (snd kt))) d) = set_times x d.
  Proof.
    unfold set_times. rewrite rmap_map. apply rmap_ext. intros [k [t v [a|]]] _; reflexivity.
  Qed.
  Lemma get_controls_ess x c : get_controls_lists x (ess c) = get_controls_lists x c.
  Proof.
    unfold get_controls_lists, ess. cbn [c_pulses c_params c_times]. rewrite set_times_ess.
    destruct (set_times x (c_times c)) as [ts|]; [|reflexivity]. cbn [rbind].
    rewrite !rmap_map. reflexivity.
  Qed.
  Lemma update_base_ess x c : update_base_controls x (ess c) = update_base_controls x c.
  Proof.
    unfold update_base_controls, ess. cbn [c_pulses c_params c_times]. rewrite set_times_ess.
    destruct (set_times x (c_times c)) as [ts|]; [|reflexivity]. cbn [rbind].
    rewrite !rmap_map. reflexivity.
  Qed.

  Lemma set_times_ess_r x d d' : set_times x d = Ok d' ->
    map (fun kt => (fst kt, esst (snd kt))) d' = map (fun kt => (fst kt, esst (snd kt))) d.
  Proof.
    intros H. eapply (rmap_map_eq _ (fun kt => (fst kt, esst (snd kt))) (fun kt => (fst kt, esst (snd kt)))); [exact H|].
    intros [k t] b _ E. cbn in E. rinv. cbn. f_equal. unfold set_time_from, set_parameter in H0.
    destruct t as [ti va [a|]]; cbn in *; rinv; reflexivity.
  Qed.

  Lemma get_controls_ess_r x c c' d : get_controls_lists x c = Ok (c', d) -> ess c' = ess c.
  Proof.
    intros H. unfold get_controls_lists in H. rinv. unfold ess; cbn. rewrite !map_map. f_equal.
    - eapply rmap_map_eq; [eassumption|]. intros a b _ E. cbn in E. rinv. unfold get_pulse in E. rinv. reflexivity.
    - eapply rmap_map_eq; [eassumption|]. intros a b _ E. cbn in E. rinv. unfold get_parameter, set_parameter in E. rinv. reflexivity.
    - eapply set_times_ess_r; eauto.
  Qed.
  Lemma evaluations_ess c c' : evaluations c c' -> ess c' = ess c.
  Proof. induction 1; [reflexivity|]. rewrite <- IHevaluations. eapply get_controls_ess_r; eauto. Qed.

  Lemma no_opt_times_dict tl : no_optimised_time tl -> forall d d', new_times tl d = Ok d' ->
    (forall k t, In (k, t) d -> ti_alpha t = None) -> (forall k t, In (k, t) d' -> ti_alpha t = None).
  Proof.
    intros NO. induction tl as [|f tl IH]; intros d d' H K; cbn in H; [now injection H as <-|].
    rinv. eapply IH; [intros t Ht; apply NO; now right|eassumption|].
    intros k t Hk. 
    assert (forall V (d : dict V) k0 v k t, In (k, t) (dset d k0 v) -> t = v \/ In (k, t) d) as DS.
    { intros V d0 k0 v k1 t1. induction d0 as [|[k2 v2] d0 IHd]; cbn.
      - intros [E|[]]. injection E as <- <-. auto.
      - destruct (String.eqb k0 k2); cbn; intros [E|E]; try (injection E as <- <-); auto. destruct (IHd E); auto. }
    apply DS in Hk as [->|Hk]; [|eauto].
    unfold new_time in H0. rewrite (NO f (or_introl eq_refl)) in H0. now injection H0 as <-.
  Qed.

  Definition fixed_times (c : controls) : Prop := forall k t, In (k, t) (c_times c) -> ti_alpha t = None.

  Lemma new_controls_fixed pl tl rl c : no_optimised_time tl -> new_controls pl tl rl = Ok c -> fixed_times c.
  Proof.
    intros NO H. unfold new_controls in H. rinv. unfold fixed_times; cbn. eapply no_opt_times_dict; eauto.
    intros ? ? [].
  Qed.
  Lemma set_times_fixed x d : (forall k t, In (k, t) d -> ti_alpha t = None) -> set_times x d = Ok d.
  Proof.
    unfold set_times. induction d as [|[k t] d IH]; intros H; cbn [rmap]; [reflexivity|].
    rewrite IH by (intros k0 t0 Hk; apply (H k0 t0); now right).
    unfold set_time_from. cbn [snd fst]. now rewrite (H k t (or_introl eq_refl)).
  Qed.
  Lemma reachable_times_fixed c0 c : fixed_times c0 -> reachable c0 c -> c_times c = c_times c0.
  Proof.
    intros F R; induction R; auto; specialize (IHR F).
    - unfold get_controls_lists in H. rewrite IHR, set_times_fixed in H by assumption. cbn [rbind] in H. rinv. reflexivity.
    - unfold get_bare_controls_lists in H. rinv. now cbn.
    - unfold update_base_controls in H. rewrite IHR, set_times_fixed in H by assumption. cbn [rbind] in H. rinv. reflexivity.
    - rewrite <- IHR. eapply select_from_times; eauto.
  Qed.
End Ess.
