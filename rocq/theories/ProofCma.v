(** The loop of CMA-ES: generations, number of calls, termination, result. *)
From Coq Require Import String ZArith List Bool Lia Permutation Sorted.
From RecordUpdate Require Import RecordSet.
From Verif Require Import Num NumFacts Py PyFacts ModelPulse ModelControls ModelLinalg ModelState ModelSearch ModelRun
  SpecRun SpecSearch ProofSim ProofNM ProofSearch ProofNMBound ProofSearchCount.
Import ListNotations RecordSetNotations.
Open Scope nat_scope.
Open Scope list_scope.
Open Scope run_scope.

Section Cma.
  Context {N : Num} (NO : NumOrder N) (G : settings) (W : world).
  Variable func : vec -> nat -> option num -> M num.
  Variables (x0 sigma_v : vec).

  Section Log.
    Variable log : st -> list (vec * num).
    Hypothesis OB : observes func log.

    Definition kept {A} (m : M A) : Prop := forall s a s', m s = (Ok a, s') -> log s' = log s.
    Lemma kept_bind {A B} (m : M A) (f : A -> M B) : kept m -> (forall a, kept (f a)) -> kept (bind m f).
    Proof. intros Hm Hk s b s' H. apply bind_ok in H as (a & s1 & E & H). rewrite (Hk _ _ _ _ H). now apply (Hm _ a). Qed.
    Lemma kept_ret {A} (a : A) : kept (ret a). Proof. intros s b s' H. now injection H as <- <-. Qed.
    Lemma kept_lift {A} (r : res A) : kept (lift r). Proof. intros s b s' H. now apply lift_ok in H as [_ ->]. Qed.
    Lemma kept_get : kept get. Proof. intros s b s' H. now injection H as <- <-. Qed.
    Lemma kept_sc f : kept (upd (fun s => s <|s_sc ::= f|>)). Proof. intros s b s' H. injection H as <- <-. apply (ob_sc _ _ OB). Qed.
    Lemma kept_cnt f : kept (upd (fun s => s <|s_cnt ::= f|>)). Proof. intros s b s' H. injection H as <- <-. apply (ob_cnt _ _ OB). Qed.
    Lemma kept_poll : kept (poll G W). Proof. intros s [] s' H. exact (ob_poll G W func log OB _ _ H). Qed.
    Ltac kl := repeat first
      [ solve [auto] | apply kept_ret | apply kept_lift | apply kept_get | apply kept_poll | apply kept_sc | apply kept_cnt
      | apply kept_bind
      | match goal with
        | |- forall _, _ => intro
        | |- kept (if ?c then _ else _) => destruct c
        end ].
    Lemma kept_is_conv : kept (is_conv G W). Proof. unfold is_conv. kl. Qed.
    Lemma kept_running : kept (get_running G W). Proof. unfold get_running. kl. Qed.
    Lemma kept_check fsim calls : kept (check_stopping_cma G W fsim calls).
    Proof.
      pose proof kept_is_conv. unfold check_stopping_cma, set_check, check_time_out, now, set_conv, set_sc_reason. kl.
    Qed.
    Lemma kept_randn n : kept (randn W n). Proof. unfold randn. kl. Qed.

    Lemma generation_spec n it hist s g s' : generation W func x0 sigma_v n it hist s = (Ok g, s') ->
      length g = n /\ log s' = log s ++ g /\ (hist = [] -> n <> 0 -> hd_error (map fst g) = Some x0).
    Proof.
      revert hist s g. induction n as [|n IH]; intros hist s g H; cbn [generation] in H.
      - injection H as <- <-. cbn. rewrite app_nil_r. now repeat split.
      - apply bind_ok in H as (z & s1 & E1 & H). apply kept_randn in E1.
        apply bind_ok in H as (x & s2 & E2 & H). apply lift_ok in E2 as [_ ->].
        cbv zeta in H. apply bind_ok in H as (y & s3 & E3 & H). apply (ob_call _ _ OB) in E3.
        apply bind_ok in H as (g1 & s4 & E4 & H). injection H as <- <-. apply IH in E4 as (A & B & _).
        cbn [length]. split; [congruence|]. split.
        + rewrite B, E3, E1, <- app_assoc. reflexivity.
        + intros -> _. reflexivity.
    Qed.

    (** the sorted values and the candidate taken as the result *)
    Lemma best_of_generation (g : list (vec * num)) fsim x f0 s1 s2 s3 s4 : sorts W -> 
      lift (gather (map snd g) (map Z.of_nat (w_argsort W (map snd g)))) s1 = (Ok fsim, s2) ->
      (i0 <- lift (py_nth (map Z.of_nat (w_argsort W (map snd g))) 0);; lift (py_nth (map fst g) i0) : M vec) s2 = (Ok x, s3) ->
      lift (py_nth fsim 0) s3 = (Ok f0, s4) ->
      In (x, f0) g /\ (nan_free (map snd g) -> forall x' y, In (x', y) g -> (f0 <=? y)%num = true) /\
      Permutation fsim (map snd g).
    Proof.
      intros SO H1 H2 H3. apply lift_ok in H1 as [H1 _].
      apply bind_ok in H2 as (i0 & t & H2 & H4). apply lift_ok in H2 as [H2 _]. apply lift_ok in H4 as [H4 _]. apply lift_ok in H3 as [H3 _].
      destruct (SO (map snd g)) as [P I].
      set (ind := w_argsort W (map snd g)) in *. apply (gather_map (of_Z 0)) in H1.
      apply (py_nth_nat _ 0) in H2. destruct ind as [|i ind'] eqn:EI; [discriminate|]. cbn in H2. injection H2 as <-.
      apply py_nth_nat in H4. subst fsim. cbn in H3. injection H3 as <-.
      rewrite nth_error_map in H4. destruct (nth_error g i) as [[x' y']|] eqn:EG; [|discriminate]. cbn in H4. injection H4 as ->.
      assert (nth i (map snd g) (of_Z 0) = y') as ->.
      { apply nth_error_nth. now rewrite nth_error_map, EG. }
      split; [now apply nth_error_In in EG|]. split.
      - intros NF. specialize (I NF). cbn in I.
        intros xx y Y. inversion I as [|a l S F]; subst. rewrite Forall_forall in F.
        apply In_nth_error in Y as (j & J).
        assert (In j (i :: ind')) as K.
        { apply (Permutation_in _ (Permutation_sym P)). apply in_seq. rewrite map_length.
          assert (j < length g) by (apply nth_error_Some; congruence). lia. }
        assert (nth j (map snd g) (of_Z 0) = y) as JJ by (apply nth_error_nth; rewrite nth_error_map, J; reflexivity).
        assert (nth i (map snd g) (of_Z 0) = y') as II by (apply nth_error_nth; rewrite nth_error_map, EG; reflexivity).
        destruct K as [<-|K].
        + assert (y = y') as -> by congruence.
          assert (nisnan y' = false) as Z by (apply NF; apply in_map_iff; exists (x, y'); split; [reflexivity|now apply nth_error_In in EG]).
          destruct (nle_total N NO y' y' Z Z); assumption.
        + rewrite <- II, <- JJ. apply F. apply in_map_iff. eauto.
      - rewrite P. now rewrite map_nth_seq.
    Qed.

    Lemma loop_gens l_pop fuel it hist best s best' it' calls s' : sorts W -> l_pop <> 0 ->
      cma_loop G W func x0 sigma_v l_pop fuel it hist best s = (Ok (best', it', calls), s') ->
      exists gens : list (list (vec * num)),
        log s' = log s ++ concat gens /\ it' = it + length gens /\ calls = length hist + length (concat gens) /\
        (forall g, In g gens -> length g = l_pop) /\
        (sc_conv (s_sc s) = true -> gens = []) /\
        (hist = [] -> gens <> [] -> hd_error (map fst (concat gens)) = Some x0) /\
        (gens = [] -> best' = best) /\
        forall gs g, gens = gs ++ [g] ->
          In (snd best', fst best') g /\
          (nan_free (map snd g) -> forall x y, In (x, y) g -> (fst best' <=? y)%num = true) /\
          (gs <> [] -> (Z.of_nat (length hist + length (concat gs)) < g_max_eval G)%Z).
    Proof.
      intros SO LP. revert it hist best s. induction fuel as [|fuel IH]; intros it hist best s H; [discriminate|]. cbn [cma_loop] in H.
      apply bind_ok in H as (c & s1 & E1 & H). pose proof (kept_is_conv _ _ _ E1) as K1. apply is_conv_read in E1 as [C1 D1].
      destruct c.
      - assert (best' = best /\ it' = it /\ calls = length hist /\ s' = s1) as (-> & -> & -> & ->)
          by (unfold ret in H; repeat split; congruence).
        exists []. cbn. rewrite app_nil_r. repeat (split; [first [lia|easy]|]). intros gs g E. now destruct gs.
      - apply bind_ok in H as (g & s2 & E2 & H). destruct (generation_spec _ _ _ _ _ _ E2) as (LG & K2 & X2). cbv zeta in H.
        apply bind_ok in H as (fsim & s3 & E3 & H). pose proof (kept_lift _ _ _ _ E3) as K3.
        apply bind_ok in H as (u & s4 & E4 & H). pose proof (kept_lift _ _ _ _ E4) as K4. apply lift_ok in E4 as [_ E4]. subst s4.
        apply bind_ok in H as (i0 & s5 & E5 & H). apply bind_ok in H as (x & s6 & E6 & H).
        assert ((i0 <- lift (py_nth (map Z.of_nat (w_argsort W (map snd g))) 0);; lift (py_nth (map fst g) i0) : M vec) s3 = (Ok x, s6)) as E56
          by (unfold bind; rewrite E5; exact E6).
        pose proof (kept_lift _ _ _ _ E5) as K5. pose proof (kept_lift _ _ _ _ E6) as K6.
        apply bind_ok in H as (f0 & s7 & E7 & H). pose proof (kept_lift _ _ _ _ E7) as K7.
        destruct (best_of_generation _ _ _ _ _ _ _ _ SO E3 E56 E7) as (B1 & B2 & _).
        apply bind_ok in H as (r & s8 & E8 & H). apply kept_running in E8.
        apply bind_ok in H as (u' & s9 & E9 & H).
        assert (log s9 = log s8) as K9.
        { destruct r; [now injection E9 as <- <-|].
          apply bind_ok in E9 as ([] & sa & Ea & E9). apply kept_poll in Ea. apply bind_ok in E9 as ([] & sb & Eb & E9).
          injection Eb as <-. injection E9 as <- <-. now rewrite !(ob_sc _ _ OB). }
        apply bind_ok in H as ([] & s10 & E10 & H). pose proof (kept_check _ _ _ _ _ E10) as K10.
        apply IH in H as (gens & L1 & I1 & N1 & P1 & C & _ & Z1 & F1).
        exists (g :: gens). cbn [concat length]. rewrite app_length.
        assert (log s10 = log s ++ g) as LL by congruence.
        split; [rewrite L1, LL, <- app_assoc; reflexivity|].
        split; [lia|]. split; [rewrite N1, app_length; lia|].
        split; [intros g' [<-|X]; auto|].
        split; [intros Y; specialize (D1 Y); discriminate|].
        split.
        { intros Hh _. specialize (X2 Hh LP). destruct g as [|[xx yy] g]; [destruct LP; now symmetry|]. exact X2. }
        split; [discriminate|].
        intros gs g' E. destruct gs as [|a gs].
        + cbn in E. injection E as <- ->. specialize (Z1 eq_refl). subst best'. cbn [fst snd].
          split; [exact B1|]. split; [exact B2|]. easy.
        + cbn in E. injection E as <- ->. destruct (F1 gs g' eq_refl) as (F2 & F3 & F4). split; [exact F2|]. split; [exact F3|].
          intros _. cbn [concat]. rewrite app_length in *. destruct gs as [|b gs].
          * cbn [concat length]. rewrite Nat.add_0_r. destruct (Z.ltb_spec (Z.of_nat (length hist + length g)) (g_max_eval G)) as [A|A]; [assumption|].
            pose proof (check_cma_budget G W _ _ _ _ E10) as K. specialize (C (K A)). discriminate.
          * rewrite Nat.add_assoc. apply F4. discriminate.
    Qed.

    Lemma cma_result population s r s' : sorts W -> run_cma G W func population x0 sigma_v s = (Ok r, s') ->
      let pop := match population with Some p => p | None => w_pop W (length x0) end in
      exists gens : list (list (vec * num)),
        2 <= pop /\ log s' = log s ++ concat gens /\ r_nit r = Z.of_nat (S (length gens)) /\ r_calls r = length (concat gens) /\
        (forall g, In g gens -> length g = pop) /\
        (gens <> [] -> hd_error (map fst (concat gens)) = Some x0) /\
        (gens = [] -> r_fval r = of_Z 0 /\ r_x r = zeros (length x0)) /\
        forall gs g, gens = gs ++ [g] ->
          In (r_x r, r_fval r) g /\
          (nan_free (map snd g) -> forall x y, In (x, y) g -> (r_fval r <=? y)%num = true) /\
          (gs <> [] -> (Z.of_nat (length (concat gs)) < g_max_eval G)%Z).
    Proof.
      intros SO H pop. unfold run_cma in H. apply bind_ok in H as ([] & s1 & E1 & H). apply kept_poll in E1.
      apply bind_ok in H as ([] & s2 & E2 & H). assert (log s2 = log s1) as K2 by (unfold set_conv in E2; now apply kept_sc in E2).
      cbv zeta in H. fold pop in H. destruct (Nat.ltb_spec pop 2) as [B|B]; [discriminate|].
      apply bind_ok in H as ([[best it] calls] & s3 & E3 & H). unfold bind, get in H. unfold ret in H.
      assert (s' = s3 /\ r = mk_result (fst best) (snd best) (Z.of_nat it) calls (sc_reason (s_sc s3))) as [-> ->] by (split; congruence).
      apply loop_gens in E3 as (gens & L1 & I1 & N1 & P1 & C & X & Z1 & F1); [|assumption|lia].
      exists gens. cbn [r_nit r_calls r_fval r_x]. split; [exact B|]. split; [congruence|]. split; [f_equal; lia|]. split; [exact N1|].
      split; [exact P1|]. split; [now apply X|]. split; [intros E; now rewrite (Z1 E)|]. exact F1.
    Qed.
  End Log.

  (** ** termination *)
  Lemma generation_length n it hist s g s' : generation W func x0 sigma_v n it hist s = (Ok g, s') -> length g = n.
  Proof.
    revert hist s g. induction n as [|n IH]; intros hist s1 g H; cbn [generation] in H.
    - now injection H as <- <-.
    - apply bind_ok in H as (z & t1 & E1 & H). apply bind_ok in H as (x & t2 & E2 & H). cbv zeta in H.
      apply bind_ok in H as (y & t3 & E3 & H). apply bind_ok in H as (g1 & t4 & E4 & H). injection H as <- <-.
      cbn. f_equal. now apply IH in E4.
  Qed.
  Lemma cma_loop_fuel e l_pop fuel fuel' it hist best s : 1 <= l_pop ->
    (if sc_conv (s_sc s) then 1 else Z.to_nat (g_max_eval G - Z.of_nat (length hist)) + 2) <= fuel ->
    (if sc_conv (s_sc s) then 1 else Z.to_nat (g_max_eval G - Z.of_nat (length hist)) + 2) <= fuel' ->
    cma_loop G (W <|w_stuck := e|>) func x0 sigma_v l_pop fuel it hist best s =
    cma_loop G W func x0 sigma_v l_pop fuel' it hist best s.
  Proof.
    intros LP. revert fuel' it hist best s.
    induction fuel as [|fuel IH]; intros [|fuel'] it hist best s B B'; try (destruct (sc_conv (s_sc s)); lia).
    cbn [cma_loop].
    assert (forall A B (m : M A) (k k' : A -> M B) s, (forall a t, m s = (Ok a, t) -> k a t = k' a t) -> bind m k s = bind m k' s) as BE.
    { clear. intros A B m k k' s K. unfold bind. destruct (m s) as [[v|x] t]; [now apply K|reflexivity]. }
    change (is_conv G (W <|w_stuck := e|>)) with (is_conv G W).
    change (generation (W <|w_stuck := e|>)) with (generation W).
    change (get_running G (W <|w_stuck := e|>)) with (get_running G W).
    change (poll G (W <|w_stuck := e|>)) with (poll G W).
    change (check_stopping_cma G (W <|w_stuck := e|>)) with (check_stopping_cma G W).
    apply BE. intros c s1 E1. apply is_conv_read in E1 as [C1 D1]. destruct c; [reflexivity|]. cbv zeta.
    destruct (sc_conv (s_sc s)); [specialize (D1 eq_refl); discriminate|].
    apply BE. intros g s2 E2. apply generation_length in E2.
    apply BE. intros fsim s3 _. apply BE. intros u s4 _. apply BE. intros i0 s5 _. apply BE. intros x s6 _.
    apply BE. intros f0 s7 _. apply BE. intros r s8 _. apply BE. intros u' s9 _. apply BE. intros [] s10 E10.
    assert ((if sc_conv (s_sc s10) then 1 else Z.to_nat (g_max_eval G - Z.of_nat (length (hist ++ g))) + 2) <=
            Z.to_nat (g_max_eval G - Z.of_nat (length hist)) + 1) as K.
    { rewrite app_length. destruct (sc_conv (s_sc s10)) eqn:CC; [lia|].
      destruct (Z.ltb_spec (Z.of_nat (length hist + length g)) (g_max_eval G)) as [A|A]; [lia|].
      pose proof (check_cma_budget G W _ _ _ _ E10) as K. rewrite app_length in K. rewrite (K A) in CC. discriminate. }
    apply IH; lia.
  Qed.
  Lemma run_cma_fuel fuel e population s : Z.to_nat (g_max_eval G) + 2 <= w_fuel W -> Z.to_nat (g_max_eval G) + 2 <= fuel ->
    run_cma G (W <|w_fuel := fuel|> <|w_stuck := e|>) func population x0 sigma_v s = run_cma G W func population x0 sigma_v s.
  Proof.
    intros B B'. unfold run_cma.
    change (poll G (W <|w_fuel := fuel|> <|w_stuck := e|>)) with (poll G W).
    change (w_pop (W <|w_fuel := fuel|> <|w_stuck := e|>)) with (w_pop W).
    change (w_fuel (W <|w_fuel := fuel|> <|w_stuck := e|>)) with fuel.
    assert (forall A B (m : M A) (k k' : A -> M B) s, (forall a t, k a t = k' a t) -> bind m k s = bind m k' s) as BE.
    { clear. intros A B m k k' s K. unfold bind. now destruct (m s) as [[v|x] t]. }
    apply BE. intros [] s1. apply BE. intros [] s2. cbv zeta.
    destruct (_ <? 2)%nat eqn:P; [reflexivity|]. apply Nat.ltb_ge in P.
    change (cma_loop G (W <|w_fuel := fuel|> <|w_stuck := e|>)) with (cma_loop G (W <|w_stuck := e|>)).
    unfold bind at 1. rewrite cma_loop_fuel with (fuel' := w_fuel W); [reflexivity|lia|destruct (sc_conv (s_sc s2)); cbn; lia..].
  Qed.
End Cma.
