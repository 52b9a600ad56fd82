(** Lemmas behind the control properties. *)
From Coq Require Import String ZArith List Bool Lia Reals Lra.
From Verif Require Import Num NumFacts Py PyFacts ModelPulse ModelControls ModelBases SpecControls
  ProofControls ProofLimits ProofShrink ProofTimes ProofIndex ProofPipeline ProofEss ProofBase ProofSI ProofBases.
Import ListNotations.
From Flocq Require Import Core.
Open Scope list_scope.

Section Gen.
  Context {N : Num}.

  Lemma pipeline_limit (f : pulse_cfg) i pre post :
    names_of f = pre ++ "limit_pulse"%string :: post -> (forall s, In s post -> ~ In s known_options) ->
    pipeline f i = map (cut (pf_lower f) (pf_upper f)) (pipeline (with_options pre f) i).
  Proof.
    intros E U. unfold pipeline. rewrite E, fold_left_app. cbn [fold_left names_of with_options pf_options pf_lower pf_upper pf_bins].
    set (a := fold_left _ pre _).
    assert (H : option_effect (pf_lower f) (pf_upper f) i "limit_pulse" a = map (cut (pf_lower f) (pf_upper f)) a) by reflexivity.
    rewrite H. generalize (map (cut (pf_lower f) (pf_upper f)) a). clear - U.
    induction post as [|s post IH]; intros l; cbn [fold_left]; [reflexivity|].
    rewrite option_effect_unknown; [apply IH; intros; apply U; now right|].
    apply unknown_none. apply U. now left.
  Qed.

  Lemma option_effect_length lo hi i name (l : list num) n :
    length l = n -> length (i_guess i) = n -> length (i_scaling i) = n -> length (i_base i) = n -> length (i_update i) = n ->
    length (option_effect lo hi i name l) = n.
  Proof.
    intros L1 L2 L3 L4 L5. unfold option_effect.
    repeat match goal with |- context [if ?x then _ else _] => destruct x end; rewrite ?map2_length, ?map_length; lia.
  Qed.
  Lemma pipeline_length f i : length (i_guess i) = pf_bins f -> length (i_scaling i) = pf_bins f -> length (i_base i) = pf_bins f ->
    length (i_update i) = pf_bins f -> length (pipeline f i) = pf_bins f.
  Proof.
    intros L2 L3 L4 L5. unfold pipeline.
    assert (H : forall names l, length l = pf_bins f -> length (fold_left (fun a name => option_effect (pf_lower f) (pf_upper f) i name a) names l) = pf_bins f).
    { induction names as [|s names IH]; intros l Hl; cbn [fold_left]; [exact Hl|]. apply IH. now apply option_effect_length. }
    apply H. apply repeat_length.
  Qed.

  Lemma guess_samples_length f g l : guess_samples f g = Some l -> length l = pf_bins f.
  Proof.
    unfold guess_samples. destruct (pf_guess f).
    - destruct (f0 g); [|discriminate]. apply as_samples_length.
    - apply as_samples_length. - apply as_samples_length.
  Qed.
  Lemma scaling_samples_length f g l : scaling_samples f g = Some l -> length l = pf_bins f.
  Proof.
    unfold scaling_samples. destruct (pf_scaling f).
    - destruct (f0 g); [|discriminate]. apply as_samples_length.
    - discriminate. - apply as_samples_length. - apply as_samples_length.
  Qed.

  Lemma prepare_twice v T p : prepare v T (prepare v T p) = prepare v T p.
  Proof. reflexivity. Qed.

  Lemma gather_indices_after x c c' d i p q : get_controls_lists x c = Ok (c', d) ->
    nth_error (c_pulses c) i = Some p -> nth_error (c_pulses c') i = Some q -> pc_indices (core q) = pc_indices (core p).
  Proof.
    intros H E E'. unfold get_controls_lists in H. rinv. cbn [c_pulses] in E'.
    rewrite nth_error_map in E'. destruct (rmap_nth _ _ _ _ _ H1 E) as (z & Hz & Ez). rewrite Ez in E'. injection E' as <-.
    rinv. unfold get_pulse in Hz. rinv. reflexivity.
  Qed.

  Lemma delivered_pipeline (O : NumOrder N) pl tl rl c0 c x c' d c'' us i f a g gs ss b bs u s :
    new_controls pl tl rl = Ok c0 -> reachable c0 c ->
    get_controls_lists x c = Ok (c', d) -> get_bare_controls_lists x c' = Ok (c'', us) ->
    nth_error pl i = Some f -> plain_basis f -> pf_shrink f = false ->
    nisnan (pf_lower f) = false -> nisnan (pf_upper f) = false ->
    nth_error (d_pulses d) i = Some a -> nth_error (d_timegrids d) i = Some g ->
    guess_samples f g = Some gs -> scaling_samples f g = Some ss ->
    base_of c i = Some b -> as_samples (pf_bins f) b = Some bs ->
    nth_error us i = Some u -> as_samples (pf_bins f) u = Some s ->
    a = Ar (pipeline f {| i_guess := gs; i_scaling := ss; i_base := bs; i_update := s |}) /\
    length (pipeline f {| i_guess := gs; i_scaling := ss; i_base := bs; i_update := s |}) = pf_bins f /\ length g = pf_bins f.
  Proof.
    intros HC RC HG HB Ef PBf SH NL NU Ea Eg Egs Ess Eb Ebs Eu Eus.
    destruct (good_reachable _ _ _ _ PBf RC (good_new _ _ _ _ _ _ HC Ef)) as (p & Ep & GP). destruct GP as [M GW].
    destruct (delivered_pulse_full _ _ _ _ _ _ HG Ea) as (p' & v & T & E' & Hv & HT & Hgr & Ep' & HGP).
    rewrite Ep in E'; injection E' as <-.
    rewrite Eg in Hgr. injection Hgr as Hgr.
    assert (US : shape p (core (prepare v T p)) = Ok u).
    { unfold get_bare_controls_lists in HB. apply rbind_ok in HB as (l & HL & HB). injection HB as <- <-.
      rewrite nth_error_map in Eu. destruct (nth_error l i) as [[q z]|] eqn:Eq; [|discriminate]. injection Eu as ->.
      destruct (rmap_nth_r _ _ _ _ _ HL Eq) as (p2 & Hz & E2). rewrite Ep' in E2. injection E2 as <-.
      cbn [prepare with_core core set_time_grid set_grid set_opt pc_indices pc_time_name] in Hz.
      rewrite Hv in Hz. cbn [rbind] in Hz. rewrite HT in Hz. cbn [rbind] in Hz. unfold get_bare_pulse in Hz. apply rbind_ok in Hz as (w & Hw & Hz). injection Hz as _ <-. exact Hw. }
    assert (L : length g = pf_bins f) by (rewrite Hgr, linspace0_length; apply M).
    split; [|split; [|exact L]].
    - assert (PR : prepared f (prepare v T p) {| i_guess := gs; i_scaling := ss; i_base := bs; i_update := s |}).
      { constructor; cbn [i_guess i_scaling i_base i_update].
        - cbn [prepare with_core core set_time_grid set_grid set_opt pc_time_grid pc_bins]. now rewrite <- Hgr.
        - cbn [prepare with_core core set_time_grid set_grid set_opt pc_time_grid pc_bins]. now rewrite <- Hgr.
        - unfold base_of in Eb. rewrite Ep in Eb. injection Eb as Eb. cbn [prepare with_core core set_time_grid set_grid set_opt pc_base]. now rewrite Eb.
        - exists u. split; [exact US|exact Eus]. }
      rewrite (get_pulse_pipeline O f p v T _ M PR SH NL NU) in HGP. now injection HGP as <-.
    - apply pipeline_length; cbn [i_guess i_scaling i_base i_update].
      + eapply guess_samples_length; eauto. + eapply scaling_samples_length; eauto. + eapply as_samples_length; eauto. + eapply as_samples_length; eauto.
  Qed.

  (** accepted updates with overwrite_base_pulse: only the last one is kept *)
  Lemma accepted_overwrite pl tl rl c0 us c i f u :
    new_controls pl tl rl = Ok c0 -> Forall plain_basis pl -> nth_error pl i = Some f ->
    ignores_base f -> pf_overwrite f = true -> accepted c0 (us ++ [u]) c -> base_of c i = nth_error u i.
  Proof.
    intros HC PB Ef IB OV A.
    assert (WI := new_controls_wi _ _ _ _ HC PB).
    remember (us ++ [u]) as l eqn:El. revert us u El.
    induction A as [c|c us0 c1 c2 x d A IH HG|c us0 c1 c2 x d A IH HG|c us0 c1 c2 rs p q A IH HG|c us0 c1 c2 x c3 w A IH HU HB]; intros us u El.
    - destruct us; discriminate.
    - rewrite base_of_bases, (get_controls_bases _ _ _ _ HG), <- base_of_bases. now apply (IH HC WI us).
    - rewrite base_of_bases, (get_bare_bases _ _ _ _ HG), <- base_of_bases. now apply (IH HC WI us).
    - assert (W1 := same_fix_wi _ _ (reachable_fix _ _ WI (accepted_reachable _ _ _ A)) WI).
      rewrite base_of_bases, (proj1 (select_bases _ _ _ _ _ _ (proj1 W1) HG)), <- base_of_bases. now apply (IH HC WI us).
    - apply app_inj_tail in El as [-> ->].
      assert (PF : plain_basis f) by (eapply Forall_forall; [exact PB|eapply nth_error_In; eauto]).
      assert (SL : slot i f c1).
      { destruct (good_reachable _ _ _ _ PF (accepted_reachable _ _ _ A) (good_new _ _ _ _ _ _ HC Ef)) as (p & Ep & [M _]). exists p. split; assumption. }
      assert (exists a, nth_error u i = Some a) as (a & Ea).
      { destruct SL as (p & Ep & _). unfold update_base_controls in HU. unfold get_bare_controls_lists in HB. rinv. cbn in *.
        match goal with H : rmap _ (c_pulses c1) = Ok ?l, H' : rmap _ ?l = Ok ?m |- _ =>
          destruct (rmap_nth _ _ _ _ _ H Ep) as (p2 & _ & E2); destruct (rmap_nth _ _ _ _ _ H' E2) as (z & _ & Ez) end.
        rewrite nth_error_map, Ez. cbn. eauto. }
      destruct (update_step _ _ _ _ _ _ _ _ SL IB HU HB Ea) as (b & b' & _ & Eb & K). rewrite OV in K. subst b'. now rewrite Eb, Ea.
  Qed.

  (** C07 *)
  Lemma param_inside (O : NumOrder N) (l u y : num) : nleb l u = true -> nisnan y = false ->
    let v := npmin (npmax l y) u in
    nleb l v = true /\ nleb v u = true /\ (nleb l y = true -> nleb y u = true -> v = y \/ (nleb y l = true /\ v = l)).
  Proof.
    intros LU NY. destruct O as [TR LT TO NL NR].
    assert (Nl : nisnan l = false) by (destruct (nisnan l) eqn:E; auto; rewrite (NL _ u E) in LU; discriminate).
    assert (Nu : nisnan u = false) by (destruct (nisnan u) eqn:E; auto; rewrite (NR l _ E) in LU; discriminate).
    assert (RF : forall a, nisnan a = false -> nleb a a = true) by (intros a Ha; destruct (TO a a Ha Ha); auto).
    cbv zeta. unfold npmin, npmax. rewrite Nl. cbn [orb].
    destruct (nleb y l) eqn:YL.
    - rewrite Nl, LU. cbn [orb]. repeat split; auto.
    - rewrite NY. cbn [orb]. destruct (nleb y u) eqn:YU.
      + repeat split; auto. destruct (TO l y Nl NY); congruence.
      + repeat split; auto. intros; congruence.
  Qed.
  Lemma param_nan (O : NumOrder N) (l u y : num) : nisnan l = false -> nisnan y = true -> npmin (npmax l y) u = y.
  Proof.
    intros Nl NY. unfold npmin, npmax. rewrite Nl, (nle_nan_l _ O _ l NY). cbn [orb]. now rewrite NY.
  Qed.
  Lemma param_swapped (O : NumOrder N) (l u y : num) : nltb u l = true -> nisnan y = false ->
    npmin (npmax l y) u = u.
  Proof.
    intros UL NY. rewrite (nlt_le _ O) in UL. apply andb_true_iff in UL as [UL LU]. apply negb_true_iff in LU.
    assert (Nl : nisnan l = false) by (destruct (nisnan l) eqn:E; auto; rewrite (nle_nan_r _ O u _ E) in UL; discriminate).
    unfold npmin, npmax. rewrite Nl. cbn [orb]. destruct (nleb y l) eqn:YL.
    - now rewrite Nl, LU.
    - rewrite NY. cbn [orb]. destruct (nleb y u) eqn:YU; [|reflexivity].
      exfalso. rewrite (nle_trans _ O _ _ _ YU UL) in YL. discriminate.
  Qed.
End Gen.

Section GenTimes.
  Context {N : Num}.

  (** the grid ends exactly at the duration *)
  Lemma linspace0_last (T : num) n : (2 <= n)%nat -> nth_error (linspace0 T n) (n - 1) = Some T.
  Proof.
    intros H. destruct n as [|[|n]]; try lia. unfold linspace0.
    replace (S (S n) - 1)%nat with (S n) by lia. apply set_nth_same.
    destruct (neqb _ _); rewrite !map_length, seq_length; lia.
  Qed.

  (** every time of the dictionary comes from the configuration *)
  Lemma time_of_cfg pl tl rl c0 c name T : new_controls pl tl rl = Ok c0 -> reachable c0 c ->
    time_of (c_times c) name = Ok T ->
    exists t s, lookup_time tl name = Some t /\ dget (c_times c) name = Some s /\ tmatch t s /\ T = get_time s.
  Proof.
    intros HC RC HT. unfold time_of in HT.
    destruct (dget (c_times c) name) as [s|] eqn:E; [|discriminate]. injection HT as <-.
    destruct (lookup_time tl name) as [t|] eqn:L.
    - destruct (reachable_tslot _ _ _ _ RC (new_controls_tslot _ _ _ _ _ _ HC L)) as (s' & E' & M).
      rewrite E in E'. injection E' as <-. eauto 6.
    - exfalso. assert (K0 : dget (c_times c0) name = None).
      { unfold new_controls in HC. apply rbind_ok in HC as ([ps m] & _ & HC). apply rbind_ok in HC as (ts & Ht & HC). injection HC as <-.
        cbn [c_times]. pose proof (new_times_dget _ _ _ name Ht) as K. now rewrite L in K. }
      assert (KS : forall x d d', set_times x d = Ok d' -> dget d name = None -> dget d' name = None).
      { intros x d. unfold set_times. induction d as [|[k t] d IH]; intros d' H Hn; cbn in H.
        - now injection H as <-.
        - apply rbind_ok in H as (b & Hb & H). apply rbind_ok in H as (bs & Hbs & H). injection H as <-.
          apply rbind_ok in Hb as (t' & _ & Hb). injection Hb as <-. cbn in *. destruct (String.eqb name k); [discriminate|]. now apply IH. }
      assert (K : dget (c_times c) name = None).
      { clear - RC K0 KS. induction RC as [c|c c1 c2 x d RC IH HG|c c1 c2 x d RC IH HG|c c1 c2 x RC IH HG|c c1 c2 rs p q RC IH HG]; auto.
        - unfold get_controls_lists in HG. apply rbind_ok in HG as (ts & Ht & HG). apply rbind_ok in HG as (ps & _ & HG). apply rbind_ok in HG as (rs & _ & HG).
          injection HG as <- _. cbn. eapply KS; eauto.
        - unfold get_bare_controls_lists in HG. apply rbind_ok in HG as (ps & _ & HG). injection HG as <- _. cbn. auto.
        - unfold update_base_controls in HG. apply rbind_ok in HG as (ts & Ht & HG). apply rbind_ok in HG as (ps & _ & HG). apply rbind_ok in HG as (rs & _ & HG).
          injection HG as <-. cbn. eapply KS; eauto.
        - rewrite (select_from_times _ _ _ _ _ _ HG). auto. }
      congruence.
  Qed.
End GenTimes.

Section RealProps.
  Open Scope R_scope.

  (** C05, C08: durations and grids *)
  Lemma duration_range pl tl rl c0 c name T :
    new_controls (N := Rnum) pl tl rl = Ok c0 -> reachable c0 c -> time_of (c_times c) name = Ok T ->
    exists t, lookup_time tl name = Some t /\
      (tf_opt t = false -> T = tf_value t) /\
      (tf_opt t = true -> tf_lower t < tf_upper t -> tf_lower t <= tf_value t <= tf_upper t -> tf_lower t <= T <= tf_upper t).
  Proof.
    intros HC RC HT. destruct (time_of_cfg _ _ _ _ _ _ _ HC RC HT) as (t & s & L & _ & M & ->).
    exists t. split; [exact L|]. exact (get_time_range _ _ M).
  Qed.

  Lemma initial_duration pl tl rl c0 name T :
    new_controls (N := Rnum) pl tl rl = Ok c0 -> time_of (c_times c0) name = Ok T ->
    exists t, lookup_time tl name = Some t /\ T = tf_value t.
  Proof.
    intros HC HT. unfold time_of in HT. destruct (dget (c_times c0) name) as [s|] eqn:E; [|discriminate]. injection HT as <-.
    unfold new_controls in HC. apply rbind_ok in HC as ([ps m] & _ & HC). apply rbind_ok in HC as (ts & Ht & HC). injection HC as <-. cbn [c_times] in E.
    assert (H : forall l d d', new_times (N := Rnum) l d = Ok d' ->
       (forall n q, dget d n = Some q -> exists t, lookup_time tl n = Some t /\ get_time q = tf_value t \/ False) -> True) by auto. clear H.
    (* every object created holds its initial value *)
    assert (H : forall (l : list time_cfg) d d', new_times (N := Rnum) l d = Ok d' -> forall q, dget d' name = Some q ->
       match lookup_time l name with Some t => get_time q = tf_value t | None => dget d name = Some q end).
    { clear. induction l as [|f l IH]; intros d d' H q Hq; cbn in H.
      - cbn. now injection H as <-.
      - apply rbind_ok in H as (t & Ht & H). specialize (IH _ _ H _ Hq).
        unfold lookup_time in *. cbn [rev].
        assert (FA : forall (P : time_cfg -> bool) a b, find P (a ++ b) = match find P a with Some x => Some x | None => find P b end).
        { intros P a b; induction a as [|y a IHa]; cbn; [reflexivity|]. destruct (P y); auto. }
        rewrite FA. destruct (find _ (rev l)); [assumption|]. cbn [find].
        destruct (String.eqb_spec name (tf_name f)) as [->|NE].
        + rewrite dget_dset_same in IH. injection IH as <-.
          unfold new_time in Ht. destruct (tf_opt f).
          * destruct (neqb _ _); [discriminate|]. injection Ht as <-. unfold get_time; cbn. lra.
          * injection Ht as <-. reflexivity.
        + rewrite dget_dset_other in IH by congruence. exact IH. }
    specialize (H _ _ _ Ht _ E). destruct (lookup_time tl name) as [t|] eqn:L; [eauto|]. discriminate.
  Qed.

  Lemma delivered_grid pl tl rl c0 c x c' d i f g :
    new_controls (N := Rnum) pl tl rl = Ok c0 -> reachable c0 c -> get_controls_lists x c = Ok (c', d) ->
    nth_error pl i = Some f -> plain_basis f -> nth_error (d_timegrids d) i = Some g ->
    exists T, time_of (c_times c') (pf_time_name f) = Ok T /\ equally_spaced T (pf_bins f) g.
  Proof.
    intros HC RC HG Ef PB Eg.
    destruct (delivered_grid_nth _ _ _ _ _ _ HG Eg) as (p & t & Ep & Et & ->).
    destruct (good_reachable _ _ _ _ PB RC (good_new _ _ _ _ _ _ HC Ef)) as (p' & Ep' & [M _]).
    rewrite Ep in Ep'. injection Ep' as <-. rewrite (cm_time_name _ _ M) in Et.
    exists (get_time t). split; [unfold time_of; now rewrite Et|]. rewrite (cm_bins _ _ M). apply linspace0_spaced.
  Qed.

  Lemma spaced_facts T n g : equally_spaced T n g ->
    (forall x, nth_error g 0 = Some x -> x = 0) /\
    ((2 <= n)%nat -> nth_error g (n - 1) = Some T) /\
    (0 <= T -> forall j k x y, (j <= k)%nat -> nth_error g j = Some x -> nth_error g k = Some y -> x <= y) /\
    (0 <= T -> forall x, In x g -> 0 <= x <= T).
  Proof.
    intros [L E].
    assert (LT : forall j x, nth_error g j = Some x -> (j < n)%nat) by (intros j x H; rewrite <- L; apply nth_error_Some; congruence).
    assert (P1 : forall m, (1 <= m)%nat -> 0 < INR m) by (intros m Hm; apply (lt_INR 0); lia).
    repeat split.
    - intros x H. assert (J := LT _ _ H). rewrite E in H by exact J. injection H as <-. destruct (Nat.eqb n 1); [reflexivity|]. cbn. lra.
    - intros H. rewrite E by lia. destruct (Nat.eqb_spec n 1); [lia|]. f_equal. field.
      assert (0 < INR (n - 1)) by (apply P1; lia). lra.
    - intros HT j k x y JK Hx Hy. assert (J := LT _ _ Hx). assert (K := LT _ _ Hy). rewrite E in Hx, Hy by assumption. injection Hx as <-. injection Hy as <-.
      destruct (Nat.eqb_spec n 1); [lra|]. assert (0 < INR (n - 1)) by (apply P1; lia).
      apply Rmult_le_compat_r; [|now apply le_INR]. apply Rmult_le_pos; [lra|]. left; now apply Rinv_0_lt_compat.
    - apply In_nth_error in H0 as (j & Hx). assert (J := LT _ _ Hx). rewrite E in Hx by assumption. injection Hx as <-.
      destruct (Nat.eqb_spec n 1); [lra|]. assert (0 < INR (n - 1)) by (apply P1; lia).
      apply Rmult_le_pos; [apply pos_INR|]. apply Rmult_le_pos; [lra|]. left; now apply Rinv_0_lt_compat.
    - apply In_nth_error in H0 as (j & Hx). assert (J := LT _ _ Hx). rewrite E in Hx by assumption. injection Hx as <-.
      destruct (Nat.eqb_spec n 1); [lra|]. assert (0 < INR (n - 1)) by (apply P1; lia).
      apply Rmult_le_reg_r with (INR (n - 1)); [assumption|].
      replace (INR j * (T / INR (n - 1)) * INR (n - 1)) with (INR j * T) by (field; lra).
      rewrite (Rmult_comm T). apply Rmult_le_compat_r; [lra|]. apply le_INR. lia.
  Qed.

  (** C13 *)
  Lemma uniform_bins k (a b : R) r w : uniform_super_parameters (N := Rnum) k a b r = Ok w -> length r = k ->
    a <= b -> (forall y, In y r -> 0 <= y < 1) ->
    length w = k /\ forall i y, nth_error w i = Some y ->
      a + INR i * ((b - a) / INR k) <= y /\ (a < b -> y < a + INR (i + 1) * ((b - a) / INR k)).
  Proof.
    intros H L AB HR. split; [exact (uniform_length _ _ _ _ _ H L)|]. unfold uniform_super_parameters in H.
    destruct (Nat.eqb_spec k 0); [discriminate|]. injection H as <-.
    intros i y Hy. rewrite map2_nth in Hy.
    assert (Li : (i < k)%nat).
    { destruct (Nat.lt_ge_cases i k) as [|GE]; [assumption|]. exfalso.
      rewrite (proj2 (nth_error_None (seq 0 k) i)) in Hy by (rewrite seq_length; exact GE). discriminate Hy. }
    rewrite nth_error_seq_lt in Hy by exact Li.
    match type of Hy with match ?e with _ => _ end = _ => destruct e as [q|] eqn:Eq end; [|discriminate Hy]. injection Hy as <-.
    assert (HQ := HR _ (nth_error_In _ _ Eq)). cbn [nadd nmul ndiv nsub of_Z Rnum Nat.add].
    rewrite <- !INR_IZR_INZ. rewrite plus_INR. cbn [INR].
    assert (0 < INR k) by (apply (lt_INR 0); lia).
    assert (D0 : 0 <= (b - a) / INR k) by (apply Rmult_le_pos; [lra|left; now apply Rinv_0_lt_compat]).
    split; [nra|]. intros AB'. assert (0 < (b - a) / INR k) by (apply Rmult_lt_0_compat; [lra|now apply Rinv_0_lt_compat]). nra.
  Qed.

  Lemma uniform_increasing k (a b : R) r w : uniform_super_parameters (N := Rnum) k a b r = Ok w -> length r = k ->
    a < b -> (forall y, In y r -> 0 <= y < 1) ->
    (forall y, In y w -> a <= y < b) /\
    (forall i j x y, (i < j)%nat -> nth_error w i = Some x -> nth_error w j = Some y -> x < y).
  Proof.
    intros H L AB HR. destruct (uniform_bins k a b r w H L ltac:(lra) HR) as [LW B].
    assert (K : k <> 0%nat) by (intros ->; unfold uniform_super_parameters in H; discriminate).
    assert (K0 : 0 < INR k) by (apply (lt_INR 0); lia).
    assert (D : 0 < (b - a) / INR k) by (apply Rmult_lt_0_compat; [lra|now apply Rinv_0_lt_compat]).
    assert (DK : INR k * ((b - a) / INR k) = b - a) by (field; lra).
    split.
    - intros y Hy. apply In_nth_error in Hy as (i & Hi). destruct (B _ _ Hi) as [B1 B2]. specialize (B2 AB).
      assert (Li : (i < k)%nat) by (rewrite <- LW; apply nth_error_Some; congruence).
      assert (0 <= INR i) by apply pos_INR. assert (INR (i + 1) <= INR k) by (apply le_INR; lia). split; nra.
    - intros i j x y IJ Hx Hy. destruct (B _ _ Hx) as [_ B2]. specialize (B2 AB). destruct (B _ _ Hy) as [B1 _].
      assert (INR (i + 1) <= INR j) by (apply le_INR; lia). nra.
  Qed.

  (** the super-parameters of a pulse object lie one in each bin *)
  Definition one_per_bin (p : pulse (N := Rnum)) : Prop :=
    match pc_dist (core p) with
    | None => True
    | Some (k, a, b) => a <= b -> length (pc_w (core p)) = k /\
        forall i y, nth_error (pc_w (core p)) i = Some y ->
          a + INR i * ((b - a) / INR k) <= y /\ (a < b -> y < a + INR (i + 1) * ((b - a) / INR k))
    end.

  Lemma bins_indexes i c : has one_per_bin i c -> has one_per_bin i (update_control_parameter_indexes c).
  Proof.
    intros (p & E & M). unfold update_control_parameter_indexes, has.
    destruct (reindex_pulses (-1) (c_pulses c)) as [ps m] eqn:Rx. cbn [c_pulses].
    destruct (reindex_pulses_nth (-1) _ _ _ E) as (m' & E'). rewrite Rx in E'. cbn in E'. eauto.
  Qed.

  Lemma indexes_plain (c : controls (N := Rnum)) : Forall plain (c_pulses c) ->
    Forall plain (c_pulses (update_control_parameter_indexes c)) /\
    length (c_pulses (update_control_parameter_indexes c)) = length (c_pulses c).
  Proof.
    intros H. unfold update_control_parameter_indexes. pose proof (reindex_plain (-1) _ H) as G.
    assert (L : length (fst (reindex_pulses (-1) (c_pulses c))) = length (c_pulses c)).
    { rewrite <- (map_length (fun p => pc_base (core p)) (fst _)), reindex_bases. apply map_length. }
    destruct (reindex_pulses (-1) (c_pulses c)). split; assumption.
  Qed.

  Lemma select_from_bins rs : (forall n, 0 <= rs n < 1) -> forall idx pos c c' pos' i,
    Forall plain (c_pulses c) -> (forall j, In j idx -> (j < length (c_pulses c))%nat) ->
    select_basis_from (N := Rnum) rs idx pos c = Ok (c', pos') ->
    (In i idx \/ has one_per_bin i c) -> has one_per_bin i c'.
  Proof.
    intros HR. induction idx as [|j idx IH]; intros pos c c' pos' i PL BD H D.
    { injection H as <- _. destruct D as [[]|D]; exact D. }
    cbn in H. destruct (nth_error (c_pulses c) j) as [p|] eqn:Ep.
    2:{ exfalso. apply nth_error_None in Ep. apply (Nat.lt_irrefl (length (c_pulses c))).
        eapply Nat.le_lt_trans; [exact Ep|]. apply BD. now left. }
    pose proof (Forall_nth_error _ _ _ _ PL Ep) as PP.
    destruct (pc_dist (core p)) as [[[k a] b]|] eqn:Ed.
    2:{ apply (IH _ _ _ _ i PL (fun n Hn => BD n (or_intror Hn)) H). destruct D as [[->|D]|D]; auto.
        right. exists p. split; [exact Ep|]. unfold one_per_bin. now rewrite Ed. }
    apply rbind_ok in H as (w & Hw & H).
    match type of H with select_basis_from _ _ _ (update_control_parameter_indexes ?x) = _ => set (c1 := x) in * end.
    assert (L1 : length (c_pulses c1) = length (c_pulses c)) by (unfold c1; cbn [c_pulses]; apply set_nth_length).
    assert (P1 : Forall plain (c_pulses c1)).
    { unfold c1; cbn [c_pulses]. apply Forall_forall. intros r Hr. apply In_nth_error in Hr as (n & Hn).
      destruct (Nat.eq_dec j n) as [->|NE].
      - rewrite set_nth_same in Hn by (apply nth_error_Some; congruence). injection Hn as <-. exact PP.
      - rewrite set_nth_other in Hn by assumption. eapply Forall_nth_error; eauto. }
    destruct (indexes_plain c1 P1) as [P2 L2].
    apply (IH _ _ _ _ i P2) in H; [exact H| |].
    { intros n Hn. rewrite L2, L1. apply BD. now right. }
    assert (OB : has one_per_bin j c1).
    { exists (with_core (chop p (set_w w (core p))) p). split.
      - unfold c1; cbn [c_pulses]. apply set_nth_same. apply nth_error_Some. congruence.
      - unfold one_per_bin. cbn [core with_core]. rewrite PP. cbn [pc_dist set_w pc_w]. rewrite Ed. intros AB.
        apply (uniform_bins k a b _ w Hw).
        + now rewrite map_length, seq_length.
        + exact AB.
        + intros y Hy. apply in_map_iff in Hy as (n & <- & _). apply HR. }
    destruct (Nat.eq_dec j i) as [->|NE].
    { right. now apply bins_indexes. }
    destruct D as [[E|D]|(q & Eq & Dq)]; [contradiction|now left|].
    right. apply bins_indexes. exists q. split; [|exact Dq]. unfold c1; cbn [c_pulses]. now rewrite set_nth_other.
  Qed.

  (** C13 at the level of the public operation *)
  Lemma select_bins pl tl rl c0 c rs pos c' pos' i f k a b :
    new_controls (N := Rnum) pl tl rl = Ok c0 -> Forall plain_basis pl -> reachable c0 c ->
    select_basis rs pos c = Ok (c', pos') -> (forall n, 0 <= rs n < 1) ->
    nth_error pl i = Some f -> pf_dist f = Some (k, a, b) -> a <= b ->
    exists p, nth_error (c_pulses c') i = Some p /\ length (pc_w (core p)) = k /\
      forall i y, nth_error (pc_w (core p)) i = Some y ->
          a + INR i * ((b - a) / INR k) <= y /\ (a < b -> y < a + INR (i + 1) * ((b - a) / INR k)).
  Proof.
    intros HC PB RC HS HR Ef Ed AB.
    assert (PF : plain_basis f) by (eapply Forall_nth_error; eauto).
    assert (WI := same_fix_wi _ _ (reachable_fix _ _ (new_controls_wi _ _ _ _ HC PB) RC) (new_controls_wi _ _ _ _ HC PB)).
    destruct (good_reachable _ _ _ _ PF RC (good_new _ _ _ _ _ _ HC Ef)) as (p & Ep & [M _]).
    destruct (good_reachable _ _ _ _ PF (reach_select _ _ _ _ _ _ RC HS) (good_new _ _ _ _ _ _ HC Ef)) as (p' & Ep' & [M' _]).
    assert (B : has one_per_bin i c').
    { apply (select_from_bins rs HR _ _ _ _ _ _ (proj1 WI)) with (2 := HS).
      - intros j Hj. apply in_seq in Hj. lia.
      - left. apply in_seq. split; [lia|]. apply nth_error_Some. congruence. }
    destruct B as (q & Eq & B). rewrite Ep' in Eq. injection Eq as <-.
    exists p'. split; [exact Ep'|]. unfold one_per_bin in B. rewrite (cm_dist _ _ M'), Ed in B. now apply B.
  Qed.

  (** durations that are never zero *)
  Definition nonzero_durations (tl : list (time_cfg (N := Rnum))) : Prop := forall t, In t tl ->
    if tf_opt t then 0 < tf_lower t < tf_upper t /\ tf_lower t <= tf_value t <= tf_upper t else tf_value t <> 0.

  Lemma lookup_time_in (tl : list (time_cfg (N := Rnum))) name t : lookup_time tl name = Some t -> In t tl.
  Proof. unfold lookup_time. intros H. apply find_some in H as [H _]. now apply in_rev. Qed.

  Lemma time_of_nonzero pl tl rl c0 c name T :
    new_controls (N := Rnum) pl tl rl = Ok c0 -> reachable c0 c -> nonzero_durations tl ->
    time_of (c_times c) name = Ok T -> T <> 0.
  Proof.
    intros HC RC NZ HT. destruct (duration_range _ _ _ _ _ _ _ HC RC HT) as (t & L & H1 & H2).
    specialize (NZ t (lookup_time_in _ _ _ L)). destruct (tf_opt t).
    - destruct NZ as [[A B] C]. specialize (H2 eq_refl B C). lra.
    - now rewrite H1.
  Qed.

  (** C30 *)
  Lemma bare_at_mean pl tl rl c0 c m c' us i f a :
    new_controls (N := Rnum) pl tl rl = Ok c0 -> reachable c0 c ->
    (forall f, In f pl -> plain_basis f /\ zero_at_offset f) -> nonzero_durations tl ->
    get_mean_value c = Ok m -> get_bare_controls_lists m c = Ok (c', us) ->
    nth_error pl i = Some f -> nth_error us i = Some a -> a = Ar (repeat 0 (pf_bins f)).
  Proof.
    intros HC RC HF NZ HM HB Ef Ea.
    assert (PB : Forall plain_basis pl) by (apply Forall_forall; intros g Hg; now apply HF).
    assert (FO : Forall (fun f => length (pf_offset f) = pf_nctrl f) pl).
    { apply Forall_forall. intros g Hg. now apply (proj2 (HF g Hg)). }
    rewrite (mean_value _ _ _ _ _ HC PB RC FO) in HM. injection HM as <-.
    destruct (HF f (nth_error_In _ _ Ef)) as [PBf [ZL ZO]].
    assert (WI := new_controls_wi _ _ _ _ HC PB). assert (SF := reachable_fix _ _ WI RC). assert (W := same_fix_wi _ _ SF WI).
    destruct (good_reachable _ _ _ _ PBf RC (good_new _ _ _ _ _ _ HC Ef)) as (p & Ep & GP).
    unfold get_bare_controls_lists in HB. apply rbind_ok in HB as (ps & HP & HB). injection HB as <- <-.
    rewrite nth_error_map in Ea. destruct (nth_error ps i) as [z|] eqn:Ez; [|discriminate Ea]. injection Ea as <-.
    destruct (rmap_nth_r _ _ _ _ _ HP Ez) as (p' & HP' & Ep'). rewrite Ep in Ep'. injection Ep' as <-.
    apply rbind_ok in HP' as (v & Hv & HP'). apply rbind_ok in HP' as (T & HT & HP').
    unfold get_bare_pulse in HP'. apply rbind_ok in HP' as (s & Hs & HP'). injection HP' as <-. cbn [snd].
    assert (Gm : gather (concat (map pf_offset pl) ++ map pa_value (c_params c)) (pc_indices (core p)) = Ok (pf_offset f)).
    { rewrite (wi_pulse_indices _ _ _ W Ep), (cm_nctrl _ _ (proj1 GP)).
      destruct (same_fix_sizes _ _ SF) as [S1 _]. destruct (new_controls_sizes _ _ _ _ HC) as [S2 _]. rewrite S1, S2.
      assert (SP : pl = firstn i pl ++ f :: skipn (S i) pl).
      { clear - Ef. revert i Ef. induction pl as [|g pl IH]; intros [|i] E; cbn in *; try discriminate.
        - injection E as ->. reflexivity. - f_equal. now apply IH. }
      assert (L1 : length (concat (map pf_offset (firstn i pl))) = offset_of (map pf_nctrl pl) i).
      { unfold offset_of. rewrite firstn_map. clear - FO. revert i. induction FO as [|g l Hg FO IH]; intros [|i]; try reflexivity.
        cbn [firstn map concat]. rewrite app_length, IH, lsum_cons. now rewrite Hg. }
      rewrite SP at 1. rewrite map_app, concat_app. cbn [map concat]. rewrite <- !app_assoc.
      rewrite <- L1, <- ZL. apply gather_seq. }
    pose proof (eq_trans (eq_sym Hv) Gm) as E. injection E as ->.
    cbn [prepare with_core shape] in Hs. rewrite (cm_shape _ _ (proj1 GP)) in Hs.
    rewrite (ZO _ (good_core_of _ _ (pf_offset f) T GP ZL) eq_refl) in Hs.
    - now injection Hs as <-.
    - cbn. exact (time_of_nonzero _ _ _ _ _ _ _ HC RC NZ HT).
  Qed.

  (** C02 *)
  Lemma rmap_set_nth {A B} (g : A -> res B) l l' i a b b' a' : rmap g l = Ok l' -> nth_error l i = Some a ->
    nth_error l' i = Some b -> g a' = Ok b' -> rmap g (set_nth l i a') = Ok (set_nth l' i b').
  Proof.
    revert l' i. induction l as [|z l IH]; intros l' i H Ea Eb Hb; [destruct i; discriminate|].
    cbn in H. apply rbind_ok in H as (y & Hy & H). apply rbind_ok in H as (ys & Hys & H). injection H as <-.
    destruct i; cbn in *.
    - now rewrite Hb, Hys.
    - rewrite Hy. cbn. now rewrite (IH _ _ Hys Ea Eb Hb).
  Qed.

  Lemma select_options_app l1 l2 : select_options (Some (l1 ++ l2)) = select_options (Some l1) ++ select_options (Some l2).
  Proof. cbn. induction l1; cbn; [reflexivity|]. rewrite IHl1. now rewrite app_assoc. Qed.
  Lemma select_options_unknown l : (forall s, In s l -> ~ In s known_options) -> select_options (Some l) = [].
  Proof.
    intros H. cbn. induction l as [|s l IH]; [reflexivity|]. cbn [flat_map].
    rewrite (unknown_none s) by (apply H; now left). apply IH. intros z Hz. apply H. now right.
  Qed.


  Lemma run_ops_opts {N : Num} f (p : pulse) l ops a : shape p = pf_shape f -> ignores_options f ->
    run_ops (with_core (set_options l (core p)) p) ops a = run_ops p ops a.
  Proof.
    intros SH IG. revert a. induction ops as [|o ops IH]; intros a; [reflexivity|]. cbn [run_ops].
    assert (E : apply_op (with_core (set_options l (core p)) p) o a = apply_op p o a).
    { destruct o; try reflexivity. cbn. rewrite SH, IG. reflexivity. }
    rewrite E. destruct (apply_op p o a); cbn; [apply IH|reflexivity].
  Qed.


  (** the delivered pulse is the limited image of what would be delivered without the last limit *)
  Lemma delivered_limited {N : Num} pl tl rl c0 c x c' d i f a pre post :
    new_controls pl tl rl = Ok c0 -> reachable c0 c -> get_controls_lists x c = Ok (c', d) ->
    nth_error pl i = Some f -> plain_basis f -> ignores_options f ->
    names_of f = pre ++ "limit_pulse"%string :: post -> (forall s, In s post -> ~ In s known_options) ->
    nth_error (d_pulses d) i = Some a ->
    exists u cu du p, get_controls_lists x (with_pulse_options i pre c) = Ok (cu, du) /\
      nth_error (d_pulses du) i = Some u /\ cfg_matches f p /\ get_limited_pulse (core p) u = Ok a.
  Proof.
    intros HC RC HG Ef PB IG NM PO Ea.
    destruct (good_reachable _ _ _ _ PB RC (good_new _ _ _ _ _ _ HC Ef)) as (p & Ep & [M _]).
    destruct (delivered_pulse_full _ _ _ _ _ _ HG Ea) as (p' & v & T & E' & Hv & HT & _ & _ & HGP).
    rewrite Ep in E'; injection E' as <-.
    unfold get_pulse in HGP. apply rbind_ok in HGP as (a' & HA & E). injection E as ->.
    unfold get_build_pulse in HA. cbn [prepare with_core core set_time_grid set_grid set_opt pc_options pc_bins] in HA.
    assert (OP : pc_options (core p) = select_options (Some pre) ++ [OpLimit]).
    { rewrite (cm_options _ _ M).
      assert (K : select_options (pf_options f) = select_options (Some (names_of f))) by (unfold names_of; now destruct (pf_options f)).
      rewrite K, NM, select_options_app. f_equal. change ("limit_pulse"%string :: post) with (["limit_pulse"%string] ++ post).
      rewrite select_options_app, (select_options_unknown post PO). reflexivity. }
    rewrite OP, run_ops_app in HA. apply rbind_ok in HA as (u & Hb & HA).
    cbn [run_ops] in HA. apply rbind_ok in HA as (a2 & HA & E). injection E as ->.
    exists u.
    (* the run without the limit *)
    unfold get_controls_lists in HG. apply rbind_ok in HG as (ts & Hts & HG). apply rbind_ok in HG as (ps & Hps & HG).
    apply rbind_ok in HG as (rs & Hrs & HG). injection HG as <- <-. cbn [d_pulses c_times] in *.
    rewrite nth_error_map in Ea. destruct (nth_error ps i) as [z|] eqn:Ez; [|discriminate Ea].
    set (q := with_core (set_options pre (core p)) p).
    unfold get_controls_lists, with_pulse_options. rewrite Ep. cbn [c_times c_pulses c_params]. rewrite Hts. cbn [rbind].
    fold q.
    assert (HQ : (v <-! gather x (pc_indices (core q)); t <-! time_of ts (pc_time_name (core q)); get_pulse v t q)
      = Ok (prepare v T q, u)).
    { unfold q at 1 2. cbn [with_core core set_options pc_indices pc_time_name]. rewrite Hv, HT. cbn [rbind].
      unfold get_pulse, get_build_pulse.
      assert (EQ : prepare v T q = with_core (set_options pre (core (prepare v T p))) (prepare v T p)) by reflexivity.
      rewrite EQ. rewrite (run_ops_opts f) by (exact (cm_shape _ _ M) || exact IG).
      cbn [prepare with_core core set_time_grid set_grid set_opt set_options pc_options pc_bins].
      now rewrite Hb. }
    rewrite (rmap_set_nth _ _ _ _ _ _ _ q Hps Ep Ez HQ). cbn [rbind]. rewrite Hrs. cbn [rbind].
    eexists. eexists. exists (prepare v T p). split; [reflexivity|]. cbn [d_pulses]. repeat split; auto; try (cbn; apply M).
    rewrite nth_error_map, set_nth_same; [reflexivity|]. apply nth_error_Some. congruence.
  Qed.

  Lemma delivered_cut {N : Num} (O : NumOrder N) pl tl rl c0 c x c' d i f a pre post :
    new_controls pl tl rl = Ok c0 -> reachable c0 c -> get_controls_lists x c = Ok (c', d) ->
    nth_error pl i = Some f -> plain_basis f -> ignores_options f -> pf_shrink f = false ->
    nisnan (pf_lower f) = false -> nisnan (pf_upper f) = false ->
    names_of f = pre ++ "limit_pulse"%string :: post -> (forall s, In s post -> ~ In s known_options) ->
    nth_error (d_pulses d) i = Some a ->
    exists u cu du, get_controls_lists x (with_pulse_options i pre c) = Ok (cu, du) /\
      nth_error (d_pulses du) i = Some u /\ samples a = map (cut (pf_lower f) (pf_upper f)) (samples u).
  Proof.
    intros HC RC HG Ef PB IG SH N1 N2 NM PO Ea.
    destruct (delivered_limited _ _ _ _ _ _ _ _ _ _ _ _ _ HC RC HG Ef PB IG NM PO Ea) as (u & cu & du & p & H1 & H2 & M & H3).
    exists u, cu, du. repeat split; auto. unfold get_limited_pulse in H3. rewrite (cm_shrink _ _ M), SH in H3.
    injection H3 as <-. rewrite (cm_lower _ _ M), (cm_upper _ _ M).
    destruct u as [y|l]; cbn [samples amap map].
    - now rewrite (clip_cut f y O N1 N2).
    - apply map_ext. intros y. apply (clip_cut f y O N1 N2).
  Qed.

  (** C02 at the level of delivered pulses: [u] is what would be delivered without the last limit *)
  Lemma delivered_shrunk pl tl rl c0 c x c' d i f a pre post :
    new_controls (N := Rnum) pl tl rl = Ok c0 -> reachable c0 c -> get_controls_lists x c = Ok (c', d) ->
    nth_error pl i = Some f -> plain_basis f -> ignores_options f -> pf_shrink f = true ->
    names_of f = pre ++ "limit_pulse"%string :: post -> (forall s, In s post -> ~ In s known_options) ->
    nth_error (d_pulses d) i = Some a ->
    exists u v cu du, get_controls_lists x (with_pulse_options i pre c) = Ok (cu, du) /\
      nth_error (d_pulses du) i = Some (Ar u) /\ a = Ar v /\
      shrink_list (N := Rnum) (Rmin (pf_lower f) (pf_upper f)) (Rmax (pf_lower f) (pf_upper f)) u = Ok v.
  Proof.
    intros HC RC HG Ef PB IG SH NM PO Ea.
    destruct (delivered_limited _ _ _ _ _ _ _ _ _ _ _ _ _ HC RC HG Ef PB IG NM PO Ea) as (b & cu & du & p & H1 & H2 & M & HA).
    unfold get_limited_pulse in HA.
    rewrite (cm_shrink _ _ M), SH in HA. destruct b as [|u]; [discriminate HA|].
    apply rbind_ok in HA as (r & HR & E). injection E as <-.
    rewrite (cm_lower _ _ M), (cm_upper _ _ M) in HR.
    assert (LO : (if nltb (Num := Rnum) (pf_upper f) (pf_lower f) then pf_upper f else pf_lower f) = Rmin (pf_lower f) (pf_upper f)).
    { destruct (nltb _ _) eqn:E; [apply Rltb_iff in E|apply Rltb_iff0 in E].
      - rewrite Rmin_right by lra. reflexivity. - rewrite Rmin_left by lra. reflexivity. }
    assert (HI : (if nltb (Num := Rnum) (pf_upper f) (pf_lower f) then pf_lower f else pf_upper f) = Rmax (pf_lower f) (pf_upper f)).
    { destruct (nltb _ _) eqn:E; [apply Rltb_iff in E|apply Rltb_iff0 in E].
      - rewrite Rmax_left by lra. reflexivity. - rewrite Rmax_right by lra. reflexivity. }
    rewrite LO, HI in HR.
    exists u, r, cu, du. auto.
  Qed.

  (** C02: limits, affine image, identity *)
  Lemma delivered_shrink_spec pl tl rl c0 c x c' d i f a pre post :
    new_controls (N := Rnum) pl tl rl = Ok c0 -> reachable c0 c -> get_controls_lists x c = Ok (c', d) ->
    nth_error pl i = Some f -> plain_basis f -> ignores_options f -> pf_shrink f = true ->
    names_of f = pre ++ "limit_pulse"%string :: post -> (forall s, In s post -> ~ In s known_options) ->
    nth_error (d_pulses d) i = Some a ->
    let lo := Rmin (pf_lower f) (pf_upper f) in let hi := Rmax (pf_lower f) (pf_upper f) in
    exists u cu du, get_controls_lists x (with_pulse_options i pre c) = Ok (cu, du) /\
      nth_error (d_pulses du) i = Some (Ar u) /\
      (forall y, In y (samples a) -> lo <= y <= hi) /\
      ((forall y, In y u -> lo <= y <= hi) -> a = Ar u) /\
      ((exists y, In y u /\ y < hi) -> (exists y, In y u /\ lo < y) ->
         exists k b, 0 <= k <= 1 /\ (lo < hi -> 0 < k) /\ a = Ar (map (fun y => k * y + b) u)) /\
      ((forall y, In y u -> hi <= y) -> a = Ar (map (fun _ => hi) u)) /\
      ((forall y, In y u -> y <= lo) -> a = Ar (map (fun _ => lo) u)).
  Proof.
    intros HC RC HG Ef PB IG SH NM PO Ea lo hi.
    destruct (delivered_shrunk _ _ _ _ _ _ _ _ _ _ _ _ _ HC RC HG Ef PB IG SH NM PO Ea) as (u & v & cu & du & H1 & H2 & -> & H3).
    exists u, cu, du. split; [exact H1|]. split; [exact H2|]. fold lo hi in H3.
    assert (LH : lo <= hi) by (unfold lo, hi; apply Rle_trans with (pf_lower f); [apply Rmin_l|apply Rmax_l]).
    destruct (shrink_list_spec lo hi u v LH H3) as (S1 & S2 & S3 & S4 & S5).
    split; [exact S1|]. split; [intros H; now rewrite S2|]. split.
    - intros (y1 & I1 & L1) (y2 & I2 & L2).
      destruct S5 as (k & b & K1 & K2 & K3).
      + intros Z. specialize (Z _ I1). lra.
      + intros Z. specialize (Z _ I2). lra.
      + exists k, b. repeat split; try lra. now rewrite K3.
    - split; intros H; [now rewrite S3|now rewrite S4].
  Qed.
End RealProps.

Section SigmaTimes.
  Context {N : Num}.

  Lemma reachable_esst (c0 c : controls) : reachable c0 c ->
    map (fun kt => (fst kt, esst (snd kt))) (c_times c) = map (fun kt => (fst kt, esst (snd kt))) (c_times c0).
  Proof.
    intros RC. induction RC as [c|c c1 c2 x d RC IH HG|c c1 c2 x d RC IH HG|c c1 c2 x RC IH HG|c c1 c2 rs p q RC IH HG]; auto.
    - rewrite <- IH. unfold get_controls_lists in HG. apply rbind_ok in HG as (ts & Ht & HG). apply rbind_ok in HG as (ps & _ & HG).
      apply rbind_ok in HG as (rs & _ & HG). injection HG as <- _. exact (set_times_ess_r _ _ _ Ht).
    - rewrite <- IH. unfold get_bare_controls_lists in HG. apply rbind_ok in HG as (ps & _ & HG). injection HG as <- _. reflexivity.
    - rewrite <- IH. unfold update_base_controls in HG. apply rbind_ok in HG as (ts & Ht & HG). apply rbind_ok in HG as (ps & _ & HG).
      apply rbind_ok in HG as (rs & _ & HG). injection HG as <-. exact (set_times_ess_r _ _ _ Ht).
    - rewrite <- IH. now rewrite (select_from_times _ _ _ _ _ _ HG).
  Qed.

  (** what every optimised duration contributes *)
  Definition alpha_of (tl : list time_cfg) (a : param) : Prop :=
    exists t, In t tl /\ tf_opt t = true /\ pa_indices a = [(tf_map_index t + 1)%Z] /\
      pa_ampl a = (tf_ampl t / (tf_upper t - tf_lower t))%num.

  Lemma new_times_alpha tl0 tl d d' : (forall t, In t tl -> In t tl0) -> new_times tl d = Ok d' ->
    (forall k s a, In (k, s) d -> ti_alpha s = Some a -> alpha_of tl0 a) ->
    forall k s a, In (k, s) d' -> ti_alpha s = Some a -> alpha_of tl0 a.
  Proof.
    revert d. induction tl as [|t tl IH]; intros d SUB H HD; cbn in H; [now injection H as <-|].
    apply rbind_ok in H as (s & Hs & H). apply (IH _ (fun u Hu => SUB u (or_intror Hu)) H).
    assert (NT : forall a, ti_alpha s = Some a -> alpha_of tl0 a).
    { intros a Ha. exists t. unfold new_time in Hs. destruct (tf_opt t) eqn:O.
      - destruct (neqb _ _); [discriminate|]. injection Hs as <-. cbn in Ha. injection Ha as <-.
        split; [apply SUB; now left|]. split; [reflexivity|]. split; [|reflexivity]. cbn. f_equal. lia.
      - injection Hs as <-. discriminate Ha. }
    intros k s' a Hin. clear - Hin NT HD. induction d as [|[k0 s0] d IHd]; cbn in Hin.
    - destruct Hin as [E|[]]. injection E as <- <-. apply NT.
    - destruct (String.eqb (tf_name t) k0).
      + destruct Hin as [E|Hin].
        * injection E as <- <-. apply NT.
        * apply (HD k s' a). now right.
      + destruct Hin as [E|Hin].
        * apply (HD k s' a). left. exact E.
        * apply IHd; auto. intros k1 s1 a1 H1. apply (HD k1 s1 a1). now right.
  Qed.

  Lemma optimised_alpha pl tl rl c0 c a : new_controls pl tl rl = Ok c0 -> reachable c0 c ->
    In a (optimised_times c) -> alpha_of tl a.
  Proof.
    intros HC RC Ha. unfold optimised_times in Ha. apply in_flat_map in Ha as ((k & s) & Hin & Ha).
    assert (E := reachable_esst _ _ RC).
    assert (HE : In (k, esst s) (map (fun kt => (fst kt, esst (snd kt))) (c_times c0))).
    { rewrite <- E. apply in_map_iff. now exists (k, s). }
    apply in_map_iff in HE as ((k0 & s0) & E0 & Hin0). cbn in E0. injection E0 as <- _ _ E3.
    cbn in Ha. destruct (ti_alpha s) as [a'|]; [|contradiction]. destruct Ha as [<-|[]]. cbn in E3.
    unfold new_controls in HC. apply rbind_ok in HC as ([ps m] & _ & HC). apply rbind_ok in HC as (ts & Ht & HC). injection HC as <-. cbn [c_times] in Hin0.
    destruct (ti_alpha s0) as [a0|] eqn:A0; [|discriminate E3]. cbn in E3. unfold essr in E3. injection E3 as E4 _ _ E5 E6 _.
    destruct (new_times_alpha tl tl [] ts (fun _ H => H) Ht ltac:(now intros ? ? ? []) _ _ _ Hin0 A0) as (t & T1 & T2 & T3 & T4).
    exists t. rewrite <- E5, <- E6. auto.
  Qed.

  Lemma sigma_times pl tl rl c0 c :
    new_controls pl tl rl = Ok c0 -> Forall plain_basis pl -> reachable c0 c ->
    Forall (fun f => length (pf_scale f) = pf_nctrl f) pl -> (pl <> [] \/ rl <> []) ->
    (forall t, In t tl -> tf_map_index t = (-1)%Z) ->
    exists w, get_sigma_variation c = Ok w /\
      let plain := concat (map pf_scale pl) ++ map rf_ampl rl in
      length w = length plain /\ (forall j, j <> 0%nat -> nth_error w j = nth_error plain j) /\
      (optimised_times c <> [] -> exists t, In t tl /\ tf_opt t = true /\
         nth_error w 0 = Some (tf_ampl t / (tf_upper t - tf_lower t))%num).
  Proof.
    intros HC PB RC F NE MI. destruct (pulse_lists _ _ _ _ _ HC PB RC) as (_ & E2 & E3 & E4).
    assert (WI := new_controls_wi _ _ _ _ HC PB).
    unfold get_sigma_variation. rewrite app_assoc, scatter_all_app.
    rewrite (scatter_controls (fun p => pc_scale (core p)) pa_ampl).
    2:{ eapply same_fix_wi; [eapply reachable_fix|]; eauto. }
    2:{ eapply lengths_of_lists; eauto. }
    cbn [rbind]. rewrite E2, E4.
    assert (NZ : concat (map pf_scale pl) ++ map rf_ampl rl <> []).
    { intros Z. apply app_eq_nil in Z as [Z1 Z2]. destruct NE as [NE|NE].
      - destruct pl as [|f pl]; [congruence|]. cbn in Z1. apply app_eq_nil in Z1 as [Z1 _].
        unfold new_controls in HC. apply rbind_ok in HC as ([ps m] & HP & _). destruct (new_pulses_chained _ _ _ _ HP) as (_ & _ & _ & _ & _ & K).
        inversion F; inversion K; subst. apply (f_equal (@length _)) in Z1. cbn in Z1. congruence.
      - destruct rl; [congruence|discriminate]. }
    destruct (sigma_all_zero (optimised_times c) _ NZ) as (w & W1 & W2 & W3 & W4).
    { intros a Ha. destruct (optimised_alpha _ _ _ _ _ _ HC RC Ha) as (t & T1 & _ & T3 & _). rewrite T3, (MI _ T1). reflexivity. }
    exists w. split; [exact W1|]. cbn. repeat split; auto.
    intros NO. destruct (W4 NO) as (a & Ha & Ew). destruct (optimised_alpha _ _ _ _ _ _ HC RC Ha) as (t & T1 & T2 & _ & T4).
    exists t. now rewrite <- T4.
  Qed.
End SigmaTimes.

Section Pinned.
  Lemma base_regular {N : Num} pl tl rl c0 c i f : new_controls pl tl rl = Ok c0 -> Forall plain_basis pl -> reachable c0 c ->
    nth_error pl i = Some f -> regular_update f -> exists b, base_of c i = Some (Ar b) /\ length b = pf_bins f.
  Proof.
    intros HC PB R Ef RU. destruct (pf_overwrite f) eqn:OV; [|eapply base_array; eauto].
    assert (PBf := Forall_nth_error _ _ _ _ PB Ef).
    assert (G0 := good_new _ _ _ _ _ _ HC Ef).
    assert (WI := new_controls_wi _ _ _ _ HC PB).
    assert (B0 := new_base _ _ _ _ _ _ HC Ef). clear HC.
    induction R as [c|c c1 c2 x d R IH H|c c1 c2 x d R IH H|c c1 c2 x R IH H|c c1 c2 rs p q R IH H].
    - eexists; split; [exact B0|apply repeat_length].
    - rewrite base_of_bases, (get_controls_bases _ _ _ _ H), <- base_of_bases. auto.
    - rewrite base_of_bases, (get_bare_bases _ _ _ _ H), <- base_of_bases. auto.
    - destruct (good_reachable _ _ _ _ PBf R G0) as (p & Ep & GP).
      destruct (update_base_slot _ _ _ _ _ (ex_intro _ p (conj Ep (proj1 GP))) H) as (q & Eq & Mq).
      destruct (update_base_base _ _ _ _ _ H Eq) as (p' & v' & T' & s & E' & Hv & _ & Hs & K).
      rewrite Ep in E'; injection E' as <-. rewrite (cm_overwrite _ _ (proj1 GP)), OV in K.
      rewrite (cm_shape _ _ (proj1 GP)) in Hs.
      assert (W := same_fix_wi _ _ (reachable_fix _ _ WI R) WI).
      assert (Lv : length v' = pf_nctrl f).
      { apply rmap_length in Hv. rewrite Hv, (wi_pulse_indices _ _ _ W Ep), map_length, seq_length. apply GP. }
      destruct (RU _ _ (good_core_of _ _ _ _ GP Lv) Hs) as (l & -> & Ll).
      exists l. unfold base_of. rewrite Eq, K. auto.
    - assert (W1 : well_indexed c1) by (eapply same_fix_wi; [eapply reachable_fix|]; eauto).
      rewrite base_of_bases. destruct (select_bases _ _ _ _ _ _ (proj1 W1) H) as [-> _]. rewrite <- base_of_bases. auto.
  Qed.

  Open Scope R_scope.
  Lemma cut_R_idem l u x : cut (N := Rnum) l u (cut (N := Rnum) l u x) = cut (N := Rnum) l u x.
  Proof.
    rewrite !Rcut_clip. pose proof (Rmin_l l u). pose proof (Rmax_l l u).
    set (lo := Rmin l u) in *. set (hi := Rmax l u) in *. set (z := Rmin x hi).
    assert (z <= hi) by apply Rmin_r. assert (lo <= Rmax lo z) by apply Rmax_l.
    assert (Rmax lo z <= hi) by (apply Rmax_lub; lra).
    rewrite (Rmin_left (Rmax lo z)) by assumption. now rewrite (Rmax_right lo (Rmax lo z)).
  Qed.

  Lemma pinned_nth {N : Num} f (gs ss b l : list num) j y s bj lj :
    pf_options f = Some ["add_base_pulse"; "add_new_update_pulse"; "scale_pulse"; "add_initial_guess"; "limit_pulse"]%string ->
    (j < pf_bins f)%nat ->
    nth_error gs j = Some y -> nth_error ss j = Some s -> nth_error b j = Some bj -> nth_error l j = Some lj ->
    nth_error (pipeline f {| i_guess := gs; i_scaling := ss; i_base := b; i_update := l |}) j =
    Some (cut (pf_lower f) (pf_upper f) (cut (pf_lower f) (pf_upper f) y + s * (of_Z 0 + bj + lj)))%num.
  Proof.
    intros OP J E1 E2 E3 E4. unfold pipeline, names_of. rewrite OP.
    cbn [fold_left option_effect String.eqb Ascii.eqb Bool.eqb i_guess i_scaling i_base i_update].
    rewrite nth_error_map, map2_nth, nth_error_map, E1. cbn [option_map].
    rewrite map2_nth, E2, map2_nth, map2_nth, E3, E4.
    assert (EZ : nth_error (repeat (of_Z 0) (pf_bins f)) j = Some (of_Z 0)).
    { clear - J. revert j J. induction (pf_bins f) as [|n IH]; intros [|j] J; cbn; try lia; auto. apply IH. lia. }
    now rewrite EZ.
  Qed.

  (** C04 *)
  Lemma pinned pl tl rl c0 c x c' d i f a g gs ss j :
    new_controls (N := Rnum) pl tl rl = Ok c0 -> Forall plain_basis pl -> reachable c0 c -> get_controls_lists x c = Ok (c', d) ->
    nth_error pl i = Some f -> regular_update f -> pf_shrink f = false ->
    pf_options f = Some ["add_base_pulse"; "add_new_update_pulse"; "scale_pulse"; "add_initial_guess"; "limit_pulse"]%string ->
    nth_error (d_pulses d) i = Some a -> nth_error (d_timegrids d) i = Some g ->
    guess_samples f g = Some gs -> scaling_samples f g = Some ss -> nth_error ss j = Some 0 ->
    exists y, nth_error gs j = Some y /\ nth_error (samples a) j = Some (cut (N := Rnum) (pf_lower f) (pf_upper f) y).
  Proof.
    intros HC PB RC HG Ef RU SH OP Ea Eg Egs Ess Ej. assert (PBf := Forall_nth_error _ _ _ _ PB Ef).
    destruct (good_reachable _ _ _ _ PBf RC (good_new _ _ _ _ _ _ HC Ef)) as (p & Ep & GP). destruct GP as [M GW].
    destruct (delivered_pulse_full _ _ _ _ _ _ HG Ea) as (p' & v & T & E' & Hv & HT & Hgr & Ep' & HGP).
    rewrite Ep in E'; injection E' as <-. rewrite Eg in Hgr. injection Hgr as Hgr.
    destruct (base_regular _ _ _ _ _ _ _ HC PB RC Ef RU) as (b & Eb & Lb). unfold base_of in Eb. rewrite Ep in Eb. injection Eb as Eb.
    assert (US : exists l, shape p (core (prepare v T p)) = Ok (Ar l) /\ length l = pf_bins f).
    { pose proof HGP as K. unfold get_pulse, get_build_pulse in K. cbn [prepare with_core core set_time_grid set_grid set_opt pc_options] in K.
      rewrite (cm_options _ _ M), OP in K. apply rbind_ok in K as (a1 & K & _). cbn [select_options flat_map shaping_op_of_name String.eqb Ascii.eqb Bool.eqb app run_ops] in K.
      apply rbind_ok in K as (a2 & _ & K). apply rbind_ok in K as (a3 & K & _). cbn [apply_op] in K. apply rbind_ok in K as (s & Hs & _).
      change (shape p (core (prepare v T p)) = Ok s) in Hs. rewrite (cm_shape _ _ M) in Hs.
      assert (W := same_fix_wi _ _ (reachable_fix _ _ (new_controls_wi _ _ _ _ HC PB) RC) (new_controls_wi _ _ _ _ HC PB)).
      assert (Lv : length v = pf_nctrl f).
      { apply rmap_length in Hv. rewrite Hv, (wi_pulse_indices _ _ _ W Ep), map_length, seq_length. apply M. }
      destruct (RU _ _ (good_core_of _ _ v T (conj M GW) Lv) Hs) as (l & -> & Ll). exists l. rewrite (cm_shape _ _ M). auto. }
    destruct US as (l & US & Ll).
    set (ing := {| i_guess := gs; i_scaling := ss; i_base := b; i_update := l |}).
    assert (AS : forall q : list R, length q = pf_bins f -> as_samples (N := Rnum) (pf_bins f) (Ar q) = Some q).
    { intros q Hq. cbn. now rewrite Hq, Nat.eqb_refl. }
    assert (PR : prepared f (prepare v T p) ing).
    { constructor; cbn [i_guess i_scaling i_base i_update ing].
      - cbn [prepare with_core core set_time_grid set_grid set_opt pc_time_grid pc_bins]. now rewrite <- Hgr.
      - cbn [prepare with_core core set_time_grid set_grid set_opt pc_time_grid pc_bins]. now rewrite <- Hgr.
      - cbn [prepare with_core core set_time_grid set_grid set_opt pc_base]. rewrite Eb. now apply AS.
      - exists (Ar l). split; [exact US|now apply AS]. }
    rewrite (get_pulse_pipeline Rnum_order f p v T _ M PR SH eq_refl eq_refl) in HGP. injection HGP as <-.
    cbn [samples].
    pose proof (guess_samples_length _ _ _ Egs) as Lg. pose proof (scaling_samples_length _ _ _ Ess) as Ls.
    assert (Jb : (j < pf_bins f)%nat) by (rewrite <- Ls; apply nth_error_Some; congruence).
    assert (NE : forall q : list R, length q = pf_bins f -> exists z, nth_error q j = Some z).
    { intros q Hq. destruct (nth_error q j) eqn:E; [eauto|]. apply nth_error_None in E. exfalso. apply (Nat.lt_irrefl j).
      eapply Nat.lt_le_trans; [exact Jb|]. now rewrite <- Hq. }
    destruct (NE gs Lg) as (y & Ey). destruct (NE b Lb) as (bj & Ebj). destruct (NE l Ll) as (lj & Elj).
    exists y. split; [exact Ey|].
    pose proof (pinned_nth f gs ss b l j y 0 bj lj OP Jb Ey Ej Ebj Elj) as PN.
    refine (eq_trans PN _). f_equal. rewrite <- (cut_R_idem (pf_lower f) (pf_upper f) y) at 2. f_equal.
    cbn [nadd nmul of_Z Rnum]. rewrite Rmult_0_l. apply Rplus_0_r.
  Qed.
End Pinned.
