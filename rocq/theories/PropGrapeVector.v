(** * C81 The gradient vector that GRAPE gives to L-BFGS-B, next to the vector of control parameters that L-BFGS-B varies.
    [entry d dt t]: the number computed for slice [t] from the user's propagators for the controls [d] and the slice length [dt] (modelled in
    ModelQuantum.v, theorems C51). *)
From Coq Require Import String ZArith List Bool Lia Reals Lra.
From Verif Require Import Num NumFacts Py PyFacts ModelPulse ModelBases ModelControls ModelState ModelGrape SpecControls SpecGrapeVector SpecImport ModelImport ModelJson
  ProofBases ProofIndex ProofTimes ProofPipeline ProofBase ProofControls ProofEss ProofSI ProofCtl ProofExtra ProofGrapeVector ExampleControls ModelConfig SpecConfig SpecWhole
  PropControls PropConfig PropWhole.
Import ListNotations.
Open Scope string_scope.
Open Scope list_scope.
Open Scope nat_scope.

(** ** Numbers of entries: bins of the first pulse against coefficients of all pulses and parameters *)
Theorem C81_entries (N : Num) entry f pl tl rl c0 c n x c' g :
  new_controls (N := N) (f :: pl) tl rl = Ok c0 -> Forall plain_basis (f :: pl) -> reachable c0 c ->
  n_slices c0 = Ok n -> grape_gradient entry n x c = Ok (c', g) ->
  length g = pf_bins f /\ get_control_parameters_number c = list_sum (map pf_nctrl (f :: pl)) + length rl.
Proof.
  intros HC PB RC HN HG. rewrite (gradient_length _ _ _ _ _ _ HG). inversion PB as [|? ? PF _]; subst.
  rewrite (slices _ _ _ _ _ _ HC PF (reach_refl c0)) in HN. injection HN as <-. split; [reflexivity|].
  apply (index_partition _ _ _ _ _ HC PB RC).
Qed.
(** Entry number j is what is computed for slice j from the controls that the same vector gives, and from their slice length. *)
Theorem C81_values (N : Num) entry f pl tl rl c0 c n x c' g j :
  new_controls (N := N) (f :: pl) tl rl = Ok c0 -> Forall plain_basis (f :: pl) -> reachable c0 c ->
  n_slices c0 = Ok n -> grape_gradient entry n x c = Ok (c', g) -> j < pf_bins f ->
  exists d dt y, get_controls_lists x c = Ok (c', d) /\ slice_time d = Ok dt /\ entry d dt j = Ok y /\ nth_error g j = Some y.
Proof.
  intros HC PB RC HN HG J. inversion PB as [|? ? PF _]; subst. rewrite (slices _ _ _ _ _ _ HC PF (reach_refl c0)) in HN. injection HN as <-.
  unfold grape_gradient in HG. apply rbind_ok in HG as ([c1 d] & E1 & H). apply rbind_ok in H as (dt & E2 & H). apply rbind_ok in H as (h & E3 & H).
  injection H as <- <-. exists d, dt. destruct (rmap_nth _ _ _ j j E3) as (y & Y1 & Y2).
  - rewrite (nth_error_nth' _ 0) by now rewrite seq_length. now rewrite seq_nth.
  - exists y. repeat split; assumption.
Qed.
(** The first pulse has one coefficient per bin: the numbers agree exactly for this one pulse and nothing else. *)
Theorem C81_agree (N : Num) entry f pl tl rl c0 c n x c' g :
  new_controls (N := N) (f :: pl) tl rl = Ok c0 -> Forall plain_basis (f :: pl) -> reachable c0 c ->
  n_slices c0 = Ok n -> grape_gradient entry n x c = Ok (c', g) -> pf_nctrl f = pf_bins f ->
  (length g = get_control_parameters_number c <-> pl = [] /\ rl = []).
Proof.
  intros HC PB RC HN HG NB. destruct (C81_entries _ _ _ _ _ _ _ _ _ _ _ _ HC PB RC HN HG) as [-> ->]. cbn [map list_sum fold_right]. split.
  - intros E. destruct pl as [|h pl].
    + split; [reflexivity|]. destruct rl; [reflexivity|]. cbn in E. lia.
    + exfalso. assert (H := nctrl_positive _ _ _ _ h HC (or_intror (or_introl eq_refl))). cbn in E. lia.
  - intros [-> ->]. cbn. lia.
Qed.
(** From a dictionary: one pulse of steps, no parameters. *)
Theorem C81_dictionary (N : Num) (F : funs N) (E : env) (d : list (key * value num)) su v B m entry c0 c n x c' g :
  construct F E d = (true, Good su) -> g_kind (su_settings su) = KGRAPE ->
  items (VDict d) "pulses" 1 -> items (VDict d) "parameters" 0 -> item_of (VDict d) "pulses" 0 v ->
  SpecConfig.entry v ["basis"] = Some B -> SpecConfig.entry B ["basis_name"] = Some (VStr "PiecewiseBasis") ->
  SpecConfig.entry v ["bins_number"] = Some (VInt (Z.of_nat m)) ->
  new_controls (g_pulses (su_settings su)) (g_times (su_settings su)) (g_params (su_settings su)) = Ok c0 -> reachable c0 c ->
  n_slices c0 = Ok n -> grape_gradient entry n x c = Ok (c', g) ->
  length g = m /\ get_control_parameters_number c = m.
Proof.
  intros H K I1 I0 J EB EN Em HC RC HN HG.
  destruct (said_pulse _ _ _ _ _ _ H J) as (f & Ef & (B' & b & bs & cs & _ & EB' & _ & _ & SE & Hf & _ & _ & _ & _ & BN & _)).
  rewrite EB in EB'. injection EB' as <-. unfold setting in BN. rewrite Em in BN. injection BN as BN. apply Nat2Z.inj in BN.
  assert (b = Piecewise) as ->.
  { destruct SE as (mo & cl & na & m' & cl' & _ & _ & Na & Ch & In). unfold setting in Na. rewrite EN in Na.
    inversion Na as [|? ? T]; subst. unfold is_text in T. injection T as <-.
    assert (KN : known "basis" "PiecewiseBasis" "quocslib.pulses.basis.PiecewiseBasis" "PiecewiseBasis") by (apply (known_basis "PiecewiseBasis"); cbn; tauto).
    assert (Q : m' = "quocslib.pulses.basis.PiecewiseBasis" /\ cl' = "PiecewiseBasis").
    { inversion Ch as [? ? ? ? ? Kn|? ? ? Un|]; subst; [|exfalso; exact (Un _ _ KN)]. inversion Kn; subst; auto. }
    destruct Q as [-> ->]. unfold installed in In. cbn in In. injection In as ->. reflexivity. }
  destruct (said _ _ _ _ H) as ((P1 & l1 & A1 & B1 & C1 & _) & (P2 & l2 & A2 & B2 & C2) & _).
  destruct I1 as (Q1 & k1 & X1 & Y1 & Z1). destruct I0 as (Q2 & k2 & X2 & Y2 & Z2).
  rewrite A1 in X1. injection X1 as <-. rewrite A2 in X2. injection X2 as <-.
  rewrite (is_list_fun _ _ _ B1 Y1) in C1. rewrite (is_list_fun _ _ _ B2 Y2) in C2.
  apply Forall2_size in C1, C2. rewrite Z1 in C1. rewrite Z2 in C2.
  destruct (g_pulses (su_settings su)) as [|f' [|]] eqn:GP; try discriminate C1. destruct (g_params (su_settings su)) as [|] eqn:GR; [|discriminate C2].
  cbn in Ef. injection Ef as ->.
  assert (PB : Forall plain_basis [f]) by (constructor; [subst f; apply shipped_plain|constructor]).
  destruct (C81_entries _ _ _ _ _ _ _ _ _ _ _ _ HC PB RC HN HG) as [-> ->]. subst f. cbn. rewrite BN. lia.
Qed.

(** ** The length of a slice: the duration divided by the number of points, a little less than the distance of two points of the grid *)
Theorem C81_slice_time f pl tl rl c0 c x c' d dt :
  new_controls (N := Rnum) (f :: pl) tl rl = Ok c0 -> Forall plain_basis (f :: pl) -> reachable c0 c ->
  get_controls_lists x c = Ok (c', d) -> slice_time d = Ok dt -> 2 <= pf_bins f ->
  exists g T, nth_error (d_timegrids d) 0 = Some g /\ time_of (c_times c') (pf_time_name f) = Ok T /\
    (INR (pf_bins f) * dt = T)%R /\
    forall j a b, nth_error g j = Some a -> nth_error g (S j) = Some b ->
      (b - a = T / INR (pf_bins f - 1))%R /\ (dt = (1 - 1 / INR (pf_bins f)) * (b - a))%R.
Proof.
  intros HC PB RC HG HS B2. inversion PB as [|? ? PF _]; subst.
  unfold slice_time in HS. apply rbind_ok in HS as (g & Eg & HS). apply rbind_ok in HS as (t & Et & HS). injection HS as <-.
  assert (Eg' : nth_error (d_timegrids d) 0 = Some g).
  { change 0%Z with (Z.of_nat 0) in Eg. rewrite py_nth_nonneg in Eg. destruct (nth_error (d_timegrids d) 0); [congruence|discriminate]. }
  destruct (time_grid _ _ _ _ _ _ _ _ 0 _ _ HC RC HG eq_refl PF Eg') as (T & HT & L & [_ SP] & _ & LA & _).
  specialize (LA B2). assert (t = T) as ->.
  { unfold py_nth in Et. cbv zeta in Et. rewrite L in Et. change (-1 <? 0)%Z with true in Et. cbv iota in Et.
    replace (-1 + Z.of_nat (pf_bins f))%Z with (Z.of_nat (pf_bins f - 1)) in Et by lia.
    destruct ((Z.of_nat (pf_bins f - 1) <? 0)%Z || (Z.of_nat (pf_bins f) <=? Z.of_nat (pf_bins f - 1))%Z); [discriminate|].
    rewrite Nat2Z.id, LA in Et. now injection Et. }
  exists g, T. split; [exact Eg'|]. split; [exact HT|]. change (@num Rnum) with R in *. rewrite !L.
  assert (P1 : (0 < INR (pf_bins f - 1))%R) by (apply lt_0_INR; lia).
  assert (P2 : INR (pf_bins f) = (INR (pf_bins f - 1) + 1)%R) by (rewrite <- S_INR; f_equal; lia).
  rewrite <- !INR_IZR_INZ.
  split; [field; lra|]. intros j a b Ha Hb.
  assert (J : S j < pf_bins f) by (rewrite <- L; apply nth_error_Some; congruence).
  rewrite (SP j ltac:(lia)) in Ha. rewrite (SP (S j) J) in Hb. rewrite (proj2 (Nat.eqb_neq (pf_bins f) 1)) in Ha, Hb by lia.
  assert (b = ((INR j + 1) * (T / INR (pf_bins f - 1)))%R) as -> by (rewrite <- S_INR; congruence). injection Ha as <-. rewrite P2.
  assert (D : ((INR j + 1) * (T / INR (pf_bins f - 1)) - INR j * (T / INR (pf_bins f - 1)) = T / INR (pf_bins f - 1))%R) by ring.
  rewrite D. split; [reflexivity|]. field. lra.
Qed.

(** ** What a gradient with respect to the control parameters would be: the scaling function inside the limits, nothing beyond them, and nothing
    for the other samples *)
Section Slope.
  Context (F : funs Rnum) (s : basis_settings (N := Rnum)) (u : common_settings (N := Rnum)).
  Context (pl : list (pulse_cfg (N := Rnum))) (tl : list (time_cfg (N := Rnum))) (rl : list (param_cfg (N := Rnum))) (c0 c : controls (N := Rnum)).
  Let f := ModelBases.shipped F Piecewise s u.
  Context (HC : new_controls (f :: pl) tl rl = Ok c0) (PB : Forall plain_basis pl) (RC : reachable c0 c) (NT : no_optimised_time tl).
  Context (SH : cs_shrink u = false) (OP : cs_options u = None).
  Context (x g gs ss bs : list R) (b : arr (N := Rnum)).
  Context (HX : first_grid x c g) (HGS : guess_samples f g = Some gs) (HSS : scaling_samples f g = Some ss)
          (HB : base_of c 0 = Some b) (HBS : as_samples (N := Rnum) (cs_bins u) b = Some bs).
  (** the sum to be scaled without entry [j] of the vector *)
  Definition below (j : nat) : R := (cut (N := Rnum) (cs_lower u) (cs_upper u) (nth j gs 0%R) + nth j bs 0%R)%R.

  Lemma same_grid y c' d g' : get_controls_lists y c = Ok (c', d) -> nth_error (d_timegrids d) 0 = Some g' -> g' = g.
  Proof.
    intros HG Eg. destruct HX as (cx & dx & HGx & Egx). assert (PF : plain_basis f) by apply shipped_plain.
    destruct (grid_end _ _ _ _ _ _ _ _ 0 _ _ HC RC HG eq_refl PF Eg) as (T & HT & _).
    destruct (grid_end _ _ _ _ _ _ _ _ 0 _ _ HC RC HGx eq_refl PF Egx) as (T' & HT' & _).
    assert (FT := new_controls_fixed _ _ _ _ NT HC).
    rewrite (reachable_times_fixed _ _ FT (reach_get _ _ _ _ _ RC HG)) in HT. rewrite (reachable_times_fixed _ _ FT (reach_get _ _ _ _ _ RC HGx)) in HT'.
    pose proof (eq_trans (eq_sym HT) HT') as Q. injection Q as <-.
    destruct (delivered_grid _ _ _ _ _ _ _ _ _ _ _ HC RC HG (eq_refl : nth_error (f :: pl) 0 = Some f) PF Eg) as (T1 & HT1 & [L1 S1]).
    destruct (delivered_grid _ _ _ _ _ _ _ _ _ _ _ HC RC HGx (eq_refl : nth_error (f :: pl) 0 = Some f) PF Egx) as (T2 & HT2 & [L2 S2]).
    rewrite (reachable_times_fixed _ _ FT (reach_get _ _ _ _ _ RC HG)) in HT1. rewrite (reachable_times_fixed _ _ FT (reach_get _ _ _ _ _ RC HGx)) in HT2.
    pose proof (eq_trans (eq_sym HT1) HT2) as Q. injection Q as <-.
    apply nth_ext with (d := 0%R) (d' := 0%R); [exact (eq_trans L1 (eq_sym L2))|]. intros j J. change (@num Rnum) with R in *. rewrite L1 in J.
    pose proof (eq_trans (S1 j J) (eq_sym (S2 j J))) as Q.
    rewrite (nth_error_nth' _ 0%R) in Q by (rewrite L1; exact J). rewrite (nth_error_nth' _ 0%R) in Q by (rewrite L2; exact J). now injection Q.
  Qed.

  Lemma sample_is y l j : first_pulse y c l -> j < cs_bins u ->
    length l = cs_bins u /\ length (firstn (cs_bins u) y) = cs_bins u /\
    nth j l 0%R = cut (N := Rnum) (cs_lower u) (cs_upper u) (nth j ss 0 * (below j + nth j y 0))%R.
  Proof.
    intros (c' & d & HG & Ea) J.
    assert (G : exists g', nth_error (d_timegrids d) 0 = Some g').
    { destruct (delivered_pulse_full _ _ _ _ _ _ HG Ea) as (? & ? & ? & _ & _ & _ & Q & _). eauto. }
    destruct G as (g' & Eg). assert (g' = g) as -> by exact (same_grid _ _ _ _ HG Eg).
    destruct (first_samples Rnum_order F s u pl tl rl c0 c y c' d _ g gs ss b bs HC PB RC HG SH eq_refl eq_refl Ea Eg HGS HSS HB HBS) as [EL LY].
    injection EL as ->.
    assert (L1 : length gs = cs_bins u) by (exact (guess_samples_length _ _ _ HGS)). assert (L2 : length ss = cs_bins u) by (exact (scaling_samples_length _ _ _ HSS)).
    assert (L3 : length bs = cs_bins u) by (exact (as_samples_length _ _ _ HBS)).
    split; [|split; [exact LY|]].
    - apply pipeline_length; cbn [i_guess i_scaling i_base i_update]; assumption.
    - assert (J2 : nth_error (firstn (cs_bins u) y) j = Some (nth j y 0%R)).
      { pose proof LY as LY2. rewrite firstn_length in LY2. transitivity (nth_error y j); [|apply nth_error_nth'; change (@num Rnum) with R in *; lia].
        rewrite <- (firstn_skipn (cs_bins u) y) at 2. rewrite nth_error_app1; [reflexivity|]. change (@num Rnum) with R in *. rewrite LY. exact J. }
      apply nth_error_nth.
      refine (eq_trans (default_nth (N := Rnum) f gs ss bs (firstn (cs_bins u) y) j (nth j gs 0%R) (nth j ss 0%R) (nth j bs 0%R) (nth j y 0%R) OP J _ _ _ J2) _).
      + apply nth_error_nth'. rewrite L1. exact J.
      + apply nth_error_nth'. rewrite L2. exact J.
      + apply nth_error_nth'. rewrite L3. exact J.
      + f_equal. unfold below. change (pf_lower f) with (cs_lower u). change (pf_upper f) with (cs_upper u). f_equal.
        change (nth j ss 0 * (cut (N := Rnum) (cs_lower u) (cs_upper u) (nth j gs 0) + 0 + nth j bs 0 + nth j y 0) = nth j ss 0 * (cut (N := Rnum) (cs_lower u) (cs_upper u) (nth j gs 0) + nth j bs 0 + nth j y 0))%R. ring.
  Qed.
End Slope.

Section Derivatives.
  Open Scope R_scope.
  Context F s u pl tl rl c (x ss gs bs : list R) (S : of_steps F s u pl tl rl c x ss gs bs).
  Notation lo := (Rmin (cs_lower u) (cs_upper u)).
  Notation hi := (Rmax (cs_lower u) (cs_upper u)).

  (** entry [j] of the vector is added to sample [j], scaled and cut *)
  Theorem C81_sample y l j : first_pulse (N := Rnum) y c l -> (j < cs_bins u)%nat ->
    length l = cs_bins u /\ (cs_bins u <= length y)%nat /\ nth j l 0 = Rmax lo (Rmin (uncut (cs_lower u) (cs_upper u) ss gs bs y j) hi).
  Proof.
    intros H J. destruct S as [(c0 & HC & RC) PB NT SH OP (g & HX & HSS & HGS) (b & HB & HBS)].
    destruct (sample_is F s u pl tl rl c0 c HC PB RC NT SH OP x g gs ss bs b HX HGS HSS HB HBS y l j H J) as (L & LY & V).
    split; [exact L|]. split; [rewrite firstn_length in LY; change (@num Rnum) with R in *; lia|]. rewrite Rcut_clip in V. exact V.
  Qed.

  Lemma put_nth (k j : nat) (t : R) (y : list R) : (k < length y)%nat -> nth j (put k t y) 0 = if Nat.eqb j k then t else nth j y 0.
  Proof.
    revert k j. induction y as [|a y IH]; intros k j K; [cbn in K; lia|]. destruct k as [|k].
    - destruct j; reflexivity.
    - change (put (Datatypes.S k) t (a :: y)) with (a :: put k t y). destruct j as [|j]; [reflexivity|]. cbn [nth]. rewrite IH by (cbn in K; lia). reflexivity.
  Qed.
  Lemma ext_derivable (f g : R -> R) a l : (forall t, f t = g t) -> derivable_pt_lim f a l -> derivable_pt_lim g a l.
  Proof. intros E H eps He. destruct (H eps He) as (del & K). exists del. intros h A B. rewrite <- !E. now apply K. Qed.

  (** [D t]: the samples when entry [k] is [t] *)
  Theorem C81_derivative (D : R -> list R) (k j : nat) : (forall t, first_pulse (N := Rnum) (put k t x) c (D t)) -> (k < length x)%nat -> (j < cs_bins u)%nat ->
    let v := uncut (cs_lower u) (cs_upper u) ss gs bs x j in
    (k = j -> lo < v < hi -> derivable_pt_lim (fun t => nth j (D t) 0) (nth j x 0) (nth j ss 0)) /\
    (k = j -> v < lo \/ hi < v -> derivable_pt_lim (fun t => nth j (D t) 0) (nth j x 0) 0) /\
    (k <> j -> forall t t', nth j (D t) 0 = nth j (D t') 0).
  Proof.
    intros HD K J v. set (b := cut (N := Rnum) (cs_lower u) (cs_upper u) (nth j gs 0) + nth j bs 0).
    assert (V : forall t, nth j (D t) 0 = Rmax lo (Rmin (nth j ss 0 * (b + (if Nat.eqb j k then t else nth j x 0))) hi)).
    { intros t. destruct (C81_sample _ _ _ (HD t) J) as (_ & _ & E). refine (eq_trans E _). unfold uncut. rewrite put_nth by exact K. reflexivity. }
    split; [|split].
    - intros -> I. rewrite Nat.eqb_refl in V. eapply ext_derivable; [|apply (cut_slope_in (cs_lower u) (cs_upper u) (nth j ss 0) b (nth j x 0)); exact I].
      intros t. rewrite V. cbv beta. now rewrite Rcut_clip.
    - intros -> I. rewrite Nat.eqb_refl in V. eapply ext_derivable; [|apply (cut_slope_out (cs_lower u) (cs_upper u) (nth j ss 0) b (nth j x 0)); exact I].
      intros t. rewrite V. cbv beta. now rewrite Rcut_clip.
    - intros Q t t'. rewrite !V. rewrite (proj2 (Nat.eqb_neq j k)) by congruence. reflexivity.
  Qed.
  (** any figure of merit [M] of the samples with the derivative [m] with respect to sample [j] *)
  Theorem C81_merit (D : R -> list R) (j : nat) (M : list R -> R) (m : R) : (forall t, first_pulse (N := Rnum) (put j t x) c (D t)) -> (j < length x)%nat -> (j < cs_bins u)%nat ->
    derivable_pt_lim (fun w => M (put j w (D (nth j x 0)))) (nth j (D (nth j x 0)) 0) m ->
    let v := uncut (cs_lower u) (cs_upper u) ss gs bs x j in
    (lo < v < hi -> derivable_pt_lim (fun t => M (D t)) (nth j x 0) (nth j ss 0 * m)) /\
    (v < lo \/ hi < v -> derivable_pt_lim (fun t => M (D t)) (nth j x 0) 0).
  Proof.
    intros HD K J HM v. set (a := nth j x 0) in *. destruct (C81_derivative D j j HD K J) as (A1 & A2 & _). fold a v in A1, A2.
    assert (L : forall t, length (D t) = cs_bins u) by (intros t; apply (C81_sample _ _ j (HD t) J)).
    assert (E : forall t, M (put j (nth j (D t) 0) (D a)) = M (D t)).
    { intros t. f_equal. apply nth_ext with (d := 0) (d' := 0).
      - unfold put. rewrite app_length. cbn [length]. rewrite firstn_length_le, skipn_length, !L by (rewrite L; lia). lia.
      - intros i I. rewrite put_nth by (rewrite L; exact J). destruct (Nat.eqb_spec i j) as [->|Q]; [reflexivity|].
        assert (I2 : (i < cs_bins u)%nat).
        { unfold put in I. rewrite app_length in I. cbn [length] in I. rewrite firstn_length_le, skipn_length, !L in I by (rewrite L; lia). lia. }
        destruct (C81_derivative D j i HD K I2) as (_ & _ & A3). apply A3. congruence. }
    split; intros I.
    - eapply ext_derivable; [exact E|]. rewrite Rmult_comm. exact (derivable_pt_lim_comp _ _ _ _ _ (A1 eq_refl I) HM).
    - eapply ext_derivable; [exact E|]. pose proof (derivable_pt_lim_comp _ _ _ _ _ (A2 eq_refl I) HM) as Q. rewrite Rmult_0_r in Q. exact Q.
  Qed.
  (** Two vectors that differ only in entries beyond the same limit give the same pulse. *)
  Theorem C81_beyond y l l' : first_pulse (N := Rnum) x c l -> first_pulse (N := Rnum) y c l' ->
    (forall j, (j < cs_bins u)%nat -> nth j x 0 = nth j y 0 \/
       let v := uncut (cs_lower u) (cs_upper u) ss gs bs x j in let w := uncut (cs_lower u) (cs_upper u) ss gs bs y j in
       (v <= lo /\ w <= lo) \/ (hi <= v /\ hi <= w)) ->
    (0 < cs_bins u)%nat -> l = l'.
  Proof.
    intros H1 H2 Q B. destruct (C81_sample _ _ 0 H1 B) as (L1 & _). destruct (C81_sample _ _ 0 H2 B) as (L2 & _).
    assert (LH : lo <= hi) by (apply Rle_trans with (cs_lower u); [apply Rmin_l|apply Rmax_l]).
    apply nth_ext with (d := 0) (d' := 0); [congruence|]. intros j J. rewrite L1 in J.
    destruct (C81_sample _ _ j H1 J) as (_ & _ & E1). destruct (C81_sample _ _ j H2 J) as (_ & _ & E2). refine (eq_trans E1 (eq_trans _ (eq_sym E2))).
    destruct (Q j J) as [E|[[A A']|[A A']]].
    - unfold uncut. now rewrite E.
    - rewrite (Rmin_left _ hi), (Rmin_left _ hi) by (cbv zeta in A, A'; lra). rewrite !Rmax_left by (cbv zeta in A, A'; lra). reflexivity.
    - rewrite (Rmin_right _ hi), (Rmin_right _ hi) by (cbv zeta in A, A'; lra). reflexivity.
  Qed.
End Derivatives.

(** ** Cases *)
(** two steps between -1 and 1, scaled by [k] *)
Definition scaled (k : R) : pulse_cfg (N := Rnum) := ex_pulse (N := Rnum) Piecewise 2 (GArr [0%R; 0%R]) (SArr [k; k]) false None false.
Definition scaled_samples (k t : R) : list R := [Rmax (-1) (Rmin (k * t) 1); 0%R].

Lemma scaled_controls k : exists c,
  new_controls (N := Rnum) [scaled k] [ex_time 1 0 2 false] [] = Ok c /\
  of_steps ex_funs (ex_basis 1) (ex_common (N := Rnum) 2 (GArr [0%R; 0%R]) (SArr [k; k]) false None false) [] [ex_time 1 0 2 false] [] c [0%R; 0%R] [k; k] [0%R; 0%R] [0%R; 0%R] /\
  (forall t, exists c' d, get_controls_lists [t; 0%R] c = Ok (c', d) /\ d_pulses d = [Ar (scaled_samples k t)] /\ d_timegrids d = [[0%R; 1%R]] /\ d_parameters d = []).
Proof.
  eexists. split; [reflexivity|]. match goal with |- of_steps _ _ _ _ _ _ ?c0 _ _ _ _ /\ _ => set (c := c0) end.
  assert (HC : new_controls (N := Rnum) [scaled k] [ex_time 1 0 2 false] [] = Ok c) by reflexivity.
  destruct (ex_usable (N := Rnum) [scaled k] [ex_time 1 0 2 false]) as [US AG].
  { intros f [<-|[]]. exists Piecewise, 2, (GArr [0%R; 0%R]), (SArr [k; k]), false, None, false. repeat split; try discriminate; eauto. }
  { now exists 1%Z, 0%Z, 2%Z, false. }
  assert (PB : Forall plain_basis [scaled k]) by (constructor; [apply shipped_plain|constructor]).
  assert (TT : forall t, exists c' d l, get_controls_lists [t; 0%R] c = Ok (c', d) /\ d_pulses d = [Ar l] /\ d_timegrids d = [[0%R; 1%R]] /\ d_parameters d = []).
  { intros t. destruct (C56_delivery_total Rnum _ _ _ _ c [t; 0%R] HC (reach_refl c) US AG) as (c' & d & HG & L1 & L2 & L3 & HP); [discriminate| |].
    { reflexivity. }
    destruct (HP 0 _ eq_refl) as (l & El & Ll). exists c', d, l. split; [exact HG|].
    destruct (d_pulses d) as [|a [|]] eqn:Dp; try discriminate L1. cbn in El. injection El as ->. split; [reflexivity|].
    destruct (d_timegrids d) as [|g [|]] eqn:Dg; try discriminate L2. destruct (d_parameters d) as [|] eqn:Dr; [|discriminate L3]. split; [|reflexivity].
    destruct (C05_time_grid _ _ _ _ _ _ _ _ 0 _ g HC (reach_refl c) HG eq_refl (Forall_inv PB)) as (T & HT & Lg & _ & Z0 & Z1 & _); [now rewrite Dg|].
    assert (NT : no_optimised_time (N := Rnum) [ex_time 1 0 2 false]) by (intros q [<-|[]]; reflexivity).
    rewrite (reachable_times_fixed _ _ (new_controls_fixed _ _ _ _ NT HC) (reach_get _ _ _ _ _ (reach_refl c) HG)) in HT.
    cbn in HT. injection HT as <-. destruct g as [|g0 [|g1 [|]]]; try discriminate Lg. specialize (Z0 g0 eq_refl). specialize (Z1 ltac:(cbn; lia)). cbn in Z1. injection Z1 as ->. now subst. }
  assert (OS : of_steps ex_funs (ex_basis 1) (ex_common (N := Rnum) 2 (GArr [0%R; 0%R]) (SArr [k; k]) false None false) [] [ex_time 1 0 2 false] [] c [0%R; 0%R] [k; k] [0%R; 0%R] [0%R; 0%R]).
  { constructor; try reflexivity.
    - exists c. split; [exact HC|apply reach_refl].
    - constructor.
    - intros q [<-|[]]; reflexivity.
    - destruct (TT 0%R) as (c' & d & l & HG & _ & Dg & _). exists [0%R; 1%R]. split; [|split; reflexivity]. exists c', d. split; [exact HG|now rewrite Dg].
    - exists (Ar (N := Rnum) [0%R; 0%R]). split; reflexivity. }
  split; [exact OS|]. intros t. destruct (TT t) as (c' & d & l & HG & Dp & Dg & Dr). exists c', d. split; [exact HG|]. split; [|split; assumption].
  rewrite Dp. do 2 f_equal. assert (FP : first_pulse (N := Rnum) [t; 0%R] c l) by (exists c', d; split; [exact HG|now rewrite Dp]).
  destruct (C81_sample _ _ _ _ _ _ _ _ _ _ _ OS _ _ 0 FP ltac:(cbn; lia)) as (Ll & _ & V0). destruct (C81_sample _ _ _ _ _ _ _ _ _ _ _ OS _ _ 1 FP ltac:(cbn; lia)) as (_ & _ & V1).
  destruct l as [|l0 [|l1 [|]]]; try discriminate Ll. cbn [nth] in V0, V1. unfold uncut in V0, V1. rewrite Rcut_clip in V0, V1. cbn in V0, V1. unfold scaled_samples.
  assert (Q : Rmax (-1) (Rmin 0 1) = 0%R) by (rewrite Rmin_left, Rmax_right by lra; reflexivity).
  rewrite (Rmin_left (-1) 1), (Rmax_right (-1) 1), Q in V0, V1 by lra. rewrite V0, V1. f_equal; [f_equal; f_equal; ring|]. f_equal.
  replace (k * (0 + 0 + 0))%R with 0%R by ring. exact Q.
Qed.

(** The gradient is made from the delivered controls: the scaling function does not enter.  With the scaling functions 1 and 2 it is the same at
    the zero vector, though the sample varies twice as fast with its entry. *)
Theorem C81_scaling_refuted : exists c1 c2,
  new_controls (N := Rnum) [scaled 1%R] [ex_time 1 0 2 false] [] = Ok c1 /\ new_controls (N := Rnum) [scaled 2%R] [ex_time 1 0 2 false] [] = Ok c2 /\
  (forall entry n c1' g1 c2' g2, grape_gradient entry n [0%R; 0%R] c1 = Ok (c1', g1) -> grape_gradient entry n [0%R; 0%R] c2 = Ok (c2', g2) -> g1 = g2) /\
  (forall t, first_pulse (N := Rnum) (put 0 t [0%R; 0%R]) c1 (scaled_samples 1%R t) /\ first_pulse (N := Rnum) (put 0 t [0%R; 0%R]) c2 (scaled_samples 2%R t)) /\
  derivable_pt_lim (fun t => nth 0 (scaled_samples 1%R t) 0%R) 0%R 1%R /\ derivable_pt_lim (fun t => nth 0 (scaled_samples 2%R t) 0%R) 0%R 2%R.
Proof.
  destruct (scaled_controls 1%R) as (c1 & N1 & S1 & H1). destruct (scaled_controls 2%R) as (c2 & N2 & S2 & H2). exists c1, c2. split; [exact N1|]. split; [exact N2|].
  assert (FP : forall t, first_pulse (N := Rnum) (put 0 t [0%R; 0%R]) c1 (scaled_samples 1%R t) /\ first_pulse (N := Rnum) (put 0 t [0%R; 0%R]) c2 (scaled_samples 2%R t)).
  { intros t. destruct (H1 t) as (a1 & b1 & A1 & B1 & _). destruct (H2 t) as (a2 & b2 & A2 & B2 & _).
    split; [exists a1, b1|exists a2, b2]; (split; [assumption|]). { now rewrite B1. } { now rewrite B2. } }
  split; [|split; [exact FP|]].
  - intros entry n c1' g1 c2' g2 G1 G2. destruct (H1 0%R) as (a1 & d1 & A1 & B1 & T1 & P1). destruct (H2 0%R) as (a2 & d2 & A2 & B2 & T2 & P2).
    unfold grape_gradient in G1, G2. rewrite A1 in G1. rewrite A2 in G2. cbn [rbind] in G1, G2.
    assert (d1 = d2) as ->.
    { destruct d1, d2. cbn in *. subst. f_equal. unfold scaled_samples. rewrite !Rmult_0_r. reflexivity. }
    destruct (slice_time d2) as [dt|]; [|discriminate]. cbn [rbind] in *. destruct (rmap (entry d2 dt) (seq 0 n)) as [g|]; [|discriminate]. cbn in *. congruence.
  - assert (V : forall k, (uncut (-1) 1 [k; k] [0; 0] [0; 0] [0; 0] 0 = 0)%R).
    { intros k. unfold uncut. cbn [nth]. rewrite Rcut_clip. rewrite (Rmin_left (-1) 1), (Rmax_right (-1) 1), (Rmin_left 0 1), Rmax_right by lra. ring. }
    assert (LH : (Rmin (-1) 1 < 0 < Rmax (-1) 1)%R) by (rewrite Rmin_left, Rmax_right by lra; lra).
    split.
    + apply (C81_derivative _ _ _ _ _ _ _ _ _ _ _ S1 (scaled_samples 1%R) 0 0); [intros t; apply FP|cbn; lia|cbn; lia|reflexivity|].
      change (Rmin (-1) 1 < uncut (-1) 1 [1; 1] [0; 0] [0; 0] [0; 0] 0 < Rmax (-1) 1)%R. rewrite V. exact LH.
    + apply (C81_derivative _ _ _ _ _ _ _ _ _ _ _ S2 (scaled_samples 2%R) 0 0); [intros t; apply FP|cbn; lia|cbn; lia|reflexivity|].
      change (Rmin (-1) 1 < uncut (-1) 1 [2; 2] [0; 0] [0; 0] [0; 0] 0 < Rmax (-1) 1)%R. rewrite V. exact LH.
Qed.
Example C81_derivative_example : exists c, of_steps ex_funs (ex_basis 1) (ex_common (N := Rnum) 2 (GArr [0%R; 0%R]) (SArr [2%R; 2%R]) false None false) [] [ex_time 1 0 2 false] [] c
    [0%R; 0%R] [2%R; 2%R] [0%R; 0%R] [0%R; 0%R] /\
  (forall t, first_pulse (N := Rnum) (put 0 t [0%R; 0%R]) c (scaled_samples 2%R t)) /\ first_pulse (N := Rnum) [5%R; 0%R] c [1%R; 0%R] /\ first_pulse (N := Rnum) [7%R; 0%R] c [1%R; 0%R].
Proof.
  destruct (scaled_controls 2%R) as (c & _ & S & H). exists c. split; [exact S|].
  assert (FP : forall t, first_pulse (N := Rnum) [t; 0%R] c (scaled_samples 2%R t)).
  { intros t. destruct (H t) as (a & d & A & B & _). exists a, d. split; [exact A|now rewrite B]. }
  split; [exact FP|].
  assert (Q : forall t, (1 <= 2 * t)%R -> scaled_samples 2%R t = [1%R; 0%R]).
  { intros t T. unfold scaled_samples. rewrite Rmin_right, Rmax_right by lra. reflexivity. }
  split; [rewrite <- (Q 5%R) by lra|rewrite <- (Q 7%R) by lra]; apply FP.
Qed.

(** a run of the gradient for a dictionary: the numbers of entries of the gradient and of the vector *)
Definition sizes (d : list (key * value (@num F64))) (x : list Z) : option (nat * nat) :=
  match construct ex_funs wh_env d with
  | (true, Good su) =>
      match g_kind (su_settings su), new_controls (g_pulses (su_settings su)) (g_times (su_settings su)) (g_params (su_settings su)) with
      | KGRAPE, Ok c0 => match n_slices c0 with
                 | Ok n => match grape_gradient (N := F64) (fun _ dt _ => Ok dt) n (map (of_Z (Num := F64)) x) c0 with
                           | Ok (_, g) => Some (length g, get_control_parameters_number c0) | Err _ => None end
                 | Err _ => None end
      | _, _ => None
      end
  | _ => None
  end.
Lemma sizes_run d x a b : sizes d x = Some (a, b) -> exists su c0 n c' g,
  construct (N := F64) ex_funs wh_env d = (true, Good su) /\ g_kind (su_settings su) = KGRAPE /\
  new_controls (g_pulses (su_settings su)) (g_times (su_settings su)) (g_params (su_settings su)) = Ok c0 /\ n_slices c0 = Ok n /\
  grape_gradient (N := F64) (fun _ dt _ => Ok dt) n (map (of_Z (Num := F64)) x) c0 = Ok (c', g) /\ length g = a /\ get_control_parameters_number c0 = b.
Proof.
  unfold sizes. destruct (construct ex_funs wh_env d) as [[] [su|e|]]; try discriminate. destruct (g_kind (su_settings su)) eqn:K; try discriminate.
  destruct (new_controls _ _ _) as [c0|] eqn:C; [|discriminate]. destruct (n_slices c0) as [n|] eqn:S; [|discriminate].
  destruct (grape_gradient _ n _ c0) as [[c' g]|] eqn:G; [|discriminate]. intros [= <- <-]. exists su, c0, n, c', g. rewrite K, C, S, G. auto 10.
Qed.
(** one parameter besides two steps: two entries for three control parameters; five bins made from two coefficients of a Fourier basis, and a
    parameter: five entries for three control parameters.  Both dictionaries are accepted. *)
Theorem C81_mismatch_refuted : exists d1 d2 su1 su2 c1 c2 n1 n2 c1' c2' g1 g2 x,
  construct (N := F64) ex_funs wh_env d1 = (true, Good su1) /\ g_kind (su_settings su1) = KGRAPE /\
  new_controls (g_pulses (su_settings su1)) (g_times (su_settings su1)) (g_params (su_settings su1)) = Ok c1 /\ n_slices c1 = Ok n1 /\
  grape_gradient (N := F64) (fun _ dt _ => Ok dt) n1 x c1 = Ok (c1', g1) /\ length g1 = 2 /\ get_control_parameters_number c1 = 3 /\
  construct (N := F64) ex_funs wh_env d2 = (true, Good su2) /\ g_kind (su_settings su2) = KGRAPE /\
  new_controls (g_pulses (su_settings su2)) (g_times (su_settings su2)) (g_params (su_settings su2)) = Ok c2 /\ n_slices c2 = Ok n2 /\
  grape_gradient (N := F64) (fun _ dt _ => Ok dt) n2 x c2 = Ok (c2', g2) /\ length g2 = 5 /\ get_control_parameters_number c2 = 3.
Proof.
  exists (wh_dict (wh_grape []) (wh_pulse wh_steps)), (wh_dict (wh_grape []) (wh_pulse wh_waves)).
  destruct (sizes_run (wh_dict (wh_grape []) (wh_pulse wh_steps)) [1; 2; 3]%Z 2 3) as (su1 & c1 & n1 & c1' & g1 & A1 & A2 & A3 & A4 & A5 & A6 & A7); [vm_compute; reflexivity|].
  destruct (sizes_run (wh_dict (wh_grape []) (wh_pulse wh_waves)) [1; 2; 3]%Z 5 3) as (su2 & c2 & n2 & c2' & g2 & B1 & B2 & B3 & B4 & B5 & B6 & B7); [vm_compute; reflexivity|].
  exists su1, su2, c1, c2, n1, n2, c1', c2', g1, g2, (map (of_Z (Num := F64)) [1; 2; 3]%Z). repeat (split; [assumption|]). assumption.
Qed.
(** one pulse of two steps alone: two entries for two control parameters *)
Definition steps_only : list (key * value (@num F64)) :=
  ["algorithm_settings" :-> VDict (wh_grape []); "pulses" :-> VList [wh_pulse wh_steps]; "parameters" :-> VList []; "times" :-> VList [wh_time 5]].
Example C81_example : exists su c0 n c' g,
  construct (N := F64) ex_funs wh_env steps_only = (true, Good su) /\ g_kind (su_settings su) = KGRAPE /\
  new_controls (g_pulses (su_settings su)) (g_times (su_settings su)) (g_params (su_settings su)) = Ok c0 /\ n_slices c0 = Ok n /\
  grape_gradient (N := F64) (fun _ dt _ => Ok dt) n (map (of_Z (Num := F64)) [1; 2]%Z) c0 = Ok (c', g) /\ length g = 2 /\ get_control_parameters_number c0 = 2 /\
  items (VDict steps_only) "pulses" 1 /\ items (VDict steps_only) "parameters" 0 /\ item_of (VDict steps_only) "pulses" 0 (wh_pulse wh_steps).
Proof.
  destruct (sizes_run steps_only [1; 2]%Z 2 2) as (su & c0 & n & c' & g & A1 & A2 & A3 & A4 & A5 & A6 & A7); [vm_compute; reflexivity|].
  exists su, c0, n, c', g. repeat (split; [assumption|]).
  split; [exists (VList [wh_pulse wh_steps]), [wh_pulse wh_steps]; split; [reflexivity|split; [now left|reflexivity]]|].
  split; [exists (VList []), []; split; [reflexivity|split; [now left|reflexivity]]|].
  exists (VList [wh_pulse wh_steps]), [wh_pulse wh_steps]; split; [reflexivity|split; [now left|reflexivity]].
Qed.
Example C81_slice_time_example : exists c0 c' d dt,
  new_controls (N := Rnum) [scaled 1%R] [ex_time 1 0 2 false] [] = Ok c0 /\ get_controls_lists [0%R; 0%R] c0 = Ok (c', d) /\ slice_time d = Ok dt.
Proof.
  destruct (scaled_controls 1%R) as (c & N1 & _ & H). destruct (H 0%R) as (c' & d & A & _ & T & _). exists c, c', d. eexists. split; [exact N1|]. split; [exact A|].
  unfold slice_time. rewrite T. reflexivity.
Qed.

Print Assumptions C81_entries.
Print Assumptions C81_values.
Print Assumptions C81_agree.
Print Assumptions C81_dictionary.
Print Assumptions C81_slice_time.
Print Assumptions C81_sample.
Print Assumptions C81_derivative.
Print Assumptions C81_merit.
Print Assumptions C81_beyond.
Print Assumptions C81_scaling_refuted.
Print Assumptions C81_mismatch_refuted.
