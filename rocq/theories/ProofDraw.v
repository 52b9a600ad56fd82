(** The shipped bases draw the curves of SpecCurves.v. *)
From Coq Require Import String ZArith List Bool Lia Reals Lra.
From Verif Require Import Num NumFacts Py PyFacts ModelPulse ModelControls ModelBases SpecControls SpecCurves SpecDraw
  ProofControls ProofLimits ProofShrink ProofTimes ProofIndex ProofPipeline ProofEss ProofBase ProofSI ProofBases ProofCtl ProofErf ProofCurves.
Import ListNotations.
From Flocq Require Import Core.
Local Open Scope R_scope.
Local Notation RF := real_functions.

Lemma rsum_summed g k : rsum g k = summed g k.
Proof. induction k as [|k IH]; cbn; [reflexivity|]. now rewrite IH. Qed.

Lemma nth_error_ext_eq {A} (l m : list A) : (forall n, nth_error l n = nth_error m n) -> l = m.
Proof.
  revert m. induction l as [|a l IH]; intros [|b m] E; [reflexivity|specialize (E 0%nat); discriminate|specialize (E 0%nat); discriminate|].
  pose proof (E 0%nat) as E0. injection E0 as ->. f_equal. apply IH. intros n. exact (E (S n)).
Qed.
Lemma nth_error_skipn_add {A} (l : list A) m n : nth_error (skipn m l) n = nth_error l (m + n).
Proof. revert l. induction m as [|m IH]; intros l; [reflexivity|]. destruct l; [now destruct n|]. exact (IH l). Qed.
Lemma nth_error_firstn_lt {A} (l : list A) m n : (n < m)%nat -> nth_error (firstn m l) n = nth_error l n.
Proof. revert l n. induction m as [|m IH]; intros l n L; [lia|]. destruct l, n; cbn; try reflexivity. apply IH. lia. Qed.

(** what is known about a drawn update *)
Lemma drawn_core pl tl rl x i f T w v g a : update_drawn pl tl rl x i f T w v g a ->
  exists c, core_of f c /\ pf_shape f c = Ok a /\ pc_w c = w /\ pc_opt c = v /\ pc_final_time c = T /\ pc_time_grid c = g /\
    length v = pf_nctrl f /\ equally_spaced T (pf_bins f) g.
Proof.
  intros (c0 & c & c' & us & p' & HC & PB & RC & HB & Ef & Ea & Ep' & HT & -> & -> & ->).
  assert (PBf := Forall_nth_error _ _ _ _ PB Ef).
  assert (WI := new_controls_wi _ _ _ _ HC PB). assert (SF := reachable_fix _ _ WI RC). assert (W := same_fix_wi _ _ SF WI).
  destruct (good_reachable _ _ _ _ PBf RC (good_new _ _ _ _ _ _ HC Ef)) as (p & Ep & GP).
  unfold get_bare_controls_lists in HB. apply rbind_ok in HB as (ps & HP & HB). injection HB as <- <-. cbn [c_pulses c_times] in *.
  rewrite nth_error_map in Ea. destruct (nth_error ps i) as [z|] eqn:Ez; [|discriminate Ea]. injection Ea as <-.
  rewrite nth_error_map, Ez in Ep'. injection Ep' as <-.
  destruct (rmap_nth_r _ _ _ _ _ HP Ez) as (p1 & HP' & Ep1). rewrite Ep in Ep1. injection Ep1 as <-.
  apply rbind_ok in HP' as (v & Hv & HP'). apply rbind_ok in HP' as (T' & HT' & HP').
  rewrite (cm_time_name _ _ (proj1 GP)), HT in HT'. injection HT' as <-.
  unfold get_bare_pulse in HP'. apply rbind_ok in HP' as (s & Hs & HP'). injection HP' as <-. cbn [fst snd].
  assert (Lv : length v = pf_nctrl f).
  { apply rmap_length in Hv. rewrite Hv, (wi_pulse_indices _ _ _ W Ep), map_length, seq_length. apply GP. }
  assert (Ev : v = firstn (pf_nctrl f) (skipn (list_sum (map pf_nctrl (firstn i pl))) x)).
  { rewrite (wi_pulse_indices _ _ _ W Ep), (cm_nctrl _ _ (proj1 GP)) in Hv.
    destruct (same_fix_sizes _ _ SF) as [S1 _]. destruct (new_controls_sizes _ _ _ _ HC) as [S2 _]. rewrite S1, S2 in Hv.
    unfold offset_of in Hv. rewrite firstn_map in Hv.
    apply nth_error_ext_eq. intros n. set (m := list_sum (map pf_nctrl (firstn i pl))) in *.
    destruct (Nat.lt_ge_cases n (pf_nctrl f)) as [L|L].
    - destruct (nth_error v n) as [y|] eqn:E; [|apply nth_error_None in E; lia].
      destruct (rmap_nth_r _ _ _ _ _ Hv E) as (q & Hq & Eq). rewrite nth_error_map in Eq.
      rewrite nth_error_seq_lt in Eq by lia. cbn [option_map] in Eq. injection Eq as <-.
      rewrite py_nth_nonneg in Hq. rewrite nth_error_firstn_lt, nth_error_skipn_add by lia.
      change (@num Rnum) with R in *. destruct (nth_error x (m + n)) as [y'|]; [|discriminate Hq]. injection Hq as ->. reflexivity.
    - rewrite (proj2 (nth_error_None v n)) by lia. symmetry. apply nth_error_None. rewrite firstn_length. lia. }
  exists (core (prepare v T p)). split; [exact (good_core_of _ _ v T GP Lv)|].
  split; [rewrite <- (cm_shape _ _ (proj1 GP)); exact Hs|]. do 4 (split; [try reflexivity; exact Ev|]).
  split; [rewrite <- Ev; exact Lv|]. cbn [prepare with_core core].
  pose proof (linspace0_spaced T (pf_bins f)) as L. unfold set_time_grid. cbn.
  rewrite (cm_bins _ _ (proj1 GP)). exact L.
Qed.

Section Bases.
  Variables (s : basis_settings (N := Rnum)) (u : common_settings (N := Rnum)).
  Notation k := (bs_k s).

  Lemma core_parts b c : core_of (shipped RF b s u) c ->
    gridded c /\ (b <> Piecewise -> length (pc_w c) = k) /\ length (pc_opt c) = basis_nctrl b s (cs_bins u).
  Proof.
    intros C. split; [unfold gridded; rewrite (co_grid _ _ C); symmetry; apply (co_bins _ _ C)|].
    split; [|exact (co_opt _ _ C)]. intros NP. rewrite (co_w _ _ C). destruct b; try reflexivity. congruence.
  Qed.

  Lemma draw_fourier b c : b = Fourier \/ b = DummyBasis -> core_of (shipped RF b s u) c ->
    basis_shape RF b s c = Ok (Ar (map (harmonics k (pc_final_time c) (pc_w c) (pc_opt c)) (pc_time_grid c))).
  Proof.
    intros B C. destruct (core_parts b c C) as (G & W & L).
    assert (E : fourier_shape RF k c = Ok (Ar (map (harmonics k (pc_final_time c) (pc_w c) (pc_opt c)) (pc_time_grid c)))).
    { rewrite fourier_closed; [|exact G|apply W; destruct B as [-> | ->]; discriminate|destruct B as [-> | ->]; exact L].
      do 2 f_equal. apply map_ext. intros t. unfold fourier_sum, harmonics. rewrite rsum_summed. apply summed_ext. intros i _.
      cbn [f_sin f_cos f_pi real_functions]. unfold Rdiv. now rewrite !Rmult_assoc. }
    destruct B as [-> | ->]; exact E.
  Qed.

  (** the quotient of Sinc.py against the cardinal sine *)
  Lemma sinc_near y : Rabs (sinc RF y - cardinal_sine y) <= (1 / 10 ^ 20) ^ 2 /\ Rabs (sinc RF y) <= 1.
  Proof.
    assert (E : sinc RF y = if Req_bool y 0 then sin (1 / 10 ^ 20) / (1 / 10 ^ 20) else sin y / y).
    { unfold sinc. cbn [f_sin real_functions neqb of_Z Rnum].
      assert (E20 : em20 (N := Rnum) = 1 / 10 ^ 20).
      { unfold em20. cbn [ndiv of_Z Rnum]. f_equal. f_equal. cbn. lra. }
      rewrite E20. destruct (Req_bool y 0); reflexivity. }
    rewrite E. unfold cardinal_sine. destruct (Req_EM_T y 0) as [->|NE].
    - rewrite Req_bool_true by reflexivity.
      destruct (sin_small (1 / 10 ^ 20)) as [A B]; [lra|]. split; apply Rabs_le; [|assert (0 <= (1 / 10 ^ 20) ^ 2 <= 1) by lra]; lra.
    - rewrite Req_bool_false by exact NE. split.
      + replace (sin y / y - sin y / y) with 0 by ring. rewrite Rabs_R0. lra.
      + pose proof (cardinal_sine_size y) as Z. unfold cardinal_sine in Z. destruct (Req_EM_T y 0); [contradiction|exact Z].
  Qed.
  Definition sinc_curve (T : R) (w x : list R) (t : R) : R :=
    summed (fun i => nth i x 0 * sinc RF (2 * PI * bs_basis_max s * (t - nth i w 0) / T)) k.
  Lemma draw_sinc c : core_of (shipped RF Sinc s u) c ->
    basis_shape RF Sinc s c = Ok (Ar (map (sinc_curve (pc_final_time c) (pc_w c) (pc_opt c)) (pc_time_grid c))).
  Proof.
    intros C. destruct (core_parts _ c C) as (G & W & L). cbn [basis_shape]. rewrite sinc_closed; [|exact G|apply W; discriminate|exact L].
    reflexivity.
  Qed.
  Lemma sinc_curve_near T w x t :
    Rabs (sinc_curve T w x t - cardinal_series k (bs_basis_max s) T w x t) <= (1 / 10 ^ 20) ^ 2 * summed (fun i => Rabs (nth i x 0)) k /\
    Rabs (sinc_curve T w x t) <= summed (fun i => Rabs (nth i x 0)) k.
  Proof.
    unfold sinc_curve, cardinal_series. split.
    - rewrite <- summed_minus. eapply Rle_trans; [apply summed_abs|]. rewrite <- summed_scal. apply summed_le. intros i _. rewrite <- Rmult_minus_distr_l.
      rewrite Rabs_mult, Rmult_comm. apply Rmult_le_compat_r; [apply Rabs_pos|apply sinc_near].
    - eapply Rle_trans; [apply summed_abs|]. apply summed_le. intros i _. rewrite Rabs_mult. rewrite <- (Rmult_1_r (Rabs (nth i x 0))) at 2.
      apply Rmult_le_compat_l; [apply Rabs_pos|apply sinc_near].
  Qed.

  (** Chebyshev *)
  Definition position (T t : R) : R := (1 - 1 / 10 ^ 10) * (2 * (t / T) - 1).
  Lemma cheb_arg_position T t : cheb_arg (N := Rnum) T t = position T t.
  Proof.
    change (-1 + 1 / IZR 10000000000 + 2 * (1 - 1 / IZR 10000000000) * t / T = (1 - 1 / 10 ^ 10) * (2 * (t / T) - 1)).
    replace (IZR 10000000000) with (10 ^ 10) by (cbn; lra). unfold Rdiv. ring.
  Qed.
  Definition cheb_curve (T : R) (w x : list R) (t : R) : R :=
    summed (fun i => nth (2 * i) x 0 * cos (nth i w 0 * acos (position T t) + nth (2 * i + 1) x 0)) k.
  Lemma draw_cheb c : core_of (shipped RF Chebyshev s u) c ->
    basis_shape RF Chebyshev s c = Ok (Ar (map (cheb_curve (pc_final_time c) (pc_w c) (pc_opt c)) (pc_time_grid c))).
  Proof.
    intros C. destruct (core_parts _ c C) as (G & W & L). cbn [basis_shape]. rewrite cheb_closed; [|exact G|apply W; discriminate|exact L].
    do 2 f_equal. apply map_ext. intros t. unfold cheb_sum, cheb_curve. rewrite rsum_summed. apply summed_ext. intros i _.
    cbn [f_cos f_acos real_functions]. now rewrite cheb_arg_position.
  Qed.
  Lemma position_range T t : 0 < T -> 0 <= t <= T -> -1 <= position T t <= 1.
  Proof. intros HT Ht. rewrite <- cheb_arg_position. now apply cheb_domain. Qed.
  Lemma cheb_curve_size T w x t : Rabs (cheb_curve T w x t) <= summed (fun i => Rabs (nth (2 * i) x 0)) k.
  Proof.
    eapply Rle_trans; [apply summed_abs|]. apply summed_le. intros i _. rewrite Rabs_mult. rewrite <- (Rmult_1_r (Rabs (nth (2 * i) x 0))) at 2.
    apply Rmult_le_compat_l; [apply Rabs_pos|]. apply Rabs_le. pose proof (COS_bound (nth i w 0 * acos (position T t) + nth (2 * i + 1) x 0)). lra.
  Qed.
  Lemma cheb_curve_poly T w x ns t : 0 < T -> 0 <= t <= T -> (forall i, (i < k)%nat -> nth i w 0 = INR (nth i ns 0%nat) /\ nth (2 * i + 1) x 0 = 0) ->
    cheb_curve T w x t = summed (fun i => nth (2 * i) x 0 * chebyshev (nth i ns 0%nat) (position T t)) k.
  Proof.
    intros HT Ht E. apply summed_ext. intros i Hi. destruct (E i Hi) as [-> ->]. rewrite Rplus_0_r, chebyshev_acos; [reflexivity|].
    now apply position_range.
  Qed.

  (** the smooth steps *)
  Lemma fold_summed (l : list R) : fold_left Rplus l 0 = summed (fun i => nth i l 0) (length l).
  Proof.
    induction l as [|a l IH]; [reflexivity|]. cbn [length]. rewrite summed_shift. cbn [fold_left nth]. rewrite fold_plus_acc, IH. ring.
  Qed.
  Lemma step_Phi tau sg t : sg <> 0 -> stepf RF tau sg t = 2 * Phi ((t - tau) / sg).
  Proof.
    intros NZ. unfold stepf, Phi. cbn [f_erf real_functions].
    replace ((t - tau) / (sqrt 2 * sg)) with ((t - tau) / sg / sqrt 2); [lra|]. field. split; [exact NZ|]. pose proof sqrt2_pos. lra.
  Qed.
  Lemma sig_sum_steps T taus sigmas x t : bs_sigma s <> 0 -> length x = (k + 1)%nat -> (forall i, (i < k)%nat -> nth i sigmas 0 <> 0) ->
    sig_sum RF s T taus sigmas x true t = smooth_steps k (bs_offset s) (bs_sigma s) T x taus sigmas t.
  Proof.
    intros NZ L NS. unfold sig_sum, smooth_steps. rewrite rsum_summed, fold_summed, L, !step_Phi by exact NZ.
    rewrite (summed_ext _ (fun i => nth (i + 1) x 0 * Phi ((t - nth i taus 0) / nth i sigmas 0))).
    - lra.
    - intros i Hi. rewrite step_Phi by (now apply NS). lra.
  Qed.

  (** where the step times and widths are *)
  Definition steps_placed (T : R) (taus sigmas : list R) : Prop :=
    length taus = k /\ length sigmas = k /\ (forall y, In y taus -> bs_offset s <= y <= T - bs_offset s) /\
    forall i, (i < k)%nat -> bs_sigma s <= nth i sigmas 0 <= bs_sigma s * (Rmin (nth i taus 0) (T - nth i taus 0) / bs_offset s).

  Hypothesis (S0 : 0 < bs_sigma s) (O0 : 1 / 10 ^ 10 <= bs_offset s) (K0 : (0 < k)%nat).
  Lemma em10_le : nleb (Num := Rnum) em10 (bs_offset s) = true.
  Proof.
    apply Rleb_iff. change (1 / IZR 10000000000 <= bs_offset s). replace (IZR 10000000000) with (10 ^ 10) by (cbn; lra). exact O0.
  Qed.
  Lemma off_pos : 0 < bs_offset s.
  Proof. assert (0 < 1 / 10 ^ 10) by lra. lra. Qed.

  Lemma constant_placed T taus : length taus = k -> (forall y, In y taus -> bs_offset s <= y <= T - bs_offset s) ->
    steps_placed T taus (repeat (bs_sigma s) k).
  Proof.
    intros L I. split; [exact L|]. split; [apply repeat_length|]. split; [exact I|]. intros i Hi.
    rewrite nth_indep with (d' := bs_sigma s) by (rewrite repeat_length; exact Hi). rewrite nth_repeat. split; [lra|].
    destruct (I (nth i taus 0)) as [A B]; [apply nth_In; now rewrite L|].
    rewrite <- (Rmult_1_r (bs_sigma s)) at 1. apply Rmult_le_compat_l; [lra|]. pose proof off_pos.
    apply Rmult_le_reg_r with (bs_offset s); [lra|]. unfold Rdiv. rewrite Rmult_assoc, Rinv_l by lra.
    assert (bs_offset s <= Rmin (nth i taus 0) (T - nth i taus 0)) by (apply Rmin_glb; lra). lra.
  Qed.
  Lemma confined_placed T taus d r : length taus = k -> length d = k -> (forall y, In y taus -> bs_offset s <= y <= T - bs_offset s) ->
    confine_sigmas RF s T taus d = Ok r -> steps_placed T taus r.
  Proof.
    intros LT LD I H. unfold confine_sigmas in H. pose proof (rmap_length _ _ _ H) as LR. rewrite seq_length in LR.
    split; [exact LT|]. split; [exact (eq_trans LR LD)|]. split; [exact I|]. intros i Hi.
    destruct (nth_error r i) as [y|] eqn:E; [|apply nth_error_None in E; lia].
    rewrite (nth_error_nth _ _ 0 E).
    destruct (rmap_nth_r _ _ _ _ _ H E) as (q & Hq & Eq). rewrite nth_error_seq_lt in Eq by (change (@num Rnum) with R in *; lia). cbn [Nat.add] in Eq. injection Eq as <-.
    rewrite (at_nth (N := Rnum) taus i 0), (at_nth (N := Rnum) d i 0) in Hq by (change (@num Rnum) with R in *; lia). cbn [rbind] in Hq. injection Hq as <-.
    destruct (I (nth i taus 0)) as [A B]; [apply nth_In; now rewrite LT|]. pose proof off_pos.
    cbn [f_cos f_pi real_functions]. set (q := cos _). assert (-1 <= q <= 1) by apply COS_bound.
    set (tau := nth i taus 0) in *. cbn [nadd nsub nmul ndiv of_Z Rnum].
    assert (M : nsub (Num := Rnum) (ndiv (Num := Rnum) T (of_Z 2)) (nabs (Num := Rnum) (nsub (Num := Rnum) (ndiv (Num := Rnum) T (of_Z 2)) tau)) = Rmin tau (T - tau)).
    { cbn [nsub ndiv of_Z nabs Rnum]. unfold Rmin. destruct (Rle_dec tau (T - tau)).
      - rewrite Rabs_pos_eq by lra. lra.
      - rewrite Rabs_left by lra. lra. }
    cbn [nsub ndiv of_Z nabs Rnum] in M. rewrite M.
    assert (G : bs_offset s <= Rmin tau (T - tau)) by (apply Rmin_glb; lra).
    set (m := Rmin tau (T - tau)) in *.
    replace (m * (bs_sigma s / bs_offset s)) with (bs_sigma s * (m / bs_offset s)) by (unfold Rdiv; ring).
    assert (1 <= m / bs_offset s).
    { apply Rmult_le_reg_r with (bs_offset s); [lra|]. unfold Rdiv. rewrite Rmult_assoc, Rinv_l by lra. lra. }
    assert (0 <= bs_sigma s * (m / bs_offset s) - bs_sigma s) by nra. split; nra.
  Qed.
  Lemma placed_nonzero T taus sigmas : steps_placed T taus sigmas -> forall i, (i < k)%nat -> nth i sigmas 0 <> 0.
  Proof. intros (_ & _ & _ & P) i Hi. specialize (P i Hi). lra. Qed.
  Lemma placed_near T taus sigmas : steps_placed T taus sigmas -> forall i, (i < k)%nat ->
    0 < nth i sigmas 0 /\ bs_offset s / bs_sigma s <= nth i taus 0 / nth i sigmas 0 /\ bs_offset s / bs_sigma s <= (T - nth i taus 0) / nth i sigmas 0.
  Proof.
    intros (LT & _ & I & P) i Hi. destruct (P i Hi) as [P1 P2]. destruct (I (nth i taus 0)) as [A B]; [apply nth_In; now rewrite LT|].
    pose proof off_pos. split; [lra|].
    assert (K : forall z, Rmin (nth i taus 0) (T - nth i taus 0) <= z -> bs_offset s / bs_sigma s <= z / nth i sigmas 0).
    { intros z Hz. apply Rmult_le_reg_r with (nth i sigmas 0); [lra|]. unfold Rdiv at 2. rewrite (Rmult_assoc z), Rinv_l, Rmult_1_r by lra.
      eapply Rle_trans; [|exact Hz]. eapply Rle_trans; [apply Rmult_le_compat_l; [|exact P2]|].
      - left. apply Rmult_lt_0_compat; [lra|now apply Rinv_0_lt_compat].
      - right. field. split; lra. }
    split; apply K; [apply Rmin_l|apply Rmin_r].
  Qed.

  Lemma confine_sigmas_value T taus d r : length taus = k -> length d = k ->
    confine_sigmas RF s T taus d = Ok r -> forall i, (i < k)%nat -> nth i r 0 = width_at s T (nth i taus 0) (nth i d 0).
  Proof.
    intros LT LD H i Hi. unfold confine_sigmas in H. pose proof (rmap_length _ _ _ H) as LR. rewrite seq_length in LR.
    destruct (nth_error r i) as [y|] eqn:E; [|apply nth_error_None in E; change (@num Rnum) with R in *; lia].
    change (@num Rnum) with R in *. rewrite (nth_error_nth _ _ 0 E).
    destruct (rmap_nth_r _ _ _ _ _ H E) as (q & Hq & Eq). rewrite nth_error_seq_lt in Eq by (change (@num Rnum) with R in *; lia). cbn [Nat.add] in Eq. injection Eq as <-.
    rewrite (at_nth (N := Rnum) taus i 0), (at_nth (N := Rnum) d i 0) in Hq by (change (@num Rnum) with R in *; lia). cbn [rbind] in Hq. injection Hq as <-.
    cbn [f_cos f_pi real_functions]. unfold width_at.
    set (tau := nth i taus 0) in *. cbn [nadd nsub nmul ndiv of_Z Rnum].
    assert (M : nsub (Num := Rnum) (ndiv (Num := Rnum) T (of_Z 2)) (nabs (Num := Rnum) (nsub (Num := Rnum) (ndiv (Num := Rnum) T (of_Z 2)) tau)) = Rmin tau (T - tau)).
    { cbn [nsub ndiv of_Z nabs Rnum]. unfold Rmin. destruct (Rle_dec tau (T - tau)).
      - rewrite Rabs_pos_eq by lra. lra.
      - rewrite Rabs_left by lra. lra. }
    cbn [nsub ndiv of_Z nabs Rnum] in M. rewrite M. unfold Rdiv. ring.
  Qed.
  Lemma confine_taus_affine off T taus r : off <= T - off -> confine_taus (N := Rnum) off T taus = Ok r ->
    ((forall y, In y taus -> off <= y <= T - off) -> r = taus) /\ exists a b, 0 <= a /\ r = map (fun y => a * y + b) taus.
  Proof.
    intros HO H. unfold confine_taus in H. apply rbind_ok in H as (x & Hx & H). apply rbind_ok in H as (z & Hz & H).
    destruct (npsort_spec taus) as [A I].
    assert (NE : npsort (N := Rnum) taus <> []) by (intros E; rewrite E in Hx; discriminate).
    destruct (first_of_ok _ NE) as (x' & Hx' & Ex). destruct (last_of_ok _ NE) as (z' & Hz' & Ez).
    rewrite Hx in Hx'; injection Hx' as <-. rewrite Hz in Hz'; injection Hz' as <-.
    assert (IX : In x taus) by (apply I; destruct (npsort (N := Rnum) taus); [congruence|injection Ex as ->; now left]).
    assert (IZ : In z taus).
    { apply I. unfold last_of, py_nth in Hz. destruct (_ || _)%bool in Hz; [discriminate|]. destruct (nth_error _ _) as [q|] eqn:Q in Hz; [|discriminate].
      injection Hz as <-. now apply nth_error_In in Q. }
    change (@num Rnum) with R in *. cbn [nltb nadd nmul ndiv nsub of_Z Rnum] in H. rewrite npsort_length in H.
    change (@num Rnum) with R in *.
    assert (ID : taus = map (fun y => 1 * y + 0) taus) by (symmetry; apply map_id_ext; intros; ring).
    destruct (Nat.eqb_spec (length taus) 1) as [L1|L1].
    - destruct taus as [|t0 [|? ?]]; try discriminate. cbn in Ex. injection Ex as ->.
      destruct (Rlt_bool x off) eqn:E1; [injection H as <-; apply Rltb_iff in E1; split; [intros F; specialize (F x (or_introl eq_refl)); lra|]|].
      { exists 0, off. split; [lra|]. cbn. f_equal. ring. }
      destruct (Rlt_bool (T - off) x) eqn:E2; [injection H as <-; apply Rltb_iff in E2; split; [intros F; specialize (F x (or_introl eq_refl)); lra|]|].
      { exists 0, (T - off). split; [lra|]. cbn. f_equal. ring. }
      injection H as <-. split; [reflexivity|]. exists 1, 0. split; [lra|exact ID].
    - destruct (_ || _)%bool eqn:E.
      + assert (E' : x < off \/ T - off < z).
        { apply orb_true_iff in E as [E|E]; apply Rltb_iff in E; auto. }
        split. { intros F. pose proof (F x IX). pose proof (F z IZ). lra. }
        set (z1 := if Rlt_bool z (T - off) then T - off else z) in H.
        set (x1 := if Rlt_bool off x then off else x) in H.
        assert (Z1 : T - off <= z1).
        { unfold z1. destruct (Rlt_bool z (T - off)) eqn:Q; [apply Rltb_iff in Q|apply Rltb_iff0 in Q]; lra. }
        assert (Z2 : z <= z1).
        { unfold z1. destruct (Rlt_bool z (T - off)) eqn:Q; [apply Rltb_iff in Q|apply Rltb_iff0 in Q]; lra. }
        assert (X1 : x1 <= x /\ x1 <= off).
        { unfold x1. destruct (Rlt_bool off x) eqn:Q; [apply Rltb_iff in Q|apply Rltb_iff0 in Q]; lra. }
        assert (D : 0 < z1 - x1) by lra.
        injection H as <-. rewrite map_map. exists (2 * (T / 2 - off) / (z1 - x1)), (T / 2 + (- (z1 - x1) / 2 - x1) * 2 * (T / 2 - off) / (z1 - x1)).
        split; [apply Rmult_le_pos; [lra|left; now apply Rinv_0_lt_compat]|]. apply map_ext. intros y. field. lra.
      + injection H as <-. split; [reflexivity|]. exists 1, 0. split; [lra|exact ID].
  Qed.

  Definition inside (T : R) (w : list R) : Prop := forall y, In y w -> bs_offset s <= y <= T - bs_offset s.

  Lemma draw_sig c amps taus sigmas : gridded c -> length amps = (k + 1)%nat -> steps_placed (pc_final_time c) taus sigmas ->
    sigmoid_sum RF s c amps taus sigmas true =
    Ok (Ar (map (smooth_steps k (bs_offset s) (bs_sigma s) (pc_final_time c) amps taus sigmas) (pc_time_grid c))).
  Proof.
    intros G L P. pose proof P as (P1 & P2 & _). rewrite sig_closed; [|exact G|change (@num Rnum) with R in *; lia|change (@num Rnum) with R in *; lia|change (@num Rnum) with R in *; lia]. do 2 f_equal. apply map_ext. intros t.
    apply sig_sum_steps; [lra|exact L|exact (placed_nonzero _ _ _ P)].
  Qed.
  Lemma half_length n : Nat.div (2 * n + 1 + 1) 2 = (n + 1)%nat.
  Proof. replace (2 * n + 1 + 1)%nat with ((n + 1) * 2)%nat by lia. apply Nat.div_mul. lia. Qed.

  (** wished and taken times, and widths *)
  Definition steps_chosen b T w v taus sigmas : Prop :=
    ((forall i, (i < k)%nat -> bs_offset s <= nth i w 0 + shift b s v i <= T - bs_offset s) -> forall i, (i < k)%nat -> nth i taus 0 = nth i w 0 + shift b s v i) /\
    (exists m q, 0 <= m /\ forall i, (i < k)%nat -> nth i taus 0 = m * (nth i w 0 + shift b s v i) + q) /\
    (forall i, (i < k)%nat -> nth i sigmas 0 = width_at s T (nth i taus 0) (widening b s v i)).
  Lemma chosen_times off T w d r : off <= T - off -> length w = k -> length d = k -> confine_taus (N := Rnum) off T (map2 Rplus w d) = Ok r ->
    ((forall i, (i < k)%nat -> off <= nth i w 0 + nth i d 0 <= T - off) -> forall i, (i < k)%nat -> nth i r 0 = nth i w 0 + nth i d 0) /\
    (exists m q, 0 <= m /\ forall i, (i < k)%nat -> nth i r 0 = m * (nth i w 0 + nth i d 0) + q).
  Proof.
    intros OT LW LD H. destruct (confine_taus_affine _ _ _ _ OT H) as [A (m & q & M & B)].
    assert (NT : forall i, (i < k)%nat -> nth_error (map2 Rplus w d) i = Some (nth i w 0 + nth i d 0)).
    { change (@num Rnum) with R in *. intros i Hi. rewrite map2_nth, (nth_error_nth' w 0) by lia. rewrite (nth_error_nth' d 0) by lia. reflexivity. }
    split.
    - intros F i Hi. rewrite A; [apply nth_error_nth, NT, Hi|]. intros y Hy. change (@num Rnum) with R in *. apply In_nth_error in Hy as (n & Hn).
      assert (n < k)%nat.
      { assert (n < length (map2 Rplus w d))%nat by (apply nth_error_Some; congruence). rewrite map2_length in *. lia. }
      rewrite NT in Hn by assumption. injection Hn as <-. now apply F.
    - exists m, q. split; [exact M|]. intros i Hi. rewrite B. change (@num Rnum) with R in *. apply nth_error_nth.
      rewrite nth_error_map. change (@num Rnum) with R in *. rewrite NT by exact Hi. reflexivity.
  Qed.
  Lemma unmoved_times b T w v sigmas : (forall i, shift b s v i = 0) ->
    (forall i, (i < k)%nat -> nth i sigmas 0 = width_at s T (nth i w 0) (widening b s v i)) -> steps_chosen b T w v w sigmas.
  Proof.
    intros Z W. split; [intros _ i _; rewrite Z; ring|]. split; [exists 1, 0; split; [lra|intros i _; rewrite Z; ring]|exact W].
  Qed.
  Lemma width_at_0 T tau : width_at s T tau 0 = bs_sigma s.
  Proof. unfold width_at. rewrite Rmult_0_r, cos_0. lra. Qed.
  Lemma constant_widths b T v taus : (forall i, widening b s v i = 0) -> forall i, (i < k)%nat ->
    nth i (repeat (bs_sigma s) k) 0 = width_at s T (nth i taus 0) (widening b s v i).
  Proof.
    intros Z i Hi. rewrite Z, width_at_0. rewrite nth_indep with (d' := bs_sigma s) by (rewrite repeat_length; exact Hi). apply nth_repeat.
  Qed.
  Lemma nth_map_skipn (f : R -> R) n (l : list R) i : (i < length l - n)%nat -> nth i (map f (skipn n l)) 0 = f (nth (n + i) l 0).
  Proof.
    intros H. apply nth_error_nth. rewrite nth_error_map, nth_error_skipn_add, (nth_error_nth' l 0) by lia. reflexivity.
  Qed.
  Lemma nth_map_firstn (f : R -> R) m n (l : list R) i : (i < m)%nat -> (m <= length l - n)%nat -> nth i (map f (firstn m (skipn n l))) 0 = f (nth (n + i) l 0).
  Proof.
    intros H1 H2. apply nth_error_nth. rewrite nth_error_map, nth_error_firstn_lt, nth_error_skipn_add, (nth_error_nth' l 0) by lia. reflexivity.
  Qed.
  Lemma varied_has (x : R) : nltb (Num := Rnum) em10 x = varied x.
  Proof.
    unfold varied. change (Rlt_bool (1 / IZR 10000000000) x = if Rlt_dec (1 / 10 ^ 10) x then true else false).
    replace (IZR 10000000000) with (10 ^ 10) by (cbn; lra). destruct (Rlt_dec (1 / 10 ^ 10) x); [now apply Rlt_bool_true|apply Rlt_bool_false; lra].
  Qed.

  Lemma draw_steps b c : In b [Sigmoid; SigmoidTimeDep; SigmoidSigmas; SigmoidAllParas] -> core_of (shipped RF b s u) c ->
    bs_offset s <= pc_final_time c - bs_offset s -> (b <> SigmoidTimeDep -> inside (pc_final_time c) (pc_w c)) ->
    exists taus sigmas, steps_placed (pc_final_time c) taus sigmas /\
      (b = Sigmoid \/ b = SigmoidSigmas -> taus = pc_w c) /\ (b = Sigmoid \/ b = SigmoidTimeDep -> sigmas = repeat (bs_sigma s) k) /\
      steps_chosen b (pc_final_time c) (pc_w c) (pc_opt c) taus sigmas /\
      basis_shape RF b s c = Ok (Ar (map (smooth_steps k (bs_offset s) (bs_sigma s) (pc_final_time c) (firstn (k + 1) (pc_opt c)) taus sigmas)
                                      (pc_time_grid c))).
  Proof.
    intros B C OT IN. destruct (core_parts b c C) as (G & W & L). change (@num Rnum) with R in *.
    cbn in B. destruct B as [<-|[<-|[<-|[<-|[]]]]]; cbn [basis_shape basis_nctrl] in *; change (@num Rnum) with R in *.
    - assert (LW : length (pc_w c) = k) by (apply W; discriminate).
      assert (P : steps_placed (pc_final_time c) (pc_w c) (repeat (bs_sigma s) k)) by (apply constant_placed; [exact LW|apply IN; discriminate]).
      exists (pc_w c), (repeat (bs_sigma s) k). split; [exact P|]. split; [reflexivity|]. split; [reflexivity|].
      split; [apply unmoved_times; [reflexivity|apply constant_widths; reflexivity]|].
      rewrite <- L at 1. rewrite firstn_all. unfold sigmoid_shape. exact (draw_sig c _ _ _ G L P).
    - assert (LW : length (pc_w c) = k) by (apply W; discriminate).
      unfold sigmoid_timedep_shape. change (@num Rnum) with R. rewrite L, half_length.
      rewrite abin_same by (rewrite map_length, skipn_length; change (@num Rnum) with R in *; lia). cbn [rbind samples_of].
      match goal with |- context [confine_taus ?o ?T ?l] => destruct (confine_taus_ok o T l) as (r & Hr & Lr) end.
      { intros E. apply (f_equal (@length R)) in E. rewrite map2_length, map_length, skipn_length in E. cbn in E. change (@num Rnum) with R in *; lia. }
      rewrite Hr. rewrite map2_length, map_length, skipn_length in Lr. cbn [rbind].
      assert (P : steps_placed (pc_final_time c) r (repeat (bs_sigma s) k)).
      { apply constant_placed; [change (@num Rnum) with R in *; lia|]. exact (confine_taus_inside _ _ _ _ OT Hr). }
      exists r, (repeat (bs_sigma s) k). split; [exact P|]. split; [intros [?|?]; discriminate|]. split; [reflexivity|].
      split.
      { apply (chosen_times _ _ _ _ _ OT LW) in Hr; [|rewrite map_length, skipn_length; change (@num Rnum) with R in *; lia].
        assert (SH : forall i, (i < k)%nat -> nth i (map (fun x => nmul (Num := Rnum) x (bs_tau_var s) / bs_ampl s) (skipn (k + 1) (pc_opt c))) 0 = shift SigmoidTimeDep s (pc_opt c) i).
        { intros i Hi. rewrite nth_map_skipn by (change (@num Rnum) with R in *; lia). reflexivity. }
        destruct Hr as [H1 (m & q & M & H2)]. split; [|split].
        - intros F i Hi. rewrite <- SH by exact Hi. apply H1; [|exact Hi]. intros n Hn. change (@num Rnum) with R in *. rewrite SH by exact Hn. now apply F.
        - exists m, q. split; [exact M|]. intros i Hi. rewrite <- SH by exact Hi. now apply H2.
        - apply constant_widths; reflexivity. }
      apply draw_sig; [exact G| |exact P]. rewrite firstn_length. change (@num Rnum) with R in *; lia.
    - assert (LW : length (pc_w c) = k) by (apply W; discriminate).
      unfold sigmoid_sigmas_shape. change (@num Rnum) with R. rewrite L, half_length. rewrite em10_le.
      match goal with |- context [confine_sigmas _ _ ?T ?l ?d] => destruct (confine_sigmas_ok RF s T l d) as (r & Hr & Lr) end.
      { rewrite map_length, skipn_length. change (@num Rnum) with R in *; lia. }
      rewrite Hr. cbn [rbind].
      assert (P : steps_placed (pc_final_time c) (pc_w c) r).
      { refine (confined_placed _ _ _ _ LW _ _ Hr); [|apply IN; discriminate]. rewrite map_length, skipn_length. change (@num Rnum) with R in *; lia. }
      exists (pc_w c), r. split; [exact P|]. split; [reflexivity|]. split; [intros [?|?]; discriminate|].
      split.
      { apply unmoved_times; [reflexivity|]. intros i Hi.
        rewrite (confine_sigmas_value _ _ _ _ LW) with (2 := Hr) by (try (rewrite map_length, skipn_length); change (@num Rnum) with R in *; lia).
        f_equal. refine (nth_map_skipn _ _ _ _ _). change (@num Rnum) with R in *; lia. }
      apply draw_sig; [exact G| |exact P]. rewrite firstn_length. change (@num Rnum) with R in *; lia.
    - assert (LW : length (pc_w c) = k) by (apply W; discriminate).
      unfold sigmoid_allparas_shape. rewrite (LW : @length (@num Rnum) (pc_w c) = k).
      assert (SP : exists dt ds, allparas_split (N := Rnum) s k (pc_opt c) = (firstn (k + 1) (pc_opt c), dt, ds) /\ length dt = k /\ length ds = k /\
        (has_sigma s = false -> ds = repeat 0 k) /\
        (forall i, (i < k)%nat -> has_tau s = true -> nth i dt 0 = shift SigmoidAllParas s (pc_opt c) i) /\
        (forall i, (i < k)%nat -> nth i ds 0 = widening SigmoidAllParas s (pc_opt c) i)).
      { change (@num Rnum) with R in *. assert (HT : has_tau s = varied (bs_tau_var s)) by apply varied_has. assert (HS : has_sigma s = varied (bs_sigma_var s)) by apply varied_has.
        unfold allparas_split, shift, widening. rewrite HT, HS in *. cbn [basis_nctrl] in L.
        assert (ZN : forall i, nth i (repeat 0 k) 0 = 0) by (intros i; generalize k; intros m; revert i; induction m; intros [|i]; cbn; auto).
        destruct (varied (bs_tau_var s)), (varied (bs_sigma_var s)); do 2 eexists;
          (split; [first [reflexivity|rewrite firstn_all2; [reflexivity|change (@num Rnum) with R in *; lia]]|]).
        - split; [rewrite map_length, firstn_length, skipn_length; change (@num Rnum) with R in *; lia|].
          split; [rewrite map_length, skipn_length; change (@num Rnum) with R in *; lia|]. split; [discriminate|].
          split; intros i Hi; [intros _; refine (nth_map_firstn _ _ _ _ _ Hi _)|refine (nth_map_skipn _ _ _ _ _)]; change (@num Rnum) with R in *; lia.
        - split; [rewrite map_length, skipn_length; change (@num Rnum) with R in *; lia|].
          split; [apply zeros_length|]. split; [reflexivity|].
          split; intros i Hi; [intros _; refine (nth_map_skipn _ _ _ _ _); change (@num Rnum) with R in *; lia|exact (ZN i)].
        - split; [apply zeros_length|].
          split; [rewrite map_length, skipn_length; change (@num Rnum) with R in *; lia|]. split; [discriminate|].
          split; intros i Hi; [discriminate|]. refine (nth_map_skipn _ _ _ _ _). change (@num Rnum) with R in *; lia.
        - split; [apply zeros_length|]. split; [apply zeros_length|]. split; [reflexivity|].
          split; intros i Hi; [discriminate|exact (ZN i)]. }
      destruct SP as (dt & ds & -> & Ld & Ls & Z & SD & SS). cbv beta iota.
      rewrite aiadd_same_ok by (rewrite zeros_length; change (@num Rnum) with R in *; lia). cbn [rbind].
      assert (EZ : map2 nadd (zeros (N := Rnum) k) (pc_w c) = pc_w c).
      { rewrite <- LW. clear. generalize (pc_w c). intros l. induction l as [|y l IH]; [reflexivity|]. cbn. unfold zeros in IH. cbn in IH. rewrite IH. f_equal. apply Rplus_0_l. }
      rewrite EZ.
      assert (TA : exists r,
        (if has_tau s then taus <-! aiadd (N := Rnum) (Ar (pc_w c)) (Ar dt);
                   confine_taus (bs_offset s) (pc_final_time c) (samples_of taus)
              else Ok (samples_of (Ar (pc_w c)))) = Ok r /\ length r = k /\ inside (pc_final_time c) r /\
        ((forall i, (i < k)%nat -> bs_offset s <= nth i (pc_w c) 0 + shift SigmoidAllParas s (pc_opt c) i <= pc_final_time c - bs_offset s) -> forall i, (i < k)%nat -> nth i r 0 = nth i (pc_w c) 0 + shift SigmoidAllParas s (pc_opt c) i) /\
        (exists m q, 0 <= m /\ forall i, (i < k)%nat -> nth i r 0 = m * (nth i (pc_w c) 0 + shift SigmoidAllParas s (pc_opt c) i) + q)).
      { change (@num Rnum) with R in *. destruct (has_tau s) eqn:HT.
        2:{ assert (NS : forall i, shift SigmoidAllParas s (pc_opt c) i = 0).
            { intros i. unfold shift. rewrite <- (varied_has (bs_tau_var s)). unfold has_tau in HT. rewrite HT. reflexivity. }
            exists (pc_w c). split; [reflexivity|]. split; [exact LW|]. split; [apply IN; discriminate|]. split; [intros _ i _; rewrite NS; ring|].
            exists 1, 0. split; [lra|]. intros i _. rewrite NS. ring. }
        rewrite (aiadd_same_ok (N := Rnum) (pc_w c) dt) by (change (@num Rnum) with R in *; lia). cbn [rbind samples_of].
        match goal with |- context [confine_taus ?o ?T ?l] => destruct (confine_taus_ok o T l) as (r & Hr & Lr) end.
        - intros E. apply (f_equal (@length _)) in E. rewrite map2_length in E. cbn in E. change (@num Rnum) with R in *; lia.
        - exists r. split; [exact Hr|]. split; [rewrite map2_length in Lr; change (@num Rnum) with R in *; lia|]. split; [exact (confine_taus_inside _ _ _ _ OT Hr)|].
          destruct (chosen_times _ _ _ _ _ OT LW Ld Hr) as [H1 (m & q & M & H2)]. split.
          + intros F i Hi. rewrite <- SD by (exact Hi || reflexivity). apply H1; [|exact Hi]. intros n Hn. rewrite SD by (exact Hn || reflexivity). now apply F.
          + exists m, q. split; [exact M|]. intros i Hi. rewrite <- SD by (exact Hi || reflexivity). now apply H2. }
      destruct TA as (r & -> & Lr & Ir & CH1 & CH2). cbn [rbind]. rewrite em10_le, andb_true_r.
      assert (SA : exists q, (if has_sigma s then confine_sigmas RF s (pc_final_time c) r ds
          else Ok (map (fun d => nadd d (bs_sigma s)) ds)) = Ok q /\ steps_placed (pc_final_time c) r q /\
          forall i, (i < k)%nat -> nth i q 0 = width_at s (pc_final_time c) (nth i r 0) (widening SigmoidAllParas s (pc_opt c) i)).
      { destruct (has_sigma s).
        - destruct (confine_sigmas_ok RF s (pc_final_time c) r ds) as (q & Hq & Lq); [change (@num Rnum) with R in *; lia|].
          exists q. split; [exact Hq|]. split; [exact (confined_placed _ _ _ _ Lr Ls Ir Hq)|]. intros i Hi.
          rewrite <- SS by exact Hi. exact (confine_sigmas_value _ _ _ _ Lr Ls Hq i Hi).
        - rewrite (Z eq_refl). eexists; split; [reflexivity|]. 
          assert (EM : map (fun d => nadd (Num := Rnum) d (bs_sigma s)) (repeat 0 k) = repeat (bs_sigma s) k).
          { generalize k. intros n. induction n as [|n IH]; [reflexivity|]. cbn in *. rewrite IH. f_equal. apply Rplus_0_l. }
          rewrite EM. split; [now apply constant_placed|]. intros i Hi. rewrite <- SS by exact Hi. rewrite (Z eq_refl).
          assert (E0 : nth i (repeat 0 k) 0 = 0).
          2:{ change (@num Rnum) with R in *. rewrite E0, width_at_0. rewrite nth_indep with (d' := bs_sigma s) by (rewrite repeat_length; exact Hi). apply nth_repeat. }
          apply nth_repeat. }
      destruct SA as (q & -> & P & WD). cbn [rbind]. exists r, q. split; [exact P|]. split; [intros [?|?]; discriminate|]. split; [intros [?|?]; discriminate|].
      split; [split; [exact CH1|split; [exact CH2|exact WD]]|].
      apply draw_sig; [exact G| |exact P]. rewrite firstn_length, L. cbn [basis_nctrl]. lia.
  Qed.
End Bases.

(** Walsh without a guess inside wide limits *)
Lemma clip_inside (lo hi x : R) : lo <= x <= hi -> clip (N := Rnum) lo hi x = x.
Proof. intros H. unfold clip. rewrite !R_npmin, !R_npmax. unfold Rmin, Rmax. repeat destruct Rle_dec; lra. Qed.
Lemma draw_walsh s u c : core_of (shipped RF Walsh s u) c -> cs_shrink u = false -> cs_guess u = GOther ->
  pc_lower c <= - summed (size_of (pc_opt c)) (bs_k s) -> summed (size_of (pc_opt c)) (bs_k s) <= pc_upper c ->
  basis_shape RF Walsh s c = Ok (Ar (map (harmonics (bs_k s) (pc_final_time c) (pc_w c) (pc_opt c)) (pc_time_grid c))).
Proof.
  intros C SH GU LO UP. destruct (core_parts s u _ c C) as (G & W & L).
  set (S := summed (size_of (pc_opt c)) (bs_k s)) in *.
  assert (S0 : 0 <= S).
  { unfold S. apply (Rle_trans _ _ _ (Req_le _ _ (eq_sym (summed_zero (bs_k s))))). apply summed_le. intros. apply sqrt_pos. }
  cbn [basis_shape]. unfold walsh_shape.
  rewrite fourier_closed; [|exact G|apply W; discriminate|exact L]. cbn [rbind].
  assert (GI : get_initial_guess c = Ok (Sc (N := Rnum) 0)).
  { unfold get_initial_guess, get_limited_pulse. rewrite (co_guess _ _ C), (co_shrink _ _ C). cbn [pf_guess pf_shrink shipped]. rewrite GU, SH.
    cbn [rbind amap]. do 2 f_equal. apply clip_inside. change (of_Z (Num := Rnum) 0) with 0. lra. }
  rewrite GI. cbn [rbind abin]. unfold get_limited_pulse. rewrite (co_shrink _ _ C). cbn [pf_shrink shipped]. rewrite SH. cbn [rbind amap abin].
  do 2 f_equal. rewrite !map_map. apply map_ext. intros t. change (@num Rnum) with R in *.
  assert (E : fourier_sum RF (bs_k s) (pc_final_time c) (pc_w c) (pc_opt c) t = harmonics (bs_k s) (pc_final_time c) (pc_w c) (pc_opt c) t).
  { unfold fourier_sum, harmonics. rewrite rsum_summed. apply summed_ext. intros i _. cbn [f_sin f_cos f_pi real_functions]. unfold Rdiv. now rewrite !Rmult_assoc. }
  rewrite E. pose proof (harmonics_size (bs_k s) (pc_final_time c) (pc_w c) (pc_opt c) t) as B. apply Rabs_le_inv in B.
  set (h := harmonics _ _ _ _ t) in *. fold S in B.
  cbn [nadd nsub Rnum]. rewrite clip_inside by lra. lra.
Qed.
