(** * C74: what curves the shipped bases draw. *)
From Coq Require Import String ZArith List Bool Lia Reals Lra.
From Flocq Require Import Core.Raux.
From Verif Require Import Num NumFacts Py PyFacts ModelPulse ModelControls ModelBases SpecControls SpecCurves SpecDraw
  ProofControls ProofTimes ProofSI ProofBases ProofCtl ProofTotal ProofErf ProofCurves ProofDraw ExampleControls.
Import ListNotations.
Local Open Scope R_scope.
Local Notation RF := real_functions.

(** what [equally_spaced] gives at both ends *)
Lemma grid_ends T n g : equally_spaced T n g -> (2 <= n)%nat -> nth_error g 0 = Some 0 /\ nth_error g (n - 1) = Some T.
Proof.
  intros [L E] H. rewrite (E 0%nat), (E (n - 1)%nat) by lia. replace (Nat.eqb n 1) with false by (symmetry; apply Nat.eqb_neq; lia).
  split; f_equal; [cbn; ring|]. field. apply not_0_INR. lia.
Qed.
Lemma grid_range T n g t : equally_spaced T n g -> 0 <= T -> In t g -> 0 <= t <= T.
Proof.
  intros [L E] HT H. apply In_nth_error in H as (j & Hj). assert (j < n)%nat by (rewrite <- L; apply nth_error_Some; congruence).
  rewrite E in Hj by assumption. destruct (Nat.eqb_spec n 1) as [->|NE]; injection Hj as <-; [lra|].
  assert (P : 0 < INR (n - 1)) by (apply lt_0_INR; lia). assert (Q : INR j <= INR (n - 1)) by (apply le_INR; lia). pose proof (pos_INR j).
  assert (0 <= T / INR (n - 1)) by (apply Rmult_le_pos; [exact HT|left; now apply Rinv_0_lt_compat]). split; [nra|].
  replace T with (INR (n - 1) * (T / INR (n - 1))) at 2 by (field; lra). nra.
Qed.

(** ** Fourier (and DummyBasis) *)
Theorem C74_fourier pl tl rl x i b s u T w v g a : b = Fourier \/ b = DummyBasis ->
  update_drawn pl tl rl x i (shipped RF b s u) T w v g a ->
  a = Ar (map (harmonics (bs_k s) T w v) g) /\ equally_spaced T (cs_bins u) g /\ length v = (2 * bs_k s)%nat /\ length w = bs_k s /\
  (forall y, In y (samples a) -> Rabs y <= summed (size_of v) (bs_k s)) /\
  (* whole oscillations: the pulse closes *)
  ((2 <= cs_bins u)%nat -> T <> 0 -> (forall n, (n < bs_k s)%nat -> exists z, nth n w 0 = IZR z) ->
   nth_error (samples a) 0 = nth_error (samples a) (cs_bins u - 1)).
Proof.
  intros B D. destruct (drawn_core _ _ _ _ _ _ _ _ _ _ _ D) as (c & C & Ha & <- & <- & <- & <- & Lv & EG).
  pose proof (draw_fourier s u b c B C) as DF. cbn [pf_shape shipped] in Ha. rewrite DF in Ha. injection Ha as <-.
  destruct (core_parts s u b c C) as (_ & W & _). cbn [pf_bins shipped pf_nctrl] in *.
  assert (Lv' : length (pc_opt c) = (2 * bs_k s)%nat) by (destruct B as [-> | ->]; exact Lv).
  split; [reflexivity|]. split; [exact EG|]. split; [exact Lv'|]. split; [apply W; destruct B as [-> | ->]; discriminate|]. cbn [samples]. split.
  - intros y Hy. apply in_map_iff in Hy as (t & <- & _). apply harmonics_size.
  - intros NB NZ WZ. destruct (grid_ends _ _ _ EG NB) as [G0 G1]. rewrite !nth_error_map.
    change (@num Rnum) with R in *. rewrite G0, G1. cbn [option_map]. f_equal.
    rewrite <- (harmonics_periodic _ _ _ _ 0 NZ WZ). f_equal. ring.
Qed.

(** ** Sinc *)
Theorem C74_sinc pl tl rl x i s u T w v g a :
  update_drawn pl tl rl x i (shipped RF Sinc s u) T w v g a ->
  exists l, a = Ar l /\ length l = cs_bins u /\ equally_spaced T (cs_bins u) g /\ length v = bs_k s /\ length w = bs_k s /\
  forall j t y, nth_error g j = Some t -> nth_error l j = Some y ->
    Rabs (y - cardinal_series (bs_k s) (bs_basis_max s) T w v t) <= (1 / 10 ^ 20) ^ 2 * summed (fun n => Rabs (nth n v 0)) (bs_k s) /\
    Rabs y <= summed (fun n => Rabs (nth n v 0)) (bs_k s).
Proof.
  intros D. destruct (drawn_core _ _ _ _ _ _ _ _ _ _ _ D) as (c & C & Ha & <- & <- & <- & <- & Lv & EG).
  pose proof (draw_sinc s u c C) as DF. cbn [pf_shape shipped] in Ha. rewrite DF in Ha. injection Ha as <-.
  destruct (core_parts s u _ c C) as (_ & W & _). cbn [pf_bins shipped pf_nctrl basis_nctrl] in *.
  eexists. split; [reflexivity|]. split; [rewrite map_length; exact (proj1 EG)|]. split; [exact EG|]. split; [exact Lv|]. split; [apply W; discriminate|].
  intros j t y Hj Hy. rewrite nth_error_map in Hy. change (@num Rnum) with R in *. rewrite Hj in Hy. injection Hy as <-. apply sinc_curve_near.
Qed.
(** a node that lies whole half periods of the highest frequency away from the other nodes shows its own coefficient *)
Theorem C74_sinc_nodes k bmax T w x i : (i < k)%nat ->
  (forall j, (j < k)%nat -> j <> i -> exists z, z <> 0%Z /\ 2 * bmax * (nth i w 0 - nth j w 0) / T = IZR z) ->
  cardinal_series k bmax T w x (nth i w 0) = nth i x 0.
Proof. exact (cardinal_series_node k bmax T w x i). Qed.

(** ** Chebyshev *)
Theorem C74_chebyshev pl tl rl x i s u T w v g a :
  update_drawn pl tl rl x i (shipped RF Chebyshev s u) T w v g a ->
  exists l, a = Ar l /\ length l = cs_bins u /\ equally_spaced T (cs_bins u) g /\
  l = map (fun t => summed (fun n => nth (2 * n) v 0 * cos (nth n w 0 * acos ((1 - 1 / 10 ^ 10) * (2 * (t / T) - 1)) + nth (2 * n + 1) v 0)) (bs_k s)) g /\
  (forall y, In y l -> Rabs y <= summed (fun n => Rabs (nth (2 * n) v 0)) (bs_k s)) /\
  (* whole orders and no phases: polynomials of the time rescaled to (almost) [-1, 1] *)
  forall orders, 0 < T -> (forall n, (n < bs_k s)%nat -> nth n w 0 = INR (nth n orders 0%nat) /\ nth (2 * n + 1) v 0 = 0) ->
  forall j t y, nth_error g j = Some t -> nth_error l j = Some y ->
    y = summed (fun n => nth (2 * n) v 0 * chebyshev (nth n orders 0%nat) ((1 - 1 / 10 ^ 10) * (2 * (t / T) - 1))) (bs_k s).
Proof.
  intros D. destruct (drawn_core _ _ _ _ _ _ _ _ _ _ _ D) as (c & C & Ha & <- & <- & <- & <- & Lv & EG).
  pose proof (draw_cheb s u c C) as DF. cbn [pf_shape shipped] in Ha. rewrite DF in Ha. injection Ha as <-.
  cbn [pf_bins shipped] in *.
  eexists. split; [reflexivity|]. split; [rewrite map_length; exact (proj1 EG)|]. split; [exact EG|]. split; [reflexivity|]. split.
  - intros y Hy. apply in_map_iff in Hy as (t & <- & _). apply cheb_curve_size.
  - intros orders HT E j t y Hj Hy. rewrite nth_error_map in Hy. change (@num Rnum) with R in *. rewrite Hj in Hy. injection Hy as <-.
    apply cheb_curve_poly; [exact HT| |exact E]. apply (grid_range _ _ _ t EG); [lra|]. eapply nth_error_In; exact Hj.
Qed.

(** ** The sigmoid bases *)
(** steps at times inside the pulse, no step narrower than the configured width, and wider only as far as the edges allow *)
Theorem C74_steps pl tl rl x i b s u T w v g a : In b [Sigmoid; SigmoidTimeDep; SigmoidSigmas; SigmoidAllParas] ->
  update_drawn pl tl rl x i (shipped RF b s u) T w v g a ->
  0 < bs_sigma s -> 1 / 10 ^ 10 <= bs_offset s -> (0 < bs_k s)%nat -> bs_offset s <= T - bs_offset s ->
  (b <> SigmoidTimeDep -> forall y, In y w -> bs_offset s <= y <= T - bs_offset s) ->
  exists taus sigmas,
    length taus = bs_k s /\ length sigmas = bs_k s /\
    (forall y, In y taus -> bs_offset s <= y <= T - bs_offset s) /\
    (forall n, (n < bs_k s)%nat -> bs_sigma s <= nth n sigmas 0 <= bs_sigma s * (Rmin (nth n taus 0) (T - nth n taus 0) / bs_offset s)) /\
    (* the times wished for are taken if they all lie inside, and otherwise scaled and moved together, in the same order *)
    ((forall n, (n < bs_k s)%nat -> bs_offset s <= nth n w 0 + shift b s v n <= T - bs_offset s) ->
      forall n, (n < bs_k s)%nat -> nth n taus 0 = nth n w 0 + shift b s v n) /\
    (exists m q, 0 <= m /\ forall n, (n < bs_k s)%nat -> nth n taus 0 = m * (nth n w 0 + shift b s v n) + q) /\
    (forall n, (n < bs_k s)%nat -> nth n sigmas 0 = width_at s T (nth n taus 0) (widening b s v n)) /\
    a = Ar (map (smooth_steps (bs_k s) (bs_offset s) (bs_sigma s) T (firstn (bs_k s + 1) v) taus sigmas) g) /\
    equally_spaced T (cs_bins u) g.
Proof.
  intros B D S0 O0 K0 OT IN. destruct (drawn_core _ _ _ _ _ _ _ _ _ _ _ D) as (c & C & Ha & <- & <- & <- & <- & Lv & EG).
  destruct (draw_steps s u S0 O0 K0 b c B C OT IN) as (taus & sigmas & (P1 & P2 & P3 & P4) & _ & _ & (Q1 & Q2 & Q3) & DF).
  cbn [pf_shape shipped] in Ha. rewrite DF in Ha. injection Ha as <-. exists taus, sigmas. repeat (split; [assumption|]). split; [reflexivity|exact EG].
Qed.

(** however times and widths are varied, first and last sample are small, and no sample exceeds the sum of the heights *)
Theorem C74_edges pl tl rl x i b s u T w v g a : In b [Sigmoid; SigmoidTimeDep; SigmoidSigmas; SigmoidAllParas] ->
  update_drawn pl tl rl x i (shipped RF b s u) T w v g a ->
  0 < bs_sigma s -> 1 / 10 ^ 10 <= bs_offset s -> (0 < bs_k s)%nat -> bs_offset s <= T - bs_offset s ->
  (b <> SigmoidTimeDep -> forall y, In y w -> bs_offset s <= y <= T - bs_offset s) -> (2 <= cs_bins u)%nat ->
  let heights := summed (fun n => Rabs (nth n v 0)) (bs_k s + 1) in
  (forall y, In y (samples a) -> Rabs y <= heights) /\
  exists y0 y1, nth_error (samples a) 0 = Some y0 /\ nth_error (samples a) (cs_bins u - 1) = Some y1 /\
    Rabs y0 <= heights * (exp (- (bs_offset s / bs_sigma s) ^ 2 / 2) / 2) /\
    Rabs y1 <= heights * (exp (- (bs_offset s / bs_sigma s) ^ 2 / 2) / 2).
Proof.
  intros B D S0 O0 K0 OT IN NB heights. destruct (drawn_core _ _ _ _ _ _ _ _ _ _ _ D) as (c & C & Ha & <- & <- & <- & <- & Lv & EG).
  destruct (draw_steps s u S0 O0 K0 b c B C OT IN) as (taus & sigmas & P & _ & _ & _ & DF).
  cbn [pf_shape shipped] in Ha. rewrite DF in Ha. injection Ha as <-. cbn [samples].
  assert (E : height (bs_k s) (firstn (bs_k s + 1) (pc_opt c)) = heights).
  { unfold height, heights. replace (bs_k s + 1)%nat with (S (bs_k s)) by lia. apply summed_ext. intros n Hn. f_equal.
    revert Hn. generalize (S (bs_k s)) (pc_opt c) n. clear. intros m l n. revert m n. induction l as [|y l IH]; intros [|m] [|n] H; try reflexivity; try lia.
    cbn. apply IH. lia. }
  assert (OP := off_pos s O0).
  split.
  - intros y Hy. apply in_map_iff in Hy as (t & <- & _). rewrite <- E. apply steps_size.
  - destruct (grid_ends _ _ _ EG NB) as [G0 G1]. cbn [pf_bins shipped] in *. do 2 eexists.
    split; [rewrite nth_error_map; change (@num Rnum) with R in *; rewrite G0; reflexivity|].
    split; [rewrite nth_error_map; change (@num Rnum) with R in *; rewrite G1; reflexivity|]. rewrite <- E. split.
    + apply steps_begin; [exact S0|lra|exact OT|exact (placed_near s S0 O0 _ _ _ P)].
    + apply steps_end; [exact S0|lra|exact OT|exact (placed_near s S0 O0 _ _ _ P)].
Qed.
(** equal widths and heights of one sign: the update keeps that sign *)
Theorem C74_steps_positive k off sigma T amps taus t : 0 < sigma -> off <= T - off ->
  (forall i, (i < k)%nat -> nth i taus 0 <= T - off) -> (forall i, (i <= k)%nat -> 0 <= nth i amps 0) ->
  0 <= smooth_steps k off sigma T amps taus (repeat sigma k) t.
Proof. exact (steps_positive k off sigma T amps taus t). Qed.
(** with the default offset and width (both 0.1) the edges are not small: a single opening step starts above 9 % of its height *)
Theorem C74_default_edges_refuted taus sigmas T : 1 <= T ->
  9 / 100 <= smooth_steps 1 (1 / 10) (1 / 10) T [1; 0] taus sigmas 0.
Proof.
  intros HT. unfold smooth_steps. cbn [summed nth Nat.add].
  replace ((0 - 1 / 10) / (1 / 10)) with (- (1)) by lra. rewrite Rmult_0_l.
  set (z := (T - 1 / 10) / (1 / 10)). replace ((0 - (T - 1 / 10)) / (1 / 10)) with (- z) by (unfold z; lra).
  assert (Z9 : 9 <= z) by (unfold z; lra).
  assert (A : Phi (- z) <= 1 / 800).
  { eapply Rle_trans; [apply Phi_tail; lra|].
    assert (X : exp (- z ^ 2 / 2) <= / 400).
    { replace (- z ^ 2 / 2) with (- (z ^ 2 / 2)) by lra. rewrite exp_Ropp. apply Rinv_le_contravar; [lra|].
      replace (z ^ 2 / 2) with (z ^ 2 / 4 + z ^ 2 / 4) by lra. rewrite exp_plus.
      assert (Y : 20 <= exp (z ^ 2 / 4)). { pose proof (exp_ineq1_le (z ^ 2 / 4)). nra. }
      nra. }
    lra. }
  assert (B : 917 / 10000 <= Phi (- (1))).
  { rewrite Phi_opp. unfold Phi.
    assert (Q : 0 < sqrt 2) by exact sqrt2_pos.
    pose proof (erf_slope (1 / sqrt 2)) as E. assert (0 <= 1 / sqrt 2) by (apply Rmult_le_pos; [lra|left; now apply Rinv_0_lt_compat]).
    specialize (E H).
    assert (M : 2 / sqrt PI * (1 / sqrt 2) <= 8165 / 10000); [|lra].
    replace (2 / sqrt PI * (1 / sqrt 2)) with (sqrt (2 / PI)).
    - apply Rsqr_incr_0_var; [|lra]. rewrite Rsqr_sqrt.
      + assert (3 < PI) by (pose proof PI2_3_2; lra).
        apply Rmult_le_reg_r with PI; [lra|]. unfold Rdiv at 1. rewrite Rmult_assoc, Rinv_l by lra. unfold Rsqr. lra.
      + left. apply Rmult_lt_0_compat; [lra|]. apply Rinv_0_lt_compat, PI_RGT_0.
    - rewrite sqrt_div_alt by apply PI_RGT_0. pose proof sqrt_pi. field_simplify_eq; [|split; lra].
      replace (sqrt 2 ^ 2) with 2 by (rewrite pow2_sqrt; lra). ring. }
  lra.
Qed.
(** outside the window the widths can collapse: a step at time 0 may get width 0 *)
Theorem C74_width_refuted : exists (s : basis_settings (N := Rnum)) T d,
  0 < bs_sigma s /\ 1 / 10 ^ 10 <= bs_offset s /\ confine_sigmas RF s T [0] [d] = Ok [0].
Proof.
  exists {| bs_k := 1; bs_w_lower := 0; bs_w_upper := 4; bs_ampl := 1; bs_basis_max := 1; bs_offset := 1; bs_sigma := 1; bs_tau_var := 0; bs_sigma_var := 1 |}, 4, 1.
  cbn [bs_sigma bs_offset]. split; [lra|]. split; [lra|].
  change (Ok [1 + ((4 / 2 - Rabs (4 / 2 - 0)) * (1 / 1) - 1) * (1 - cos (PI * 1)) / 2] = Ok [0]).
  do 2 f_equal. rewrite Rabs_pos_eq by lra. rewrite Rmult_1_r, cos_PI. lra.
Qed.

(** ** Piecewise and Walsh *)
Theorem C74_piecewise pl tl rl x i s u T w v g a :
  update_drawn pl tl rl x i (shipped RF Piecewise s u) T w v g a -> a = Ar v /\ length v = cs_bins u.
Proof.
  intros D. destruct (drawn_core _ _ _ _ _ _ _ _ _ _ _ D) as (c & C & Ha & <- & <- & <- & <- & Lv & EG).
  cbn [pf_shape shipped basis_shape pf_nctrl basis_nctrl] in *. injection Ha as <-. split; [reflexivity|exact Lv].
Qed.
(** Walsh draws harmonics, not Walsh functions: inside wide limits and without a guess it is the Fourier basis *)
Theorem C74_walsh_is_fourier pl tl rl x i s u T w v g a :
  update_drawn pl tl rl x i (shipped RF Walsh s u) T w v g a -> cs_shrink u = false -> cs_guess u = GOther ->
  cs_lower u <= cs_upper u -> cs_lower u <= - summed (size_of v) (bs_k s) -> summed (size_of v) (bs_k s) <= cs_upper u ->
  a = Ar (map (harmonics (bs_k s) T w v) g).
Proof.
  intros D SH GU LU LO UP. destruct (drawn_core _ _ _ _ _ _ _ _ _ _ _ D) as (c & C & Ha & <- & <- & <- & <- & Lv & EG).
  assert (LL := co_lower _ _ C). assert (UU := co_upper _ _ C). cbn [pf_lower pf_upper shipped] in LL, UU.
  assert (NL : nltb (Num := Rnum) (cs_upper u) (cs_lower u) = false) by (exact (Rlt_bool_false _ _ LU)). rewrite NL in LL, UU.
  assert (W : basis_shape RF Walsh s c = Ok (Ar (map (harmonics (bs_k s) (pc_final_time c) (pc_w c) (pc_opt c)) (pc_time_grid c)))).
  { apply (draw_walsh s u c C SH GU); [rewrite LL; exact LO|rewrite UU; exact UP]. }
  cbn [pf_shape shipped] in Ha. rewrite W in Ha. now injection Ha as <-.
Qed.

(** ** Concrete cases *)
Definition curve_settings : basis_settings (N := Rnum) :=
  {| bs_k := 1; bs_w_lower := 1; bs_w_upper := 3; bs_ampl := 1; bs_basis_max := 1; bs_offset := 1; bs_sigma := 1; bs_tau_var := 1; bs_sigma_var := 1 |}.
Definition curve_common : common_settings (N := Rnum) :=
  {| cs_name := "p"; cs_bins := 5; cs_time_name := "t"; cs_lower := -9; cs_upper := 9; cs_guess := GOther; cs_scaling := SOther;
     cs_shrink := false; cs_options := None; cs_overwrite := false |}.
(** one pulse of duration 4, new random super-parameters drawn in the middle of their interval: w = 2 *)
Lemma curve_case b x : In b [Fourier; Sinc; Sigmoid; SigmoidTimeDep; SigmoidSigmas; Chebyshev] -> length x = basis_nctrl (N := Rnum) b curve_settings 5 ->
  exists g a, update_drawn [shipped RF b curve_settings curve_common] [ex_time 4 0 9 false] [] x 0 (shipped RF b curve_settings curve_common)
    4 [1 + 0 * ((3 - 1) / 1) + (3 - 1) / 1 * / 2] x g a.
Proof.
  intros B LX.
  assert (US : usable [shipped RF b curve_settings curve_common] [ex_time 4 0 9 false]).
  { constructor.
    - constructor; [apply shipped_plain|constructor].
    - constructor; [apply shipped_total; [destruct B as [<-|[<-|[<-|[<-|[<-|[<-|[]]]]]]]; discriminate|cbn; lia]|constructor].
    - constructor; [|constructor]. intros q Lq. split; cbn; discriminate.
    - constructor; [cbn; discriminate|constructor].
    - constructor; [cbn; discriminate|constructor].
    - intros t [<-|[]]. discriminate. }
  destruct (new_controls [shipped RF b curve_settings curve_common] [ex_time 4 0 9 false] []) as [c0|] eqn:E0; [|exfalso; destruct B as [<-|[<-|[<-|[<-|[<-|[<-|[]]]]]]]; cbn in E0; discriminate E0].
  destruct (select_basis (fun _ => / 2) 0 c0) as [[c1 q]|] eqn:E1.
  2:{ exfalso. destruct B as [<-|[<-|[<-|[<-|[<-|[<-|[]]]]]]]; cbn in E0; injection E0 as <-; cbn in E1; discriminate E1. }
  assert (LN : length x = get_control_parameters_number c1).
  { rewrite LX. destruct B as [<-|[<-|[<-|[<-|[<-|[<-|[]]]]]]]; cbn in E0; injection E0 as <-; cbn in E1; injection E1 as <- _; cbn; try reflexivity. }
  destruct (bare_total _ _ _ _ _ x E0 (reach_select _ _ _ _ _ _ (reach_refl c0) E1) US LN) as (c' & us & E2 & Lu).
  destruct us as [|a [|]]; try discriminate.
  assert (P : exists p1, c_pulses c1 = [p1] /\ pc_w (core p1) = [1 + 0 * ((3 - 1) / 1) + (3 - 1) / 1 * / 2] /\ time_of (c_times c1) "t" = Ok 4).
  { destruct B as [<-|[<-|[<-|[<-|[<-|[<-|[]]]]]]]; cbn in E0; injection E0 as <-; cbn in E1; injection E1 as <- _; eexists; repeat split. }
  destruct P as (p1 & EP & EW & ET).
  pose proof E2 as H. unfold get_bare_controls_lists in H. rewrite EP in H. apply rbind_ok in H as (ps & HP & H). injection H as Hc Hu.
  cbn [rmap] in HP. apply rbind_ok in HP as (z & HZ & HP). cbn [rbind] in HP. injection HP as <-.
  apply rbind_ok in HZ as (v & _ & HZ). apply rbind_ok in HZ as (T & _ & HZ).
  unfold get_bare_pulse in HZ. apply rbind_ok in HZ as (y & _ & HZ). injection HZ as <-.
  exists (pc_time_grid (core (prepare v T p1))), a.
  exists c0, c1, c', [a], (prepare v T p1).
  split; [exact E0|]. split; [constructor; [apply shipped_plain|constructor]|]. split; [exact (reach_select _ _ _ _ _ _ (reach_refl c0) E1)|].
  split; [exact E2|]. do 2 (split; [reflexivity|]). rewrite <- Hc. cbn [c_pulses c_times map fst]. split; [reflexivity|]. split; [exact ET|].
  split; [symmetry; exact EW|]. split; [reflexivity|]. cbn [firstn map list_sum fold_right skipn]. symmetry. apply firstn_all2.
  destruct B as [<-|[<-|[<-|[<-|[<-|[<-|[]]]]]]]; rewrite LX; cbn; lia.
Qed.

Example C74_fourier_ex : exists g a y, update_drawn [shipped RF Fourier curve_settings curve_common] [ex_time 4 0 9 false] [] [3; 4] 0
    (shipped RF Fourier curve_settings curve_common) 4 [2] [3; 4] g a /\
  nth_error (samples a) 0 = Some y /\ nth_error (samples a) 4 = Some y /\ Rabs y <= summed (size_of [3; 4]) 1 /\ y = 4.
Proof.
  destruct (curve_case Fourier [3; 4]) as (g & a & D); [cbn; tauto|reflexivity|].
  replace (1 + 0 * ((3 - 1) / 1) + (3 - 1) / 1 * / 2) with 2 in D by lra.
  destruct (C74_fourier _ _ _ _ _ _ _ _ _ _ _ _ _ (or_introl eq_refl) D) as (-> & E & _ & _ & SZ & PE).
  destruct (grid_ends _ _ _ E) as [G0 _]; [cbn; lia|].
  assert (F : nth_error (samples (Ar (map (harmonics 1 4 [2] [3; 4]) g))) 0 = Some 4).
  { cbn [samples]. rewrite nth_error_map. change (@num Rnum) with R in *. rewrite G0. cbn. do 2 f_equal.
    unfold harmonics. cbn [summed nth]. replace (2 * PI * 2 * (0 / 4)) with 0 by lra. rewrite sin_0, cos_0. lra. }
  exists g. eexists. exists 4. split; [exact D|]. split; [exact F|]. split; [|split; [|reflexivity]].
  - refine (eq_trans (eq_sym (PE _ _ _)) F); [cbn; lia|lra|]. intros [|n] Hn; [|cbn in Hn; lia]. exists 2%Z. reflexivity.
  - apply SZ. eapply nth_error_In. exact F.
Qed.
Example C74_sinc_ex : exists g a, update_drawn [shipped RF Sinc curve_settings curve_common] [ex_time 4 0 9 false] [] [3] 0
    (shipped RF Sinc curve_settings curve_common) 4 [2] [3] g a /\ exists y, In y (samples a) /\ Rabs (y - 3) <= 1 / 10 ^ 20.
Proof.
  destruct (curve_case Sinc [3]) as (g & a & D); [cbn; tauto|reflexivity|].
  replace (1 + 0 * ((3 - 1) / 1) + (3 - 1) / 1 * / 2) with 2 in D by lra.
  destruct (C74_sinc _ _ _ _ _ _ _ _ _ _ _ _ D) as (l & -> & Ll & E & _ & _ & N). exists g, (Ar l). split; [exact D|]. cbn [cs_bins curve_common] in *.
  destruct (nth_error l 2) as [y|] eqn:Y; [|apply nth_error_None in Y; lia].
  exists y. split; [eapply nth_error_In; exact Y|]. destruct E as [_ E]. specialize (E 2%nat ltac:(lia)). cbn in E.
  replace ((1 + 1) * (4 / (1 + 1 + 1 + 1))) with 2 in E by lra. destruct (N 2%nat _ _ E Y) as [N1 _]. cbn [bs_k bs_basis_max curve_settings] in N1.
  pose proof (C74_sinc_nodes 1 1 4 [2] [3] 0 ltac:(lia) ltac:(intros j J1 J2; lia)) as M. cbn [nth] in M. rewrite M in N1.
  eapply Rle_trans; [exact N1|]. cbn [summed nth]. rewrite Rabs_pos_eq by lra. lra.
Qed.
Example C74_chebyshev_ex : exists g a, update_drawn [shipped RF Chebyshev curve_settings curve_common] [ex_time 4 0 9 false] [] [3; 0] 0
    (shipped RF Chebyshev curve_settings curve_common) 4 [2] [3; 0] g a /\ nth_error (samples a) 2 = Some (-3).
Proof.
  destruct (curve_case Chebyshev [3; 0]) as (g & a & D); [cbn; tauto|reflexivity|].
  replace (1 + 0 * ((3 - 1) / 1) + (3 - 1) / 1 * / 2) with 2 in D by lra.
  destruct (C74_chebyshev _ _ _ _ _ _ _ _ _ _ _ _ D) as (l & -> & Ll & E & _ & _ & N). exists g, (Ar l). split; [exact D|]. cbn [cs_bins curve_common samples] in *.
  destruct (nth_error l 2) as [y|] eqn:Y; [|apply nth_error_None in Y; lia].
  destruct E as [_ E]. specialize (E 2%nat ltac:(lia)). cbn in E. replace ((1 + 1) * (4 / (1 + 1 + 1 + 1))) with 2 in E by lra.
  f_equal. rewrite (fun H => N [2%nat] ltac:(lra) H 2%nat _ _ E Y); [cbn; lra|]. intros [|n] Hn; [|cbn in Hn; lia]. cbn. split; [lra|reflexivity].
Qed.
Example C74_edges_ex b v : In (b, v) [(Sigmoid, [3; 1]); (SigmoidTimeDep, [3; 1; 1 / 2]); (SigmoidSigmas, [3; 1; 1 / 2])] ->
  exists g a y0, update_drawn [shipped RF b curve_settings curve_common] [ex_time 4 0 9 false] [] v 0 (shipped RF b curve_settings curve_common) 4 [2] v g a /\
  nth_error (samples a) 0 = Some y0 /\ Rabs y0 <= 4 * (exp (- (1 / 1) ^ 2 / 2) / 2).
Proof.
  intros B. assert (B' : In b [Sigmoid; SigmoidTimeDep; SigmoidSigmas]) by (destruct B as [B|[B|[B|[]]]]; injection B as <- <-; cbn; tauto).
  assert (S : summed (fun n => Rabs (nth n v 0)) 2 = 4).
  { destruct B as [B|[B|[B|[]]]]; injection B as <- <-; cbn [summed nth]; rewrite !Rabs_pos_eq by lra; lra. }
  destruct (curve_case b v) as (g & a & D).
  { cbn in B' |- *. tauto. }
  { destruct B as [B|[B|[B|[]]]]; injection B as <- <-; reflexivity. }
  replace (1 + 0 * ((3 - 1) / 1) + (3 - 1) / 1 * / 2) with 2 in D by lra.
  destruct (C74_edges _ _ _ _ _ b curve_settings curve_common _ _ _ _ _ ltac:(cbn in *; tauto) D) as [_ (y0 & y1 & Y0 & _ & R0 & _)].
  1-4, 6: cbn; lra || lia.
  { intros _ y [<-|[]]. cbn. lra. }
  exists g, a, y0. split; [exact D|]. split; [exact Y0|]. cbn [bs_k curve_settings Nat.add bs_offset bs_sigma] in R0. rewrite S in R0. exact R0.
Qed.
Example C74_steps_ex : smooth_steps 1 1 1 4 [3; 1] [2] [1] 2 = Phi 0 + 3 * Phi 1 - 4 * Phi (-1)
  /\ 0 <= smooth_steps 1 1 1 4 [3; 1] [2] (repeat 1 1) 2.
Proof.
  split.
  - unfold smooth_steps. cbn [summed nth Nat.add]. replace ((2 - 2) / 1) with 0 by lra. replace ((2 - 1) / 1) with 1 by lra. replace ((2 - (4 - 1)) / 1) with (-1) by lra. ring.
  - apply C74_steps_positive; [lra|lra| |]; intros [|[|i]] Hi; cbn; lra || lia.
Qed.
Example C74_piecewise_ex : exists g w a, update_drawn [shipped RF Piecewise curve_settings curve_common] [ex_time 4 0 9 false] [] [1; 2; 3; 2; 1] 0
    (shipped RF Piecewise curve_settings curve_common) 4 w [1; 2; 3; 2; 1] g a.
Proof.
  destruct (new_controls [shipped RF Piecewise curve_settings curve_common] [ex_time 4 0 9 false] []) as [c0|] eqn:E0; [|discriminate E0].
  pose proof E0 as E1. cbn in E1. injection E1 as E1. subst c0.
  do 3 eexists. do 5 eexists. split; [exact E0|]. split; [constructor; [apply shipped_plain|constructor]|]. split; [apply reach_refl|].
  split; [reflexivity|]. repeat (split; [reflexivity|]). reflexivity.
Qed.
Example C74_walsh_ex : exists g w a, update_drawn [shipped RF Walsh curve_settings curve_common] [ex_time 4 0 9 false] [] [3; 4] 0
    (shipped RF Walsh curve_settings curve_common) 4 w [3; 4] g a /\
  cs_lower curve_common <= - summed (size_of [3; 4]) (bs_k curve_settings) /\ summed (size_of [3; 4]) (bs_k curve_settings) <= cs_upper curve_common.
Proof.
  assert (S : summed (size_of [3; 4]) (bs_k curve_settings) = 5).
  { cbn. unfold size_of. cbn [Nat.mul Nat.add nth]. replace (3 ^ 2 + 4 ^ 2) with (5 * 5) by lra. rewrite sqrt_square; lra. }
  destruct (new_controls [shipped RF Walsh curve_settings curve_common] [ex_time 4 0 9 false] []) as [c0|] eqn:E0; [|discriminate E0].
  assert (PBf := shipped_plain RF Walsh curve_settings curve_common).
  destruct (good_reachable _ _ _ _ PBf (reach_refl c0) (good_new _ _ _ _ 0 _ E0 eq_refl)) as (p & Ep & GP).
  pose proof (good_core_of _ _ [3; 4] 4 GP eq_refl) as C.
  assert (LL := co_lower _ _ C). assert (UU := co_upper _ _ C). cbn [pf_lower pf_upper shipped cs_lower cs_upper curve_common] in LL, UU.
  assert (NL : nltb (Num := Rnum) 9 (-9) = false) by (apply Rlt_bool_false; lra). rewrite NL in LL, UU.
  assert (W := draw_walsh curve_settings curve_common _ C eq_refl eq_refl).
  assert (O : pc_opt (core (prepare [3; 4] 4 p)) = [3; 4]) by reflexivity. rewrite O, S, LL, UU in W. specialize (W ltac:(lra) ltac:(lra)).
  assert (CP : c_pulses c0 = [p] /\ pc_indices (core p) = [0; 1]%Z /\ pc_time_name (core p) = "t"%string /\ time_of (c_times c0) "t" = Ok 4 /\
    shape p = basis_shape RF Walsh curve_settings).
  { cbn in E0. injection E0 as <-. injection Ep as <-. repeat split. }
  destruct CP as (CP & PI_ & PT & CT & PS).
  assert (E2 : get_bare_controls_lists [3; 4] c0 = Ok ({| c_pulses := [prepare [3; 4] 4 p]; c_params := c_params c0; c_times := c_times c0 |},
    [Ar (map (harmonics 1 4 (pc_w (core p)) [3; 4]) (pc_time_grid (core (prepare [3; 4] 4 p))))])).
  { unfold get_bare_controls_lists. rewrite CP. cbn [rmap]. rewrite PI_, PT, CT.
    change (gather [3; 4] [0%Z; 1%Z]) with (Ok [3; 4]). cbn [rbind]. unfold get_bare_pulse.
    assert (PS' : shape (prepare [3; 4] 4 p) = basis_shape RF Walsh curve_settings) by exact PS. cbv zeta. rewrite PS', W. reflexivity. }
  do 3 eexists. split.
  { exists c0, c0. do 3 eexists. split; [exact E0|]. split; [constructor; [exact PBf|constructor]|]. split; [apply reach_refl|].
    split; [exact E2|]. do 3 (split; [reflexivity|]). split; [exact CT|]. repeat (split; [reflexivity|]). reflexivity. }
  rewrite S. cbn. lra.
Qed.

Print Assumptions C74_fourier.
Print Assumptions C74_sinc.
Print Assumptions C74_sinc_nodes.
Print Assumptions C74_chebyshev.
Print Assumptions C74_steps.
Print Assumptions C74_edges.
Print Assumptions C74_steps_positive.
Print Assumptions C74_default_edges_refuted.
Print Assumptions C74_width_refuted.
Print Assumptions C74_piecewise.
Print Assumptions C74_walsh_is_fourier.
