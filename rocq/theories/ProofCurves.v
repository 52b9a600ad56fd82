(** Facts about the curves of SpecCurves.v. *)
From Coq Require Import Reals Lra Lia List ZArith.
From Verif Require Import SpecCurves ProofErf.
Import ListNotations.
Local Open Scope R_scope.

Lemma summed_ext f g n : (forall i, (i < n)%nat -> f i = g i) -> summed f n = summed g n.
Proof. induction n as [|n IH]; intros E; cbn; [reflexivity|]. rewrite IH by (intros; apply E; lia). now rewrite E by lia. Qed.
Lemma summed_le f g n : (forall i, (i < n)%nat -> f i <= g i) -> summed f n <= summed g n.
Proof. induction n as [|n IH]; intros E; cbn; [lra|]. specialize (IH ltac:(intros; apply E; lia)). specialize (E n ltac:(lia)). lra. Qed.
Lemma summed_abs f n : Rabs (summed f n) <= summed (fun i => Rabs (f i)) n.
Proof. induction n as [|n IH]; cbn; [rewrite Rabs_R0; lra|]. eapply Rle_trans; [apply Rabs_triang|lra]. Qed.
Lemma summed_scal c f n : summed (fun i => c * f i) n = c * summed f n.
Proof. induction n as [|n IH]; cbn; [ring|]. rewrite IH. ring. Qed.
Lemma summed_scal_r c f n : summed (fun i => f i * c) n = summed f n * c.
Proof. induction n as [|n IH]; cbn; [ring|]. rewrite IH. ring. Qed.
Lemma summed_minus f g n : summed (fun i => f i - g i) n = summed f n - summed g n.
Proof. induction n as [|n IH]; cbn; [ring|]. rewrite IH. ring. Qed.
Lemma summed_zero n : summed (fun _ => 0) n = 0.
Proof. induction n as [|n IH]; cbn; [reflexivity|]. rewrite IH. ring. Qed.
Lemma summed_one f n i : (i < n)%nat -> (forall j, (j < n)%nat -> j <> i -> f j = 0) -> summed f n = f i.
Proof.
  induction n as [|n IH]; intros L Z; [lia|]. cbn. destruct (Nat.eq_dec i n) as [->|NE].
  - rewrite (summed_ext _ (fun _ => 0)), summed_zero; [ring|]. intros j Hj. apply Z; lia.
  - rewrite IH by (try lia; intros; apply Z; lia). rewrite (Z n) by lia. ring.
Qed.
Lemma summed_shift f n : summed f (S n) = f 0%nat + summed (fun i => f (S i)) n.
Proof. induction n as [|n IH]; cbn in *; [ring|]. rewrite IH. ring. Qed.

(** ** Harmonics *)
Lemma wave_size a b y : Rabs (a * sin y + b * cos y) <= sqrt (a ^ 2 + b ^ 2).
Proof.
  rewrite <- sqrt_Rsqr_abs. apply sqrt_le_1_alt. unfold Rsqr.
  pose proof (sin2_cos2 y) as E. unfold Rsqr in E.
  assert (0 <= (a * cos y - b * sin y) * (a * cos y - b * sin y)) by apply Rle_0_sqr.
  replace ((a * sin y + b * cos y) * (a * sin y + b * cos y)) with
    ((a ^ 2 + b ^ 2) * (sin y * sin y + cos y * cos y) - (a * cos y - b * sin y) * (a * cos y - b * sin y)) by ring.
  rewrite E. lra.
Qed.
Lemma harmonics_size k T w x t : Rabs (harmonics k T w x t) <= summed (size_of x) k.
Proof. eapply Rle_trans; [apply summed_abs|]. apply summed_le. intros i _. apply wave_size. Qed.
Lemma periods_sin z y : sin (y + 2 * PI * IZR z) = sin y.
Proof.
  destruct z as [|p|p].
  - f_equal. ring.
  - rewrite <- (positive_nat_Z p), <- INR_IZR_INZ. replace (2 * PI * INR (Pos.to_nat p)) with (2 * INR (Pos.to_nat p) * PI) by ring. apply sin_period.
  - rewrite <- (sin_period (y + 2 * PI * IZR (Z.neg p)) (Pos.to_nat p)). f_equal. rewrite INR_IZR_INZ, positive_nat_Z.
    change (Z.neg p) with (- Z.pos p)%Z. rewrite opp_IZR. ring.
Qed.
Lemma periods_cos z y : cos (y + 2 * PI * IZR z) = cos y.
Proof. rewrite !cos_sin. rewrite <- (periods_sin z (PI / 2 + y)). f_equal. ring. Qed.
Lemma harmonics_periodic k T w x t : T <> 0 -> (forall i, (i < k)%nat -> exists z, nth i w 0 = IZR z) ->
  harmonics k T w x (t + T) = harmonics k T w x t.
Proof.
  intros NZ W. apply summed_ext. intros i Hi. destruct (W i Hi) as (z & ->).
  replace (2 * PI * IZR z * ((t + T) / T)) with (2 * PI * IZR z * (t / T) + 2 * PI * IZR z) by (field; exact NZ).
  now rewrite periods_sin, periods_cos.
Qed.

(** ** Cardinal series *)
Lemma sin_abs y : Rabs (sin y) <= Rabs y.
Proof.
  assert (P : forall y, 0 < y -> Rabs (sin y) <= y).
  { intros z Hz. pose proof (sin_lt_x z Hz). pose proof (SIN_bound z).
    destruct (Rle_dec z 1) as [L|L].
    - assert (0 <= sin z) by (apply sin_ge_0; pose proof PI2_3_2; lra). rewrite Rabs_pos_eq; lra.
    - apply Rabs_le. lra. }
  destruct (Rtotal_order y 0) as [L|[->|L]].
  - rewrite (Rabs_left y L), <- Rabs_Ropp, <- sin_neg. apply P. lra.
  - rewrite sin_0. lra.
  - rewrite (Rabs_pos_eq y) by lra. now apply P.
Qed.
Lemma cardinal_sine_size y : Rabs (cardinal_sine y) <= 1.
Proof.
  unfold cardinal_sine. destruct (Req_EM_T y 0) as [E|E]; [rewrite Rabs_R1; lra|].
  unfold Rdiv. rewrite Rabs_mult, Rabs_Rinv by exact E. apply Rmult_le_reg_r with (Rabs y); [now apply Rabs_pos_lt|].
  rewrite Rmult_assoc, Rinv_l by (now apply Rabs_no_R0). pose proof (sin_abs y). lra.
Qed.
Lemma cardinal_sine_zero z : z <> 0%Z -> cardinal_sine (PI * IZR z) = 0.
Proof.
  intros NZ. unfold cardinal_sine. destruct (Req_EM_T (PI * IZR z) 0) as [E|E].
  - exfalso. apply Rmult_integral in E as [E|E]; [pose proof PI_RGT_0; lra|]. apply NZ. now apply eq_IZR_R0.
  - replace (sin (PI * IZR z)) with 0; [unfold Rdiv; ring|]. symmetry. apply sin_eq_0_1. exists z. ring.
Qed.
Lemma cardinal_series_size k bmax T w x t : Rabs (cardinal_series k bmax T w x t) <= summed (fun i => Rabs (nth i x 0)) k.
Proof.
  eapply Rle_trans; [apply summed_abs|]. apply summed_le. intros i _. rewrite Rabs_mult.
  rewrite <- (Rmult_1_r (Rabs (nth i x 0))) at 2. apply Rmult_le_compat_l; [apply Rabs_pos|apply cardinal_sine_size].
Qed.
Lemma cardinal_series_node k bmax T w x i : (i < k)%nat ->
  (forall j, (j < k)%nat -> j <> i -> exists z, z <> 0%Z /\ 2 * bmax * (nth i w 0 - nth j w 0) / T = IZR z) ->
  cardinal_series k bmax T w x (nth i w 0) = nth i x 0.
Proof.
  intros Hi W. unfold cardinal_series. rewrite (summed_one _ k i Hi).
  - replace (2 * PI * bmax * (nth i w 0 - nth i w 0) / T) with 0 by (unfold Rdiv; ring).
    unfold cardinal_sine. destruct (Req_EM_T 0 0); [ring|congruence].
  - intros j Hj NE. destruct (W j Hj NE) as (z & NZ & E).
    replace (2 * PI * bmax * (nth i w 0 - nth j w 0) / T) with (PI * (2 * bmax * (nth i w 0 - nth j w 0) / T)) by (unfold Rdiv; ring).
    rewrite E, cardinal_sine_zero by exact NZ. ring.
Qed.
(** next to 0 the quotient is nearly 1 *)
Lemma sin_small e : 0 < e <= 1 -> 1 - e ^ 2 <= sin e / e <= 1.
Proof.
  intros He. split.
  - apply Rmult_le_reg_r with e; [lra|]. unfold Rdiv. rewrite Rmult_assoc, Rinv_l, Rmult_1_r by lra.
    destruct (pre_sin_bound e 0) as [L _]; [lra|lra|]. unfold sin_approx in L. cbn [sum_f_R0 sin_term Nat.mul Nat.add] in L.
    unfold sin_term in L. cbn [Nat.mul Nat.add pow fact] in L. simpl in L. nra.
  - apply Rmult_le_reg_r with e; [lra|]. unfold Rdiv. rewrite Rmult_assoc, Rinv_l by lra. pose proof (sin_lt_x e ltac:(lra)). lra.
Qed.

(** ** Chebyshev polynomials *)
Lemma chebyshev_cos n y : chebyshev n (cos y) = cos (INR n * y).
Proof.
  assert (K : chebyshev n (cos y) = cos (INR n * y) /\ chebyshev (S n) (cos y) = cos (INR (S n) * y)).
  { induction n as [|n [IH1 IH2]].
    - split; cbn; [now rewrite Rmult_0_l, cos_0|now rewrite Rmult_1_l].
    - split; [exact IH2|]. change (chebyshev (S (S n)) (cos y)) with (2 * cos y * chebyshev (S n) (cos y) - chebyshev n (cos y)).
      rewrite IH1, IH2. rewrite !S_INR.
      replace ((INR n + 1 + 1) * y) with ((INR n + 1) * y + y) by ring.
      replace (INR n * y) with ((INR n + 1) * y - y) by ring. rewrite cos_plus, cos_minus. ring. }
  apply K.
Qed.
Lemma chebyshev_acos n x : -1 <= x <= 1 -> cos (INR n * acos x) = chebyshev n x.
Proof. intros Hx. rewrite <- chebyshev_cos, cos_acos by exact Hx. reflexivity. Qed.

(** ** Smooth steps *)
Section Steps.
  Variables (k : nat) (off sigma T : R) (amps taus sigmas : list R).
  (** heights and distances in one sum *)
  Definition centre (i : nat) : R := match i with O => off | S i => nth i taus 0 end.
  Definition width (i : nat) : R := match i with O => sigma | S i => nth i sigmas 0 end.
  Lemma steps_one_sum t : smooth_steps k off sigma T amps taus sigmas t =
    summed (fun i => nth i amps 0 * (Phi ((t - centre i) / width i) - Phi ((t - (T - off)) / sigma))) (S k).
  Proof.
    unfold smooth_steps. replace (k + 1)%nat with (S k) by lia.
    transitivity (summed (fun i => nth i amps 0 * Phi ((t - centre i) / width i) - nth i amps 0 * Phi ((t - (T - off)) / sigma)) (S k)).
    2:{ apply summed_ext. intros i _. ring. }
    rewrite summed_minus, summed_scal_r. rewrite (summed_shift (fun i => nth i amps 0 * Phi ((t - centre i) / width i))). cbn [centre width].
    f_equal. rewrite Rplus_comm. f_equal. apply summed_ext. intros i _. now replace (i + 1)%nat with (S i) by lia.
  Qed.
  Definition height : R := summed (fun i => Rabs (nth i amps 0)) (S k).
  Lemma steps_bound c t : (forall i, (i < S k)%nat -> Rabs (Phi ((t - centre i) / width i) - Phi ((t - (T - off)) / sigma)) <= c) ->
    Rabs (smooth_steps k off sigma T amps taus sigmas t) <= height * c.
  Proof.
    intros B. rewrite steps_one_sum. eapply Rle_trans; [apply summed_abs|]. unfold height. rewrite <- summed_scal_r. apply summed_le.
    intros i Hi. rewrite Rabs_mult. apply Rmult_le_compat_l; [apply Rabs_pos|now apply B].
  Qed.
  Lemma steps_size t : Rabs (smooth_steps k off sigma T amps taus sigmas t) <= height.
  Proof.
    rewrite <- (Rmult_1_r height). apply steps_bound. intros i _. apply Rabs_le.
    pose proof (Phi_range ((t - centre i) / width i)). pose proof (Phi_range ((t - (T - off)) / sigma)). lra.
  Qed.
  Lemma height_nonneg : 0 <= height.
  Proof. unfold height. apply (Rle_trans _ _ _ (Req_le _ _ (eq_sym (summed_zero (S k))))). apply summed_le. intros; apply Rabs_pos. Qed.

  Hypothesis (S0 : 0 < sigma) (O0 : 0 <= off) (OT : off <= T - off).
  Hypothesis (Near : forall i, (i < k)%nat -> 0 < nth i sigmas 0 /\ off / sigma <= nth i taus 0 / nth i sigmas 0 /\
                                  off / sigma <= (T - nth i taus 0) / nth i sigmas 0).
  Lemma ratio0 : 0 <= off / sigma.
  Proof. apply Rmult_le_pos; [lra|left; now apply Rinv_0_lt_compat]. Qed.
  Lemma near_all i : (i < S k)%nat -> off / sigma <= centre i / width i /\ off / sigma <= (T - centre i) / width i.
  Proof.
    destruct i as [|i]; intros Hi; cbn [centre width].
    - split; [lra|]. apply Rmult_le_compat_r; [left; now apply Rinv_0_lt_compat|lra].
    - apply Near. lia.
  Qed.
  Definition tail : R := exp (- (off / sigma) ^ 2 / 2) / 2.
  Lemma far z : off / sigma <= z -> 0 <= Phi (- z) <= tail.
  Proof.
    intros L. split; [left; apply Phi_range|]. eapply Rle_trans; [|apply Phi_tail, ratio0]. apply Phi_mono. lra.
  Qed.
  Lemma steps_begin : Rabs (smooth_steps k off sigma T amps taus sigmas 0) <= height * tail.
  Proof.
    apply steps_bound. intros i Hi. destruct (near_all i Hi) as [A _].
    replace ((0 - centre i) / width i) with (- (centre i / width i)) by (unfold Rdiv; ring).
    replace ((0 - (T - off)) / sigma) with (- ((T - off) / sigma)) by (unfold Rdiv; ring).
    assert (off / sigma <= (T - off) / sigma) by (apply Rmult_le_compat_r; [left; now apply Rinv_0_lt_compat|lra]).
    pose proof (far _ A). pose proof (far _ H). apply Rabs_le. lra.
  Qed.
  Lemma steps_end : Rabs (smooth_steps k off sigma T amps taus sigmas T) <= height * tail.
  Proof.
    apply steps_bound. intros i Hi. destruct (near_all i Hi) as [_ A].
    replace (T - (T - off)) with off by ring.
    pose proof (far _ A) as B1. pose proof (far _ (Rle_refl _)) as B2. rewrite Phi_opp in B1, B2. apply Rabs_le. lra.
  Qed.
End Steps.

(** equal widths, heights of one sign: no sample on the other side *)
Lemma steps_positive k off sigma T amps taus t : 0 < sigma -> off <= T - off ->
  (forall i, (i < k)%nat -> nth i taus 0 <= T - off) -> (forall i, (i <= k)%nat -> 0 <= nth i amps 0) ->
  0 <= smooth_steps k off sigma T amps taus (repeat sigma k) t.
Proof.
  intros S0 OT HT HA. rewrite steps_one_sum. apply (Rle_trans _ _ _ (Req_le _ _ (eq_sym (summed_zero (S k))))). apply summed_le. intros i Hi.
  apply Rmult_le_pos; [apply HA; lia|].
  assert (W : width sigma (repeat sigma k) i = sigma).
  { destruct i as [|i]; cbn [width]; [reflexivity|]. rewrite nth_indep with (d' := sigma) by (rewrite repeat_length; lia). apply nth_repeat. }
  rewrite W. assert (C : centre off taus i <= T - off) by (destruct i; cbn [centre]; [exact OT|apply HT; lia]).
  assert (Phi ((t - (T - off)) / sigma) <= Phi ((t - centre off taus i) / sigma)); [|lra].
  apply Phi_mono. apply Rmult_le_compat_r; [left; now apply Rinv_0_lt_compat|lra].
Qed.
