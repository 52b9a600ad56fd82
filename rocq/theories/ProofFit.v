(** The straight line fitted by the change-based stopping criterion, over the reals. *)
From Coq Require Import ZArith List Bool Lia Reals Lra Psatz.
From Verif Require Import Num NumFacts Py PyFacts ModelLinalg SpecFit.
Import ListNotations.
Open Scope list_scope.
Open Scope R_scope.

(** ** proof *)
Fixpoint Sy (ys : list R) : R := match ys with [] => 0 | y :: ys => y + Sy ys end.
Fixpoint Sxy (k : nat) (ys : list R) : R := match ys with [] => 0 | y :: ys => INR k * y + Sxy (S k) ys end.
Fixpoint Sx (k n : nat) : R := match n with O => 0 | S n => INR k + Sx (S k) n end.
Fixpoint Sxx (k n : nat) : R := match n with O => 0 | S n => INR k * INR k + Sxx (S k) n end.

Lemma nsum_Sy (l : list R) : nsum (N := Rnum) l = Sy l.
Proof.
  unfold nsum. change (@of_Z Rnum 0) with 0. change (@nadd Rnum) with Rplus.
  assert (forall a, fold_left Rplus l a = a + Sy l) as H; [|rewrite H; apply Rplus_0_l].
  induction l as [|y l IH]; intros a; cbn [fold_left Sy]; [ring|]. rewrite IH. ring.
Qed.
Definition xs_from (k n : nat) : list R := map (fun i => IZR (Z.of_nat i)) (seq k n).
Lemma Sy_xs k n : Sy (xs_from k n) = Sx k n.
Proof.
  unfold xs_from. revert k. induction n as [|n IH]; intros k; cbn [seq map Sy Sx]; [reflexivity|]. now rewrite IH, INR_IZR_INZ.
Qed.
Lemma dot_xy k ys : Sy (map2 Rmult (xs_from k (length ys)) ys) = Sxy k ys.
Proof.
  unfold xs_from. revert k. induction ys as [|y ys IH]; intros k; cbn [length seq map map2 Sy Sxy]; [reflexivity|]. now rewrite IH, INR_IZR_INZ.
Qed.
Lemma dot_xx k n : Sy (map2 Rmult (xs_from k n) (xs_from k n)) = Sxx k n.
Proof.
  unfold xs_from. revert k. induction n as [|n IH]; intros k; cbn [seq map map2 Sy Sxx]; [reflexivity|]. now rewrite IH, INR_IZR_INZ.
Qed.
Definition den (n : nat) : R := INR n * Sxx 0 n - Sx 0 n * Sx 0 n.
Lemma fit_slope_R (ys : list R) : fit_slope (N := Rnum) ys =
  (INR (length ys) * Sxy 0 ys - Sx 0 (length ys) * Sy ys) / den (length ys).
Proof.
  transitivity ((IZR (Z.of_nat (length ys)) * nsum (N := Rnum) (map2 Rmult (xs_from 0 (length ys)) ys) - nsum (N := Rnum) (xs_from 0 (length ys)) * nsum (N := Rnum) ys) /
    (IZR (Z.of_nat (length ys)) * nsum (N := Rnum) (map2 Rmult (xs_from 0 (length ys)) (xs_from 0 (length ys))) - nsum (N := Rnum) (xs_from 0 (length ys)) * nsum (N := Rnum) (xs_from 0 (length ys)))); [reflexivity|].
  rewrite !nsum_Sy. rewrite dot_xy, dot_xx, Sy_xs. now rewrite <- INR_IZR_INZ.
Qed.
Lemma Sx_S k n : Sx k (S n) = Sx k n + INR (k + n).
Proof. revert k. induction n as [|n IH]; intros k; [cbn; rewrite Nat.add_0_r; ring|]. change (Sx k (S (S n))) with (INR k + Sx (S k) (S n)). rewrite IH. cbn [Sx]. replace (S k + n)%nat with (k + S n)%nat by lia. ring. Qed.
Lemma Sxx_S k n : Sxx k (S n) = Sxx k n + INR (k + n) * INR (k + n).
Proof. revert k. induction n as [|n IH]; intros k; [cbn; rewrite Nat.add_0_r; ring|]. change (Sxx k (S (S n))) with (INR k * INR k + Sxx (S k) (S n)). rewrite IH. cbn [Sxx]. replace (S k + n)%nat with (k + S n)%nat by lia. ring. Qed.
Lemma Sx_closed n : 2 * Sx 0 n = INR n * (INR n - 1).
Proof. induction n as [|n IH]; [cbn; ring|]. rewrite Sx_S, Rmult_plus_distr_l, IH. cbn [Nat.add]. rewrite S_INR. ring. Qed.
Lemma Sxx_closed n : 6 * Sxx 0 n = INR n * (INR n - 1) * (2 * INR n - 1).
Proof. induction n as [|n IH]; [cbn; ring|]. rewrite Sxx_S, Rmult_plus_distr_l, IH. cbn [Nat.add]. rewrite S_INR. ring. Qed.
Lemma den_closed n : 12 * den n = INR n * INR n * (INR n * INR n - 1).
Proof.
  unfold den. pose proof (Sx_closed n). pose proof (Sxx_closed n).
  replace (12 * (INR n * Sxx 0 n - Sx 0 n * Sx 0 n)) with (2 * INR n * (6 * Sxx 0 n) - 3 * (2 * Sx 0 n) * (2 * Sx 0 n)) by ring.
  rewrite H, H0. ring.
Qed.
Lemma den_pos n : (2 <= n)%nat -> 0 < den n.
Proof. intros H. pose proof (den_closed n) as E. apply le_INR in H. change (INR 2) with (1 + 1) in H.
  assert (0 < INR n * INR n * (INR n * INR n - 1)); [|lra]. apply Rmult_lt_0_compat; nra.
Qed.

Lemma squared_error_diff k ys m b m' b' :
  squared_error k ys m' b' = squared_error k ys m b
    - 2 * ((m' - m) * (Sxy k ys - m * Sxx k (length ys) - b * Sx k (length ys)) + (b' - b) * (Sy ys - m * Sx k (length ys) - b * INR (length ys)))
    + ((m' - m) * (m' - m) * Sxx k (length ys) + 2 * (m' - m) * (b' - b) * Sx k (length ys) + (b' - b) * (b' - b) * INR (length ys)).
Proof.
  revert k. induction ys as [|y ys IH]; intros k; [cbn; ring|]. cbn [squared_error Sxy Sxx Sx Sy length]. rewrite IH, S_INR. ring.
Qed.
Section Fit.
  Variable ys : list R.
  Hypothesis L : (2 <= length ys)%nat.
  Let n := length ys.
  Let m := fit_slope (N := Rnum) ys.
  Let b := (Sy ys - m * Sx 0 n) / INR n.
  Lemma n_pos : 0 < INR n. Proof. apply lt_0_INR. unfold n. lia. Qed.
  Lemma normal_b : Sy ys - m * Sx 0 n - b * INR n = 0.
  Proof. pose proof n_pos. unfold b. field. lra. Qed.
  Lemma normal_m : Sxy 0 ys - m * Sxx 0 n - b * Sx 0 n = 0.
  Proof.
    pose proof n_pos. pose proof (den_pos n L) as D.
    assert (m * den n = INR n * Sxy 0 ys - Sx 0 n * Sy ys) as E.
    { unfold m. rewrite fit_slope_R. fold n. field. lra. }
    unfold b. apply (Rmult_eq_reg_l (INR n)); [|lra]. unfold den in E.
    replace (INR n * (Sxy 0 ys - m * Sxx 0 n - (Sy ys - m * Sx 0 n) / INR n * Sx 0 n)) with
      (INR n * Sxy 0 ys - Sx 0 n * Sy ys - m * (INR n * Sxx 0 n - Sx 0 n * Sx 0 n)) by (field; lra). lra.
  Qed.
  Lemma error_above m' b' : squared_error 0 ys m' b' = squared_error 0 ys m b
    + INR n * (b' - b + (m' - m) * Sx 0 n / INR n) ^ 2 + (m' - m) ^ 2 * den n / INR n.
  Proof.
    rewrite (squared_error_diff 0 ys m b m' b'). fold n. rewrite normal_m, normal_b. pose proof n_pos. unfold den. field. lra.
  Qed.
  Lemma fit_best m' b' : squared_error 0 ys m b <= squared_error 0 ys m' b'.
  Proof.
    rewrite (error_above m' b'). pose proof n_pos. pose proof (den_pos n L).
    assert (0 <= INR n * (b' - b + (m' - m) * Sx 0 n / INR n) ^ 2) by (apply Rmult_le_pos; [lra|apply pow2_ge_0]).
    assert (0 <= (m' - m) ^ 2 * den n / INR n).
    { apply Rmult_le_pos; [|left; now apply Rinv_0_lt_compat]. apply Rmult_le_pos; [apply pow2_ge_0|lra]. }
    lra.
  Qed.
  Lemma fit_unique m' : least_squares_slope ys m' -> m' = m.
  Proof.
    intros (b' & H). specialize (H m b). rewrite (error_above m' b') in H. pose proof n_pos. pose proof (den_pos n L).
    assert (0 <= INR n * (b' - b + (m' - m) * Sx 0 n / INR n) ^ 2) by (apply Rmult_le_pos; [lra|apply pow2_ge_0]).
    assert ((m' - m) ^ 2 * den n / INR n <= 0) as K by lra.
    destruct (Req_dec m' m) as [E|E]; [assumption|exfalso].
    assert (0 < (m' - m) ^ 2 * den n / INR n); [|lra].
    apply Rmult_lt_0_compat; [|now apply Rinv_0_lt_compat]. apply Rmult_lt_0_compat; [|lra].
    assert (m' - m <> 0) by lra. rewrite <- Rsqr_pow2. now apply Rsqr_pos_lt.
  Qed.
  Lemma fit_slope_spec m' : least_squares_slope ys m' <-> m' = m.
  Proof. split; [apply fit_unique|]. intros ->. exists b. apply fit_best. Qed.
End Fit.

(** invariances of the slope *)
Lemma Sxy_shift k ys c : Sxy k (map (fun y => y + c) ys) = Sxy k ys + c * Sx k (length ys).
Proof. revert k. induction ys as [|y ys IH]; intros k; [cbn; ring|]. cbn [map Sxy length Sx]. rewrite IH. ring. Qed.
Lemma Sy_shift ys c : Sy (map (fun y => y + c) ys) = Sy ys + c * INR (length ys).
Proof. induction ys as [|y ys IH]; [cbn; ring|]. cbn [map Sy length]. rewrite IH, S_INR. ring. Qed.
Lemma Sxy_opp k ys : Sxy k (map Ropp ys) = - Sxy k ys.
Proof. revert k. induction ys as [|y ys IH]; intros k; [cbn; ring|]. cbn [map Sxy]. rewrite IH. ring. Qed.
Lemma Sy_opp ys : Sy (map Ropp ys) = - Sy ys.
Proof. induction ys as [|y ys IH]; [cbn; ring|]. cbn [map Sy]. rewrite IH. ring. Qed.
Lemma fit_shift ys c : fit_slope (N := Rnum) (map (fun y => y + c) ys) = fit_slope (N := Rnum) ys.
Proof.
  rewrite !fit_slope_R. change (@num Rnum) with R. rewrite Sxy_shift, Sy_shift, map_length. unfold Rdiv. f_equal. ring.
Qed.
Lemma fit_opp ys : fit_slope (N := Rnum) (map Ropp ys) = - fit_slope (N := Rnum) ys.
Proof. rewrite !fit_slope_R. change (@num Rnum) with R. rewrite Sxy_opp, Sy_opp, map_length. unfold Rdiv. ring. Qed.
Lemma fit_progression a d n : (2 <= n)%nat -> fit_slope (N := Rnum) (progression a d n) = d.
Proof.
  intros H. rewrite fit_slope_R. change (@num Rnum) with R. unfold progression. rewrite map_length, seq_length.
  assert (forall k, Sxy k (map (fun i => a + INR i * d) (seq k n)) = a * Sx k n + d * Sxx k n) as E1.
  { clear H. induction n as [|n IH]; intros k; [cbn; ring|]. cbn [seq map Sxy Sx Sxx]. rewrite IH. ring. }
  assert (forall k, Sy (map (fun i => a + INR i * d) (seq k n)) = a * INR n + d * Sx k n) as E2.
  { clear H E1. induction n as [|n IH]; intros k; [cbn; ring|]. cbn [seq map Sy Sx]. rewrite IH, S_INR. ring. }
  rewrite E1, E2. pose proof (den_pos n H) as D. unfold den in *. field. lra.
Qed.

Lemma nmean_R (l : list R) : nmean (N := Rnum) l = mean l.
Proof.
  unfold nmean, mean. rewrite nsum_Sy. change (@ndiv Rnum) with Rdiv. change (@of_Z Rnum) with IZR. rewrite <- INR_IZR_INZ. f_equal.
Qed.
Lemma nstd_R (l : list R) : nstd (N := Rnum) l = deviation l.
Proof.
  transitivity (sqrt (nmean (N := Rnum) (map (fun y => (Rabs (y - nmean (N := Rnum) l) * Rabs (y - nmean (N := Rnum) l))%R) l))); [reflexivity|].
  rewrite !nmean_R. unfold deviation. f_equal. unfold mean at 1. rewrite map_length. f_equal. f_equal. apply map_ext. intros y.
  rewrite <- Rabs_mult. rewrite Rabs_pos_eq; [ring|]. apply Rle_0_sqr.
Qed.
