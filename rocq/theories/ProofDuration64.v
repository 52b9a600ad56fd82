(** Optimised durations in binary64: lemmas. *)
From Coq Require Import String ZArith Reals Lra Lia Bool List.
From Flocq Require Import Core Relative Plus_error BinarySingleNaN.
From Verif Require Import Num NumFacts Py PyFacts ModelPulse ModelControls ProofControls ProofTimes ProofCtl SpecGrid64 ProofGrid64.
Import ListNotations.
Open Scope R_scope.

Lemma u_quarter : 0 < u53 <= / 4.
Proof. split; [apply bpow_gt_0|]. replace (/ 4) with (bpow radix2 (-2)) by (cbn; lra). apply bpow_le. lia. Qed.
Lemma abs_bound e b : Rabs e <= b -> - b <= e <= b.
Proof. intros H. unfold Rabs in H. destruct (Rcase_abs e); lra. Qed.
Notation tiny := (bpow radix2 (-1075)).
Lemma rnd64_err x : exists e h, Rabs e <= u53 /\ Rabs h <= tiny /\ rnd64 x = x * (1 + e) + h.
Proof.
  destruct (error_N_FLT radix2 (-1074) 53 eq_refl (fun z => negb (Z.even z)) x) as (e & h & A & B & _ & C). exists e, h.
  change (- (53) + 1)%Z with (-53 + 1)%Z in A. replace (/ 2 * bpow radix2 (-53 + 1)) with u53 in A by (rewrite bpow_plus; change (bpow radix2 1) with 2; field).
  replace (/ 2 * bpow radix2 (-1074)) with tiny in B by (change (-1074)%Z with (-1075 + 1)%Z; rewrite bpow_plus; change (bpow radix2 1) with 2; field).
  split; [exact A|]. split; [exact B|exact C].
Qed.
Lemma rnd64_sum x y : format64 x -> format64 y -> exists e, Rabs e <= u53 /\ rnd64 (x + y) = (x + y) * (1 + e).
Proof.
  intros X Y. destruct (FLT_plus_error_N_ex radix2 (-1074) 53 (fun z => negb (Z.even z)) x y X Y) as (e & A & B). exists e. split; [|exact B].
  apply Rle_trans with (1 := A). unfold u_ro. change (- (53) + 1)%Z with (-53 + 1)%Z. replace (/ 2 * bpow radix2 (-53 + 1)) with u53 by (rewrite bpow_plus; change (bpow radix2 1) with 2; field).
  pose proof (bpow_gt_0 radix2 (-53)) as P. apply Rmult_le_reg_r with (1 + u53); [lra|]. unfold Rdiv. rewrite Rmult_assoc, Rinv_l by lra. nra.
Qed.
Lemma rnd64_opp x : rnd64 (- x) = - rnd64 x.
Proof. apply (round_NE_opp radix2). Qed.
Lemma rnd64_format x : format64 (rnd64 x).
Proof. apply generic_format_round; [exact valid64|exact rnd_valid64]. Qed.
Lemma rnd64_abs_le x y : format64 y -> Rabs x <= y -> Rabs (rnd64 x) <= y.
Proof.
  intros F H. assert (A : - y <= x <= y) by (unfold Rabs in H; destruct (Rcase_abs x); lra). destruct A as [A B]. apply rnd64_le in A, B. rewrite rnd64_opp, !(rnd64_id y F) in A. rewrite (rnd64_id y F) in B. apply Rabs_le. lra.
Qed.
Lemma bpow_format e : (-1074 <= e <= 1023)%Z -> format64 (bpow radix2 e).
Proof. intros H. apply (generic_format_FLT_bpow radix2 (-1074) 53). lia. Qed.

(** a limit [c] of the duration [v], the other being on its other side at the distance [D] in all *)
Lemma back c v W D : format64 c -> format64 v -> 0 < W -> W = rnd64 D -> (exists e, Rabs e <= u53 /\ W = D * (1 + e)) -> Rabs (c - v) <= D ->
  let a := rnd64 (rnd64 (c - v) / W) in
  Rabs (rnd64 (v + rnd64 (a * W)) - c) <= 7 * u53 * D + u53 * Rabs c + bpow radix2 (-1074).
Proof.
  intros Fc Fv Wp Wr (e & Be & We) Dd a. pose proof u_quarter as [U1 U2]. pose proof (bpow_gt_0 radix2 (-1075)) as T1. set (u := u53) in *. set (t := tiny) in *.
  assert (Tu : t <= u * / 4). { unfold t, u. replace (/ 4) with (bpow radix2 (-2)) by (cbn; lra). rewrite <- bpow_plus. apply bpow_le. lia. }
  destruct (rnd64_sum c (- v) Fc ltac:(now apply generic_format_opp)) as (e0 & B0 & R0). change (c + - v) with (c - v) in R0.
  unfold a. rewrite R0. destruct (rnd64_err ((c - v) * (1 + e0) / W)) as (e1 & h1 & B1 & H1 & R1). rewrite R1.
  destruct (rnd64_err (((c - v) * (1 + e0) / W * (1 + e1) + h1) * W)) as (e2 & h2 & B2 & H2 & R2).
  set (m := rnd64 (((c - v) * (1 + e0) / W * (1 + e1) + h1) * W)) in *. replace (((c - v) * (1 + e0) / W * (1 + e1) + h1) * W) with ((c - v) * (1 + e0) * (1 + e1) + h1 * W) in R2 by (field; lra).
  destruct (rnd64_sum v m Fv (rnd64_format _)) as (e3 & B3 & R3). rewrite R3.
  apply abs_bound in B0, B1, B2, B3, Be. fold u in B0, B1, B2, B3, Be. assert (D0 : 0 <= D) by (apply Rle_trans with (2 := Dd); apply Rabs_pos).
  assert (W2 : W <= 2 * D) by (rewrite We; nra).
  assert (P : Rabs ((1 + e0) * (1 + e1) * (1 + e2) - 1) <= 4 * u).
  { assert (Q : 0 <= 1 - u) by lra. apply Rabs_le. assert (L1 : (1 - u) * (1 - u) <= (1 + e0) * (1 + e1) <= (1 + u) * (1 + u)) by (split; apply Rmult_le_compat; lra).
    assert (L2 : (1 - u) * (1 - u) * (1 - u) <= (1 + e0) * (1 + e1) * (1 + e2) <= (1 + u) * (1 + u) * (1 + u)) by (split; apply Rmult_le_compat; try lra; apply Rmult_le_pos; lra).
    assert (u * u <= u * / 4) by (apply Rmult_le_compat_l; lra). assert (0 <= u * u) by (apply Rmult_le_pos; lra). assert (u * u * u <= u * u * / 4) by (apply Rmult_le_compat_l; lra). assert (0 <= u * u * u) by (apply Rmult_le_pos; lra). lra. }
  assert (M : Rabs (m - (c - v)) <= 4 * u * D + u * D + t).
  { rewrite R2. replace (((c - v) * (1 + e0) * (1 + e1) + h1 * W) * (1 + e2) + h2 - (c - v)) with ((c - v) * ((1 + e0) * (1 + e1) * (1 + e2) - 1) + (h1 * W * (1 + e2) + h2)) by ring.
    apply Rle_trans with (1 := Rabs_triang _ _). rewrite Rplus_assoc. apply Rplus_le_compat.
    - rewrite Rabs_mult. rewrite (Rmult_comm (4 * u)). apply Rmult_le_compat; auto; apply Rabs_pos.
    - apply Rle_trans with (1 := Rabs_triang _ _). apply Rplus_le_compat; [|exact H2]. rewrite !Rabs_mult. rewrite (Rabs_pos_eq W) by lra. rewrite (Rabs_pos_eq (1 + e2)) by lra.
      apply Rle_trans with (t * (2 * D) * 2); [|nra]. apply Rmult_le_compat; [apply Rmult_le_pos; [apply Rabs_pos|lra]|lra| |lra]. apply Rmult_le_compat; first [lra|apply Rabs_pos|exact H1]. }
  replace ((v + m) * (1 + e3) - c) with ((m - (c - v)) * (1 + e3) + c * e3) by ring.
  apply Rle_trans with (1 := Rabs_triang _ _). rewrite !Rabs_mult. rewrite (Rabs_pos_eq (1 + e3)) by lra.
  assert (E3 : Rabs e3 <= u) by (apply Rabs_le; lra). pose proof (Rabs_pos c) as C0.
  replace (bpow radix2 (-1074)) with (2 * t) by (unfold t; change 2 with (bpow radix2 1); rewrite <- bpow_plus; reflexivity).
  assert (Rabs (m - (c - v)) * (1 + e3) <= (5 * u * D + t) * (1 + u)) by (apply Rmult_le_compat; try lra; apply Rabs_pos).
  assert (Rabs c * Rabs e3 <= Rabs c * u) by (apply Rmult_le_compat_l; lra).
  assert (u * D * u <= u * D * / 4) by (apply Rmult_le_compat_l; [apply Rmult_le_pos; lra|lra]). assert (0 <= u * D) by (apply Rmult_le_pos; lra). assert (t * u <= t * / 4) by (apply Rmult_le_compat_l; lra). lra.
Qed.

(** ** the time object *)
Lemma minus_small (x y : f64) : is_finite x = true -> is_finite y = true -> Rabs (rnd64 (B2R x - B2R y)) < top ->
  is_finite (Bminus mode_NE x y) = true /\ B2R (Bminus mode_NE x y) = rnd64 (B2R x - B2R y).
Proof.
  intros F G H. pose proof (Bminus_correct 53 1024 _ _ mode_NE x y F G) as C. fold (rnd64 (B2R x - B2R y)) in C. rewrite Rlt_bool_true in C by exact H. destruct C as (A & B & _). auto.
Qed.
Lemma plus_small (x y : f64) : is_finite x = true -> is_finite y = true -> Rabs (rnd64 (B2R x + B2R y)) < top ->
  is_finite (Bplus mode_NE x y) = true /\ B2R (Bplus mode_NE x y) = rnd64 (B2R x + B2R y).
Proof.
  intros F G H. pose proof (Bplus_correct 53 1024 _ _ mode_NE x y F G) as C. fold (rnd64 (B2R x + B2R y)) in C. rewrite Rlt_bool_true in C by exact H. destruct C as (A & B & _). auto.
Qed.
Lemma below_top x e : (-1074 <= e <= 1023)%Z -> Rabs x <= bpow radix2 e -> Rabs (rnd64 x) < top.
Proof. intros E H. apply Rle_lt_trans with (bpow radix2 e); [apply rnd64_abs_le; [now apply bpow_format|exact H]|]. apply bpow_lt. lia. Qed.

Section Duration.
  Variables (lo v hi : f64).
  Hypotheses (Fl : is_finite lo = true) (Fv : is_finite v = true) (Fh : is_finite hi = true).
  Hypotheses (Hlv : B2R lo <= B2R v) (Hvh : B2R v <= B2R hi) (Hlh : B2R lo < B2R hi).
  Hypotheses (Bl : Rabs (B2R lo) <= bpow radix2 1021) (Bh : Rabs (B2R hi) <= bpow radix2 1021).
  Let W := Bminus mode_NE hi lo.
  Let D := B2R hi - B2R lo.
  Lemma D_small : Rabs D <= bpow radix2 1022.
  Proof. unfold D. change 1022%Z with (1021 + 1)%Z. rewrite bpow_plus. change (bpow radix2 1) with 2. apply abs_bound in Bl, Bh. apply Rabs_le. lra. Qed.
  Lemma W_value : is_finite W = true /\ B2R W = rnd64 D.
  Proof. apply minus_small; auto. apply (below_top _ 1022); [lia|apply D_small]. Qed.
  Lemma W_error : exists e, Rabs e <= u53 /\ B2R W = D * (1 + e).
  Proof. destruct W_value as [_ ->]. apply (rnd64_sum (B2R hi) (- B2R lo)); [apply finite_format|apply generic_format_opp, finite_format]. Qed.
  Lemma W_pos : 0 < B2R W.
  Proof. destruct W_error as (e & B & ->). apply abs_bound in B. pose proof u_quarter. apply Rmult_lt_0_compat; [unfold D|]; lra. Qed.
  Lemma side c : is_finite c = true -> Rabs (B2R c - B2R v) <= D ->
    let a := Bdiv mode_NE (Bminus mode_NE c v) W in is_finite a = true /\ B2R a = rnd64 (rnd64 (B2R c - B2R v) / B2R W) /\ Rabs (B2R a) <= 1.
  Proof.
    intros Fc Hc a. pose proof D_small as DS. destruct W_value as [_ WV].
    assert (D0 : 0 <= D) by (unfold D; lra). rewrite (Rabs_pos_eq D D0) in DS.
    destruct (minus_small c v Fc Fv) as [F1 R1]; [apply (below_top _ 1022); [lia|lra]|].
    assert (S : Rabs (rnd64 (B2R c - B2R v)) <= B2R W).
    { rewrite WV. apply abs_bound in Hc as [H1 H2]. apply rnd64_le in H1, H2. rewrite rnd64_opp in H1. apply Rabs_le. lra. }
    assert (Q : Rabs (rnd64 (B2R c - B2R v) / B2R W) <= 1).
    { pose proof W_pos as P. unfold Rdiv. rewrite Rabs_mult, (Rabs_pos_eq (/ B2R W)) by (apply Rlt_le, Rinv_0_lt_compat, P). apply Rmult_le_reg_r with (B2R W); [exact P|]. rewrite Rmult_assoc, Rinv_l by lra. lra. }
    assert (F1' : format64 1) by (apply (integer_format 1); lia).
    destruct (div_small (Bminus mode_NE c v) W F1 ltac:(pose proof W_pos; lra)) as [F2 R2]; [rewrite R1; apply (below_top _ 0); [lia|exact Q]|].
    rewrite R1 in R2. split; [exact F2|]. split; [exact R2|]. unfold a. rewrite R2. apply rnd64_abs_le; auto.
  Qed.
  Lemma sum_small a : Rabs a <= 1 -> Rabs (rnd64 (a * B2R W)) <= B2R W /\ Rabs (B2R v + rnd64 (a * B2R W)) <= bpow radix2 1023.
  Proof.
    intros A. assert (K : Rabs (rnd64 (a * B2R W)) <= B2R W).
    { apply rnd64_abs_le; [apply finite_format|]. pose proof W_pos. rewrite Rabs_mult, (Rabs_pos_eq (B2R W)) by lra. rewrite <- (Rmult_1_l (B2R W)) at 2. apply Rmult_le_compat_r; lra. }
    split; [exact K|]. apply Rle_trans with (1 := Rabs_triang _ _). assert (W2 : B2R W <= bpow radix2 1022).
    { destruct W_value as [_ ->]. apply Rle_trans with (1 := Rle_abs _). apply rnd64_abs_le; [apply bpow_format; lia|apply D_small]. }
    replace (bpow radix2 1023) with (bpow radix2 1022 + bpow radix2 1022) by (change 1023%Z with (1022 + 1)%Z; rewrite (bpow_plus radix2 1022 1); change (bpow radix2 1) with 2; ring).
    apply Rplus_le_compat; [|lra]. apply Rle_trans with (bpow radix2 1021); [|apply bpow_le; lia]. apply abs_bound in Bl, Bh. apply Rabs_le. lra.
  Qed.
  Lemma result a : is_finite a = true -> Rabs (B2R a) <= 1 ->
    let T := Bplus mode_NE v (Bmult mode_NE a W) in is_finite T = true /\ B2R T = rnd64 (B2R v + rnd64 (B2R a * B2R W)).
  Proof.
    intros Fa Ha T. destruct (sum_small _ Ha) as [S1 S2]. destruct W_value as [FW _].
    destruct (mult_small a W Fa FW) as [F1 R1]; [apply Rle_lt_trans with (1 := S1); apply Rle_lt_trans with (1 := Rle_abs _); apply finite_top|].
    destruct (plus_small v _ Fv F1) as [F2 R2]; [rewrite R1; apply (below_top _ 1023); [lia|exact S2]|]. rewrite R1 in R2. auto.
  Qed.
  Let al := Bdiv mode_NE (Bminus mode_NE lo v) W.
  Let ah := Bdiv mode_NE (Bminus mode_NE hi v) W.
  Lemma excess_bound c : (c = B2R lo \/ c = B2R hi) -> 7 * u53 * D + u53 * Rabs c + bpow radix2 (-1074) <= excess (B2R lo) (B2R hi).
  Proof.
    intros C. unfold excess. pose proof u_quarter as [U _]. replace (bpow radix2 (-50)) with (8 * u53) by (change 8 with (bpow radix2 3); rewrite <- bpow_plus; reflexivity).
    pose proof (Rle_abs (B2R hi)). pose proof (Rle_abs (- B2R lo)) as H0. rewrite Rabs_Ropp in H0. pose proof (Rabs_pos (B2R lo)). pose proof (Rabs_pos (B2R hi)).
    assert (u53 * D <= u53 * (Rabs (B2R lo) + Rabs (B2R hi))) by (apply Rmult_le_compat_l; unfold D; lra).
    assert (u53 * Rabs c <= u53 * (Rabs (B2R lo) + Rabs (B2R hi))) by (apply Rmult_le_compat_l; destruct C; subst; lra). lra.
  Qed.
  Lemma between_sides a : is_finite a = true -> B2R al <= B2R a <= B2R ah ->
    let T := Bplus mode_NE v (Bmult mode_NE a W) in
    is_finite T = true /\ B2R lo - excess (B2R lo) (B2R hi) <= B2R T <= B2R hi + excess (B2R lo) (B2R hi).
  Proof.
    intros Fa Ha T. assert (Dl : Rabs (B2R lo - B2R v) <= D) by (apply Rabs_le; unfold D; lra). assert (Dh : Rabs (B2R hi - B2R v) <= D) by (apply Rabs_le; unfold D; lra).
    destruct (side lo Fl Dl) as (_ & Rl & Al). destruct (side hi Fh Dh) as (_ & Rh & Ah). fold al in Rl, Al. fold ah in Rh, Ah.
    assert (A1 : Rabs (B2R a) <= 1) by (apply abs_bound in Al, Ah; apply Rabs_le; lra). destruct (result a Fa A1) as [FT RT]. fold T in FT, RT. split; [exact FT|].
    destruct W_value as [_ WV]. pose proof W_pos as WP.
    pose proof (back (B2R lo) (B2R v) (B2R W) D (finite_format lo) (finite_format v) WP WV W_error Dl) as K1. cbv zeta in K1. rewrite <- Rl in K1.
    pose proof (back (B2R hi) (B2R v) (B2R W) D (finite_format hi) (finite_format v) WP WV W_error Dh) as K2. cbv zeta in K2. rewrite <- Rh in K2.
    pose proof (excess_bound (B2R lo) (or_introl eq_refl)). pose proof (excess_bound (B2R hi) (or_intror eq_refl)).
    apply abs_bound in K1, K2. rewrite RT.
    assert (M : forall x y, x <= y -> rnd64 (B2R v + rnd64 (x * B2R W)) <= rnd64 (B2R v + rnd64 (y * B2R W))).
    { intros x y L. apply rnd64_le, Rplus_le_compat_l, rnd64_le, Rmult_le_compat_r; lra. }
    pose proof (M _ _ (proj1 Ha)). pose proof (M _ _ (proj2 Ha)). lra.
  Qed.
  Lemma sides_ordered : is_finite al = true /\ is_finite ah = true /\ B2R al <= 0 <= B2R ah.
  Proof.
    assert (Dl : Rabs (B2R lo - B2R v) <= D) by (apply Rabs_le; unfold D; lra). assert (Dh : Rabs (B2R hi - B2R v) <= D) by (apply Rabs_le; unfold D; lra).
    destruct (side lo Fl Dl) as (F1 & Rl & _). destruct (side hi Fh Dh) as (F2 & Rh & _). fold al in Rl, F1. fold ah in Rh, F2. split; [exact F1|]. split; [exact F2|].
    pose proof W_pos as P. apply Rinv_0_lt_compat in P. rewrite Rl, Rh. split; rewrite <- rnd64_0; apply rnd64_le; unfold Rdiv.
    - assert (rnd64 (B2R lo - B2R v) <= 0) by (rewrite <- rnd64_0; apply rnd64_le; lra). nra.
    - assert (0 <= rnd64 (B2R hi - B2R v)) by (rewrite <- rnd64_0; apply rnd64_le; lra). nra.
  Qed.
End Duration.
