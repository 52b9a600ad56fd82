(** Equally spaced points in binary64: lemmas. *)
From Coq Require Import ZArith Reals Lra Lia Bool List.
From Flocq Require Import Core Relative BinarySingleNaN.
From Verif Require Import Num NumFacts Py PyFacts.
Import ListNotations.
Open Scope R_scope.

Notation u53 := (bpow radix2 (-53)).
Definition rnd64 (x : R) : R := round radix2 (SpecFloat.fexp 53 1024) (round_mode mode_NE) x.
Notation format64 := (generic_format radix2 (SpecFloat.fexp 53 1024)).
Notation normal := (bpow radix2 (-1022)).
Notation top := (bpow radix2 1024).

#[local] Instance valid64 : Valid_exp (SpecFloat.fexp 53 1024).
Proof. apply (FLT_exp_valid (-1074) 53). Qed.
#[local] Instance rnd_valid64 : Valid_rnd (round_mode mode_NE).
Proof. apply valid_rnd_N. Qed.

Lemma rnd64_le x y : x <= y -> rnd64 x <= rnd64 y.
Proof. intros H. apply round_le; [exact valid64|exact rnd_valid64|exact H]. Qed.
Lemma rnd64_id x : format64 x -> rnd64 x = x.
Proof. intros H. apply round_generic; [exact rnd_valid64|exact H]. Qed.
Lemma rnd64_0 : rnd64 0 = 0.
Proof. apply rnd64_id, generic_format_0. Qed.
Lemma rnd64_rel x : normal <= x -> exists e, Rabs e <= u53 /\ rnd64 x = x * (1 + e).
Proof.
  intros H. destruct (relative_error_N_FLT_ex radix2 (-1074) 53 eq_refl (fun z => negb (Z.even z)) x) as (e & E1 & E2).
  - cbn [Z.add]. rewrite Rabs_pos_eq; [exact H|]. apply Rle_trans with (2 := H). apply bpow_ge_0.
  - exists e. split; [|exact E2]. replace u53 with (/ 2 * bpow radix2 (-53 + 1)); [exact E1|]. rewrite bpow_plus. change (bpow radix2 1) with 2. field.
Qed.
Lemma normal_format : format64 normal.
Proof. apply (generic_format_FLT_bpow radix2 (-1074) 53). lia. Qed.
Lemma rnd64_normal x : normal <= x -> normal <= rnd64 x.
Proof. intros H. rewrite <- (rnd64_id normal normal_format). now apply rnd64_le. Qed.

Lemma integer_format k : (Z.abs k <= 2 ^ 53)%Z -> format64 (IZR k).
Proof.
  intros H. apply (generic_format_FLT radix2 (-1074) 53). destruct (Z.eq_dec (Z.abs k) (2 ^ 53)) as [E|E].
  - exists (Float radix2 (Z.sgn k) 53); [|cbn; destruct k; reflexivity|cbn; lia].
    unfold F2R. cbn [Fnum Fexp]. rewrite <- IZR_Zpower by lia. rewrite <- mult_IZR. f_equal. rewrite <- (Z.abs_sgn k) at 1. rewrite E. apply Z.mul_comm.
  - exists (Float radix2 k 0); [unfold F2R; cbn; lra|cbn [Fnum]; change (Zpower radix2 53) with (2 ^ 53)%Z; lia|cbn; lia].
Qed.
Lemma of_Z_exact k : (Z.abs k <= 2 ^ 53)%Z -> is_finite (f64_of_Z k) = true /\ B2R (f64_of_Z k) = IZR k.
Proof.
  intros H. pose proof (binary_normalize_correct 53 1024 _ _ mode_NE k 0 false) as C. cbv zeta in C.
  replace (F2R (Float radix2 k 0)) with (IZR k) in C by (unfold F2R; cbn; lra).
  fold (rnd64 (IZR k)) in C. rewrite (rnd64_id _ (integer_format k H)) in C.
  rewrite Rlt_bool_true in C; [destruct C as (A & B & _); split; assumption|].
  rewrite <- abs_IZR. apply Rle_lt_trans with (IZR (2 ^ 53)); [now apply IZR_le|]. change (IZR (2 ^ 53)) with (IZR (Zpower radix2 53)). rewrite IZR_Zpower by lia. apply bpow_lt. lia.
Qed.

Lemma finite_format x : format64 (B2R (x : f64)).
Proof. apply generic_format_B2R. Qed.
Lemma finite_top (x : f64) : Rabs (B2R x) < top.
Proof. apply abs_B2R_lt_emax. Qed.

Lemma minus_0 (x : f64) : is_finite x = true -> is_finite (Bminus mode_NE x (f64_of_Z 0)) = true /\ B2R (Bminus mode_NE x (f64_of_Z 0)) = B2R x.
Proof.
  intros F. destruct (of_Z_exact 0 ltac:(lia)) as [F0 R0]. pose proof (Bminus_correct 53 1024 _ _ mode_NE x (f64_of_Z 0) F F0) as C. rewrite R0, Rminus_0_r in C.
  fold (rnd64 (B2R x)) in C. rewrite (rnd64_id _ (finite_format x)), Rlt_bool_true in C by apply finite_top. destruct C as (A & B & _). auto.
Qed.
Lemma plus_0 (x : f64) : is_finite x = true -> is_finite (Bplus mode_NE x (f64_of_Z 0)) = true /\ B2R (Bplus mode_NE x (f64_of_Z 0)) = B2R x.
Proof.
  intros F. destruct (of_Z_exact 0 ltac:(lia)) as [F0 R0]. pose proof (Bplus_correct 53 1024 _ _ mode_NE x (f64_of_Z 0) F F0) as C. rewrite R0, Rplus_0_r in C.
  fold (rnd64 (B2R x)) in C. rewrite (rnd64_id _ (finite_format x)), Rlt_bool_true in C by apply finite_top. destruct C as (A & B & _). auto.
Qed.
Lemma mult_small (x y : f64) : is_finite x = true -> is_finite y = true -> Rabs (rnd64 (B2R x * B2R y)) < top ->
  is_finite (Bmult mode_NE x y) = true /\ B2R (Bmult mode_NE x y) = rnd64 (B2R x * B2R y).
Proof.
  intros F G H. pose proof (Bmult_correct 53 1024 _ _ mode_NE x y) as C. fold (rnd64 (B2R x * B2R y)) in C. rewrite Rlt_bool_true in C by exact H.
  destruct C as (A & B & _). rewrite F, G in B. auto.
Qed.
Lemma div_small (x y : f64) : is_finite x = true -> B2R y <> 0 -> Rabs (rnd64 (B2R x / B2R y)) < top ->
  is_finite (Bdiv mode_NE x y) = true /\ B2R (Bdiv mode_NE x y) = rnd64 (B2R x / B2R y).
Proof.
  intros F G H. pose proof (Bdiv_correct 53 1024 _ _ mode_NE x y G) as C. fold (rnd64 (B2R x / B2R y)) in C. rewrite Rlt_bool_true in C by exact H.
  destruct C as (A & B & _). rewrite F in B. auto.
Qed.

(** ** the points *)
Section Points.
  Variables (T : R) (d : nat).
  Hypothesis d1 : (1 <= d)%nat.
  Hypothesis dmax : (Z.of_nat d <= 2 ^ 51)%Z.
  Hypothesis big : INR d * normal <= T.
  Let step := rnd64 (T / INR d).
  Let point (j : nat) := rnd64 (INR j * step).
  Lemma d_pos : 1 <= INR d.
  Proof. change 1 with (INR 1). now apply le_INR. Qed.
  Lemma d_max : INR d * (4 * u53) <= 1.
  Proof.
    apply Rle_trans with (IZR (2 ^ 51) * (4 * u53)).
    - apply Rmult_le_compat_r; [pose proof (bpow_ge_0 radix2 (-53)); lra|]. rewrite INR_IZR_INZ. now apply IZR_le.
    - change (IZR (2 ^ 51)) with (IZR (Zpower radix2 51)). rewrite IZR_Zpower by lia. change 4 with (bpow radix2 2). rewrite <- !bpow_plus. cbn. lra.
  Qed.
  Lemma quotient : normal <= T / INR d.
  Proof. pose proof d_pos. apply Rmult_le_reg_r with (INR d); [lra|]. replace (T / INR d * INR d) with T by (field; lra). rewrite Rmult_comm. exact big. Qed.
  Lemma T_pos : 0 < T.
  Proof. pose proof d_pos. pose proof (bpow_gt_0 radix2 (-1022)). apply Rlt_le_trans with (2 := big). apply Rmult_lt_0_compat; lra. Qed.
  Lemma u_small : 0 < u53 <= / 4.
  Proof. split; [apply bpow_gt_0|]. replace (/ 4) with (bpow radix2 (-2)) by (cbn; lra). apply bpow_le. lia. Qed.
  Lemma step_eps : exists e, Rabs e <= u53 /\ step = T / INR d * (1 + e).
  Proof. apply rnd64_rel, quotient. Qed.
  Lemma step_normal : normal <= step.
  Proof. apply rnd64_normal, quotient. Qed.
  Lemma point_eps j : (1 <= j)%nat -> exists e, Rabs e <= u53 /\ point j = INR j * step * (1 + e).
  Proof.
    intros J. apply rnd64_rel. pose proof step_normal. assert (1 <= INR j) by (change 1 with (INR 1); now apply le_INR).
    pose proof (bpow_ge_0 radix2 (-1022)). apply Rle_trans with (1 * step); [lra|]. apply Rmult_le_compat_r; lra.
  Qed.
  Lemma point_0 : point 0 = 0.
  Proof. unfold point. cbn [INR]. rewrite Rmult_0_l. apply rnd64_0. Qed.
  Lemma eps_le e : Rabs e <= u53 -> - u53 <= e <= u53.
  Proof. intros H. unfold Rabs in H. destruct (Rcase_abs e); lra. Qed.
  Lemma point_lt j : (j < d)%nat -> (S j < d)%nat -> point j < point (S j).
  Proof.
    intros J1 J2. pose proof step_normal as N. pose proof (bpow_gt_0 radix2 (-1022)) as P. destruct (point_eps (S j) ltac:(lia)) as (e2 & B2 & ->). apply eps_le in B2. pose proof u_small as [U1 U2].
    destruct j as [|j].
    - rewrite point_0. cbn [INR]. rewrite Rmult_1_l. apply Rmult_lt_0_compat; lra.
    - destruct (point_eps (S j) ltac:(lia)) as (e1 & B1 & ->). apply eps_le in B1.
      assert (K : INR (S j) * (1 + e1) < INR (S (S j)) * (1 + e2)).
      { rewrite (S_INR (S j)). pose proof d_max as M. assert (L : INR (S j) + 1 <= INR d) by (rewrite <- S_INR; apply le_INR; lia). assert (0 <= INR (S j)) by apply pos_INR.
        assert (INR (S j) * e1 <= INR d * u53) by (apply Rle_trans with (INR (S j) * u53); [apply Rmult_le_compat_l; lra|apply Rmult_le_compat_r; lra]).
        assert (- (INR d * u53) <= (INR (S j) + 1) * e2).
        { apply Rle_trans with ((INR (S j) + 1) * - u53); [|apply Rmult_le_compat_l; lra]. assert ((INR (S j) + 1) * u53 <= INR d * u53) by (apply Rmult_le_compat_r; lra). lra. }
        lra. }
      replace (INR (S j) * step * (1 + e1)) with (step * (INR (S j) * (1 + e1))) by ring. replace (INR (S (S j)) * step * (1 + e2)) with (step * (INR (S (S j)) * (1 + e2))) by ring.
      apply Rmult_lt_compat_l; lra.
  Qed.
  Lemma point_last j : (j < d)%nat -> point j < T.
  Proof.
    intros J. pose proof T_pos as TP. destruct j as [|j]; [rewrite point_0; exact TP|].
    destruct (point_eps (S j) ltac:(lia)) as (e2 & B2 & ->). destruct step_eps as (e1 & B1 & ->). apply eps_le in B1, B2. pose proof u_small as [U1 U2]. pose proof d_pos. pose proof d_max as M.
    assert (K : (1 + e1) * (1 + e2) <= 1 + 3 * u53).
    { apply Rle_trans with ((1 + u53) * (1 + u53)); [apply Rmult_le_compat; lra|]. assert (u53 * u53 <= u53 * / 4) by (apply Rmult_le_compat_l; lra). lra. }
    replace (INR (S j) * (T / INR d * (1 + e1)) * (1 + e2)) with (T * (INR (S j) / INR d * ((1 + e1) * (1 + e2)))) by (field; lra).
    rewrite <- (Rmult_1_r T) at 2. apply Rmult_lt_compat_l; [exact TP|].
    assert (L : INR (S j) <= INR d - 1). { replace (INR d - 1) with (INR (d - 1)) by (rewrite minus_INR by lia; cbn; lra). apply le_INR. lia. }
    assert (0 <= INR (S j)) by apply pos_INR. assert (0 <= INR d - 1) by lra.
    apply Rle_lt_trans with ((INR d - 1) / INR d * (1 + 3 * u53)).
    - apply Rmult_le_compat; [|apply Rmult_le_pos; lra| |exact K].
      + apply Rmult_le_pos; [lra|]. apply Rlt_le, Rinv_0_lt_compat. lra.
      + apply Rmult_le_compat_r; [apply Rlt_le, Rinv_0_lt_compat; lra|exact L].
    - apply Rmult_lt_reg_r with (INR d); [lra|]. replace ((INR d - 1) / INR d * (1 + 3 * u53) * INR d) with ((INR d - 1) * (1 + 3 * u53)) by (field; lra). nra.
  Qed.
  Lemma point_ge j : 0 <= point j.
  Proof. rewrite <- rnd64_0. apply rnd64_le. apply Rmult_le_pos; [apply pos_INR|]. pose proof step_normal. pose proof (bpow_ge_0 radix2 (-1022)). lra. Qed.
  Lemma point_near j : (j < d)%nat -> Rabs (point j - INR j * (T / INR d)) <= bpow radix2 (-51) * (INR j * (T / INR d)).
  Proof.
    intros J. pose proof T_pos as TP. pose proof d_pos. destruct j as [|j]; [rewrite point_0; cbn [INR]; rewrite Rmult_0_l, Rminus_0_r, Rabs_R0; lra|].
    destruct (point_eps (S j) ltac:(lia)) as (e2 & B2 & ->). destruct step_eps as (e1 & B1 & ->). apply eps_le in B1, B2. pose proof u_small as [U1 U2].
    set (q := INR (S j) * (T / INR d)). replace (INR (S j) * (T / INR d * (1 + e1)) * (1 + e2) - q) with (q * (e1 + e2 + e1 * e2)) by (unfold q; ring).
    assert (Q : 0 <= q). { apply Rmult_le_pos; [apply pos_INR|]. apply Rlt_le, Rdiv_lt_0_compat; lra. }
    rewrite Rabs_mult, (Rabs_pos_eq q Q), Rmult_comm. apply Rmult_le_compat_r; [exact Q|].
    replace (bpow radix2 (-51)) with (4 * u53) by (change 4 with (bpow radix2 2); rewrite <- bpow_plus; reflexivity).
    assert (E : Rabs (e1 * e2) <= u53 * u53). { rewrite Rabs_mult. apply Rmult_le_compat; try apply Rabs_pos; apply Rabs_le; lra. }
    assert (u53 * u53 <= u53 * / 4) by (apply Rmult_le_compat_l; lra). unfold Rabs in E. apply Rabs_le. destruct (Rcase_abs (e1 * e2)); lra.
  Qed.
End Points.

(** ** [linspace0] on binary64 *)
Lemma strict_up (g : nat -> R) d : (forall j, (S j <= d)%nat -> g j < g (S j)) -> forall j k, (j < k <= d)%nat -> g j < g k.
Proof.
  intros H j k. induction k as [|k IH]; intros [A B]; [lia|]. destruct (Nat.eq_dec j k) as [->|E]; [apply H; lia|]. apply Rlt_trans with (g k); [apply IH; lia|apply H; lia].
Qed.

Lemma linspace0_eq {N : Num} (T : num) d : (1 <= d)%nat -> linspace0 T (S d) =
  set_nth (if neqb ((T - of_Z 0) / of_Z (Z.of_nat d))%num (of_Z 0)
           then map (fun y => (y / of_Z (Z.of_nat d) * (T - of_Z 0) + of_Z 0)%num) (map (fun i => of_Z (Z.of_nat i)) (seq 0 (S d)))
           else map (fun y => (y * ((T - of_Z 0) / of_Z (Z.of_nat d)) + of_Z 0)%num) (map (fun i => of_Z (Z.of_nat i)) (seq 0 (S d)))) d T.
Proof. destruct d; [lia|reflexivity]. Qed.

Section Grid.
  Variables (T : f64) (d : nat).
  Hypothesis FT : is_finite T = true.
  Hypothesis d1 : (1 <= d)%nat.
  Hypothesis dmax : (Z.of_nat d <= 2 ^ 51)%Z.
  Hypothesis big : INR d * normal <= B2R T.
  Let step := rnd64 (B2R T / INR d).
  Let delta := Bminus mode_NE T (f64_of_Z 0).
  Let stepf := Bdiv mode_NE delta (f64_of_Z (Z.of_nat d)).
  Lemma step_value : is_finite stepf = true /\ B2R stepf = step.
  Proof.
    destruct (minus_0 T FT) as [F1 R1]. destruct (of_Z_exact (Z.of_nat d) ltac:(lia)) as [F2 R2]. rewrite <- INR_IZR_INZ in R2.
    pose proof (d_pos d d1) as P. unfold stepf, step. fold delta in F1, R1. rewrite <- R1, <- R2. apply div_small; [exact F1|rewrite R2; lra|].
    rewrite R1, R2. fold step. pose proof (T_pos _ _ d1 big) as TP. apply Rle_lt_trans with (B2R T).
    - rewrite Rabs_pos_eq.
      + rewrite <- (rnd64_id _ (finite_format T)). apply rnd64_le. replace (B2R T) with (B2R T * / 1) at 2 by field. apply Rmult_le_compat_l; [lra|]. apply Rinv_le_contravar; lra.
      + apply Rle_trans with (1 := bpow_ge_0 radix2 (-1022)). exact (step_normal _ _ d1 big).
    - apply Rle_lt_trans with (1 := Rle_abs _). apply finite_top.
  Qed.
  Lemma point_value j : (j < d)%nat -> let x := Bplus mode_NE (Bmult mode_NE (f64_of_Z (Z.of_nat j)) stepf) (f64_of_Z 0) in
    is_finite x = true /\ B2R x = rnd64 (INR j * step).
  Proof.
    intros J x. destruct (of_Z_exact (Z.of_nat j) ltac:(lia)) as [F2 R2]. rewrite <- INR_IZR_INZ in R2. destruct step_value as [F1 R1].
    destruct (mult_small (f64_of_Z (Z.of_nat j)) stepf F2 F1) as [F3 R3].
    - rewrite R1, R2. rewrite Rabs_pos_eq by (apply (point_ge _ _ d1 big)). apply Rlt_trans with (B2R T); [apply (point_last _ _ d1 dmax big j J)|].
      apply Rle_lt_trans with (1 := Rle_abs _). apply finite_top.
    - destruct (plus_0 _ F3) as [F4 R4]. split; [exact F4|]. unfold x. rewrite R4, R3, R1, R2. reflexivity.
  Qed.
  Lemma linspace0_points j x : nth_error (linspace0 (N := F64) T (S d)) j = Some x ->
    is_finite x = true /\ ((j < d)%nat -> B2R x = rnd64 (INR j * step)) /\ (j = d -> x = T) /\ (j <= d)%nat.
  Proof.
    intros H. assert (L : (j < S d)%nat) by (rewrite <- (linspace0_length (N := F64) T (S d)); apply nth_error_Some; congruence).
    rewrite (linspace0_eq (N := F64) T d d1) in H.
    change (@nsub F64 T (of_Z 0)) with delta in H. change (@ndiv F64 delta (@of_Z F64 (Z.of_nat d))) with stepf in H.
    replace (@neqb F64 stepf (@of_Z F64 0)) with false in H.
    2: { symmetry. destruct step_value as [F1 R1]. destruct (of_Z_exact 0 ltac:(lia)) as [F0 R0]. change (Beqb stepf (f64_of_Z 0) = false). rewrite Beqb_correct, R1, R0 by assumption.
         apply Req_bool_false. pose proof (step_normal _ _ d1 big). pose proof (bpow_gt_0 radix2 (-1022)). unfold step. lra. }
    destruct (Nat.eq_dec j d) as [->|E].
    - rewrite set_nth_same in H by (rewrite !map_length, seq_length; lia). injection H as <-. repeat split; auto; lia.
    - rewrite set_nth_other in H by congruence. rewrite !nth_error_map, nth_error_seq_lt in H by lia. cbn in H. injection H as <-.
      destruct (point_value j ltac:(lia)) as [A B]. split; [exact A|]. split; [auto|]. lia.
  Qed.
End Grid.
