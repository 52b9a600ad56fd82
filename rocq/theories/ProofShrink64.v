(** Shrinking a pulse in binary64: lemmas. *)
From Coq Require Import String ZArith Reals Lra Lia Bool List.
From Flocq Require Import Core Relative Plus_error BinarySingleNaN.
From Verif Require Import Num NumFacts Py PyFacts ModelPulse ProofGrid64 ProofDuration64.
Import ListNotations.
Open Scope R_scope.

(** ** One step of the shrinking, on real numbers with rounding *)
Section Step.
  Variables (m M b c A : R).
  Hypotheses (Fm : format64 m) (FM : format64 M) (Fb : format64 b).
  Hypotheses (Am : Rabs m <= A) (AM : Rabs M <= A) (Ab : Rabs b <= A).
  Hypotheses (mM : m < M).
  Let w := rnd64 (M - m).
  Let a := Rabs (rnd64 (b - m)).
  Hypotheses (c0 : 0 <= c <= 1) (cq : c <= rnd64 (a / w)).
  Definition eps64 (A : R) : R := 16 * u53 * A + 2 * tiny.
  Let moved x := rnd64 (rnd64 (rnd64 (x - m) * c) + m).
  Lemma opp_format x : format64 x -> format64 (- x).
  Proof. apply generic_format_opp. Qed.
  Lemma rnd64_diff x y : format64 x -> format64 y -> exists e, Rabs e <= u53 /\ rnd64 (x - y) = (x - y) * (1 + e).
  Proof. intros X Y. apply (rnd64_sum x (- y)); [exact X|now apply opp_format]. Qed.
  Lemma w_pos : 0 < w.
  Proof. unfold w. destruct (rnd64_diff M m FM Fm) as (e & B & ->). apply abs_bound in B. pose proof u_quarter. apply Rmult_lt_0_compat; lra. Qed.
  Lemma moved_mono x y : x <= y -> moved x <= moved y.
  Proof. intros H. unfold moved. apply rnd64_le, Rplus_le_compat_r, rnd64_le, Rmult_le_compat_r; [apply c0|]. apply rnd64_le. lra. Qed.
  Lemma moved_least : moved m = m.
  Proof. unfold moved. rewrite Rminus_diag_eq by reflexivity. rewrite rnd64_0, Rmult_0_l, rnd64_0, Rplus_0_l. now apply rnd64_id. Qed.
  Lemma tiny_small : 0 < tiny /\ 16 * tiny <= u53.
  Proof.
    split; [apply bpow_gt_0|]. change 16 with (bpow radix2 4). rewrite <- bpow_plus. apply bpow_le. lia.
  Qed.
  Lemma a_size : Rabs (b - m) * (1 - u53) <= a <= Rabs (b - m) * (1 + u53).
  Proof.
    unfold a. destruct (rnd64_diff b m Fb Fm) as (e & B & ->). apply abs_bound in B. pose proof u_quarter. rewrite Rabs_mult, (Rabs_pos_eq (1 + e)) by lra. pose proof (Rabs_pos (b - m)). split; apply Rmult_le_compat_l; lra.
  Qed.
  Lemma w_size : w <= 3 * A.
  Proof. unfold w. destruct (rnd64_diff M m FM Fm) as (e & B & ->). apply abs_bound in B, Am, AM. pose proof u_quarter. nra. Qed.
  Lemma b_size : Rabs (b - m) <= 2 * A.
  Proof. apply abs_bound in Am, Ab. apply Rabs_le. lra. Qed.
  (** the image of the greatest sample; [p] stands for the rounded product *)
  Let p := rnd64 (w * c).
  Lemma last_sum s : Rabs (p - s) <= 9 * u53 * A + tiny -> 0 <= s <= 2 * A -> Rabs (moved M - (m + s)) <= eps64 A.
  Proof.
    intros P S. pose proof u_quarter as [U1 U2]. pose proof tiny_small as [T1 T2]. destruct (rnd64_sum p m (rnd64_format _) Fm) as (e & B & R). unfold moved. fold w. fold p. rewrite R. clear R.
    assert (A0 : 0 <= A) by (apply Rle_trans with (2 := Am); apply Rabs_pos). apply abs_bound in B, P. set (u := u53) in *. set (t := tiny) in *. apply abs_bound in Am.
    replace ((p + m) * (1 + e) - (m + s)) with ((p - s) + (p + m) * e) by ring. apply Rle_trans with (1 := Rabs_triang _ _).
    assert (u * A <= / 4 * A) by (apply Rmult_le_compat_r; lra). assert (0 <= u * A) by (apply Rmult_le_pos; lra).
    assert (Q : Rabs (p + m) <= 6 * A + t) by (apply Rabs_le; lra).
    assert (u * t <= / 4 * t) by (apply Rmult_le_compat_r; lra).
    assert (E : Rabs ((p + m) * e) <= (6 * A + t) * u). { rewrite Rabs_mult. apply Rmult_le_compat; try apply Rabs_pos; [exact Q|]. apply Rabs_le. lra. }
    assert (Rabs (p - s) <= 9 * u * A + t) by (apply Rabs_le; lra). unfold eps64. fold u t. lra.
  Qed.
  Lemma product_above : p <= Rabs (b - m) + 9 * u53 * A + tiny.
  Proof.
    pose proof u_quarter as [U1 U2]. pose proof tiny_small as [T1 T2]. pose proof w_pos as W0. pose proof w_size as W1. pose proof b_size as B1. pose proof a_size as [_ A1].
    destruct (rnd64_err (a / w)) as (e1 & h1 & E1 & H1 & R1). destruct (rnd64_err (w * c)) as (e2 & h2 & E2 & H2 & R2). fold p in R2. rewrite R1 in cq. apply abs_bound in E1, E2, H1, H2.
    assert (A0 : 0 <= A) by (apply Rle_trans with (2 := Am); apply Rabs_pos). pose proof (Rabs_pos (b - m)) as B0. assert (a0 : 0 <= a) by apply Rabs_pos.
    set (u := u53) in *. set (t := tiny) in *. set (k := Rabs (b - m)) in *.
    assert (C1 : w * c <= a * (1 + u) + t * w).
    { apply Rle_trans with (w * (a / w * (1 + e1) + h1)); [apply Rmult_le_compat_l; lra|]. replace (w * (a / w * (1 + e1) + h1)) with (a * (1 + e1) + h1 * w) by (field; lra).
      apply Rplus_le_compat; [apply Rmult_le_compat_l; lra|apply Rmult_le_compat_r; lra]. }
    assert (C0 : 0 <= w * c) by (apply Rmult_le_pos; lra).
    assert (K1 : a * (1 + u) <= k * (1 + u) * (1 + u)) by (apply Rmult_le_compat_r; lra).
    assert (K2 : t * w <= t * (3 * A)) by (apply Rmult_le_compat_l; lra).
    assert (K3 : 16 * t * A <= u * A) by (apply Rmult_le_compat_r; lra).
    assert (K4 : w * c * (1 + e2) <= (k * (1 + u) * (1 + u) + t * (3 * A)) * (1 + u)) by (apply Rmult_le_compat; lra).
    assert (K5 : k * u <= 2 * A * u) by (apply Rmult_le_compat_r; lra).
    assert (K6 : k * u * u <= k * u * / 4) by (apply Rmult_le_compat_l; [apply Rmult_le_pos; lra|lra]).
    assert (K7 : k * u * u * u <= k * u * u * / 4) by (apply Rmult_le_compat_l; [repeat apply Rmult_le_pos; lra|lra]).
    assert (K8 : t * A * u <= t * A * / 4) by (apply Rmult_le_compat_l; [apply Rmult_le_pos; lra|lra]).
    assert (K9 : 0 <= t * A) by (apply Rmult_le_pos; lra). assert (0 <= k * u) by (apply Rmult_le_pos; lra).
    rewrite R2. lra.
  Qed.
  Lemma product_below : c = rnd64 (a / w) -> Rabs (b - m) - (9 * u53 * A + tiny) <= p.
  Proof.
    intros Ec. pose proof u_quarter as [U1 U2]. pose proof tiny_small as [T1 T2]. pose proof w_pos as W0. pose proof w_size as W1. pose proof b_size as B1. pose proof a_size as [A1 _].
    destruct (rnd64_err (a / w)) as (e1 & h1 & E1 & H1 & R1). destruct (rnd64_err (w * c)) as (e2 & h2 & E2 & H2 & R2). fold p in R2. rewrite R1 in Ec. apply abs_bound in E1, E2, H1, H2.
    assert (A0 : 0 <= A) by (apply Rle_trans with (2 := Am); apply Rabs_pos). pose proof (Rabs_pos (b - m)) as B0. assert (a0 : 0 <= a) by apply Rabs_pos.
    set (u := u53) in *. set (t := tiny) in *. set (k := Rabs (b - m)) in *.
    assert (C1 : a * (1 - u) - t * w <= w * c).
    { rewrite Ec. replace (w * (a / w * (1 + e1) + h1)) with (a * (1 + e1) + h1 * w) by (field; lra).
      assert (a * (1 - u) <= a * (1 + e1)) by (apply Rmult_le_compat_l; lra). assert (- t * w <= h1 * w) by (apply Rmult_le_compat_r; lra). lra. }
    assert (C0 : 0 <= w * c) by (apply Rmult_le_pos; lra).
    assert (K1 : k * (1 - u) * (1 - u) <= a * (1 - u)) by (apply Rmult_le_compat_r; lra).
    assert (K2 : t * w <= t * (3 * A)) by (apply Rmult_le_compat_l; lra).
    assert (K3 : 16 * t * A <= u * A) by (apply Rmult_le_compat_r; lra).
    assert (K4 : w * c * (1 - u) <= w * c * (1 + e2)) by (apply Rmult_le_compat_l; lra).
    assert (K4' : (k * (1 - u) * (1 - u) - t * (3 * A)) * (1 - u) <= w * c * (1 - u)) by (apply Rmult_le_compat_r; lra).
    assert (K5 : k * u <= 2 * A * u) by (apply Rmult_le_compat_r; lra).
    assert (K6 : k * u * u <= k * u * / 4) by (apply Rmult_le_compat_l; [apply Rmult_le_pos; lra|lra]).
    assert (K7 : k * u * u * u <= k * u * u * / 4) by (apply Rmult_le_compat_l; [repeat apply Rmult_le_pos; lra|lra]).
    assert (K8 : t * A * u <= t * A * / 4) by (apply Rmult_le_compat_l; [apply Rmult_le_pos; lra|lra]).
    assert (K9 : 0 <= t * A) by (apply Rmult_le_pos; lra). assert (0 <= k * u) by (apply Rmult_le_pos; lra). assert (0 <= k * u * u) by (repeat apply Rmult_le_pos; lra). assert (0 <= t * A * u) by (repeat apply Rmult_le_pos; lra).
    rewrite R2. lra.
  Qed.
  Lemma p_pos : 0 <= p.
  Proof. unfold p. rewrite <- rnd64_0. apply rnd64_le. pose proof w_pos. apply Rmult_le_pos; [lra|apply c0]. Qed.
  Lemma moved_top : moved M <= m + Rabs (b - m) + eps64 A.
  Proof.
    pose proof product_above as P. pose proof p_pos as P0. pose proof (Rabs_pos (b - m)) as B0. pose proof b_size as B1. pose proof tiny_small as [T1 _]. pose proof u_quarter as [U1 _].
    assert (A0 : 0 <= A) by (apply Rle_trans with (2 := Am); apply Rabs_pos). assert (0 <= u53 * A) by (apply Rmult_le_pos; lra).
    set (s := Rmin p (Rabs (b - m))). assert (S : s = p \/ s = Rabs (b - m)) by (unfold s, Rmin; destruct (Rle_dec _ _); auto).
    pose proof (Rmin_l p (Rabs (b - m))) as S1. pose proof (Rmin_r p (Rabs (b - m))) as S2. fold s in S1, S2.
    assert (L : Rabs (p - s) <= 9 * u53 * A + tiny) by (apply Rabs_le; destruct S as [-> | ->]; lra).
    pose proof (last_sum s L ltac:(destruct S as [-> | ->]; lra)) as Q. apply abs_bound in Q. lra.
  Qed.
  Lemma moved_top_below : c = rnd64 (a / w) -> m + Rabs (b - m) - eps64 A <= moved M.
  Proof.
    intros E. pose proof product_above as P. pose proof (product_below E) as P'. pose proof (Rabs_pos (b - m)) as B0. pose proof b_size as B1.
    assert (L : Rabs (p - Rabs (b - m)) <= 9 * u53 * A + tiny) by (apply Rabs_le; lra).
    pose proof (last_sum _ L ltac:(lra)) as Q. apply abs_bound in Q. lra.
  Qed.
End Step.

(** ** The same on the numbers of the machine *)
Lemma finite_one : is_finite (f64_of_Z 1) = true /\ B2R (f64_of_Z 1) = 1.
Proof. apply of_Z_exact. lia. Qed.
Lemma below x A k : Rabs x <= k * A -> 0 <= A <= bpow radix2 1000 -> 0 <= k <= 16 -> Rabs (rnd64 x) < top.
Proof.
  intros H [A0 A1] [K0 K1]. apply (below_top _ 1004); [lia|]. apply Rle_trans with (1 := H). change 1004%Z with (4 + 1000)%Z. rewrite bpow_plus. change (bpow radix2 4) with 16. apply Rmult_le_compat; lra.
Qed.
Lemma moved_f (x o c : f64) A : is_finite x = true -> is_finite o = true -> is_finite c = true -> Rabs (B2R x) <= A -> Rabs (B2R o) <= A -> A <= bpow radix2 1000 -> 0 <= B2R c <= 1 ->
  let y := Bplus mode_NE (Bmult mode_NE (Bminus mode_NE x o) c) o in
  is_finite y = true /\ B2R y = rnd64 (rnd64 (rnd64 (B2R x - B2R o) * B2R c) + B2R o).
Proof.
  intros Fx Fo Fc Ax Ao A1 C y. assert (A0 : 0 <= A) by (apply Rle_trans with (2 := Ax); apply Rabs_pos).
  destruct (rnd64_diff (B2R x) (B2R o) (finite_format x) (finite_format o)) as (e & E & R). apply abs_bound in E, Ax, Ao. pose proof u_quarter as [U1 U2].
  assert (D : Rabs (B2R x - B2R o) <= 2 * A) by (apply Rabs_le; lra).
  assert (D' : Rabs (rnd64 (B2R x - B2R o)) <= 3 * A) by (rewrite R, Rabs_mult, (Rabs_pos_eq (1 + e)) by lra; pose proof (Rabs_pos (B2R x - B2R o)); nra).
  destruct (minus_small x o Fx Fo) as [F1 R1]; [apply (below _ A 2); lra|].
  assert (P : Rabs (rnd64 (B2R x - B2R o) * B2R c) <= Rabs (rnd64 (B2R x - B2R o))) by (rewrite Rabs_mult, (Rabs_pos_eq (B2R c)) by lra; pose proof (Rabs_pos (rnd64 (B2R x - B2R o))); nra).
  destruct (mult_small _ c F1 Fc) as [F2 R2]; [rewrite R1; apply (below _ A 3); lra|]. rewrite R1 in R2.
  assert (P' : Rabs (rnd64 (rnd64 (B2R x - B2R o) * B2R c)) <= Rabs (rnd64 (B2R x - B2R o))).
  { apply rnd64_abs_le; [|exact P]. unfold Rabs. destruct (Rcase_abs _); [apply opp_format|]; apply rnd64_format. }
  destruct (plus_small _ o F2 Fo) as [F3 R3].
  { rewrite R2. apply (below _ A 4); [|lra|lra]. apply Rle_trans with (1 := Rabs_triang _ _). assert (Rabs (B2R o) <= A) by (apply Rabs_le; lra). lra. }
  rewrite R2 in R3. auto.
Qed.
(** the correction *)
Definition corr64 (wa wc : f64) : f64 := let q := Bdiv mode_NE wa wc in if Bltb (f64_of_Z 1) q then f64_of_Z 1 else q.
Lemma corr_f (p q : f64) : is_finite p = true -> is_finite q = true -> 0 < Rabs (B2R q) ->
  let c := corr64 (Babs p) (Babs q) in
  is_finite c = true /\ 0 <= B2R c <= 1 /\ B2R c <= rnd64 (Rabs (B2R p) / Rabs (B2R q)) /\ (Rabs (B2R p) <= Rabs (B2R q) -> B2R c = rnd64 (Rabs (B2R p) / Rabs (B2R q))).
Proof.
  intros Fp Fq Q c. destruct finite_one as [F1 R1]. set (r := Rabs (B2R p) / Rabs (B2R q)).
  assert (r0 : 0 <= r) by (apply Rmult_le_pos; [apply Rabs_pos|apply Rlt_le, Rinv_0_lt_compat, Q]).
  assert (rr : 0 <= rnd64 r) by (rewrite <- rnd64_0; now apply rnd64_le). assert (FF : format64 1) by (apply (integer_format 1); lia).
  assert (le1 : Rabs (B2R p) <= Rabs (B2R q) -> rnd64 r <= 1).
  { intros H. rewrite <- (rnd64_id 1 FF). apply rnd64_le. unfold r. apply Rmult_le_reg_r with (Rabs (B2R q)); [exact Q|]. unfold Rdiv. rewrite Rmult_assoc, Rinv_l by lra. lra. }
  pose proof (Bdiv_correct 53 1024 _ _ mode_NE (Babs p) (Babs q)) as C. rewrite !B2R_Babs in C. specialize (C ltac:(lra)). fold r in C. fold (rnd64 r) in C. unfold c, corr64.
  destruct (Rlt_bool_spec (Rabs (rnd64 r)) (bpow radix2 1024)) as [L|L].
  - destruct C as (C1 & C2 & _). rewrite is_finite_Babs, Fp in C2. rewrite Bltb_finite, R1, C1 by assumption. destruct (Rlt_bool_spec 1 (rnd64 r)) as [G|G].
    + rewrite R1. split; [exact F1|split; [lra|split; [lra|]]]. intros H. specialize (le1 H). lra.
    + rewrite C1. repeat split; auto; lra.
  - assert (I : Bdiv mode_NE (Babs p) (Babs q) = B754_infinity false).
    { destruct p as [sp|sp| |sp mp ep bp]; try discriminate Fp; destruct q as [sq|sq| |sq mq eq bq]; try discriminate Fq; cbn [Babs Bsign xorb] in C; destruct (Bdiv mode_NE _ _); try discriminate C; cbn in C; congruence. }
    rewrite I. replace (Bltb (f64_of_Z 1) (B754_infinity false)) with true by (symmetry; vm_compute; reflexivity). rewrite R1. rewrite Rabs_pos_eq in L by exact rr.
    assert (1 <= bpow radix2 1024) by (change 1 with (bpow radix2 0); apply bpow_le; lia). split; [exact F1|split; [lra|split; [lra|]]].
    intros H1. specialize (le1 H1). assert (bpow radix2 0 < bpow radix2 1024) by (apply bpow_lt; lia). change (bpow radix2 0) with 1 in H0. lra.
Qed.

(** ** greatest and least samples *)
Definition finites (l : list f64) : Prop := List.Forall (fun x => is_finite x = true) l.
Lemma amax_f (l : list f64) (M : f64) : finites l -> amax (N := F64) l = Ok M -> In M l /\ forall y, In y l -> B2R y <= B2R M.
Proof.
  destruct l as [|x l]; cbn [amax]; [discriminate|]. intros F [= <-]. inversion F as [|? ? Fx Fl]; subst. clear F. revert x Fx. induction Fl as [|y l Fy Fl IH]; intros x Fx; cbn [fold_left].
  - split; [now left|]. intros z [<-|[]]. lra.
  - assert (K : npmax (N := F64) x y = (if Rle_bool (B2R y) (B2R x) then x else y)).
    { unfold npmax. change (@nisnan F64 x) with (is_nan x). change (@nleb F64 y x) with (Bleb y x). rewrite Bleb_finite by assumption. destruct x; try discriminate Fx; reflexivity. }
    change (@npmax F64 x y) with (npmax (N := F64) x y) in *. rewrite K. destruct (Rle_bool_spec (B2R y) (B2R x)) as [L|L].
    + destruct (IH x Fx) as [I1 I2]. split; [destruct I1 as [I1|I1]; [now left|now right; right]|]. intros z [<-|[<-|Z]]; [apply I2; now left|apply Rle_trans with (1 := L); apply I2; now left|apply I2; now right].
    + destruct (IH y Fy) as [I1 I2]. split; [now right|]. intros z [<-|Z]; [apply Rle_trans with (B2R y); [lra|apply I2; now left]|now apply I2].
Qed.
Lemma amin_f (l : list f64) (m : f64) : finites l -> amin (N := F64) l = Ok m -> In m l /\ forall y, In y l -> B2R m <= B2R y.
Proof.
  destruct l as [|x l]; cbn [amin]; [discriminate|]. intros F [= <-]. inversion F as [|? ? Fx Fl]; subst. clear F. revert x Fx. induction Fl as [|y l Fy Fl IH]; intros x Fx; cbn [fold_left].
  - split; [now left|]. intros z [<-|[]]. lra.
  - assert (K : npmin (N := F64) x y = (if Rle_bool (B2R x) (B2R y) then x else y)).
    { unfold npmin. change (@nisnan F64 x) with (is_nan x). change (@nleb F64 x y) with (Bleb x y). rewrite Bleb_finite by assumption. destruct x; try discriminate Fx; reflexivity. }
    change (@npmin F64 x y) with (npmin (N := F64) x y) in *. rewrite K. destruct (Rle_bool_spec (B2R x) (B2R y)) as [L|L].
    + destruct (IH x Fx) as [I1 I2]. split; [destruct I1 as [I1|I1]; [now left|now right; right]|]. intros z [<-|[<-|Z]]; [apply I2; now left|apply Rle_trans with (2 := L); apply I2; now left|apply I2; now right].
    + destruct (IH y Fy) as [I1 I2]. split; [now right|]. intros z [<-|Z]; [apply Rle_trans with (B2R y); [apply I2; now left|lra]|now apply I2].
Qed.

(** ** the two halves *)
Definition small (A : R) (l : list f64) : Prop := forall x, In x l -> Rabs (B2R x) <= A.
Section Halves.
  Variable A : R.
  Hypothesis A1 : A <= bpow radix2 1000.
  (** down to the upper limit [b]: [m] stays *)
  Lemma upper_half (m M b x : f64) : is_finite m = true -> is_finite M = true -> is_finite b = true -> is_finite x = true ->
    Rabs (B2R m) <= A -> Rabs (B2R M) <= A -> Rabs (B2R b) <= A -> B2R m < B2R b -> B2R b < B2R M -> B2R m <= B2R x <= B2R M ->
    let c := corr64 (Babs (Bminus mode_NE b m)) (Babs (Bminus mode_NE M m)) in
    let y := Bplus mode_NE (Bmult mode_NE (Bminus mode_NE x m) c) m in
    is_finite y = true /\ B2R m <= B2R y <= B2R b + eps64 A /\ (B2R x = B2R M -> B2R b - eps64 A <= B2R y).
  Proof.
    intros Fm FM Fb Fx Am AM Ab mb bM mx c y. assert (A0 : 0 <= A) by (apply Rle_trans with (2 := Am); apply Rabs_pos).
    destruct (minus_small M m FM Fm) as [F1 R1]; [apply (below _ A 2); [apply abs_bound in Am, AM; apply Rabs_le|..]; lra|].
    destruct (minus_small b m Fb Fm) as [F2 R2]; [apply (below _ A 2); [apply abs_bound in Am, Ab; apply Rabs_le|..]; lra|].
    pose proof (w_pos (B2R m) (B2R M) (finite_format m) (finite_format M) ltac:(lra)) as W.
    assert (a0 : 0 <= rnd64 (B2R b - B2R m)) by (rewrite <- rnd64_0; apply rnd64_le; lra).
    assert (aw : rnd64 (B2R b - B2R m) <= rnd64 (B2R M - B2R m)) by (apply rnd64_le; lra).
    destruct (corr_f (Bminus mode_NE b m) (Bminus mode_NE M m) F2 F1) as (Fc & C01 & Cq & Ce); [rewrite R1, Rabs_pos_eq; lra|]. fold c in Fc, C01, Cq, Ce.
    rewrite R1, R2 in Cq, Ce. rewrite (Rabs_pos_eq (rnd64 (B2R M - B2R m))) in Cq, Ce by lra. specialize (Ce ltac:(rewrite Rabs_pos_eq; lra)).
    assert (Ax : Rabs (B2R x) <= A) by (apply abs_bound in Am, AM; apply Rabs_le; lra).
    destruct (moved_f x m c A Fx Fm Fc Ax Am A1 C01) as [Fy Ry]. fold y in Fy, Ry. split; [exact Fy|].
    pose proof (moved_top _ _ _ _ A (finite_format m) (finite_format M) (finite_format b) Am AM Ab ltac:(lra) C01 Cq) as T. cbv zeta in T.
    pose proof (moved_top_below _ _ _ _ A (finite_format m) (finite_format M) (finite_format b) Am AM Ab ltac:(lra) C01 Cq Ce) as T'. cbv zeta in T'.
    rewrite (Rabs_pos_eq (B2R b - B2R m)) in T, T' by lra. rewrite Ry. split.
    - split.
      + apply Rle_trans with (rnd64 (rnd64 (rnd64 (B2R m - B2R m) * B2R c) + B2R m)); [rewrite (moved_least (B2R m) (B2R c) (finite_format m)); lra|]. apply moved_mono; [exact C01|lra].
      + apply Rle_trans with (rnd64 (rnd64 (rnd64 (B2R M - B2R m) * B2R c) + B2R m)); [apply moved_mono; [exact C01|lra]|]. lra.
    - intros ->. lra.
  Qed.
  (** up to the lower limit [b]: [M] stays *)
  Lemma lower_half (m M b x : f64) : is_finite m = true -> is_finite M = true -> is_finite b = true -> is_finite x = true ->
    Rabs (B2R m) <= A -> Rabs (B2R M) <= A -> Rabs (B2R b) <= A -> B2R m <= B2R x <= B2R M ->
    let c := corr64 (Babs (Bminus mode_NE M b)) (Babs (Bminus mode_NE M m)) in
    let y := Bplus mode_NE (Bmult mode_NE (Bminus mode_NE x M) c) M in
    is_finite c = true -> is_finite y = true /\ B2R M - Rabs (B2R M - B2R b) - eps64 A <= B2R y <= B2R M.
  Proof.
    intros Fm FM Fb Fx Am AM Ab mx c y Fin. assert (A0 : 0 <= A) by (apply Rle_trans with (2 := Am); apply Rabs_pos).
    assert (Ax : Rabs (B2R x) <= A) by (apply abs_bound in Am, AM; apply Rabs_le; lra).
    assert (E0 : 0 <= eps64 A). { unfold eps64. pose proof u_quarter as [U _]. pose proof tiny_small as [T _]. assert (0 <= u53 * A) by (apply Rmult_le_pos; lra). lra. }
    destruct (minus_small M m FM Fm) as [F1 R1]; [apply (below _ A 2); [apply abs_bound in Am, AM; apply Rabs_le|..]; lra|].
    destruct (minus_small M b FM Fb) as [F2 R2]; [apply (below _ A 2); [apply abs_bound in AM, Ab; apply Rabs_le|..]; lra|].
    destruct (Rle_lt_or_eq_dec (B2R m) (B2R M) ltac:(lra)) as [lt|eq].
    - pose proof (w_pos (B2R m) (B2R M) (finite_format m) (finite_format M) lt) as W.
      destruct (corr_f (Bminus mode_NE M b) (Bminus mode_NE M m) F2 F1) as (Fc & C01 & Cq & _); [rewrite R1, Rabs_pos_eq; lra|]. fold c in Fc, C01, Cq. rewrite R1, R2 in Cq. rewrite (Rabs_pos_eq (rnd64 (B2R M - B2R m))) in Cq by lra.
      destruct (moved_f x M c A Fx FM Fc Ax AM A1 C01) as [Fy Ry]. fold y in Fy, Ry. split; [exact Fy|]. rewrite Ry.
      assert (Mi : forall z, rnd64 (rnd64 (rnd64 (z - B2R M) * B2R c) + B2R M) = - rnd64 (rnd64 (rnd64 (- z - - B2R M) * B2R c) + - B2R M)).
      { intros z. rewrite <- rnd64_opp. f_equal. rewrite Ropp_plus_distr, Ropp_involutive. f_equal. rewrite <- rnd64_opp. f_equal. rewrite Ropp_mult_distr_l. f_equal. rewrite <- rnd64_opp. f_equal. ring. }
      rewrite Mi. pose proof (opp_format _ (finite_format m)) as Gm. pose proof (opp_format _ (finite_format M)) as GM. pose proof (opp_format _ (finite_format b)) as Gb.
      assert (Cq' : B2R c <= rnd64 (Rabs (rnd64 (- B2R b - - B2R M)) / rnd64 (- B2R m - - B2R M))).
      { replace (- B2R b - - B2R M) with (B2R M - B2R b) by ring. replace (- B2R m - - B2R M) with (B2R M - B2R m) by ring. exact Cq. }
      pose proof (moved_top (- B2R M) (- B2R m) (- B2R b) (B2R c) A GM Gm Gb ltac:(now rewrite Rabs_Ropp) ltac:(now rewrite Rabs_Ropp) ltac:(now rewrite Rabs_Ropp) ltac:(lra) C01 Cq') as T. cbv zeta in T.
      replace (- B2R b - - B2R M) with (B2R M - B2R b) in T by ring.
      pose proof (moved_mono (- B2R M) (B2R c) C01 (- B2R x) (- B2R m) ltac:(lra)) as M1. pose proof (moved_mono (- B2R M) (B2R c) C01 (- B2R M) (- B2R x) ltac:(lra)) as M2. pose proof (moved_least (- B2R M) (B2R c) GM) as M3. cbv beta in M1, M2, M3. lra.
    - assert (X : B2R x = B2R M) by lra. destruct (minus_small x M Fx FM) as [F3 R3]; [rewrite X, Rminus_diag_eq, rnd64_0, Rabs_R0 by reflexivity; apply bpow_gt_0|].
      rewrite X, Rminus_diag_eq, rnd64_0 in R3 by reflexivity. destruct (mult_small _ c F3 Fin) as [F4 R4]; [rewrite R3, Rmult_0_l, rnd64_0, Rabs_R0; apply bpow_gt_0|]. rewrite R3, Rmult_0_l, rnd64_0 in R4.
      destruct (plus_small _ M F4 FM) as [F5 R5]; [rewrite R4, Rplus_0_l, rnd64_id by apply finite_format; apply finite_top|]. rewrite R4, Rplus_0_l, rnd64_id in R5 by apply finite_format.
      split; [exact F5|]. unfold y. rewrite R5. pose proof (Rabs_pos (B2R M - B2R b)). lra.
  Qed.
End Halves.

Lemma eps64_pos A : 0 <= A -> 0 <= eps64 A.
Proof. intros A0. unfold eps64. pose proof u_quarter as [U _]. pose proof tiny_small as [T _]. assert (0 <= u53 * A) by (apply Rmult_le_pos; lra). lra. Qed.
Lemma u_64 : 64 * u53 <= 1.
Proof. change 64 with (bpow radix2 6). rewrite <- bpow_plus. change 1 with (bpow radix2 0). apply bpow_le. lia. Qed.
Lemma tiny_64 : tiny <= 1.
Proof. pose proof tiny_small as [_ T]. pose proof u_64. lra. Qed.
Lemma eps64_mono A B : A <= B -> eps64 A <= eps64 B.
Proof. intros H. unfold eps64. pose proof u_quarter as [U _]. nra. Qed.
Lemma eps64_twice A : 0 <= A -> eps64 (A + eps64 A) <= 2 * eps64 A.
Proof. intros A0. pose proof (eps64_pos A A0) as E. pose proof u_quarter as [U _]. pose proof u_64 as U64. pose proof tiny_small as [T _].
  unfold eps64 at 1. replace (16 * u53 * (A + eps64 A) + 2 * tiny) with (eps64 A + 16 * u53 * eps64 A) by (unfold eps64 at 1; ring). nra. Qed.
Lemma eps64_room A : 0 <= A <= bpow radix2 999 -> A + eps64 A <= bpow radix2 1000.
Proof.
  intros [A0 A1]. change 1000%Z with (1 + 999)%Z. rewrite bpow_plus. change (bpow radix2 1) with 2. unfold eps64. pose proof u_64. pose proof u_quarter as [U _]. pose proof tiny_small as [_ T].
  assert (1 <= bpow radix2 999) by (change 1 with (bpow radix2 0); apply bpow_le; lia). assert (16 * u53 * A <= A / 4) by nra. lra.
Qed.
Lemma finites_in l x : finites l -> In x l -> is_finite x = true.
Proof. intros H. now apply (proj1 (List.Forall_forall _ _) H). Qed.

Lemma lower_corr A (m M lb : f64) : 0 <= A <= bpow radix2 1000 -> is_finite m = true -> is_finite M = true -> is_finite lb = true -> Rabs (B2R m) <= A -> Rabs (B2R M) <= A -> Rabs (B2R lb) <= A -> B2R m <= B2R M -> B2R m < B2R lb ->
  let c := corr64 (Babs (Bminus mode_NE M lb)) (Babs (Bminus mode_NE M m)) in is_finite c = true /\ 0 <= B2R c <= 1.
Proof.
  intros A1 Fm FM Fl Am AM Al mM G c.
  assert (B1 : forall p, is_finite p = true -> Rabs (B2R p) <= A -> is_finite (Bminus mode_NE M p) = true /\ B2R (Bminus mode_NE M p) = rnd64 (B2R M - B2R p)).
  { intros p Fp Ap. apply minus_small; try assumption. apply (below _ A 2); [|lra|lra]. apply abs_bound in Ap, AM. apply Rabs_le. lra. }
  destruct (B1 lb Fl Al) as [F1 R1]. destruct (B1 m Fm Am) as [F2 R2]. unfold c. clear c.
  destruct (Rle_lt_or_eq_dec _ _ mM) as [lt|eq].
  - destruct (corr_f _ _ F1 F2) as (K1 & K2 & _); [|now split]. rewrite R2. apply Rabs_pos_lt. pose proof (w_pos _ _ (finite_format m) (finite_format M) lt). lra.
  - rewrite eq, Rminus_diag_eq, rnd64_0 in R2 by reflexivity.
    assert (N1 : B2R (Bminus mode_NE M lb) <> 0).
    { rewrite R1. pose proof (w_pos _ _ (finite_format M) (finite_format lb) ltac:(lra)) as W. replace (B2R M - B2R lb) with (- (B2R lb - B2R M)) by ring. rewrite rnd64_opp. lra. }
    destruct (Bminus mode_NE M lb) as [s|s| |s mm e bb]; try discriminate F1; [cbn in N1; lra|].
    destruct (Bminus mode_NE M m) as [s'|s'| |s' mm' e' bb']; try discriminate F2.
    + assert (E : corr64 (Babs (B754_finite s mm e bb)) (Babs (B754_zero s')) = f64_of_Z 1) by reflexivity. rewrite E. destruct finite_one as [-> ->]. split; [reflexivity|lra].
    + exfalso. revert R2. cbn [B2R]. apply F2R_neq_0. destruct s'; discriminate.
Qed.
Lemma moved_order (x y o c : f64) A : is_finite x = true -> is_finite y = true -> is_finite o = true -> is_finite c = true -> Rabs (B2R x) <= A -> Rabs (B2R y) <= A -> Rabs (B2R o) <= A -> A <= bpow radix2 1000 -> 0 <= B2R c <= 1 -> B2R x <= B2R y ->
  B2R (Bplus mode_NE (Bmult mode_NE (Bminus mode_NE x o) c) o) <= B2R (Bplus mode_NE (Bmult mode_NE (Bminus mode_NE y o) c) o).
Proof.
  intros Fx Fy Fo Fc Ax Ay Ao A1 C L. destruct (moved_f x o c A Fx Fo Fc Ax Ao A1 C) as [_ ->]. destruct (moved_f y o c A Fy Fo Fc Ay Ao A1 C) as [_ ->]. now apply moved_mono.
Qed.
Lemma npmin_f (x y : f64) : is_finite x = true -> is_finite y = true -> npmin (N := F64) x y = (if Rle_bool (B2R x) (B2R y) then x else y).
Proof. intros Fx Fy. unfold npmin. change (@nisnan F64 x) with (is_nan x). change (@nleb F64 x y) with (Bleb x y). rewrite Bleb_finite by assumption. destruct x; try discriminate Fx; reflexivity. Qed.
Lemma npmax_f (x y : f64) : is_finite x = true -> is_finite y = true -> npmax (N := F64) x y = (if Rle_bool (B2R y) (B2R x) then x else y).
Proof. intros Fx Fy. unfold npmax. change (@nisnan F64 x) with (is_nan x). change (@nleb F64 y x) with (Bleb y x). rewrite Bleb_finite by assumption. destruct x; try discriminate Fx; reflexivity. Qed.

Lemma shrink64 (lb ub : f64) (u v : list f64) A : is_finite lb = true -> is_finite ub = true -> B2R lb <= B2R ub -> finites u -> small A u -> Rabs (B2R lb) <= A -> Rabs (B2R ub) <= A -> A <= bpow radix2 999 ->
  shrink_list (N := F64) lb ub u = Ok v -> forall y, In y v -> is_finite y = true /\ B2R lb - 4 * eps64 A <= B2R y <= B2R ub + 4 * eps64 A.
Proof.
  intros Fl Fu lu Ff Sm Al Au A999 S. assert (A0 : 0 <= A) by (apply Rle_trans with (2 := Al); apply Rabs_pos). pose proof (eps64_pos A A0) as E0.
  assert (A1 : A <= bpow radix2 1000) by (apply Rle_trans with (1 := A999); apply bpow_le; lia).
  unfold shrink_list in S. destruct (amax (N := F64) u) as [M|] eqn:EM; [|discriminate]. destruct (amin (N := F64) u) as [m|] eqn:Em; [|discriminate]. cbn [rbind] in S.
  destruct (amax_f u M Ff EM) as [IM LM]. destruct (amin_f u m Ff Em) as [Im Lm]. pose proof (finites_in _ _ Ff IM) as FM. pose proof (finites_in _ _ Ff Im) as Fm.
  pose proof (LM _ Im) as mM.
  change (@nleb F64 ub M) with (Bleb ub M) in S. change (@nleb F64 ub m) with (Bleb ub m) in S. change (@nleb F64 M lb) with (Bleb M lb) in S. change (@nleb F64 m lb) with (Bleb m lb) in S. change (@nltb F64 ub M) with (Bltb ub M) in S.
  rewrite !Bleb_finite, Bltb_finite in S by assumption.
  destruct ((Rle_bool (B2R ub) (B2R M) && Rle_bool (B2R ub) (B2R m)) || (Rle_bool (B2R M) (B2R lb) && Rle_bool (B2R m) (B2R lb)))%bool eqn:B.
  - injection S as <-. intros y Y. apply in_map_iff in Y as (x & <- & X). pose proof (finites_in _ _ Ff X) as Fx.
    assert (K1 : npmin (N := F64) x ub = (if Rle_bool (B2R x) (B2R ub) then x else ub)).
    { unfold npmin. change (@nisnan F64 x) with (is_nan x). change (@nleb F64 x ub) with (Bleb x ub). rewrite Bleb_finite by assumption. destruct x; try discriminate Fx; reflexivity. }
    assert (F1 : is_finite (npmin (N := F64) x ub) = true) by (rewrite K1; destruct (Rle_bool (B2R x) (B2R ub)); [exact Fx|exact Fu]).
    assert (L1 : B2R (npmin (N := F64) x ub) <= B2R ub) by (rewrite K1; destruct (Rle_bool_spec (B2R x) (B2R ub)); lra).
    set (z := npmin (N := F64) x ub) in *.
    assert (K2 : npmax (N := F64) z lb = (if Rle_bool (B2R lb) (B2R z) then z else lb)).
    { unfold npmax. change (@nisnan F64 z) with (is_nan z). change (@nleb F64 lb z) with (Bleb lb z). rewrite Bleb_finite by assumption. destruct z; try discriminate F1; reflexivity. }
    rewrite K2. destruct (Rle_bool_spec (B2R lb) (B2R z)); (split; [assumption|lra]).
  - apply Bool.orb_false_iff in B as [B1 B2].
    assert (H1 : B2R ub < B2R M -> B2R m < B2R ub).
    { intros H. destruct (Rle_bool_spec (B2R ub) (B2R M)); [|lra]. destruct (Rle_bool_spec (B2R ub) (B2R m)); [discriminate B1|assumption]. }
    assert (H2 : B2R lb < B2R M).
    { destruct (Rle_bool_spec (B2R M) (B2R lb)); [|assumption]. destruct (Rle_bool_spec (B2R m) (B2R lb)); [discriminate B2|lra]. }
    clear B1 B2.
    match type of S with context [amax ?l] => set (u1 := l) in S end.
    assert (P1 : finites u1 /\ small (A + eps64 A) u1 /\ (forall y, In y u1 -> B2R y <= B2R ub + eps64 A) /\ (exists y, In y u1 /\ B2R lb - eps64 A <= B2R y)).
    { unfold u1. destruct (Rlt_bool_spec (B2R ub) (B2R M)) as [G|G].
      - pose proof (H1 G) as G'.
        assert (K : forall x, In x u -> let c := corr64 (Babs (Bminus mode_NE ub m)) (Babs (Bminus mode_NE M m)) in let y := Bplus mode_NE (Bmult mode_NE (Bminus mode_NE x m) c) m in
           is_finite y = true /\ B2R m <= B2R y <= B2R ub + eps64 A /\ (B2R x = B2R M -> B2R ub - eps64 A <= B2R y)).
        { intros x X. apply upper_half; try assumption; try (now apply (finites_in u)); try (now apply Sm). split; [now apply Lm|now apply LM]. }
        repeat split.
        + apply List.Forall_forall. intros y Y. apply in_map_iff in Y as (x & <- & X). exact (proj1 (K x X)).
        + intros y Y. apply in_map_iff in Y as (x & <- & X). destruct (K x X) as (_ & K2 & _). cbv zeta in K2. pose proof (Sm m Im) as Q. apply abs_bound in Q. pose proof Au as Q'. apply abs_bound in Q'. apply Rabs_le.
          match goal with |- _ <= B2R ?t <= _ => match type of K2 with _ <= B2R ?t' <= _ => change t with t' end end. lra.
        + intros y Y. apply in_map_iff in Y as (x & <- & X). exact (proj2 (proj1 (proj2 (K x X)))).
        + eexists. split; [apply in_map; exact IM|]. apply Rle_trans with (B2R ub - eps64 A); [lra|]. exact (proj2 (proj2 (K M IM)) eq_refl).
      - repeat split.
        + exact Ff.
        + intros x X. pose proof (Sm x X). lra.
        + intros y Y. pose proof (LM y Y). lra.
        + exists M. split; [exact IM|lra]. }
    clearbody u1. destruct P1 as (Ff1 & Sm1 & Up1 & (t & It & Lt)).
    destruct (amax (N := F64) u1) as [M'|] eqn:EM'; [|discriminate]. destruct (amin (N := F64) u1) as [m'|] eqn:Em'; [|discriminate]. cbn [rbind] in S.
    destruct (amax_f u1 M' Ff1 EM') as [IM' LM']. destruct (amin_f u1 m' Ff1 Em') as [Im' Lm']. pose proof (finites_in _ _ Ff1 IM') as FM'. pose proof (finites_in _ _ Ff1 Im') as Fm'.
    pose proof (LM' _ It) as tM'. pose proof (Up1 _ IM') as UM'. pose proof (LM' _ Im') as mM'. change (@nltb F64 m' lb) with (Bltb m' lb) in S. rewrite Bltb_finite in S by assumption.
    destruct (Rlt_bool_spec (B2R m') (B2R lb)) as [G|G]; injection S as <-.
    + intros y Y. apply in_map_iff in Y as (x & <- & X). pose proof (eps64_room A (conj A0 A999)) as A1'. assert (A0' : 0 <= A + eps64 A) by lra. pose proof (eps64_twice A A0) as E2.
      assert (Al' : Rabs (B2R lb) <= A + eps64 A) by lra.
      destruct (lower_corr (A + eps64 A) m' M' lb (conj A0' A1') Fm' FM' Fl (Sm1 _ Im') (Sm1 _ IM') Al' mM' G) as [Fc _].
      destruct (lower_half (A + eps64 A) A1' m' M' lb x) as [Fy By]; try assumption; try (now apply Sm1); [now apply (finites_in u1)|split; [now apply Lm'|now apply LM']|].
      split; [exact Fy|]. match type of By with _ <= B2R ?t' <= _ => match goal with |- _ <= B2R ?t <= _ => change t with t' end end.
      unfold Rabs in By. destruct (Rcase_abs (B2R M' - B2R lb)); lra.
    + intros y Y. split; [now apply (finites_in u1)|]. pose proof (Lm' y Y). pose proof (Up1 y Y). lra.
Qed.

(** the order of the samples is kept *)
Lemma shrink64_order (lb ub : f64) (u v : list f64) A : is_finite lb = true -> is_finite ub = true -> B2R lb <= B2R ub -> finites u -> small A u -> Rabs (B2R lb) <= A -> Rabs (B2R ub) <= A -> A <= bpow radix2 999 ->
  shrink_list (N := F64) lb ub u = Ok v -> exists g, v = map g u /\ forall x y, In x u -> In y u -> B2R x <= B2R y -> B2R (g x) <= B2R (g y).
Proof.
  intros Fl Fu lu Ff Sm Al Au A999 S. assert (A0 : 0 <= A) by (apply Rle_trans with (2 := Al); apply Rabs_pos). pose proof (eps64_pos A A0) as E0.
  assert (A1 : A <= bpow radix2 1000) by (apply Rle_trans with (1 := A999); apply bpow_le; lia).
  unfold shrink_list in S. destruct (amax (N := F64) u) as [M|] eqn:EM; [|discriminate]. destruct (amin (N := F64) u) as [m|] eqn:Em; [|discriminate]. cbn [rbind] in S.
  destruct (amax_f u M Ff EM) as [IM LM]. destruct (amin_f u m Ff Em) as [Im Lm]. pose proof (finites_in _ _ Ff IM) as FM. pose proof (finites_in _ _ Ff Im) as Fm.
  pose proof (LM _ Im) as mM.
  change (@nleb F64 ub M) with (Bleb ub M) in S. change (@nleb F64 ub m) with (Bleb ub m) in S. change (@nleb F64 M lb) with (Bleb M lb) in S. change (@nleb F64 m lb) with (Bleb m lb) in S. change (@nltb F64 ub M) with (Bltb ub M) in S.
  rewrite !Bleb_finite, Bltb_finite in S by assumption.
  destruct ((Rle_bool (B2R ub) (B2R M) && Rle_bool (B2R ub) (B2R m)) || (Rle_bool (B2R M) (B2R lb) && Rle_bool (B2R m) (B2R lb)))%bool eqn:B.
  - injection S as <-. exists (fun x => npmax (N := F64) (npmin (N := F64) x ub) lb). split; [reflexivity|]. intros x y X Y L.
    pose proof (finites_in _ _ Ff X) as Fx. pose proof (finites_in _ _ Ff Y) as Fy. rewrite (npmin_f x ub Fx Fu), (npmin_f y ub Fy Fu).
    destruct (Rle_bool_spec (B2R x) (B2R ub)), (Rle_bool_spec (B2R y) (B2R ub)); rewrite !npmax_f by assumption;
      repeat match goal with |- context [Rle_bool ?p ?q] => destruct (Rle_bool_spec p q) end; lra.
  - apply Bool.orb_false_iff in B as [B1 _].
    assert (H1 : B2R ub < B2R M -> B2R m < B2R ub).
    { intros H. destruct (Rle_bool_spec (B2R ub) (B2R M)); [|lra]. destruct (Rle_bool_spec (B2R ub) (B2R m)); [discriminate B1|assumption]. }
    clear B1. match type of S with context [amax ?l] => set (u1 := l) in S end.
    assert (P1 : finites u1 /\ small (A + eps64 A) u1 /\ exists g, u1 = map g u /\ forall x y, In x u -> In y u -> B2R x <= B2R y -> B2R (g x) <= B2R (g y)).
    { unfold u1. destruct (Rlt_bool_spec (B2R ub) (B2R M)) as [G|G].
      - pose proof (H1 G) as G'.
        assert (K : forall x, In x u -> let c := corr64 (Babs (Bminus mode_NE ub m)) (Babs (Bminus mode_NE M m)) in let y := Bplus mode_NE (Bmult mode_NE (Bminus mode_NE x m) c) m in
           is_finite y = true /\ B2R m <= B2R y <= B2R ub + eps64 A).
        { intros x X. destruct (upper_half A A1 m M ub x) as (K1 & K2 & _); try assumption; try (now apply (finites_in u)); try (now apply Sm); [split; [now apply Lm|now apply LM]|]. now split. }
        repeat split.
        + apply List.Forall_forall. intros y Y. apply in_map_iff in Y as (x & <- & X). exact (proj1 (K x X)).
        + intros y Y. apply in_map_iff in Y as (x & <- & X). destruct (K x X) as (_ & K2). cbv zeta in K2. pose proof (Sm m Im) as Q. apply abs_bound in Q. pose proof Au as Q'. apply abs_bound in Q'. apply Rabs_le.
          match goal with |- _ <= B2R ?t <= _ => match type of K2 with _ <= B2R ?t' <= _ => change t with t' end end. lra.
        + eexists. split; [reflexivity|]. intros x y X Y L. cbv beta. apply (moved_order x y m (corr64 (Babs (Bminus mode_NE ub m)) (Babs (Bminus mode_NE M m))) A); try assumption; try (now apply (finites_in u)); try (now apply Sm).
          * apply corr_f; [apply minus_small|apply minus_small|]; try assumption; [apply (below _ A 2)|apply (below _ A 2)|]; try lra; try (pose proof (Sm m Im) as Q; pose proof (Sm M IM) as Q'; pose proof Au as Q''; apply abs_bound in Q, Q', Q''; apply Rabs_le; lra).
            destruct (minus_small M m FM Fm) as [_ ->]; [apply (below _ A 2); [|lra|lra]; pose proof (Sm m Im) as Q; pose proof (Sm M IM) as Q'; apply abs_bound in Q, Q'; apply Rabs_le; lra|]. apply Rabs_pos_lt. pose proof (w_pos _ _ (finite_format m) (finite_format M) ltac:(lra)). lra.
          * apply corr_f; [apply minus_small|apply minus_small|]; try assumption; [apply (below _ A 2)|apply (below _ A 2)|]; try lra; try (pose proof (Sm m Im) as Q; pose proof (Sm M IM) as Q'; pose proof Au as Q''; apply abs_bound in Q, Q', Q''; apply Rabs_le; lra).
            destruct (minus_small M m FM Fm) as [_ ->]; [apply (below _ A 2); [|lra|lra]; pose proof (Sm m Im) as Q; pose proof (Sm M IM) as Q'; apply abs_bound in Q, Q'; apply Rabs_le; lra|]. apply Rabs_pos_lt. pose proof (w_pos _ _ (finite_format m) (finite_format M) ltac:(lra)). lra.
      - split; [exact Ff|]. split; [intros x X; pose proof (Sm x X); lra|]. exists (fun x => x). split; [now rewrite map_id|auto]. }
    clearbody u1. destruct P1 as (Ff1 & Sm1 & g & Eg & Mg).
    destruct (amax (N := F64) u1) as [M'|] eqn:EM'; [|discriminate]. destruct (amin (N := F64) u1) as [m'|] eqn:Em'; [|discriminate]. cbn [rbind] in S.
    destruct (amax_f u1 M' Ff1 EM') as [IM' LM']. destruct (amin_f u1 m' Ff1 Em') as [Im' Lm']. pose proof (finites_in _ _ Ff1 IM') as FM'. pose proof (finites_in _ _ Ff1 Im') as Fm'.
    pose proof (LM' _ Im') as mM'. change (@nltb F64 m' lb) with (Bltb m' lb) in S. rewrite Bltb_finite in S by assumption.
    destruct (Rlt_bool_spec (B2R m') (B2R lb)) as [G|G]; injection S as <-.
    + rewrite Eg in *. rewrite map_map. eexists. split; [reflexivity|]. intros x y X Y L. cbv beta. pose proof (eps64_room A (conj A0 A999)) as A1'. assert (A0' : 0 <= A + eps64 A) by lra.
      assert (Al' : Rabs (B2R lb) <= A + eps64 A) by lra.
      destruct (lower_corr (A + eps64 A) m' M' lb (conj A0' A1') Fm' FM' Fl (Sm1 _ Im') (Sm1 _ IM') Al' mM' G) as [Fc C01].
      apply (moved_order (g x) (g y) M' (corr64 (Babs (Bminus mode_NE M' lb)) (Babs (Bminus mode_NE M' m'))) (A + eps64 A)); try assumption.
      * apply (finites_in _ _ Ff1). now apply in_map.
      * apply (finites_in _ _ Ff1). now apply in_map.
      * apply Sm1. now apply in_map.
      * apply Sm1. now apply in_map.
      * now apply Sm1.
      * now apply Mg.
    + exists g. auto.
Qed.
(** a pulse inside the limits stays the same, bit by bit *)
Lemma shrink64_inside (lb ub : f64) (u v : list f64) : is_finite lb = true -> is_finite ub = true -> finites u -> (forall x, In x u -> B2R lb <= B2R x <= B2R ub) ->
  shrink_list (N := F64) lb ub u = Ok v -> v = u.
Proof.
  intros Fl Fu Ff In_ S. unfold shrink_list in S. destruct (amax (N := F64) u) as [M|] eqn:EM; [|discriminate]. destruct (amin (N := F64) u) as [m|] eqn:Em; [|discriminate]. cbn [rbind] in S.
  destruct (amax_f u M Ff EM) as [IM LM]. destruct (amin_f u m Ff Em) as [Im Lm]. pose proof (finites_in _ _ Ff IM) as FM. pose proof (finites_in _ _ Ff Im) as Fm.
  assert (C : map (fun x => npmax (N := F64) (npmin (N := F64) x ub) lb) u = u).
  { rewrite <- (map_id u) at 2. apply map_ext_in. intros x X. pose proof (finites_in _ _ Ff X) as Fx. destruct (In_ x X). rewrite npmin_f by assumption. destruct (Rle_bool_spec (B2R x) (B2R ub)); [|lra]. rewrite npmax_f by assumption. destruct (Rle_bool_spec (B2R lb) (B2R x)); [reflexivity|lra]. }
  change (@nltb F64 ub M) with (Bltb ub M) in S. rewrite Bltb_finite in S by assumption. destruct (Rlt_bool_spec (B2R ub) (B2R M)) as [G|_]; [pose proof (In_ M IM); lra|].
  rewrite EM, Em in S. cbn [rbind] in S. change (@nltb F64 m lb) with (Bltb m lb) in S. rewrite Bltb_finite in S by assumption. destruct (Rlt_bool_spec (B2R m) (B2R lb)) as [G|_]; [pose proof (In_ m Im); lra|].
  match type of S with (if ?b then _ else _) = _ => destruct b end; injection S as <-; [exact C|reflexivity].
Qed.
