(** Lemmas for C88: infinities and NaN in the arithmetic of CMA-ES. *)
From Coq Require Import ZArith List Bool Reals Lia Lra.
From Flocq Require Import Core BinarySingleNaN.
From Verif Require Import Num NumFacts Py PyFacts ModelCma64 SpecCma64.
Import ListNotations.

Definition broken (x : f64) : Prop := is_finite x = false.
(** +infinity or NaN *)
Definition high (x : f64) : Prop := x = f64_inf \/ x = f64_nan.
(** nonnegative, or NaN *)
Definition up (x : f64) : Prop := is_nan x = true \/ Bsign x = false.

Lemma plus_l x y : broken x -> broken (x +! y). Proof. destruct x as [|[]| |], y as [|[]| |]; cbn; intros H; try discriminate H; reflexivity. Qed.
Lemma plus_r x y : broken y -> broken (x +! y). Proof. destruct x as [|[]| |], y as [|[]| |]; cbn; intros H; try discriminate H; reflexivity. Qed.
Lemma times_l x y : broken x -> broken (x *! y). Proof. destruct x as [| | |], y as [| | |]; cbn; intros H; try discriminate H; reflexivity. Qed.
Lemma times_r x y : broken y -> broken (x *! y). Proof. destruct x as [| | |], y as [| | |]; cbn; intros H; try discriminate H; reflexivity. Qed.
Lemma div_l x y : broken x -> broken (x /! y). Proof. destruct x as [| | |], y as [| | |]; cbn; intros H; try discriminate H; reflexivity. Qed.
Lemma high_broken x : high x -> broken x. Proof. intros [-> | ->]; reflexivity. Qed.
Lemma broken_up x : broken x -> up x -> high x.
Proof. destruct x as [|[]| |]; intros B U; try discriminate B; [destruct U; discriminate|left; reflexivity|right; reflexivity]. Qed.
Lemma high_up x : high x -> up x. Proof. intros [-> | ->]; [right|left]; reflexivity. Qed.
Lemma overflow_up (v : f64) : B2SF v = binary_overflow 53 1024 mode_NE false -> Bsign v = false.
Proof. destruct v as [|s| |]; cbn; intros H; try discriminate H. now injection H as ->. Qed.
Lemma square_up x : up (x *! x).
Proof.
  destruct (is_nan (x *! x)) eqn:E; [now left|right].
  destruct x as [s|[]| |s m e H]; try reflexivity; try (now destruct s); try discriminate E.
  pose proof (Bmult_correct 53 1024 f64_prec f64_emax mode_NE (B754_finite s m e H) (B754_finite s m e H)) as C.
  destruct (Rlt_bool _ _).
  - destruct C as (_ & _ & C). specialize (C E). cbn [nmul F64] in *. rewrite C. cbn. now destruct s.
  - cbn [Bsign] in C. rewrite xorb_nilpotent in C. exact (overflow_up _ C).
Qed.
Lemma plus_up x y : up x -> up y -> up (x +! y).
Proof.
  intros A B. destruct (is_nan (x +! y)) eqn:E; [now left|right].
  destruct A as [A|A]; [destruct x; try discriminate A; cbn in E; destruct y as [|[]| |]; discriminate E|].
  destruct B as [B|B]; [destruct y; try discriminate B; cbn in E; destruct x as [|[]| |]; discriminate E|].
  destruct (is_finite x) eqn:Fx; [|destruct x as [|[]| |]; try discriminate; destruct y as [|[]| |]; try discriminate; reflexivity].
  destruct (is_finite y) eqn:Fy; [|destruct y as [|[]| |]; try discriminate; destruct x as [|[]| |]; try discriminate; reflexivity].
  pose proof (Bplus_correct 53 1024 f64_prec f64_emax mode_NE x y Fx Fy) as C. cbn [nadd F64] in *.
  assert (P : forall v : f64, is_finite v = true -> Bsign v = false -> (0 <= B2R v)%R).
  { intros [s|s| |s m e H] Fv S; cbn [B2R Bsign] in *; [apply Rle_refl|apply Rle_refl|apply Rle_refl|]. rewrite S. now apply F2R_ge_0. }
  pose proof (P x Fx A) as Px. pose proof (P y Fy B) as Py.
  destruct (Rlt_bool _ _).
  - destruct C as (_ & _ & C). rewrite C, A, B. cbn. destruct (Rcompare_spec (B2R x + B2R y) 0); try reflexivity. lra.
  - destruct C as [C _]. rewrite A in C. exact (overflow_up _ C).
Qed.
Lemma fsum_up n f : (forall k, (k < n)%nat -> up (f k)) -> up (fsum n f).
Proof. induction n as [|n IH]; intros H; [right; reflexivity|]. cbn [fsum]. apply plus_up; [apply IH; intros k L; apply H; lia|apply H; lia]. Qed.
Lemma fsum_broken n f k : (k < n)%nat -> broken (f k) -> broken (fsum n f).
Proof. induction n as [|n IH]; intros L B; [lia|]. cbn [fsum]. destruct (Nat.eq_dec k n) as [->|D]; [now apply plus_r|apply plus_l, IH; [lia|exact B]]. Qed.
Lemma norm_high n v k : (k < n)%nat -> broken (v k) -> high (fnorm n v).
Proof.
  intros L B. unfold fnorm. assert (H : high (fsum n (fun i => v i *! v i))).
  { apply broken_up; [apply fsum_broken with k; [exact L|now apply times_l]|apply fsum_up; intros; apply square_up]. }
  destruct H as [-> | ->]; [left|right]; reflexivity.
Qed.
Lemma high_minus_one x : high x -> high (x -! fz 1). Proof. intros [-> | ->]; [left|right]; reflexivity. Qed.
Lemma high_div x c : pos c -> high x -> high (x /! c).
Proof. intros P [-> | ->]; destruct c as [| | |[]]; try contradiction P; [left|right]; reflexivity. Qed.
Lemma high_times c x : pos c -> high x -> high (c *! x).
Proof. intros P [-> | ->]; destruct c as [| | |[]]; try contradiction P; [left|right]; reflexivity. Qed.
Lemma high_high x y : high x -> high y -> high (x *! y).
Proof. intros [-> | ->] [-> | ->]; [left|right|right|right]; reflexivity. Qed.
Lemma one_high y : high y -> high (fz 1 *! y). Proof. intros [-> | ->]; [left|right]; vm_compute; reflexivity. Qed.
Lemma over_zero x : x = B754_zero false \/ x = B754_zero true -> broken (fz 1 /! x). Proof. intros [-> | ->]; vm_compute; reflexivity. Qed.
