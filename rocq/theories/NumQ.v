(** Exact rationals: a third instance of [Num], used only to compute concrete runs for the theorems that need exact
    arithmetic.  Simplification: the square root is a rational approximation from below. *)
From Coq Require Import ZArith QArith Qcanon Bool Lia.
From Verif Require Import Num.

Definition Qcnum : Num := {|
  num := Qc;
  of_Z := fun z => Q2Qc (inject_Z z);
  nadd := Qcplus;
  nsub := Qcminus;
  nmul := Qcmult;
  ndiv := Qcdiv;
  nabs := fun x => if Qle_bool 0 x then x else Qcopp x;
  nsqrt := fun x => Q2Qc (Z.sqrt (Qnum x * Zpos (Qden x)) # Qden x);
  nltb := fun a b => negb (Qle_bool b a);
  nleb := fun a b => Qle_bool a b;
  neqb := fun a b => Qeq_bool a b;
  nisnan := fun _ => false
|}.

Lemma Qcnum_order : NumOrder Qcnum.
Proof.
  constructor; cbn.
  - intros a b c. rewrite !Qle_bool_iff. apply Qle_trans.
  - intros a b. destruct (Qle_bool a b) eqn:E; [reflexivity|]. cbn. destruct (Qle_bool b a) eqn:F; [reflexivity|].
    exfalso. assert (A : ~ (a <= b)%Q) by (rewrite <- Qle_bool_iff; congruence).
    assert (B : ~ (b <= a)%Q) by (rewrite <- Qle_bool_iff; congruence). apply A. apply Qlt_le_weak. now apply Qnot_le_lt.
  - intros a b _ _. rewrite !Qle_bool_iff. destruct (Qlt_le_dec a b); [left; now apply Qlt_le_weak|now right].
  - discriminate.
  - discriminate.
Qed.
Lemma Qcnum_exact : NumExact Qcnum.
Proof.
  constructor; cbn; intros.
  - apply Qcplus_comm.
  - symmetry. apply Qcplus_assoc.
  - apply Qcplus_0_r.
  - apply Qcmult_0_l.
  - ring.
  - apply Qcmult_1_r.
  - rewrite Qle_bool_iff in *. now apply Qcle_antisym.
  - reflexivity.
Qed.
Lemma Qc_opp_le (a b : Qc) : Qle_bool (Qcopp a) (Qcopp b) = Qle_bool b a.
Proof.
  apply eq_true_iff_eq. rewrite !Qle_bool_iff. split; intros H.
  - apply (Qcopp_le_compat (Qcopp a) (Qcopp b)) in H. now rewrite !Qcopp_involutive in H.
  - exact (Qcopp_le_compat b a H).
Qed.
Lemma Qcnum_sign : NumSign Qcnum.
Proof.
  assert (O : forall a : Qc, Qcmult (Q2Qc (inject_Z (-1))) a = Qcopp a) by (intros a; change (Q2Qc (inject_Z (-1))) with (Qcopp 1); ring).
  constructor; cbn [nmul of_Z nleb nisnan Qcnum]; intros; rewrite ?O.
  - change (Q2Qc (inject_Z 1)) with 1%Qc. apply Qcmult_1_l.
  - apply Qcopp_involutive.
  - apply Qc_opp_le.
  - reflexivity.
  - reflexivity.
Qed.
