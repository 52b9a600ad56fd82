(** * The real numbers of Coq's standard library as a real closed field of mathcomp, and the complex numbers over them.
    Supporting material for [PropGrapeExact.v]; nothing of the program is modelled here. *)
From Coq Require Import Reals Lra Epsilon.
From mathcomp Require Import all_ssreflect all_algebra.
From mathcomp.real_closed Require Import complex.
Import Order.TTheory GRing.Theory Num.Theory.
Set Implicit Arguments.
Unset Strict Implicit.
Unset Printing Implicit Defensive.

Definition eqr (x y : R) : bool := if Req_EM_T x y is left _ then true else false.
Lemma eqrP : Equality.axiom eqr.
Proof. move=> x y. rewrite /eqr. case: Req_EM_T => H; by constructor. Qed.
Canonical R_eqType := Eval hnf in EqType R (EqMixin eqrP).

Definition pickR (P : pred R) (n : nat) : option R := let x := epsilon (inhabits R0) (fun x => P x) in if P x then Some x else None.
Lemma pickR_some P n x : pickR P n = Some x -> P x.
Proof. rewrite /pickR. case E: (P _) => // -[<-]. exact: E. Qed.
Lemma pickR_ex (P : pred R) : (exists x, P x) -> exists n, pickR P n.
Proof. move=> H. exists O. rewrite /pickR. by rewrite (epsilon_spec (inhabits R0) (fun x => P x) H). Qed.
Lemma pickR_ext (P Q : pred R) : P =1 Q -> pickR P =1 pickR Q.
Proof.
  move=> E n. rewrite /pickR. have -> : (fun x => is_true (P x)) = (fun x => is_true (Q x)).
  { by apply: FunctionalExtensionality.functional_extensionality => x; rewrite E. }
  by rewrite E.
Qed.
Canonical R_choiceType := Eval hnf in ChoiceType R (Choice.Mixin pickR_some pickR_ex pickR_ext).

Fact RplusA : associative Rplus. Proof. by move=> x y z; rewrite Rplus_assoc. Qed.
Canonical R_zmodType := Eval hnf in ZmodType R (ZmodMixin RplusA Rplus_comm Rplus_0_l Rplus_opp_l).
Fact RmultA : associative Rmult. Proof. by move=> x y z; rewrite Rmult_assoc. Qed.
Fact R1_neq_0 : R1 != R0. Proof. apply/eqP. exact: R1_neq_R0. Qed.
Canonical R_ringType := Eval hnf in RingType R (RingMixin RmultA Rmult_1_l Rmult_1_r Rmult_plus_distr_r Rmult_plus_distr_l R1_neq_0).
Canonical R_comRingType := Eval hnf in ComRingType R Rmult_comm.

Local Open Scope ring_scope.
Definition Rinvx (r : R) : R := if r != R0 then Rinv r else R0.
Fact Rinvx_l (x : R) : x != 0 -> Rinvx x * x = 1.
Proof. move=> H. rewrite /Rinvx H. apply: Rinv_l. exact/eqP. Qed.
Fact Rinvx_0 : Rinvx 0 = 0. Proof. by rewrite /Rinvx eqxx. Qed.
Canonical R_unitRingType := Eval hnf in UnitRingType R (FieldUnitMixin Rinvx_l Rinvx_0).
Canonical R_comUnitRingType := Eval hnf in [comUnitRingType of R].
Fact R_field : GRing.Field.mixin_of [unitRingType of R]. Proof. by []. Qed.
Canonical R_idomainType := Eval hnf in IdomainType R (FieldIdomainMixin R_field).
Canonical R_fieldType := Eval hnf in FieldType R R_field.

Definition Rleb (x y : R) : bool := if Rle_dec x y is left _ then true else false.
Definition Rltb (x y : R) : bool := if Rlt_dec x y is left _ then true else false.
Lemma RlebP (x y : R) : reflect (Rle x y) (Rleb x y).
Proof. rewrite /Rleb. case: Rle_dec => H; by constructor. Qed.
Lemma RltbP (x y : R) : reflect (Rlt x y) (Rltb x y).
Proof. rewrite /Rltb. case: Rlt_dec => H; by constructor. Qed.

Fact R_le0_add x y : Rleb R0 x -> Rleb R0 y -> Rleb R0 (Rplus x y).
Proof. move=> /RlebP A /RlebP B. apply/RlebP. lra. Qed.
Fact R_le0_mul x y : Rleb R0 x -> Rleb R0 y -> Rleb R0 (Rmult x y).
Proof. move=> /RlebP A /RlebP B. apply/RlebP. exact: Rmult_le_pos. Qed.
Fact R_le0_anti x : Rleb R0 x -> Rleb x R0 -> x = R0.
Proof. move=> /RlebP A /RlebP B. lra. Qed.
Fact R_sub_ge0 x y : Rleb R0 (Rplus y (Ropp x)) = Rleb x y.
Proof. apply/RlebP/RlebP => H; lra. Qed.
Fact R_le0_total x : Rleb R0 x || Rleb x R0.
Proof. case: (Rle_dec R0 x) => H; apply/orP; [left|right]; apply/RlebP; lra. Qed.
Fact R_ge0_norm x : Rleb R0 x -> Rabs x = x.
Proof. move=> /RlebP H. exact: Rabs_pos_eq. Qed.
Fact R_lt_def x y : Rltb x y = (y != x) && Rleb x y.
Proof.
  apply/RltbP/andP => [H|[/eqP A /RlebP B]]; last lra.
  split; [apply/eqP|apply/RlebP]; lra.
Qed.
Definition R_leMixin : realLeMixin [idomainType of R] := RealLeMixin R_le0_add R_le0_mul R_le0_anti R_sub_ge0 R_le0_total Rabs_Ropp R_ge0_norm R_lt_def.
Canonical R_porderType := Eval hnf in POrderType ring_display R R_leMixin.
Canonical R_latticeType := Eval hnf in LatticeType R R_leMixin.
Canonical R_distrLatticeType := Eval hnf in DistrLatticeType R R_leMixin.
Canonical R_orderType := Eval hnf in OrderType R R_leMixin.
Canonical R_numDomainType := Eval hnf in NumDomainType R R_leMixin.
Canonical R_normedZmodType := Eval hnf in NormedZmodType R R R_leMixin.
Canonical R_numFieldType := Eval hnf in [numFieldType of R].
Canonical R_realDomainType := Eval hnf in [realDomainType of R].
Canonical R_realFieldType := Eval hnf in [realFieldType of R].

Lemma RleP (x y : R) : reflect (Rle x y) (x <= y). Proof. exact: RlebP. Qed.
Lemma RltP (x y : R) : reflect (Rlt x y) (x < y). Proof. exact: RltbP. Qed.

(** polynomials are continuous, so they have roots between values of opposite sign *)
Lemma horner_continuous (p : {poly R}) : continuity (fun x => p.[x]).
Proof.
  elim/poly_ind: p => [|p c IH].
  - have -> : (fun x => (0 : {poly R}).[x]) = fct_cte R0 by apply: FunctionalExtensionality.functional_extensionality => x; rewrite horner0.
    apply: continuity_const. by [].
  - have -> : (fun x => (p * 'X + c%:P).[x]) = plus_fct (mult_fct (fun x => p.[x]) id) (fct_cte c).
    { apply: FunctionalExtensionality.functional_extensionality => x. by rewrite hornerMXaddC. }
    apply: continuity_plus; last by apply: continuity_const.
    apply: continuity_mult => //. move=> x. exact: derivable_continuous_pt (derivable_pt_id x).
Qed.
Fact R_closed : Num.real_closed_axiom [numFieldType of R].
Proof.
  move=> p a b /RleP ab /andP [/RleP A /RleP B].
  case: (Req_EM_T p.[a] R0) => [E|NA]; first by exists a; [rewrite lexx; exact/RleP|rewrite rootE E].
  case: (Req_EM_T p.[b] R0) => [E|NB]; first by exists b; [rewrite lexx andbT; exact/RleP|rewrite rootE E].
  have L : Rlt a b. { case: ab => // E. exfalso. subst b. apply: NA. move: A B. rewrite /GRing.zero /=. lra. }
  case: (IVT (fun x => p.[x]) a b (@horner_continuous p) L) => [|| z [[Z1 Z2] Z]].
  - move: A NA. rewrite /GRing.zero /=. lra.
  - move: B NB. rewrite /GRing.zero /=. lra.
  - exists z; first by apply/andP; split; exact/RleP. by rewrite rootE Z.
Qed.
Canonical R_rcfType := Eval hnf in RcfType R R_closed.

(** the complex numbers *)
Definition Cx : numClosedFieldType := [numClosedFieldType of R[i]].
