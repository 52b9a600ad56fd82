(** Rotations around the x axis. *)
From Coq Require Import Reals Lra.
From mathcomp Require Import all_ssreflect all_algebra.
From mathcomp.real_closed Require Import complex.
From Verif Require Import Py RealStruct SpecQuantum SpecGrapeExact SpecSchroedinger ModelQuantum ProofQuantum ProofSpectral ProofWitness
  ProofMatrixCalculus ProofFrobenius ProofSliceChange ProofGrapeExact ProofExponential ProofHalfTurn ProofSchroedinger.
From mathcomp Require Import ring.
Import Order.TTheory GRing.Theory Num.Theory.
Set Implicit Arguments.
Unset Strict Implicit.
Unset Printing Implicit Defensive.
Local Open Scope ring_scope.

Notation X := (sigma_x Cx).
Definition half_x : 'M[Cx]_2 := (2%:R)^-1 *: X.
(** rotation by the angle 2 g *)
Definition turn (g : R) : 'M[Cx]_2 := creal (cos g) *: 1%:M + (- 'i * creal (sin g)) *: X.
Lemma turn_der (g : R -> R) s v : derivable_pt_lim g s v -> mder (fun u => turn (g u)) s ((- 'i *: (number v *: X)) *m turn (g s)).
Proof.
  move=> D. have Dc := derivable_pt_lim_comp g cos s _ _ D (derivable_pt_lim_cos _). have Ds := derivable_pt_lim_comp g sin s _ _ D (derivable_pt_lim_sin _).
  have := madd (mscale (1%:M : 'M[Cx]_2) (creal_der Dc)) (mscale X (cmul (cconst (- 'i) s) (creal_der Ds))).
  rewrite mul0r add0r. set P := _ + _. set Q := _ *m _. have -> // : P = Q.
  have [_ X2] := sx_involution Cx. rewrite /P /Q /turn mulmxDr -!scalemxAr mulmx1 -!scalemxAl X2 !scalerA addrC. apply: f_equal2; apply: f_equal2 => //.
  - rewrite -[number v]/(creal v) creal_mul. ring.
  - rewrite -[number v]/(creal v) creal_mul creal_opp. transitivity ('i ^+ 2 * (creal (sin (g s)) * creal v)); last by ring. rewrite sqrCi. ring.
Qed.
Lemma turn0 : turn 0%coqR = 1%:M.
Proof. by rewrite /turn cos_0 sin_0 creal0 creal1 mulr0 scale0r addr0 scale1r. Qed.
Lemma turn_half : turn (PI / 2)%coqR = - 'i *: X.
Proof. by rewrite /turn cos_PI2 sin_PI2 creal0 creal1 mulr1 scale0r add0r. Qed.
Lemma turn_full : turn PI = - 1%:M.
Proof. rewrite /turn cos_PI sin_PI creal0 mulr0 scale0r addr0 creal_opp creal1 scaleN1r. by []. Qed.
Lemma half_xE : half_x = number (1 / 2)%coqR *: X.
Proof. rewrite /half_x. congr (_ *: _). have := div_number R1 1. rewrite -[number R1]/(1 : Cx) mul1r => ->. by []. Qed.
Lemma half_der (s : R) : derivable_pt_lim (fun u => u / 2)%coqR s (1 / 2)%coqR.
Proof.
  have D := derivable_pt_lim_scal _ (/ 2)%coqR _ _ (derivable_pt_lim_id s). rewrite Rmult_1_r in D. rewrite /Rdiv Rmult_1_l. apply: dext D => x. exact: Rmult_comm.
Qed.
Lemma half_flow : flow half_x (fun s => turn (s / 2)%coqR).
Proof. split; first by rewrite /Rdiv Rmult_0_l turn0. move=> s. rewrite half_xE. exact: turn_der (half_der s). Qed.
