(** * Vocabulary for fidelities, independent of the program. *)
From mathcomp Require Import all_ssreflect all_algebra.
From Verif Require Import SpecQuantum.
Import GRing.Theory Num.Theory.
Set Implicit Arguments.
Unset Strict Implicit.
Unset Printing Implicit Defensive.
Local Open Scope ring_scope.

Section Spec.
  Variables (C : numClosedFieldType) (d : nat).
  Notation M := 'M[C]_d.
  (** a density matrix *)
  Definition density (rho : M) : Prop := semidefinite rho /\ \tr rho = 1.
  (** what the numerical routines are meant to compute *)
  Definition finds_roots (sqrtm : M -> M) : Prop := forall X, semidefinite X -> root_of X (sqrtm X).
  Definition finds_eigenvalues (eigvals : M -> seq C) : Prop := forall X, char_poly X = \prod_(l <- eigvals X) ('X - l%:P).
  Definition diagonalises (eigh : M -> 'rV[C]_d * M) : Prop :=
    forall X, hermitian X -> unitary (eigh X).2 /\ X *m (eigh X).2 = (eigh X).2 *m diag_mx (eigh X).1.
  Definition inverts (inv : M -> M) : Prop := forall X, X \in unitmx -> inv X *m X = 1%:M.
  (** the fidelity of [rho] and [sigma] is [F] (Uhlmann): the square of the trace of the root of sqrt(rho) sigma sqrt(rho) *)
  Definition fidelity_is (rho sigma : M) (F : C) : Prop :=
    exists R S, root_of rho R /\ root_of (R *m sigma *m R) S /\ F = (\tr S) ^+ 2.
End Spec.
