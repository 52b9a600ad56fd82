(** * Vocabulary for dissipative dynamics, independent of the program. *)
From mathcomp Require Import all_ssreflect all_algebra.
From Verif Require Import SpecQuantum SpecIsing.
Import GRing.Theory Num.Theory.
Set Implicit Arguments.
Unset Strict Implicit.
Unset Printing Implicit Defensive.
Local Open Scope ring_scope.

Section Spec.
  Variables (C : numClosedFieldType) (d : nat).
  Notation M := 'M[C]_d.
  (** right hand side of the master equation with Hamiltonian [H] and jump operator [L] *)
  Definition lindblad (H L rho : M) : M :=
    - 'i *: (H *m rho - rho *m H) + (L *m rho *m dagger L - 2%:R^-1 *: (dagger L *m L *m rho + rho *m (dagger L *m L))).
  (** Properties of the matrix exponential.  A left eigenvector of A with eigenvalue a is one of exp A with eigenvalue exp a. *)
  Definition exponential_at (expm : M -> M) (cexp : C -> C) (A : M) : Prop :=
    forall (w : 'rV[C]_d) a, w *m A = a *: w -> w *m expm A = cexp a *: w.
  (** exp (P A* P) = P (exp A)* P for every involution P: a power series with real coefficients *)
  Definition conjugate (X : M) : M := \matrix_(i, j) (X i j)^*.
  Definition real_series (expm : M -> M) : Prop :=
    forall P A : M, P *m P = 1%:M -> expm (P *m conjugate A *m P) = P *m conjugate (expm A) *m P.
End Spec.

Section Qubit.
  Variable C : numClosedFieldType.
  (** levels with energies E and 0, coupled by the amplitude x *)
  Definition driven_qubit (E x : C) : 'M[C]_2 :=
    \matrix_(i, j) (if val i == val j then (if val i == 0%N then E else 0) else x).
  (** the jump |0><1|, at the rate gamma *)
  Definition jump : 'M[C]_2 := delta_mx 0 1.
  Definition decay (gamma : C) (H rho : 'M[C]_2) : 'M[C]_2 :=
    - 'i *: (H *m rho - rho *m H) + gamma *: (jump *m rho *m dagger jump - 2%:R^-1 *: (dagger jump *m jump *m rho + rho *m (dagger jump *m jump))).
  (** (|0> - i|1>) / sqrt 2 *)
  Definition aim : 'cV[C]_2 := (sqrtC 2%:R)^-1 *: (\matrix_(i, j) (if val i == 0%N then 1 else - 'i)).
End Qubit.

Section Chain.
  Variable C : numClosedFieldType.
  (** magnetisation of a configuration, in units of a spin of 1/2 *)
  Definition magnetisation (n : nat) (s : seq nat) : C := \sum_(k < n) z_of C s k / 2%:R.
End Chain.
