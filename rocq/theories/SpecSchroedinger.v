(** * Vocabulary for the Schroedinger equation, independent of the program. *)
From Coq Require Import Reals.
From mathcomp Require Import all_ssreflect all_algebra.
From mathcomp.real_closed Require Import complex.
From Verif Require Import RealStruct SpecQuantum SpecGrapeExact.
Import GRing.Theory Num.Theory.
Set Implicit Arguments.
Unset Strict Implicit.
Unset Printing Implicit Defensive.
Delimit Scope R_scope with coqR.
Local Open Scope ring_scope.

Section Spec.
  Variable d : nat.
  Notation M := 'M[Cx]_d.
  (** U' = -i H(s) U between the times [a] and [b] *)
  Definition schroedinger (H : R -> M) (a b : R) (U : R -> M) : Prop :=
    forall s, (a <= s)%coqR -> (s <= b)%coqR -> matrix_derivative U s ((- 'i *: H s) *m U s).
  (** the solution for a Hamiltonian that is [H i] between [i * h] and [(i+1) * h]: one piece for each slice, each beginning where the
      piece before ends; it starts with [U0] and is [U] at the time [n * h] *)
  Definition steps_solution (H : nat -> M) (h : R) (n : nat) (U0 U : M) : Prop := exists V : nat -> R -> M,
    V 0%N R0 = U0 /\
    (forall i, (i < n)%N -> (forall s, matrix_derivative (V i) s ((- 'i *: H i) *m V i s)) /\ V i.+1 (Rmult (INR i.+1) h) = V i (Rmult (INR i.+1) h)) /\
    V n (Rmult (INR n) h) = U.
  (** the Hamiltonian A + f_0(s) B_0 + f_1(s) B_1 + ... *)
  Definition driven_hamiltonian (A : M) (B : seq M) (f : nat -> R -> R) (s : R) : M := A + \sum_(k < size B) number (f k s) *: nth 0 B k.
  (** [f] does not change faster than [L] between 0 and [T] *)
  Definition lipschitz (L T : R) (f : R -> R) : Prop :=
    forall s u, (0 <= s <= T)%coqR -> (0 <= u <= T)%coqR -> (Rabs (f s - f u) <= L * Rabs (s - u))%coqR.
  (** each value [r] times *)
  Definition stretched (T : Type) (r : nat) (l : seq T) : seq T := flatten [seq nseq r x | x <- l].
End Spec.
