(** * Vocabulary for derivatives with respect to amplitudes, independent of the program. *)
From Coq Require Import Reals.
From mathcomp Require Import all_ssreflect all_algebra.
From mathcomp.real_closed Require Import complex.
From Verif Require Import RealStruct SpecQuantum.
Import GRing.Theory Num.Theory.
Set Implicit Arguments.
Unset Strict Implicit.
Unset Printing Implicit Defensive.
Local Open Scope ring_scope.

(** real and imaginary part of a complex number, a real number as complex number *)
Definition real_part (z : Cx) : R := complex.Re (z : R[i]).
Definition imaginary_part (z : Cx) : R := complex.Im (z : R[i]).
Definition number (x : R) : Cx := (x%:C)%C.

Section Spec.
  Variable d : nat.
  Notation M := 'M[Cx]_d.
  (** derivative of a matrix that depends on a real number, entry by entry *)
  Definition matrix_derivative (F : R -> M) (s : R) (D : M) : Prop := forall i j,
    derivable_pt_lim (fun u => real_part (F u i j)) s (real_part (D i j)) /\
    derivable_pt_lim (fun u => imaginary_part (F u i j)) s (imaginary_part (D i j)).
  (** [E] is the exponential of [A]: the solution of V' = A V, V(0) = 1 at time 1 *)
  Definition exponential_of (A E : M) : Prop := exists V : R -> M,
    V R0 = 1%:M /\ (forall s, matrix_derivative V s (A *m V s)) /\ V R1 = E.
  (** [expm] computes the exponential of -i times any hermitian matrix *)
  Definition computes_exponentials (expm : M -> M) : Prop := forall H, hermitian H -> exponential_of (- 'i *: H) (expm (- 'i *: H)).
  (** root of the sum of the squared moduli of the entries *)
  Definition frobenius (X : M) : R := sqrt (\sum_j \sum_i ((real_part (X i j)) ^+ 2 + (imaginary_part (X i j)) ^+ 2)).
  (** [A] and [B] commute if this is 0 *)
  Definition bracket (A B : M) : M := A *m B - B *m A.
  (** the overlap with the target after [n] slices of length [dt] with amplitudes [a] *)
  Definition reached_overlap (expm : M -> M) (H0 B rho0 target : M) (dt : R) (n : nat) (a : seq R) : R :=
    real_part (overlap target (state_at (propagator expm [:: map number a] H0 [:: B] (number dt)) rho0 n)).
End Spec.
