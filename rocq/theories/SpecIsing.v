(** * Vocabulary for the Ising Hamiltonians, independent of the program. *)
From mathcomp Require Import all_ssreflect all_algebra.
From Verif Require Import SpecTrace.
Import GRing.Theory.
Set Implicit Arguments.
Unset Strict Implicit.
Unset Printing Implicit Defensive.
Local Open Scope ring_scope.
Local Open Scope seq_scope.

Section Spec.
  Variable R : comRingType.
  (** configurations of [n] spins: strings of 0 and 1; the basis state with a configuration has the number [number] *)
  Definition spins (n : nat) : seq (seq nat) := strings (nseq n 2%N).
  Definition basis_number (s : seq nat) : nat := number (nseq (size s) 2%N) s.
  (** spin up (digit 0) counts 1, spin down -1 *)
  Definition z_of (s : seq nat) (k : nat) : R := if nth 0%N s k == 0%N then 1 else -1.
  (** energy of a closed chain with nearest and next-nearest neighbour coupling *)
  Definition chain_energy (J g : R) (n : nat) (s : seq nat) : R :=
    - (\sum_(j < n) J * (z_of s j * z_of s ((j + 1) %% n)) + \sum_(j < n) g * (z_of s j * z_of s ((j + 2) %% n))).
  (** number of spins in which two configurations differ *)
  Definition flips (s t : seq nat) : nat := count (fun st => st.1 != st.2) (zip s t).
End Spec.
