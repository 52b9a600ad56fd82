(** * The pulse as a function of time in Examples/IsingModelProblem_AD_Lindblad.py, over the real numbers. *)
From Coq Require Import Reals ZArith List.
From Flocq Require Import Core.
Local Open Scope R_scope.

(** reading a jax array: a negative index counts from the end, an index outside is moved to the first or last entry.  Simplification:
    an array without entries answers [x0] (jax refuses it) *)
Definition jax_nth {A} (x0 : A) (l : list A) (i : Z) : A :=
  let n := Z.of_nat (length l) in
  let i := if (i <? 0)%Z then (i + n)%Z else i in
  nth (Z.to_nat (Z.max 0 (Z.min i (n - 1)))) l x0.
(** IsingModelProblem_AD_Lindblad.py:97; [n] is the number of entries of the time grid and [T] its last one *)
Definition sample_index (n : nat) (T t : R) : Z := Zfloor (t / T * (INR n - 1)).
(** IsingModelProblem_AD_Lindblad.py:99: the factor of the control Hamiltonian at time [t] *)
Definition pulse_at (pulse : list R) (n : nat) (T t : R) : R := jax_nth 0 pulse (sample_index n T t).
