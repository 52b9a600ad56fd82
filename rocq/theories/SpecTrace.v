(** * Vocabulary for the partial trace, independent of the program. *)
From mathcomp Require Import all_ssreflect all_algebra.
Import GRing.Theory.
Set Implicit Arguments.
Unset Strict Implicit.
Unset Printing Implicit Defensive.
Local Open Scope ring_scope.
Local Open Scope seq_scope.

(** all digit strings for subsystems of the given dimensions *)
Fixpoint strings (dims : seq nat) : seq (seq nat) :=
  if dims is m :: dims then [seq i :: s | i <- iota 0 m, s <- strings dims] else [:: [::]].
(** number of the basis state with these digits: the last subsystem counts fastest *)
Definition number (dims digits : seq nat) : nat := foldl (fun n mi => (n * mi.1 + mi.2)%N) 0%N (zip dims digits).
(** dimension of the whole *)
Definition dimension (dims : seq nat) : nat := \prod_(m <- dims) m.
(** subsystems that stay, in order; dimensions of some subsystems *)
Definition kept (n : nat) (pos : seq nat) : seq nat := [seq i <- iota 0 n | i \notin pos].
Definition dims_of (dims pos : seq nat) : seq nat := [seq nth 0%N dims p | p <- pos].
(** digits [t] on the subsystems [pos] and digits [a] on the others *)
Definition place (n : nat) (pos t a : seq nat) : seq nat :=
  [seq (if p \in pos then nth 0%N t (index p pos) else nth 0%N a (index p (kept n pos))) | p <- iota 0 n].
(** the partial trace of the square matrix [rho] over the subsystems [pos], at digit strings of the others *)
Definition reduced (T : zmodType) (dims pos : seq nat) (rho : nat -> nat -> T) (a b : seq nat) : T :=
  \sum_(t <- strings (dims_of dims pos)) rho (number dims (place (size dims) pos t a)) (number dims (place (size dims) pos t b)).
