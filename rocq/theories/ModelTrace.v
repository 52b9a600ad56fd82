(** * Partial trace (tools/partial_trace.py).
    Entries of arrays come from any additive group (rounding is not modelled). *)
From Coq Require Import ZArith.
From mathcomp Require Import all_ssreflect all_algebra.
From Verif Require Import Py.
Import GRing.Theory.
Set Implicit Arguments.
Unset Strict Implicit.
Unset Printing Implicit Defensive.
Local Open Scope ring_scope.
Local Open Scope seq_scope.

Section Arrays.
  Variable T : zmodType.
  (** an array: its shape and the entry at each index within it *)
  Record array := Array { shape : seq nat; entry : seq nat -> T }.
  Definition total (s : seq nat) : nat := foldr muln 1%N s.
  (** row-major position of an index and back *)
  Fixpoint ravel (s idx : seq nat) : nat :=
    match s, idx with m :: s, i :: idx => (i * total s + ravel s idx)%N | _, _ => 0%N end.
  Fixpoint unravel (s : seq nat) (k : nat) : seq nat :=
    if s is m :: s then (k %/ total s)%N :: unravel s (k %% total s)%N else [::].
  (** [jnp.reshape] *)
  Definition reshape (a : array) (s : seq nat) : res array :=
    if total (shape a) == total s then Ok (Array s (fun idx => entry a (unravel (shape a) (ravel s idx)))) else Err TypeError.
  (** [jnp.transpose]: axis [j] of the result is axis [mask[j]] of the argument; anything but a permutation is refused *)
  Definition transpose (a : array) (mask : seq nat) : res array :=
    if sort leq mask == iota 0 (size (shape a))
    then Ok (Array [seq nth 0%N (shape a) m | m <- mask] (fun idx => entry a [seq nth 0%N idx (index p mask) | p <- iota 0 (size (shape a))]))
    else Err TypeError.
  (** [jnp.trace(a, axis1=-2, axis2=-1)] *)
  Definition trace_last (a : array) : res array :=
    let n := size (shape a) in
    if (n < 2)%N then Err ValueError
    else Ok (Array (take (n - 2) (shape a))
                   (fun idx => \sum_(k <- iota 0 (minn (nth 0%N (shape a) (n - 2)) (nth 0%N (shape a) (n - 1)))) entry a (idx ++ [:: k; k]))).
  Fixpoint repeat_trace (n : nat) (a : array) : res array := if n is n.+1 then rbind (trace_last a) (repeat_trace n) else Ok a.
End Arrays.

(** [i in positions] *)
Definition listed (positions : seq Z) (i : nat) : bool := has (Z.eqb (Z.of_nat i)) positions.
(** partial_trace.py:20-38 *)
Definition create_mask (positions : seq Z) (num_subsystems : nat) : res (seq nat) :=
  if has (fun p => Z.ltb p Z0 || Z.leb (Z.of_nat num_subsystems) p) positions then Err ValueError
  else let remaining := [seq i <- iota 0 num_subsystems | ~~ listed positions i] in
       Ok (remaining ++ [seq (i + num_subsystems)%N | i <- remaining]
           ++ flatten [seq [:: Z.to_nat p; (Z.to_nat p + num_subsystems)%N] | p <- positions]).

(** partial_trace.py:40-60; [subsystem_dims] is a list.  The product of no remaining dimension is a float, which [reshape] refuses. *)
Definition partial_trace {T : zmodType} (subsystem_dims : seq nat) (positions : seq Z) (state : array T) : res (array T) :=
  let num_subsystems := size subsystem_dims in
  rbind (create_mask positions num_subsystems) (fun mask =>
  let remaining_dims := [seq nth 0%N subsystem_dims i | i <- iota 0 num_subsystems & ~~ listed positions i] in
  let remaining_dim := total remaining_dims in
  rbind (reshape state (subsystem_dims ++ subsystem_dims)) (fun a =>
  rbind (transpose a mask) (fun a =>
  rbind (repeat_trace (size positions) a) (fun a =>
  if remaining_dims is [::] then Err TypeError else reshape a [:: remaining_dim; remaining_dim])))).
