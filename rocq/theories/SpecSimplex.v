(** * Vocabulary for the start simplex: inner products, orthonormal and independent vectors. *)
From Coq Require Import List Reals.
From Verif Require Import ModelCma.
Import ListNotations.
Open Scope R_scope.

(** coordinate [i] of a vector; [rsum k f] is [f 0 + ... + f (k-1)] *)
Definition coord (v : list R) (i : nat) : R := nth i v 0.
Definition inner (n : nat) (u v : list R) : R := rsum n (fun i => coord u i * coord v i).

(** [k] vectors of [n] coordinates, each of length one and any two of them perpendicular *)
Definition orthonormal (n : nat) (vs : list (list R)) : Prop :=
  (forall v, In v vs -> length v = n) /\
  forall i j u v, nth_error vs i = Some u -> nth_error vs j = Some v -> inner n u v = if Nat.eqb i j then 1 else 0.

(** [v] is a linear combination of the vectors [vs] *)
Definition in_span (n : nat) (vs : list (list R)) (v : list R) : Prop :=
  exists c : nat -> R, forall i, (i < n)%nat -> coord v i = rsum (length vs) (fun k => c k * coord (nth k vs []) i).
(** no vector is a linear combination of the ones before it (in particular the first is not zero) *)
Definition independent (n : nat) (vs : list (list R)) : Prop :=
  forall k v, nth_error vs k = Some v -> ~ in_span n (firstn k vs) v.
