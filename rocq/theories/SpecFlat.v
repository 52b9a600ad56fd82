(** * Vocabulary for statements about the subspace in which a search takes place (real numbers). *)
From Coq Require Import List Reals.
From Verif Require Import Num Py SpecCoords SpecSimplex.
Import ListNotations.

(** [P] is a set of vectors with [n] entries that contains with two points the line through them *)
Definition flat (n : nat) (P : list R -> Prop) : Prop :=
  (forall x, P x -> length x = n) /\ (forall t x y, P x -> P y -> P (mix t x y)).
(** the equation [a_0*x_0 + ... + a_(n-1)*x_(n-1) = b] holds at all the points *)
Definition equation (n : nat) (a : list R) (b : R) (points : list (list R)) : Prop := forall x, In x points -> inner n a x = b.
(** no equation but the trivial one holds at all the points: they lie in no plane of lower dimension *)
Definition full (n : nat) (points : list (list R)) : Prop := forall a b, equation n a b points -> forall k, (k < n)%nat -> coord a k = 0%R.
