(** * Vocabulary for statements about other coordinates of the searched vectors (real numbers). *)
From Coq Require Import List Reals.
From Verif Require Import Num Py.
Import ListNotations.

(** the point of the line through [x] and [y] at [t]: [x] for 0, [y] for 1 *)
Definition mix (t : R) (x y : list R) : list R := map2 (fun a b => ((1 - t) * a + t * b)%R) x y.
(** [f] takes vectors with [n] entries to vectors with [n] entries, and every line to a line, point by point at the same [t] *)
Definition affine (n : nat) (f : list R -> list R) : Prop :=
  (forall x, length x = n -> length (f x) = n) /\
  (forall t x y, length x = n -> length y = n -> f (mix t x y) = mix t (f x) (f y)).
(** other units and another zero for every entry: [a_k * x_k + b_k] *)
Definition in_units (a b x : list R) : list R := map2 Rplus (map2 Rmult a x) b.
(** what a linear map with the rows [A] and a shift [b] makes of [x] *)
Definition linear (A : list (list R)) (b x : list R) : list R := map2 Rplus (map (fun row => fold_right Rplus 0%R (map2 Rmult row x)) A) b.
