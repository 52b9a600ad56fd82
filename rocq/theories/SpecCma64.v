(** * Vocabulary for statements about CMA-ES in binary64. *)
From Flocq Require Import BinarySingleNaN.
From Verif Require Import Num.

(** a positive finite number *)
Definition pos (x : f64) : Prop := match x with B754_finite false _ _ _ => True | _ => False end.
