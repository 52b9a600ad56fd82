(** * Time grids in binary64 *)
From Coq Require Import ZArith Reals List.
From Flocq Require Import Core BinarySingleNaN.
From Verif Require Import Num.
Import ListNotations.
Open Scope R_scope.

(** [g] has [n] points: 0 first, [T] itself last, all finite, strictly increasing in the comparison of the machine, and point [j] is
    [j T / (n - 1)] up to a relative error of 2^-51 *)
Definition fine_grid (T : f64) (n : nat) (g : list f64) : Prop :=
  length g = n /\
  (forall x, nth_error g 0 = Some x -> B2R x = 0) /\
  nth_error g (n - 1) = Some T /\
  (forall x, In x g -> is_finite x = true) /\
  (forall j k x y, (j < k)%nat -> nth_error g j = Some x -> nth_error g k = Some y -> Bltb x y = true) /\
  (forall j x, nth_error g j = Some x ->
     Rabs (B2R x - INR j * (B2R T / INR (n - 1))) <= bpow radix2 (-51) * (INR j * (B2R T / INR (n - 1)))).
(** durations long enough for a grid of [n] points: the spacing is not below 2^-1022, the least normal number *)
Definition long_enough (T : f64) (n : nat) : Prop :=
  is_finite T = true /\ (2 <= n)%nat /\ (Z.of_nat n <= 2 ^ 51)%Z /\ INR (n - 1) * bpow radix2 (-1022) <= B2R T.

(** limits of an optimised duration: finite, below 2^1021, the lower one below the upper one, the initial value between them *)
Definition sane_limits (lo v hi : f64) : Prop :=
  is_finite lo = true /\ is_finite v = true /\ is_finite hi = true /\ B2R lo <= B2R v <= B2R hi /\ B2R lo < B2R hi /\
  Rabs (B2R lo) <= bpow radix2 1021 /\ Rabs (B2R hi) <= bpow radix2 1021.
(** how far outside the limits rounding can carry it *)
Definition excess (lo hi : R) : R := bpow radix2 (-50) * (Rabs lo + Rabs hi) + bpow radix2 (-1074).

(** how far outside its limits a shrunk pulse can be, if neither its samples before shrinking nor its limits exceed [A] in size *)
Definition slack (A : R) : R := bpow radix2 (-47) * A + bpow radix2 (-1072).
(** numbers of size at most [A], none infinite and none NaN *)
Definition sized (A : R) (l : list f64) : Prop := forall x, In x l -> is_finite x = true /\ Rabs (B2R x) <= A.
