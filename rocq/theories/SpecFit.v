(** * Straight lines through values, for the change-based stopping criterion, over the reals. *)
From Coq Require Import List Reals.
Import ListNotations.
Open Scope list_scope.
Open Scope R_scope.

(** sum of the squared distances of the values [ys], taken at k, k+1, ..., from the line m*x + b *)
Fixpoint squared_error (k : nat) (ys : list R) (m b : R) : R :=
  match ys with
  | [] => 0
  | y :: ys => (y - (m * INR k + b)) ^ 2 + squared_error (S k) ys m b
  end.
(** m is the slope of a best line through the values at 0, 1, 2, ... *)
Definition least_squares_slope (ys : list R) (m : R) : Prop :=
  exists b, forall m' b', squared_error 0 ys m b <= squared_error 0 ys m' b'.

(** the values a, a+d, ..., a+(n-1)*d *)
Definition progression (a d : R) (n : nat) : list R := map (fun i => a + INR i * d) (seq 0 n).
(** Of the last [n] values of [track], the best line changes by less than [change] over n steps. *)
Definition levels_off (n : nat) (change : R) (track : list R) : Prop :=
  exists old ys m, track = old ++ ys /\ length ys = n /\ least_squares_slope ys m /\ Rabs (m * INR n) < change.

(** mean and population standard deviation *)
Definition total (l : list R) : R := fold_right Rplus 0 l.
Definition mean (l : list R) : R := total l / INR (length l).
Definition deviation (l : list R) : R := sqrt (total (map (fun y => (y - mean l) ^ 2) l) / INR (length l)).
