(** * Resampling of pulses (tools/pulsetools.py).  [visualise_pulse] only draws and is not modelled. *)
From Coq Require Import ZArith List Bool.
From Verif Require Import Num Py.
Import ListNotations.
Open Scope list_scope.

Section Resample.
  Context {N : Num}.
  (** [np.cumsum], from the sum so far *)
  Fixpoint cumsum (s : num) (l : list num) : list num := match l with [] => [] | x :: l => let s := (s + x)%num in s :: cumsum s l end.
  (** pulsetools.py:35; the sum starts with the first entry *)
  Definition original_time (dt : num) (n : nat) : list num :=
    map (fun t => (t - dt)%num) (match repeat dt n with [] => [] | x :: l => x :: cumsum x l end).

  (** scipy.interpolate.interp1d(x, y, kind="nearest", fill_value=(e0, e1), bounds_error=False) for increasing [x] (scipy sorts [x] first).
      Midpoints between neighbouring times *)
  Fixpoint midpoints (x : list num) : list num :=
    match x with
    | a :: (b :: _) as l => (b / of_Z 2 + a / of_Z 2)%num :: midpoints l
    | _ => []
    end.
  (** [np.searchsorted(l, t, side="left")] of a sorted list: the number of entries below [t] *)
  Fixpoint searchsorted (l : list num) (t : num) : nat := match l with [] => 0 | a :: l => if nltb a t then S (searchsorted l t) else 0 end.
  Definition nearest (x y : list num) (e0 e1 : num) (t : num) : res num :=
    if match x with a :: _ => nltb t a | [] => false end then Ok e0 else
    if nltb (last x t) t then Ok e1 else
    py_nth y (Z.of_nat (Nat.min (searchsorted (midpoints x) t) (length x - 1))).

  (** pulsetools.py:25-47.  The pulses are the columns of an array with [n] rows; the result is the list of its rows *)
  Definition resample_pulse (dt : num) (n : nat) (columns : list (list num)) (new_time_axis : list num) : res (list (list num)) :=
    fs <-! rmap (fun col => e0 <-! py_nth col 0; e1 <-! py_nth col (-1); Ok (nearest (original_time dt n) col e0 e1)) columns;
    rmap (fun t => rmap (fun f => f t) fs) new_time_axis.
End Resample.
