(** * Ornstein-Uhlenbeck noise (noiseprocesses/ornsteinuhlenbeckprocess.py). *)
From Coq Require Import ZArith List Bool.
From Verif Require Import Num Py.
Import ListNotations.
Open Scope list_scope.

Section Noise.
  Context {N : Num}.
  (** oracles: [np.exp]; [int(np.floor(x))], which raises for infinities and NaN; the numbers that [np.random.randn()] returns one after the other *)
  Variable nexp : num -> num.
  Variable int_floor : num -> res Z.
  Variable randn : nat -> num.

  (** ornsteinuhlenbeckprocess.py:9-13 *)
  Record ou := OU { tau : num; c : num; x0 : num; dt : num }.
  Variable P : ou.

  (** [a / b] of Python floats *)
  Definition pdiv (a b : num) : res num := if neqb b (of_Z 0) then Err ZeroDivisionError else Ok (a / b)%num.
  (** ornsteinuhlenbeckprocess.py:21, 39 *)
  Definition n_slices (T : num) : res Z := x <-! pdiv T (dt P); int_floor x.
  (** ornsteinuhlenbeckprocess.py:27-28, from a sample and the number of random numbers used so far *)
  Fixpoint walk (mu root : num) (n : nat) (x : num) (used : nat) : list num * nat :=
    match n with
    | O => ([], used)
    | S n => let x := (x * mu + root * randn used)%num in
             let '(l, used) := walk mu root n x (S used) in (x :: l, used)
    end.
  (** ornsteinuhlenbeckprocess.py:15-29.  [np.zeros] of a negative length raises ValueError, [output[0] = ...] of an empty array IndexError.
      The second component counts the random numbers used. *)
  Definition get_noise_realization (T : num) (used : nat) : res (list num) * nat :=
    match n_slices T with
    | Err e => (Err e, used)
    | Ok n =>
        if (n <? 0)%Z then (Err ValueError, used) else
        if (n =? 0)%Z then (Err IndexError, used) else
        match pdiv (of_Z 1) (tau P), pdiv (of_Z (-2)) (tau P) with
        | Ok r, Ok r2 =>
            let mu := nexp (of_Z (-1) * r * dt P)%num in
            let sigma := (c P * tau P / of_Z 2 * (of_Z 1 - nexp (r2 * dt P)))%num in
            let '(l, used) := walk mu (nsqrt sigma) (Z.to_nat (n - 1)) (x0 P) used in
            (Ok (x0 P :: l), used)
        | Err e, _ | _, Err e => (Err e, used)
        end
    end.
  (** ornsteinuhlenbeckprocess.py:50-51; the rows of the array *)
  Fixpoint rows (T : num) (n : nat) (used : nat) : res (list (list num)) * nat :=
    match n with
    | O => (Ok [], used)
    | S n =>
        match get_noise_realization T used with
        | (Err e, used) => (Err e, used)
        | (Ok l, used) => match rows T n used with (Ok ls, used) => (Ok (l :: ls), used) | (Err e, used) => (Err e, used) end
        end
    end.
  (** ornsteinuhlenbeckprocess.py:31-53 *)
  Definition get_ensemble_noise_realization (T : num) (n_traj : Z) (used : nat) : res (list (list num)) * nat :=
    match n_slices T with
    | Err e => (Err e, used)
    | Ok n => if ((n_traj <? 0) || (n <? 0))%Z%bool then (Err ValueError, used) else rows T (Z.to_nat n_traj) used
    end.
End Noise.
Arguments ou : clear implicits.
Arguments ou {N}.
