(** * Rosenbrock problem (optimalcontrolproblems/RosenbrockProblem.py). *)
From Coq Require Import ZArith List Bool.
From Verif Require Import Num Py.
Import ListNotations.
Open Scope list_scope.

Section Rosen.
  Context {N : Num}.

  (** scipy.optimize.rosen for a one-dimensional array of floats:
      [np.sum(100.0 * (x[1:] - x[:-1]**2.0)**2.0 + (1 - x[:-1])**2.0)].  The terms; numpy squares by one multiplication. *)
  Definition square (x : num) : num := (x * x)%num.
  Fixpoint rosen_terms (x : list num) : list num :=
    match x with
    | a :: ((b :: _) as rest) => (of_Z 100 * square (b - square a) + square (of_Z 1 - a))%num :: rosen_terms rest
    | _ => []
    end.
  (** [np.sum]; numpy adds eight partial sums for long arrays, here from left to right *)
  Definition rosen (x : list num) : num := fold_left nadd (rosen_terms x) (of_Z 0).

  (** the entries of args_dict that are read: absent or present *)
  Record args := Args { arg_noisy : option bool; arg_factor : option num }.
  (** the attributes of the object *)
  Record rosenbrock := Rosenbrock { is_noisy : bool; noise_factor : num }.
  (** [d.setdefault(k, default)] for one key: the entry afterwards and the value returned *)
  Definition setdefault {A} (entry : option A) (default : A) : option A * A :=
    match entry with Some v => (Some v, v) | None => (Some default, default) end.
  (** RosenbrockProblem.py:27-34: the object, and the dictionary of the caller as the constructor leaves it.  [None] has no [setdefault]. *)
  Definition construct (args_dict : option args) : res (rosenbrock * args) :=
    match args_dict with
    | None => Err AttributeError
    | Some d =>
        let '(e1, noisy) := setdefault (arg_noisy d) false in
        let '(e2, factor) := setdefault (arg_factor d) (of_Z 5 / of_Z 100)%num in
        Ok (Rosenbrock noisy factor, Args e1 e2)
    end.

  (** RosenbrockProblem.py:36-51: the entries "FoM" and "std" of the answer.  [rand] is the number [np.random.rand] returns, if it is called. *)
  Definition get_FoM (P : rosenbrock) (parameters : list num) (rand : num) : num * num :=
    let FoM := rosen parameters in
    if is_noisy P then
      let noise := (noise_factor P * of_Z 2 * (of_Z 1 / of_Z 2 - rand))%num in
      ((FoM + noise)%num, (noise_factor P * (of_Z 6827 / of_Z 10000))%num)
    else (FoM, of_Z 0).
End Rosen.
