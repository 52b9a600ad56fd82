(** * CMA-ES with its own adaptation (gradientfreemethods/CMAES.py:47-227), in exact real arithmetic.
    The model of whole runs leaves open how a candidate is made from what was evaluated before ([w_cma] in
    ModelState.v).  Here that part is the adaptation of ModelCma.v. *)
From Coq Require Import Reals List ZArith.
From RecordUpdate Require Import RecordSet.
From Verif Require Import Num Py ModelPulse ModelControls ModelState ModelSearch ModelCma.
Import ListNotations RecordSetNotations.
Open Scope nat_scope.

(** lists of the run model and arrays of ModelCma.v *)
Definition as_array (x : list R) : rvec := fun i => nth i x 0%R.
Definition as_list (n : nat) (v : rvec) : list R := map v (seq 0 n).

(** CMAES.py:80-81: the widths are used if there is one per parameter *)
Definition widths (n : nat) (sigma_v : list R) : rvec :=
  if length sigma_v =? n then as_array sigma_v else fun _ => (3 / 10)%R.

Section CmaRun.
  (** scipy.linalg.eigh and numpy.argsort *)
  Variable eigh : rmat -> rvec * rmat.
  Variable argsort : list R -> list nat.
  Variables (n l_pop : nat) (x0 sigma_v : list R).

  (** CMAES.py:151-152, 165: [arx[:, ind[k]]] *)
  Definition ranked (g : list (list R * R)) : nat -> rvec :=
    fun k => as_array (nth (nth k (argsort (map snd g)) 0) (map fst g) []).
  (** candidates of generation number k (from 0) *)
  Definition members (k : nat) (hist : list (list R * R)) : list (list R * R) := firstn l_pop (skipn (k * l_pop) hist).
  (** CMAES.py:76-116 and 136-198: local variables after k generations; [mu] as in line 88 *)
  Fixpoint after_generations (k : nat) (hist : list (list R * R)) : cma :=
    match k with
    | O => cma_start (as_array x0) (widths n sigma_v)
    | S k => cma_step n (l_pop / 2) l_pop eigh (ranked (members k hist)) (S k * l_pop) (after_generations k hist)
    end.
  (** CMAES.py:142: the candidate made after the evaluations [hist]; the variables change only after whole generations *)
  Definition candidate (hist : list (list R * R)) (z : list R) : list R :=
    as_list n (cma_sample n (after_generations (length hist / l_pop) hist) (as_array z)).
End CmaRun.

(** [population] as in [run_cma] *)
Definition code_world (eigh : rmat -> rvec * rmat) (population : option nat) (W : world (N := Rnum)) : world (N := Rnum) :=
  W <|w_cma := fun x0 sigma_v hist z =>
        let n := length x0 in
        let l_pop := match population with Some p => p | None => w_pop W n end in
        Ok (candidate eigh (w_argsort W) n l_pop x0 sigma_v hist z)|>
    <|w_cma_adapt := fun _ => Ok tt|>.
