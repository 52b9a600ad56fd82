(** * Vocabulary for statements about the direct search methods.
    A search calls a function [func]; its local variables at the head of the loop are the simplex, the stored
    values and the number of calls so far. *)
From Coq Require Import String ZArith List Bool Permutation Sorted.
From RecordUpdate Require Import RecordSet.
From Verif Require Import Num Py ModelPulse ModelControls ModelLinalg ModelState ModelSearch SpecRun.
Import ListNotations RecordSetNotations.
Open Scope list_scope.
Open Scope run_scope.

Section SpecSearch.
  Context {N : Num}.

  Definition increasing (ys : list num) : Prop := StronglySorted (fun a b => (a <=? b)%num = true) ys.
  Definition nan_free (ys : list num) : Prop := forall y, In y ys -> nisnan y = false.

  (** What is used of numpy.argsort: the indices in some order, and in this order the values increase.
      (The position of NaN and the order of equal values are left open.) *)
  Definition sorts (W : world) : Prop := forall ys,
    Permutation (w_argsort W ys) (seq 0 (length ys)) /\
    (nan_free ys -> increasing (map (fun i => nth i ys (of_Z 0)) (w_argsort W ys))).

  (** n+1 vertices with n coordinates each, and one value for every vertex *)
  Record simplex_of (dim : nat) (sim : list vec) (fsim : list num) : Prop := mk_simplex_of {
    so_rows : length sim = S dim;
    so_columns : forall x, In x sim -> length x = dim;
    so_values : length fsim = S dim
  }.

  (** simplex passed to the search, if any, has the right shape *)
  Definition proper_start (x0 : vec) (sim : option (list vec)) : Prop :=
    match sim with
    | None => True
    | Some sim => length sim = S (length x0) /\ forall x, In x sim -> length x = length x0
    end.

  (** Loop heads of the Nelder-Mead search started in state [s0]: after the start simplex has been evaluated and
      sorted, and after every iteration that did not end by [break]. *)
  Inductive boundary (G : settings) (W : world) (func : vec -> nat -> option num -> M num) (adaptive : bool)
    (x0 : vec) (sim : option (list vec)) (drift_min : num) (drift_avg : Z) (s0 : st) : nm -> st -> Prop :=
  | at_start t s1 fsim calls s2 L s3 :
      (poll G W;;; set_conv false;;; now W;;; now W) s0 = (Ok t, s1) ->
      eval_rows func (match sim with Some sim => sim | None => default_simplex x0 end) 0 0 s1
        = (Ok (fsim, calls), s2) ->
      sort_simplex W (mk_nm (match sim with Some sim => sim | None => default_simplex x0 end) fsim calls 1 t) s2
        = (Ok L, s3) ->
      boundary G W func adaptive x0 sim drift_min drift_avg s0 L s3
  | at_next L s s1 rho chi psi sigma L' s2 :
      boundary G W func adaptive x0 sim drift_min drift_avg s0 L s ->
      is_conv G W s = (Ok false, s1) ->
      nm_parameters adaptive (length x0) = Ok (rho, chi, psi, sigma) ->
      nm_iter G W func rho chi psi sigma (length x0) drift_min drift_avg L s1 = (Ok (Goes L'), s2) ->
      boundary G W func adaptive x0 sim drift_min drift_avg s0 L' s2.

  (** the function never answers NaN *)
  Definition answers_numbers (func : vec -> nat -> option num -> M num) : Prop :=
    forall x it v s y s', func x it v s = (Ok y, s') -> nisnan y = false.
  (** the function computes [f] *)
  Definition computes (func : vec -> nat -> option num -> M num) (f : vec -> num) : Prop :=
    forall x it s y s', func x it None s = (Ok y, s') -> y = f x.
  (** the function leaves the flag [is_converged] alone *)
  Definition leaves_flag (func : vec -> nat -> option num -> M num) : Prop :=
    forall x it v s r s', func x it v s = (r, s') -> sc_conv (s_sc s') = sc_conv (s_sc s).
  (** nobody presses Ctrl-C (a stop from another thread is allowed) *)
  Definition no_sigint (W : world) : Prop := forall n, w_async W n <> ASigint.
  (** drift compensation switched off *)
  Definition no_drift (drift_min : num) : Prop := (of_Z 0 <? drift_min)%num = false.

  (** [log] lists the calls of [func] with their answers: every call adds one entry and nothing else the search
      does changes it *)
  Record observes (func : vec -> nat -> option num -> M num)
    (log : st -> list (vec * num)) : Prop := mk_observes {
    ob_call : forall x it v s y s', func x it v s = (Ok y, s') -> log s' = log s ++ [(x, y)];
    ob_sc : forall f s, log (s <|s_sc ::= f|>) = log s;
    ob_cnt : forall f s, log (s <|s_cnt ::= f|>) = log s;
    ob_reason : forall r s, log (s <|s_reason := r|>) = log s;
    ob_stop : forall by_ s, log (snd (clear by_ s)) = log s
  }.

  (** evaluations of a run that returned a number: vector and cost *)
  Definition answers (G : settings) (tr : list event) : list (vec * num) :=
    flat_map (fun e => match e with
                       | EvEval x _ a => match user_value a with Some v => [(x, cost G v)] | None => [] end
                       | _ => []
                       end) tr.
End SpecSearch.
