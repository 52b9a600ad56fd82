(** * State, environment and effects of an optimisation run. *)
From Coq Require Import String ZArith List Bool.
From RecordUpdate Require Import RecordSet.
From Verif Require Import Num Py ModelPulse ModelControls ModelLinalg.
Import ListNotations.
Open Scope list_scope.

Section State.
  Context {N : Num}.

  (** Answer of the user's [get_FoM].  [FMissing]: no key "FoM"; [FNone]: value None.  Simplification: the
      dictionary is a fresh object at every call and FoM, std are plain numbers. *)
  Inductive fomval := FMissing | FNone | FVal (v : num).
  Record adict := mk_adict { a_fom : fomval; a_std : option num; a_status : option Z }.
  Inductive answer := Raise | Dict (a : adict).

  (** What another thread or a signal does at one point of the run: nothing, clear the running flag of the
      HandleExit object (GUI), or deliver SIGINT. *)
  Inductive async := ANone | AStop | ASigint.

  (** scipy's L-BFGS-B as seen from the library: it asks for values at points of its choice, depending on all
      previous values, and ends. *)
  Inductive strategy := Done | Ask (x : vec) (k : num -> strategy).

  (** algorithm_settings/algorithm_name and dsm_settings *)
  Inductive kind := KdCRAB | KDirect | KGRAPE | KAD.
  Inductive method := MNelderMead (adaptive : bool) | MCMAES (population : option nat).

  (** The optimisation dictionary, as far as the run depends on it (defaults already filled in). *)
  Record settings := mk_settings {
    g_kind : kind;
    g_method : method;                 (* only dCRAB and direct search *)
    g_max_total : Z;                   (* max_eval_total *)
    g_total_lim : num;                 (* total_time_lim, minutes *)
    g_maximise : bool;                 (* optimization_direction *)
    g_goal : option num;               (* FoM_goal, user sign *)
    g_max_si : Z;                      (* super_iteration_number *)
    g_steps : option (list num);       (* re_evaluation_steps *)
    g_drift_si : bool;                 (* compensate_after_SI *)
    g_drift_min : num;                 (* compensate_after_minutes *)
    g_drift_avg : Z;                   (* num_average *)
    g_seeded : bool;                   (* random_number_generator with a seed *)
    g_max_eval : Z;                    (* stopping_criteria: max_eval *)
    g_time_lim : num;                  (* time_lim, minutes *)
    g_xatol : num;
    g_fatol : num;
    g_cbs_n : option Z;                (* change_based_stop/cbs_funct_evals, None if the key is missing *)
    g_cbs_change : option num;         (* change_based_stop/cbs_change *)
    g_pulses : list pulse_cfg;
    g_times : list time_cfg;
    g_params : list param_cfg
  }.

  (** Everything outside the library. *)
  Record world := mk_world {
    w_fom : list delivered -> answer;      (* answer given all controls received so far, newest first *)
    w_clock : nat -> Z;                    (* n-th reading of datetime.now(), microseconds *)
    w_async : nat -> async;                (* n-th point where another thread or a signal may act *)
    w_rng : nat -> num;                    (* seeded generator: uniform numbers *)
    w_np : nat -> num;                     (* numpy.random.rand *)
    w_randn : nat -> num;                  (* numpy.random.randn *)
    w_cdf : num -> num;                    (* scipy.stats.norm.cdf *)
    w_argsort : list num -> list nat;      (* numpy.argsort *)
    w_pop : nat -> nat;                    (* int(4 + floor(3 log n)) *)
    w_cma : vec -> vec -> list (vec * num) -> vec -> res vec;
                                           (* CMA-ES candidate from start point, widths, evaluations so far and
                                              the normal numbers drawn *)
    w_cma_adapt : list (vec * num) -> res unit;   (* CMA-ES adaptation may raise (eigh) *)
    w_lbfgs : nat -> vec -> strategy;      (* L-BFGS-B for the n-th minimisation from a start point *)
    w_gradient : nat -> delivered -> option exn;  (* n-th gradient computation: user propagators (GRAPE) or
                                              user figure of merit under differentiation (AD) may raise *)
    w_fuel : nat;                          (* artefact: number of loop rounds granted to a direct search *)
    w_stuck : exn                          (* artefact: what a direct search raises when they are used up *)
  }.

  (** who cleared the running flag *)
  Inductive clearer := ByAsync | ByStatus | ByBudget | ByGoal | ByTime.

  (** best-controls file, as passed to dump_controls *)
  Record saved := mk_saved {
    sv_controls : delivered;
    sv_fom : num;
    sv_sigma : option num;
    sv_super : option nat;
    sv_iter : nat;
    sv_status : option Z
  }.

  (** dictionary of final results written at the end (entries absent for an algorithm are None) *)
  Record final := mk_final {
    f_fom : num;
    f_std : option num;
    f_nfev : option nat;
    f_super : option (list (list (list num)));
    f_params : option (list vec);
    f_xx : option vec;
    f_reason : option string
  }.

  (** Observable events. *)
  Inductive event :=
  | EvEval (x : vec) (d : delivered) (a : answer)   (* get_FoM called through the evaluation routine with the
                                                controls d made from the optimisation vector x *)
  | EvGrad (d : delivered)                   (* gradient computed at these controls *)
  | EvElapsed (t : num)                      (* check of the total time limit: minutes since the start *)
  | EvCleared (by_ : clearer)                (* running flag set to False *)
  | EvSave (f : saved)                       (* best-controls file written *)
  | EvPlot (n : nat) (v : num)               (* point sent to the GUI plot *)
  | EvFinal (f : final)                      (* file optimized_parameters written *)
  | EvLogged (f : final) (reason : option string).  (* final log, with the "Termination Reason" *)

  (** stopping criteria object *)
  Record sc_state := mk_sc {
    sc_conv : bool;                  (* is_converged *)
    sc_reason : string;              (* terminate_reason *)
    sc_track : list num;             (* curr_FoM_track *)
    sc_start : Z                     (* direct_search_start_time *)
  }.
  (** re-evaluation attributes of dCRAB and direct search *)
  Record re_state := mk_re {
    re_step : nat;                   (* step_number *)
    re_fom : list num;               (* FoM_test *)
    re_sigma : list num;             (* sigma_test *)
    re_best_sigma : num              (* best_sigma *)
  }.
  (** bookkeeping of dCRAB and direct search *)
  Record book := mk_book {
    b_super_it : nat;
    b_params : list vec;                   (* dcrab_parameters_list *)
    b_supers : list (list (list num));     (* dcrab_super_parameter_list *)
    b_term : string                        (* terminate_reason *)
  }.
  (** positions in the oracle streams *)
  Record counters := mk_counters { k_clock : nat; k_poll : nat; k_rng : nat; k_np : nat; k_randn : nat; k_grad : nat }.

  Record st := mk_st {
    s_running : bool;                (* HandleExit.is_user_running *)
    s_reason : string;               (* higher_order_terminate_reason *)
    s_start : option Z;              (* optimization_start_time *)
    s_iter : nat;                    (* iteration_number *)
    s_alg_iter : nat;                (* alg_iteration_number *)
    s_fom : num;                     (* FoM_dict["FoM"] (internal sign) *)
    s_std : option num;              (* FoM_dict["std"] *)
    s_status : option Z;             (* FoM_dict["status_code"] *)
    s_xx : option vec;               (* xx, None before the first assignment *)
    s_best : num;                    (* best_FoM *)
    s_best_xx : option vec;          (* best_xx *)
    s_is_record : bool;
    s_fom_list : list num;           (* FoM_list *)
    s_iter_list : list nat;          (* iteration_number_list *)
    s_sent : option delivered;       (* communication object: controls_dict *)
    s_hist : list delivered;         (* controls received by get_FoM, newest first *)
    s_trace : list event;            (* newest first *)
    s_controls : controls;
    s_sc : sc_state;
    s_re : re_state;
    s_book : book;
    s_cnt : counters
  }.

  (** state and exception effects: the state persists when an exception is raised *)
  Definition M (A : Type) : Type := st -> res A * st.
  Definition ret {A} (a : A) : M A := fun s => (Ok a, s).
  Definition raise {A} (e : exn) : M A := fun s => (Err e, s).
  Definition bind {A B} (m : M A) (k : A -> M B) : M B :=
    fun s => match m s with (Ok a, s') => k a s' | (Err e, s') => (Err e, s') end.
  Definition get : M st := fun s => (Ok s, s).
  Definition upd (f : st -> st) : M unit := fun s => (Ok tt, f s).
  Definition lift {A} (r : res A) : M A := fun s => (r, s).
End State.

#[export] Instance eta_sc {N : Num} : Settable sc_state :=
  settable! mk_sc <sc_conv; sc_reason; sc_track; sc_start>.
#[export] Instance eta_re {N : Num} : Settable re_state :=
  settable! mk_re <re_step; re_fom; re_sigma; re_best_sigma>.
#[export] Instance eta_book {N : Num} : Settable book :=
  settable! mk_book <b_super_it; b_params; b_supers; b_term>.
#[export] Instance eta_counters : Settable counters :=
  settable! mk_counters <k_clock; k_poll; k_rng; k_np; k_randn; k_grad>.
#[export] Instance eta_st {N : Num} : Settable st :=
  settable! mk_st <s_running; s_reason; s_start; s_iter; s_alg_iter; s_fom; s_std; s_status; s_xx; s_best;
                   s_best_xx; s_is_record; s_fom_list; s_iter_list; s_sent; s_hist; s_trace; s_controls; s_sc;
                   s_re; s_book; s_cnt>.

#[export] Instance eta_settings {N : Num} : Settable settings :=
  settable! mk_settings <g_kind; g_method; g_max_total; g_total_lim; g_maximise; g_goal; g_max_si; g_steps; g_drift_si;
    g_drift_min; g_drift_avg; g_seeded; g_max_eval; g_time_lim; g_xatol; g_fatol; g_cbs_n; g_cbs_change; g_pulses;
    g_times; g_params>.
#[export] Instance eta_world {N : Num} : Settable world :=
  settable! mk_world <w_fom; w_clock; w_async; w_rng; w_np; w_randn; w_cdf; w_argsort; w_pop; w_cma; w_cma_adapt;
    w_lbfgs; w_gradient; w_fuel; w_stuck>.

Declare Scope run_scope.
Delimit Scope run_scope with run.
Notation "x <- m ;; k" := (bind m (fun x => k)) (at level 61, m at next level, right associativity) : run_scope.
Notation "' p <- m ;; k" := (bind m (fun p => k)) (at level 61, p pattern, m at next level, right associativity) : run_scope.
Notation "m ;;; k" := (bind m (fun _ => k)) (at level 61, right associativity) : run_scope.
