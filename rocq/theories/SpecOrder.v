(** * Vocabulary for "only the order of the figure of merit matters". *)
From Coq Require Import String ZArith List Bool.
From RecordUpdate Require Import RecordSet.
From Verif Require Import Num Py ModelPulse ModelControls ModelLinalg ModelState ModelSearch ModelRun SpecRun.
Import ListNotations RecordSetNotations.
Open Scope list_scope.

Section SpecOrder.
  Context {N : Num}.
  (** strictly increasing on the numbers in [P], in terms of the comparisons of the numbers *)
  Definition keeps_order (P : num -> Prop) (f : num -> num) : Prop :=
    forall x y, P x -> P y -> (f x <? f y)%num = (x <? y)%num /\ (f x <=? f y)%num = (x <=? y)%num.
  (** every number that the user's figure of merit returns is in [P] *)
  Definition values_in (P : num -> Prop) (W : world) : Prop := forall h a v, w_fom W h = Dict a -> a_fom a = FVal v -> P v.
  (** the same environment; the user's figure of merit goes through [f] before it is returned *)
  Definition through (f : num -> num) (W : world) : world := W <|w_fom := fun h => map_answer f (w_fom W h)|>.
  (** what [f] does to the value with the sign the library uses inside (minus the user's value for a maximisation) *)
  Definition inner_sign (G : settings) (v : num) : num := if g_maximise G then (of_Z (-1) * v)%num else v.
  Definition inside (G : settings) (f : num -> num) (v : num) : num := inner_sign G (f (inner_sign G v)).
  (** settings with the goal put through [f] and another tolerance for the spread of the values *)
  Definition goal_through (f : num -> num) (tol : num) (G : settings) : settings :=
    G <|g_goal := option_map f (g_goal G)|> <|g_fatol := tol|>.
  (** the events of a run, with the values put through *)
  Definition event_through (G : settings) (f : num -> num) (e : event) : event :=
    match e with
    | EvEval x d a => EvEval x d (map_answer f a)
    | EvSave v => EvSave (mk_saved (sv_controls v) (inside G f (sv_fom v)) (sv_sigma v) (sv_super v) (sv_iter v) (sv_status v))
    | EvPlot n v => EvPlot n (inside G f v)
    | EvFinal r => EvFinal (map_final f r)
    | EvLogged r o => EvLogged (map_final f r) o
    | e => e
    end.
  (** numpy.argsort compares values and does nothing else with them ([Q]: the values that occur) *)
  Definition sorts_by_comparison (W : world) (Q : num -> Prop) (h : num -> num) : Prop := forall l, Forall Q l -> w_argsort W (map h l) = w_argsort W l.
  (** and so does what CMA-ES makes of the evaluations before *)
  Definition samples_by_comparison (W : world) (Q : num -> Prop) (h : num -> num) : Prop := forall l, Forall (fun e => Q (snd e)) l ->
    (forall x0 sg z, w_cma W x0 sg (map (fun e => (fst e, h (snd e))) l) z = w_cma W x0 sg l z) /\
    w_cma_adapt W (map (fun e => (fst e, h (snd e))) l) = w_cma_adapt W l.
  (** direct search (with or without dCRAB), no re-evaluation, no drift compensation, no change-based stop *)
  Definition compares_only (G : settings) : Prop :=
    (g_kind G = KdCRAB \/ g_kind G = KDirect) /\ g_steps G = None /\ g_drift_si G = false /\ (of_Z 0 <? g_drift_min G)%num = false /\
    (forall n, g_cbs_n G = Some n -> (n <= 1)%Z).
  (** the criterion f_atol decides alike for values and transformed values *)
  Definition same_spread (G : settings) (tol : num) (Q : num -> Prop) (h : num -> num) : Prop :=
    forall l, Forall Q l -> (nstd (map h l) <=? tol)%num = (nstd l <=? g_fatol G)%num.
End SpecOrder.
