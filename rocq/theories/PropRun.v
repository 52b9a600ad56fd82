(** * Properties C16 - C23: budget, stop, goal, time limit, best value, best-controls file, failures, log.
    [optimise G W = Ok (r, s)]: the optimiser with settings [G] was built in the environment [W] (user's figure
    of merit, clock, other threads, random numbers, minimiser) and executed; [r] is [Ok tt] or the exception that
    left [execute], [history s] the observable events in order of time. *)
From Coq Require Import String ZArith List Bool Lia.
From RecordUpdate Require Import RecordSet.
From Verif Require Import Num NumFacts Py ModelPulse ModelControls ModelBases ModelLinalg ModelState ModelSearch ModelRun SpecRun
  ProofCore ProofPlain ProofAnswers ProofHistory ProofBest ExampleControls ExampleRun.
Import ListNotations RecordSetNotations.
Open Scope list_scope.
Open Scope bool_scope.

(** ** C16 Total evaluation budget *)
Theorem C16_total_evaluation_budget (N : Num) (G : settings) (W : world) r s : optimise G W = Ok (r, s) ->
  (Z.of_nat (calls (history s)) <= Z.max 0 (g_max_total G))%Z /\
  (g_kind G <> KAD -> (Z.of_nat (fom_calls G (history s)) <= Z.max 0 (g_max_total G))%Z).
Proof. exact (budget_both G W r s). Qed.
(** the budget of 4 evaluations is used up by Nelder-Mead, which wants more *)
Example C16_example : exists r s, optimise (frun KDirect <|g_max_total := 4%Z|>) (fworld []) = Ok (r, s) /\
  r = Ok tt /\ calls (history s) = 4 /\ s_reason s = "Maximum number of total function evaluations reached"%string.
Proof.
  destruct (run_ok_exists (frun KDirect <|g_max_total := 4%Z|>) (fworld [])
    (fun r s => fine_end r && Nat.eqb (calls (history s)) 4 &&
                String.eqb (s_reason s) "Maximum number of total function evaluations reached")) as (r & s & E & H).
  { vm_compute. reflexivity. }
  exists r, s. apply andb_true_iff in H as [H H3]. apply andb_true_iff in H as [H1 H2].
  split; [exact E|]. split; [destruct r as [[]|]; [reflexivity|discriminate]|]. split.
  - now apply Nat.eqb_eq.
  - now apply String.eqb_eq.
Qed.
(** AD: differentiation calls get_FoM outside the budget *)
Theorem C16_gradient_calls_refuted : exists (G : settings (N := F64)) W r s, optimise G W = Ok (r, s) /\
  g_kind G = KAD /\ (Z.max 0 (g_max_total G) < Z.of_nat (fom_calls G (history s)))%Z.
Proof.
  destruct (run_ok_exists (frun KAD <|g_max_total := 1%Z|>) (fworld [3; 2; 1]%Z)
    (fun r s => Nat.eqb (fom_calls (frun KAD) (history s)) 4)) as (r & s & E & H).
  { vm_compute. reflexivity. }
  exists (frun KAD <|g_max_total := 1%Z|>), (fworld [3; 2; 1]%Z), r, s. split; [exact E|]. split; [reflexivity|].
  apply Nat.eqb_eq in H. change (fom_calls (frun KAD <|g_max_total := 1%Z|>)) with (fom_calls (frun KAD)).
  rewrite H. reflexivity.
Qed.
Print Assumptions C16_total_evaluation_budget.
Print Assumptions C16_gradient_calls_refuted.

(** ** C17 No evaluation after the optimisation has been stopped *)
Theorem C17_stopped_run_makes_no_call (N : Num) (G : settings) (W : world) r s tr1 c tr2 : optimise G W = Ok (r, s) ->
  history s = tr1 ++ EvCleared c :: tr2 ->
  no_call tr2 \/
  (c = ByAsync /\ no_stop tr1 /\ exists x d a tr3, tr2 = EvEval x d a :: tr3 /\ no_call tr3).
Proof. exact (stop_ends G W r s tr1 c tr2). Qed.
Theorem C17_flag_cleared_for_good (N : Num) (G : settings) (W : world) r s : optimise G W = Ok (r, s) ->
  s_running s = false <-> exists c, In (EvCleared c) (history s).
Proof. exact (flag_trace G W r s). Qed.
(** the same from any state whatsoever *)
Theorem C17_from_any_state (N : Num) (G : settings) (W : world) s r s' : s_running s = false -> run G W s = (r, s') ->
  s_running s' = false /\ exists evs, s_trace s' = evs ++ s_trace s /\ no_call evs.
Proof. exact (stopped_for_good G W s r s'). Qed.

Definition interrupted (n : nat) : world (N := F64) := interfering n AStop (fworld [3; 2; 1]%Z).
(** stopped between the first and the second evaluation *)
Example C17_example : exists r s tr1 tr2, optimise (frun KGRAPE) (interrupted 3) = Ok (r, s) /\
  history s = tr1 ++ EvCleared ByAsync :: tr2 /\ calls tr1 = 1 /\ no_call tr2 /\ tr2 <> [].
Proof.
  destruct (run_ok_exists (frun KGRAPE) (interrupted 3)
    (fun r s => match history s with
                | e1 :: e2 :: e3 :: e4 :: e5 :: e6 :: e7 :: tr =>
                    match e6 with EvCleared ByAsync => true | _ => false end &&
                    Nat.eqb (calls [e1; e2; e3; e4; e5]) 1 && Nat.eqb (calls (e7 :: tr)) 0
                | _ => false
                end)) as (r & s & E & H).
  { vm_compute. reflexivity. }
  exists r, s. destruct (history s) as [|e1 [|e2 [|e3 [|e4 [|e5 [|e6 [|e7 tr]]]]]]]; try discriminate H.
  apply andb_true_iff in H as [H H3]. apply andb_true_iff in H as [H1 H2].
  exists [e1; e2; e3; e4; e5], (e7 :: tr). split; [exact E|]. split.
  - destruct e6; try discriminate H1. destruct by_; try discriminate H1. reflexivity.
  - split; [now apply Nat.eqb_eq|]. split; [apply no_call_calls; now apply Nat.eqb_eq|discriminate].
Qed.
(** stopped by another thread between the last check and the call: that evaluation still takes place *)
Example C17_in_flight : exists r s tr1 x d a tr3, optimise (frun KGRAPE) (interrupted 2) = Ok (r, s) /\
  history s = tr1 ++ EvCleared ByAsync :: EvEval x d a :: tr3.
Proof.
  destruct (run_ok_exists (frun KGRAPE) (interrupted 2)
    (fun r s => match history s with
                | e1 :: EvCleared ByAsync :: EvEval _ _ _ :: _ => true
                | _ => false
                end)) as (r & s & E & H).
  { vm_compute. reflexivity. }
  exists r, s. destruct (history s) as [|e1 [|e2 [|e3 tr]]]; try discriminate H;
    destruct e2; try discriminate H; destruct by_; try discriminate H. destruct e3; try discriminate H.
  exists [e1], x, d, a, tr. auto.
Qed.
(** AD: differentiation calls get_FoM after the stop *)
Theorem C17_gradient_calls_refuted : exists (G : settings (N := F64)) W r s tr1 c tr2, optimise G W = Ok (r, s) /\
  history s = tr1 ++ EvCleared c :: tr2 /\ c <> ByAsync /\ fom_calls G tr2 <> 0.
Proof.
  destruct (run_ok_exists (frun KAD <|g_max_total := 1%Z|>) (fworld [3; 2; 1]%Z)
    (fun r s => match history s with
                | e1 :: e2 :: e3 :: e4 :: EvCleared ByBudget :: tr => Nat.eqb (fom_calls (frun KAD) tr) 2
                | _ => false
                end)) as (r & s & E & H).
  { vm_compute. reflexivity. }
  exists (frun KAD <|g_max_total := 1%Z|>), (fworld [3; 2; 1]%Z), r, s.
  destruct (history s) as [|e1 [|e2 [|e3 [|e4 [|e5 tr]]]]]; try discriminate H.
  destruct e5; try discriminate H. destruct by_; try discriminate H.
  exists [e1; e2; e3; e4], ByBudget, tr. split; [exact E|]. split; [reflexivity|]. split; [discriminate|].
  apply Nat.eqb_eq in H. change (fom_calls (frun KAD <|g_max_total := 1%Z|>)) with (fom_calls (frun KAD)). congruence.
Qed.
Print Assumptions C17_stopped_run_makes_no_call.
Print Assumptions C17_flag_cleared_for_good.
Print Assumptions C17_from_any_state.
Print Assumptions C17_gradient_calls_refuted.

(** ** C18 Reaching the goal ends the evaluations *)
Theorem C18_goal_not_reached_before (N : Num) (O : NumOrder N) (S : NumSign N) (G : settings) (W : world) r s g tr1 x d a tr2 :
  plain_run G -> optimise G W = Ok (r, s) -> g_goal G = Some g -> history s = tr1 ++ EvEval x d a :: tr2 ->
  (ceiling <=? cost G g)%num = false /\ forall v, In v (values tr1) -> attains G v g = false.
Proof. exact (fun P => goal_unreached O S G W P r s g tr1 x d a tr2). Qed.
Theorem C18_goal_is_last (N : Num) (O : NumOrder N) (S : NumSign N) (G : settings) (W : world) r s g tr1 x d a tr2 v :
  plain_run G -> optimise G W = Ok (r, s) -> g_goal G = Some g -> history s = tr1 ++ EvEval x d a :: tr2 ->
  user_value a = Some v -> attains G v g = true -> no_call tr2.
Proof. exact (fun P => goal_last O S G W P r s g tr1 x d a tr2 v). Qed.
(** any configuration, from any state: if the best value is at least as good as the goal no evaluation starts *)
Theorem C18_any_configuration (N : Num) (S : NumSign N) (G : settings) (W : world) (s : st) x it r s' g : g_goal G = Some g ->
  (s_best s <=? cost G g)%num = true -> routine_call G W x it s = (r, s') ->
  (exists evs, s_trace s' = evs ++ s_trace s /\ no_call evs) /\
  ((exists e, r = Err e) \/ (r = Ok initial_fom /\ s_running s' = false)).
Proof. exact (goal_both S G W s x it r s' g). Qed.
Definition C18_run (mx : bool) (g : Z) : settings (N := F64) := frun KGRAPE <|g_goal := Some (z g)|> <|g_maximise := mx|>.
Example C18_example : exists r s, optimise (C18_run false 2) (fworld [3; 2; 1; 0]%Z) = Ok (r, s) /\
  plain_run (C18_run false 2) /\ r = Ok tt /\ values (history s) = map z [3; 2]%Z.
Proof.
  destruct (run_ok_exists (C18_run false 2) (fworld [3; 2; 1; 0]%Z)
    (fun r s => fine_end r && are (values (history s)) [3; 2]%Z)) as (r & s & E & H).
  { vm_compute. reflexivity. }
  exists r, s. apply andb_true_iff in H as [H1 H2]. split; [exact E|]. split; [repeat split|].
  split; [destruct r as [[]|]; [reflexivity|discriminate]|]. now apply are_eq.
Qed.
Example C18_example_maximise : exists r s, optimise (C18_run true 2) (fworld [0; 1; 3; 4]%Z) = Ok (r, s) /\
  plain_run (C18_run true 2) /\ r = Ok tt /\ values (history s) = map z [0; 1; 3]%Z.
Proof.
  destruct (run_ok_exists (C18_run true 2) (fworld [0; 1; 3; 4]%Z)
    (fun r s => fine_end r && are (values (history s)) [0; 1; 3]%Z)) as (r & s & E & H).
  { vm_compute. reflexivity. }
  exists r, s. apply andb_true_iff in H as [H1 H2]. split; [exact E|]. split; [repeat split|].
  split; [destruct r as [[]|]; [reflexivity|discriminate]|]. now apply are_eq.
Qed.
(** the hypotheses hold for both number systems *)
Example C18_numbers : (NumOrder Rnum /\ NumSign Rnum) /\ (NumOrder F64 /\ NumSign F64).
Proof. exact (conj (conj Rnum_order Rnum_sign) (conj F64_order F64_sign)). Qed.
Print Assumptions C18_goal_not_reached_before.
Print Assumptions C18_goal_is_last.
Print Assumptions C18_any_configuration.

(** ** C19 Total time limit *)
Theorem C19_calls_in_time (N : Num) (G : settings) (W : world) r s tr1 x d a tr2 : optimise G W = Ok (r, s) -> limited G ->
  history s = tr1 ++ EvEval x d a :: tr2 ->
  (forall t, In (EvElapsed t) tr1 -> (g_total_lim G <=? t)%num = false) /\
  exists tr0 t, (tr1 = tr0 ++ [EvElapsed t] \/ tr1 = tr0 ++ [EvElapsed t; EvCleared ByAsync]).
Proof. exact (in_time G W r s tr1 x d a tr2). Qed.
Theorem C19_large_limit_ignored (N : Num) (G : settings) (W : world) r s : ~ limited G -> optimise G W = Ok (r, s) ->
  (forall t, ~ In (EvElapsed t) (history s)) /\ ~ In (EvCleared ByTime) (history s).
Proof. exact (no_limit G W r s). Qed.
Definition C19_run : settings (N := F64) := frun KGRAPE <|g_total_lim := z 3|>.
(** the clock is read once at the start and once per check, a minute apart: checks at 1, 2, 3 minutes *)
Example C19_example : exists r s, optimise C19_run (fworld [5; 4; 3; 2; 1]%Z) = Ok (r, s) /\ limited C19_run /\ r = Ok tt /\
  calls (history s) = 2 /\ s_reason s = "Maximum optimization runtime reached"%string.
Proof.
  destruct (run_ok_exists C19_run (fworld [5; 4; 3; 2; 1]%Z)
    (fun r s => fine_end r && Nat.eqb (calls (history s)) 2 && String.eqb (s_reason s) "Maximum optimization runtime reached"))
    as (r & s & E & H).
  { vm_compute. reflexivity. }
  exists r, s. apply andb_true_iff in H as [H H3]. apply andb_true_iff in H as [H1 H2].
  split; [exact E|]. split; [vm_compute; reflexivity|]. split; [destruct r as [[]|]; [reflexivity|discriminate]|].
  split; [now apply Nat.eqb_eq|now apply String.eqb_eq].
Qed.
Print Assumptions C19_calls_in_time.
Print Assumptions C19_large_limit_ignored.

(** ** C20 The reported optimum is the best evaluation *)
Theorem C20_best_value (N : Num) (O : NumOrder N) (S : NumSign N) (G : settings) (W : world) r s : plain_run G ->
  optimise G W = Ok (r, s) -> is_best (costs G (history s)) (s_best s).
Proof. exact (fun P => best_value O S G W P r s). Qed.
Theorem C20_reported_value (N : Num) (S : NumSign N) (G : settings) (W : world) r s f : optimise G W = Ok (r, s) ->
  In (EvFinal f) (history s) -> f_fom f = cost G (s_best s).
Proof. exact (reported S G W r s f). Qed.
Theorem C20_reported_once (N : Num) (G : settings) (W : world) s : optimise G W = Ok (Ok tt, s) ->
  exists tr f o, history s = tr ++ [EvFinal f; EvLogged f o] /\ forall g, ~ In (EvFinal g) tr.
Proof. exact (reports_once G W s). Qed.
(** gradient algorithms: the best vector is that of the first evaluation attaining the best value *)
Theorem C20_best_vector (N : Num) (O : NumOrder N) (S : NumSign N) (G : settings) (W : world) r s : plain_run G ->
  (g_kind G = KGRAPE \/ g_kind G = KAD) -> optimise G W = Ok (r, s) ->
  (s_best_xx s = None /\ s_best s = ceiling) \/
  exists tr1 x d a tr2 v, history s = tr1 ++ EvEval x d a :: tr2 /\ user_value a = Some v /\ cost G v = s_best s /\
    improves G tr1 a /\ s_best_xx s = Some x.
Proof. exact (fun P K => best_vector O S G W P r s (no_dsm G K)). Qed.
Definition C20_run : settings (N := F64) := frun KGRAPE <|g_maximise := true|>.
Example C20_example : exists s, optimise C20_run (fworld [3; 5; 5; 2]%Z) = Ok (Ok tt, s) /\ plain_run C20_run /\
  values (history s) = map z [3; 5; 5; 2]%Z /\ s_best s = z (-5) /\ s_best_xx s = Some [z 5].
Proof.
  destruct (run_ok_exists C20_run (fworld [3; 5; 5; 2]%Z)
    (fun r s => fine_end r && are (values (history s)) [3; 5; 5; 2]%Z && f64_same (s_best s) (z (-5)) &&
                match s_best_xx s with Some x => are x [5]%Z | None => false end)) as (r & s & E & H).
  { vm_compute. reflexivity. }
  apply andb_true_iff in H as [H H4]. apply andb_true_iff in H as [H H3]. apply andb_true_iff in H as [H1 H2].
  destruct r as [[]|]; [|discriminate]. exists s. split; [exact E|]. split; [repeat split|].
  split; [now apply are_eq|]. split; [now apply f64_same_eq|].
  destruct (s_best_xx s) as [x|]; [|discriminate]. apply are_eq in H4. now rewrite H4.
Qed.
(** values of 1e10 and NaN never count *)
Example C20_example_never : exists r s, optimise (frun KGRAPE) (answering (fun _ _ => says (N := F64) f64_nan) (fworld [3; 5]%Z)) = Ok (r, s) /\
  calls (history s) = 2 /\ s_best s = z 10000000000.
Proof.
  destruct (run_ok_exists (frun KGRAPE) (answering (fun _ _ => says (N := F64) f64_nan) (fworld [3; 5]%Z))
    (fun r s => Nat.eqb (calls (history s)) 2 && f64_same (s_best s) (z 10000000000))) as (r & s & E & H).
  { vm_compute. reflexivity. }
  apply andb_true_iff in H as [H1 H2]. exists r, s. split; [exact E|]. split; [now apply Nat.eqb_eq|now apply f64_same_eq].
Qed.
Print Assumptions C20_best_value.
Print Assumptions C20_reported_value.
Print Assumptions C20_reported_once.
Print Assumptions C20_best_vector.

(** ** C21 The best-controls file holds the best evaluation *)
Theorem C21_saved_exactly_improvements (N : Num) (O : NumOrder N) (S : NumSign N) (G : settings) (W : world) r s tr1 x d a tr2 :
  plain_run G -> optimise G W = Ok (r, s) -> history s = tr1 ++ EvEval x d a :: tr2 ->
  (success a = true /\ improves G tr1 a <-> exists f tr3, tr2 = EvSave f :: tr3).
Proof. exact (fun P => saves_improvements O S G W P r s tr1 x d a tr2). Qed.
Theorem C21_saved_content (N : Num) (O : NumOrder N) (S : NumSign N) (G : settings) (W : world) r s tr1 f tr2 :
  plain_run G -> optimise G W = Ok (r, s) -> history s = tr1 ++ EvSave f :: tr2 ->
  exists tr0 x d a v, tr1 = tr0 ++ [EvEval x d a] /\ user_value a = Some v /\ success a = true /\
    sv_controls f = d /\ sv_fom f = cost G v /\ sv_iter f = Datatypes.S (calls tr0) /\ sv_status f = Some 0%Z.
Proof. exact (fun P => saved_content O S G W P r s tr1 f tr2). Qed.
(** the file on disk (none: 1e10) is the best successful evaluation *)
Theorem C21_file_on_disk (N : Num) (O : NumOrder N) (S : NumSign N) (G : settings) (W : world) r s :
  plain_run G -> optimise G W = Ok (r, s) ->
  is_best (good_costs G (history s)) (match disk (history s) with Some f => sv_fom f | None => ceiling end).
Proof. exact (fun P => disk_best O S G W P r s). Qed.
Example C21_example : exists r s f, optimise (frun KGRAPE) (fworld [3; 1; 2]%Z) = Ok (r, s) /\ plain_run (frun KGRAPE) /\
  disk (history s) = Some f /\ sv_iter f = 2 /\ sv_fom f = z 1 /\ d_parameters (sv_controls f) = [z 1] /\
  length (filter is_save (history s)) = 2.
Proof.
  destruct (run_ok_exists (frun KGRAPE) (fworld [3; 1; 2]%Z)
    (fun r s => match disk (history s) with
                | Some f => Nat.eqb (sv_iter f) 2 && f64_same (sv_fom f) (z 1) && are (d_parameters (sv_controls f)) [1]%Z
                | None => false
                end && Nat.eqb (length (filter is_save (history s))) 2)) as (r & s & E & H).
  { vm_compute. reflexivity. }
  apply andb_true_iff in H as [H H4]. destruct (disk (history s)) as [f|] eqn:Ef; [|discriminate].
  apply andb_true_iff in H as [H H3]. apply andb_true_iff in H as [H1 H2].
  exists r, s, f. split; [exact E|]. split; [repeat split|]. split; [exact Ef|]. split; [now apply Nat.eqb_eq|].
  split; [now apply f64_same_eq|]. split; [exact (are_eq _ _ H3)|now apply Nat.eqb_eq].
Qed.
Print Assumptions C21_saved_exactly_improvements.
Print Assumptions C21_saved_content.
Print Assumptions C21_file_on_disk.

(** ** C22 Failed evaluations *)
Theorem C22_failure_stops_the_run (N : Num) (G : settings) (W : world) r s tr1 x d a tr2 : optimise G W = Ok (r, s) ->
  history s = tr1 ++ EvEval x d a :: tr2 -> user_value a <> None -> success a = false ->
  exists tr3, tr2 = EvCleared ByStatus :: tr3 /\ no_call tr3.
Proof. exact (failure_stops G W r s tr1 x d a tr2). Qed.
Theorem C22_no_value_raises (N : Num) (G : settings) (W : world) r s tr1 x d a tr2 : optimise G W = Ok (r, s) ->
  history s = tr1 ++ EvEval x d a :: tr2 -> user_value a = None -> tr2 = [] /\ r = Err (complaint a).
Proof. exact (no_value_raises G W r s tr1 x d a tr2). Qed.
(** second evaluation fails with a better value: neither listed nor saved, but reported as the best *)
Definition C22_world : world (N := F64) :=
  answering (fun n v => if Nat.eqb n 2 then says_status v 7 else says v) (fworld [3; 1; 0]%Z).
Theorem C22_failed_value_reported_refuted : exists r s f, optimise (frun KGRAPE) C22_world = Ok (r, s) /\ plain_run (frun KGRAPE) /\
  s_fom_list s = [z 3] /\ s_best s = z 1 /\ disk (history s) = Some f /\ sv_fom f = z 3 /\ s_best_xx s = Some [z 1] /\
  calls (history s) = 2.
Proof.
  destruct (run_ok_exists (frun KGRAPE) C22_world
    (fun r s => are (s_fom_list s) [3]%Z && f64_same (s_best s) (z 1) &&
                match disk (history s) with Some f => f64_same (sv_fom f) (z 3) | None => false end &&
                match s_best_xx s with Some x => are x [1]%Z | None => false end &&
                Nat.eqb (calls (history s)) 2)) as (r & s & E & H).
  { vm_compute. reflexivity. }
  apply andb_true_iff in H as [H H5]. apply andb_true_iff in H as [H H4]. apply andb_true_iff in H as [H H3].
  apply andb_true_iff in H as [H1 H2]. destruct (disk (history s)) as [f|] eqn:Ef; [|discriminate].
  exists r, s, f. split; [exact E|]. split; [repeat split|]. split; [exact (are_eq _ _ H1)|].
  split; [now apply f64_same_eq|]. split; [exact Ef|]. split; [now apply f64_same_eq|].
  split; [|now apply Nat.eqb_eq]. destruct (s_best_xx s) as [x|]; [|discriminate]. apply are_eq in H4. now rewrite H4.
Qed.
(** no number returned: TypeError *)
Definition C22_none : world (N := F64) :=
  answering (fun n v => if Nat.eqb n 2 then Dict (mk_adict FNone None (Some (-2)%Z)) else says v) (fworld [3; 1; 0]%Z).
Example C22_example_none : exists s, optimise (frun KGRAPE) C22_none = Ok (Err TypeError, s) /\ calls (history s) = 2.
Proof.
  destruct (run_ok_exists (frun KGRAPE) C22_none
    (fun r s => raised TypeError r && Nat.eqb (calls (history s)) 2)) as (r & s & E & H).
  { vm_compute. reflexivity. }
  apply andb_true_iff in H as [H1 H2]. destruct r as [|[]]; try discriminate H1. exists s. split; [exact E|now apply Nat.eqb_eq].
Qed.
Print Assumptions C22_failure_stops_the_run.
Print Assumptions C22_no_value_raises.
Print Assumptions C22_failed_value_reported_refuted.

(** ** C23 Evaluation log is faithful *)
Theorem C23_log (N : Num) (O : NumOrder N) (S : NumSign N) (G : settings) (W : world) r s : plain_run G ->
  optimise G W = Ok (r, s) ->
  s_iter_list s = map fst (log 1 (history s)) /\ s_fom_list s = map snd (log 1 (history s)).
Proof. exact (fun P => log_faithful O S G W P r s). Qed.
Theorem C23_consecutive_numbers (N : Num) (O : NumOrder N) (S : NumSign N) (G : settings) (W : world) r s : plain_run G ->
  optimise G W = Ok (r, s) ->
  s_iter_list s = seq 1 (length (s_iter_list s)) /\ length (s_fom_list s) = length (s_iter_list s).
Proof. exact (fun P => log_numbers O S G W P r s). Qed.
Theorem C23_counter (N : Num) (G : settings) (W : world) r s : optimise G W = Ok (r, s) ->
  calls (history s) <= s_iter s <= Datatypes.S (calls (history s)).
Proof. exact (counter G W r s). Qed.
Example C23_example : exists r s, optimise (frun KDirect <|g_max_total := 5%Z|> <|g_maximise := true|>) (fworld []) = Ok (r, s) /\
  s_iter_list s = [1; 2; 3; 4; 5] /\ s_fom_list s = map z [1; 0; 2; 3; 5]%Z.
Proof.
  destruct (run_ok_exists (frun KDirect <|g_max_total := 5%Z|> <|g_maximise := true|>) (fworld [])
    (fun r s => (if list_eq_dec Nat.eq_dec (s_iter_list s) [1; 2; 3; 4; 5] then true else false) &&
                are (s_fom_list s) [1; 0; 2; 3; 5]%Z)) as (r & s & E & H).
  { vm_compute. reflexivity. }
  apply andb_true_iff in H as [H1 H2]. exists r, s. split; [exact E|].
  split; [|now apply are_eq]. destruct (list_eq_dec _ _ _); [assumption|discriminate].
Qed.
(** stopped after the controls were built: the counter is one ahead *)
Example C23_example_counter : exists r s, optimise (frun KGRAPE) (interrupted 1) = Ok (r, s) /\ calls (history s) = 0 /\ s_iter s = 1.
Proof.
  destruct (run_ok_exists (frun KGRAPE) (interrupted 1)
    (fun r s => Nat.eqb (calls (history s)) 0 && Nat.eqb (s_iter s) 1)) as (r & s & E & H).
  { vm_compute. reflexivity. }
  apply andb_true_iff in H as [H1 H2]. exists r, s. split; [exact E|]. split; now apply Nat.eqb_eq.
Qed.
Print Assumptions C23_log.
Print Assumptions C23_consecutive_numbers.
Print Assumptions C23_counter.
