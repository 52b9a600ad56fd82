(** Theorems on the results of a direct search: C29. *)
From Coq Require Import String ZArith List Bool Lia Reals QArith Qcanon.
From RecordUpdate Require Import RecordSet.
From Verif Require Import Num NumFacts NumQ Py ModelPulse ModelControls ModelLinalg ModelState ModelSearch ModelRun
  SpecControls SpecRun ProofDirect ExampleControls ExampleRun PropSuper.
Import ListNotations RecordSetNotations.
Open Scope list_scope.
Open Scope bool_scope.

(** ** C29 *)
(** The 'parameters' entry of the final results is the vector of the last evaluation, in any number system, unless
    somebody outside stopped the run. *)
Theorem C29_last_parameters (N : Num) (G : settings) (W : world) s : g_kind G = KDirect ->
  optimise G W = Ok (Ok tt, s) -> ~ In (EvCleared ByAsync) (history s) ->
  exists f tr1 x d a tr2, history s = tr1 ++ EvEval x d a :: tr2 /\ no_call tr2 /\ In (EvFinal f) tr2 /\ f_xx f = Some x.
Proof.
  intros K H A. destruct (final_recent G W K s H A) as (_ & f & tr1 & x & d & a & tr2 & _ & _ & _ & _ & T & C & I & F & _).
  exists f, tr1, x, d, a, tr2. auto.
Qed.
(** In exact arithmetic get_best_controls() also returns the controls of the last evaluation. *)
Theorem C29_last_controls (N : Num) (O : NumOrder N) (X : NumExact N) (G : settings) (W : world) s :
  g_kind G = KDirect -> g_pulses G = [] -> no_optimised_time (g_times G) ->
  (forall t, In t (g_times G) -> tf_value t <> of_Z 0) ->
  optimise G W = Ok (Ok tt, s) -> ~ In (EvCleared ByAsync) (history s) ->
  exists f tr1 x d a tr2, history s = tr1 ++ EvEval x d a :: tr2 /\ no_call tr2 /\ In (EvFinal f) tr2 /\ f_xx f = Some x /\
    get_best_controls s = Ok d.
Proof. exact (direct_last O X G W s). Qed.
Corollary C29_last_controls_R (G : settings (N := Rnum)) (W : world) s :
  g_kind G = KDirect -> g_pulses G = [] -> no_optimised_time (g_times G) ->
  (forall t, In t (g_times G) -> tf_value t <> 0%R) ->
  optimise G W = Ok (Ok tt, s) -> ~ In (EvCleared ByAsync) (history s) ->
  exists f tr1 x d a tr2, history s = tr1 ++ EvEval x d a :: tr2 /\ no_call tr2 /\ In (EvFinal f) tr2 /\ f_xx f = Some x /\
    get_best_controls s = Ok d.
Proof. exact (C29_last_controls Rnum Rnum_order Rnum_exact G W s). Qed.

(** the figure of merit is the squared distance of the parameter from 2 *)
Definition square_run : settings (N := Qcnum) := ex_run (N := Qcnum) KDirect <|g_max_eval := 5%Z|>.
Definition square_world : world (N := Qcnum) :=
  answering (N := Qcnum) (fun _ v => says ((v - of_Z 2) * (v - of_Z 2))%num) (ex_world [] <|w_np := fun _ => (of_Z 3 / of_Z 4)%num|>).
Definition quiet_run (s : st (N := Qcnum)) : bool :=
  forallb (fun e : event (N := Qcnum) => match e with EvCleared ByAsync => false | _ => true end) (history s).
Lemma quiet_run_spec s : quiet_run s = true -> ~ In (EvCleared ByAsync) (history s).
Proof. unfold quiet_run. rewrite forallb_forall. intros H K. specialize (H _ K). discriminate. Qed.
Definition vec_is (v w : list Qc) : bool := Qc_list_eqb [v] [w].
Lemma vec_is_eq v w : vec_is v w = true -> v = w.
Proof. intros H. apply Qc_list_eqb_eq in H. now injection H. Qed.
Definition reported (v : list Qc) (s : st (N := Qcnum)) : bool :=
  existsb (fun e : event (N := Qcnum) => match e with EvFinal f => match f_xx f with Some x => vec_is x v | None => false end | _ => false end) (history s).
Lemma reported_spec v s : reported v s = true -> exists f, In (EvFinal f) (history s) /\ f_xx f = Some (v : vec (N := Qcnum)).
Proof.
  unfold reported. rewrite existsb_exists. intros ([| | | | | |f|] & HI & H); try discriminate H.
  destruct (f_xx f) as [x|] eqn:E; [|discriminate H]. apply vec_is_eq in H. subst x. eauto.
Qed.
Definition evaluated (v : list Qc) (y : Qc) (s : st (N := Qcnum)) : bool :=
  existsb (fun e : event (N := Qcnum) => match e with EvEval x _ a => vec_is x v && match user_value a with Some w => vec_is [w] [y] | None => false end | _ => false end)
    (history s).
Lemma evaluated_spec v y s : evaluated v y s = true ->
  exists d a, In (EvEval (v : vec (N := Qcnum)) d a) (history s) /\ user_value a = Some (y : @num Qcnum).
Proof.
  unfold evaluated. rewrite existsb_exists. intros ([x d a| | | | | | |] & HI & H); try discriminate H.
  apply andb_prop in H as [H1 H2]. apply vec_is_eq in H1. subst x.
  destruct (user_value a) as [w|] eqn:E; [|discriminate H2]. apply vec_is_eq in H2. injection H2 as ->. eauto.
Qed.
Definition controls_are (v : list Qc) (s : st (N := Qcnum)) : bool :=
  match get_best_controls s with Ok d => vec_is (d_parameters d) v | Err _ => false end.
Lemma controls_are_spec v s : controls_are v s = true -> exists d, get_best_controls s = Ok d /\ d_parameters d = (v : list (@num Qcnum)).
Proof. unfold controls_are. destruct (get_best_controls s) as [d|]; [|discriminate]. intros H. apply vec_is_eq in H. eauto. Qed.

(** A run meeting the hypotheses whose reported parameters and controls are not the best ones: the best value is 0, at the
    parameter 2; reported and returned is 7/4, for which the user's function answered 1/16. *)
Theorem C29_not_best_refuted : exists s f d1 a1 d2 a2 d,
  g_kind square_run = KDirect /\ g_pulses square_run = [] /\ g_times square_run = [] /\
  optimise square_run square_world = Ok (Ok tt, s) /\ ~ In (EvCleared ByAsync) (history s) /\
  In (EvEval (N := Qcnum) [qc 2 1] d1 a1) (history s) /\ user_value a1 = Some (qc 0 1 : @num Qcnum) /\ s_best s = qc 0 1 /\
  In (EvFinal f) (history s) /\ f_xx f = Some ([qc 7 4] : vec (N := Qcnum)) /\
  In (EvEval (N := Qcnum) [qc 7 4] d2 a2) (history s) /\ user_value a2 = Some (qc 1 16 : @num Qcnum) /\
  get_best_controls s = Ok d /\ d_parameters d = ([qc 7 4] : list (@num Qcnum)).
Proof.
  assert (V : run_ok square_run square_world (fun r s => fine_end r && quiet_run s && vec_is [s_best s] [qc 0 1] &&
            evaluated [qc 2 1] (qc 0 1) s && reported [qc 7 4] s && evaluated [qc 7 4] (qc 1 16) s && controls_are [qc 7 4] s) = true)
    by (vm_compute; reflexivity).
  apply run_ok_exists in V as (r & s & H & V). repeat (apply andb_prop in V as [V ?]).
  destruct r as [[]|]; [|discriminate V]. exists s.
  match goal with H : reported _ _ = true |- _ => apply reported_spec in H as (f & F1 & F2) end. exists f.
  match goal with H : evaluated [qc 2 1] _ _ = true |- _ => apply evaluated_spec in H as (d1 & a1 & A1 & A2) end.
  match goal with H : evaluated [qc 7 4] _ _ = true |- _ => apply evaluated_spec in H as (d2 & a2 & B1 & B2) end.
  match goal with H : controls_are _ _ = true |- _ => apply controls_are_spec in H as (d & D1 & D2) end.
  exists d1, a1, d2, a2, d. repeat (split; [reflexivity || assumption|]).
  split; [now apply quiet_run_spec|]. repeat (split; [assumption|]).
  match goal with H : vec_is [s_best s] _ = true |- _ => apply vec_is_eq in H; injection H as -> end. auto 10.
Qed.
(** A stop by another thread while a candidate is being prepared: the reported parameters were never evaluated. *)
Theorem C29_interrupted_refuted : exists s f,
  optimise square_run (interfering 5 AStop square_world) = Ok (Ok tt, s) /\
  In (EvFinal f) (history s) /\ f_xx f = Some ([qc 2 1] : vec (N := Qcnum)) /\
  forall d a, ~ In (EvEval (N := Qcnum) [qc 2 1] d a) (history s).
Proof.
  assert (V : run_ok square_run (interfering 5 AStop square_world) (fun r s => fine_end r && reported [qc 2 1] s &&
            forallb (fun e : event (N := Qcnum) => match e with EvEval x _ _ => negb (vec_is x [qc 2 1]) | _ => true end) (history s)) = true)
    by (vm_compute; reflexivity).
  apply run_ok_exists in V as (r & s & H & V). apply andb_prop in V as [V V3]. apply andb_prop in V as [V1 V2].
  destruct r as [[]|]; [|discriminate V1]. apply reported_spec in V2 as (f & F1 & F2). exists s, f. repeat (split; [assumption|]).
  intros d a K. rewrite forallb_forall in V3. specialize (V3 _ K). cbn in V3. discriminate.
Qed.
(** Without any evaluation there is no result: the total budget is 0. *)
Example C29_no_evaluation : exists s, optimise (square_run <|g_max_total := 0%Z|>) square_world = Ok (Err AttributeError, s).
Proof.
  assert (V : run_ok (square_run <|g_max_total := 0%Z|>) square_world (fun r s => raised AttributeError r) = true) by (vm_compute; reflexivity).
  apply run_ok_exists in V as (r & s & H & V). unfold raised in V. destruct r as [|e]; [discriminate V|].
  unfold exn_eqb in V. destruct (exn_eq_dec _ _) as [<-|]; [eauto|discriminate V].
Qed.
Print Assumptions C29_last_parameters.
Print Assumptions C29_last_controls.
Print Assumptions C29_last_controls_R.
Print Assumptions C29_not_best_refuted.
Print Assumptions C29_interrupted_refuted.
