(** * C65 Using an optimiser several times. *)
From Coq Require Import String ZArith List Bool Lia Reals QArith Qcanon.
From RecordUpdate Require Import RecordSet.
From Verif Require Import Num NumFacts NumQ Py ModelPulse ModelControls ModelBases ModelLinalg ModelState ModelSearch ModelRun ModelSession
  SpecControls SpecRun SpecStop ProofBases PyFacts ProofSim ProofRoutine ProofPlain ProofHistory ProofSession ProofSessionDcrab ProofTotal ProofSuper ExampleControls ExampleRun PropRun PropSuper PropDirect.
Import ListNotations RecordSetNotations.
Open Scope nat_scope.
Open Scope list_scope.
Open Scope bool_scope.

(** The total budget is one budget for all executions, however they end, and also if the program sets the running flag again. *)
Theorem C65_budget (N : Num) (G : settings) (W : world) cs rs s : program G W cs = Ok (rs, s) ->
  (Z.of_nat (calls (history s)) <= Z.max 0 (g_max_total G))%Z.
Proof. exact (session_budget G W cs rs s). Qed.
(** A stopped optimiser evaluates nothing, however often it is executed, until the flag is set again. *)
Theorem C65_stopped (N : Num) (G : settings) (W : world) cs s rs s' : s_running s = false -> ~ In Resume cs -> session G W cs s = (rs, s') ->
  s_running s' = false /\ exists evs, history s' = history s ++ evs /\ no_call evs.
Proof. exact (session_stopped G W cs s rs s'). Qed.
(** The best value is the best of all executions (those that raised included). *)
Theorem C65_best (N : Num) (O : NumOrder N) (S : NumSign N) (G : settings) (W : world) cs rs s : plain_run G ->
  program G W cs = Ok (rs, s) -> is_best (costs G (history s)) (s_best s).
Proof. intros P. exact (session_best O S G W P cs rs s). Qed.
(** An execution that ends normally reports it. *)
Theorem C65_reported (N : Num) (S : NumSign N) (G : settings) (W : world) s s' : execute G W s = (Ok tt, s') ->
  exists tr f o, history s' = tr ++ [EvFinal f; EvLogged f o] /\ f_fom f = cost G (s_best s').
Proof.
  intros H. unfold execute in H. apply bind_inv in H as ([] & s1 & _ & H). apply bind_inv in H as ([] & u & _ & H).
  assert (Q : exists f o, s' = u <|s_trace ::= cons (EvFinal f)|> <|s_trace ::= cons (EvLogged f o)|> /\ f_fom f = cost G (s_best u)).
  { unfold end_, final_results in H. rewrite <- (factor_cost S G). destruct (g_kind G); cbn in H; try (injection H as <-; do 2 eexists; split; reflexivity).
    unfold bind at 1 2, get at 1 in H. destruct (s_xx u); [cbn in H; injection H as <-; do 2 eexists; split; reflexivity|discriminate H]. }
  destruct Q as (f & o & -> & E). exists (history u), f, o. split; [|exact E].
  unfold history. cbn. now rewrite <- app_assoc.
Qed.
(** dCRAB goes on where it was: under the conditions of C28 get_best_controls returns the controls of the best evaluation of all executions. *)
Theorem C65_best_controls (N : Num) (O : NumOrder N) (S : NumSign N) (X : NumExact N) (G : settings) (W : world) n rs s :
  plain_run G -> g_kind G = KdCRAB ->
  (forall f, In f (g_pulses G) -> plain_basis f /\ pf_overwrite f = false /\ regular_update f /\ zero_at_offset f /\
     base_beside_update (names_of f)) ->
  no_optimised_time (g_times G) -> (forall t, In t (g_times G) -> tf_value t <> of_Z 0) ->
  program G W (repeat Execute n) = Ok (rs, s) -> Forall (eq (Ok tt)) rs ->
  (exists x d a v, In (EvEval x d a) (history s) /\ user_value a = Some v /\ (cost G v <? ceiling)%num = true) ->
  exists tr1 x d a tr2 v, history s = tr1 ++ EvEval x d a :: tr2 /\ user_value a = Some v /\ cost G v = s_best s /\
    improves G tr1 a /\ get_best_controls s = Ok d.
Proof. intros PR KD HF NT HZ. exact (session_best_controls O S X G W PR KD HF NT HZ n rs s). Qed.

Definition program_ok {N : Num} G W cs (P : list (res unit) -> st -> bool) : bool := match program G W cs with Ok (rs, s) => P rs s | Err _ => false end.
Lemma program_ok_exists {N : Num} G W cs P : program_ok G W cs P = true -> exists rs s, program G W cs = Ok (rs, s) /\ P rs s = true.
Proof. unfold program_ok. destruct (program G W cs) as [[rs s]|]; [|discriminate]. eauto. Qed.
Definition all_fine (rs : list (res unit)) : bool := forallb fine_end rs.
Lemma all_fine_eq rs : all_fine rs = true -> Forall (eq (Ok tt)) rs.
Proof. unfold all_fine. rewrite forallb_forall. intros H. apply Forall_forall. intros [[]|e] I; [reflexivity|]. apply H in I. discriminate. Qed.

(** a budget of 5: three executions of GRAPE with 2 wanted evaluations each, the flag set again before each *)
Example C65_budget_case : exists rs s, program (frun KGRAPE <|g_max_total := 5%Z|>) (fworld [3; 2]%Z) [Execute; Resume; Execute; Resume; Execute; Resume; Execute] = Ok (rs, s) /\
  Forall (eq (Ok tt)) rs /\ calls (history s) = 5.
Proof.
  destruct (program_ok_exists (frun KGRAPE <|g_max_total := 5%Z|>) (fworld [3; 2]%Z) [Execute; Resume; Execute; Resume; Execute; Resume; Execute]
    (fun rs s => all_fine rs && Nat.eqb (calls (history s)) 5)) as (rs & s & E & H); [vm_compute; reflexivity|].
  apply andb_prop in H as [H1 H2]. exists rs, s. split; [exact E|]. split; [now apply all_fine_eq|now apply Nat.eqb_eq].
Qed.
(** dCRAB twice, two super-iterations each; the experiment is better the second time: the best value is halved *)
Definition better_world : world (N := Qcnum) := pulse_world <|w_fom := fun h => let v := newest_sample h : @num Qcnum in
  says (N := Qcnum) ((v - of_Z 1 / of_Z 3) * (v - of_Z 1 / of_Z 3) / of_Z (if Nat.leb (length h) 24 then 1 else 2))%num|>.
Example C65_best_controls_case : exists rs s, let G := pulse_run (N := Qcnum) (ex_plain 1) <|g_max_eval := 12%Z|> in
  plain_run G /\ (forall f, In f (g_pulses G) -> plain_basis f /\ pf_overwrite f = false /\ regular_update f /\ zero_at_offset f /\
     base_beside_update (names_of f)) /\ no_optimised_time (g_times G) /\ (forall t, In t (g_times G) -> tf_value t <> of_Z 0) /\
  program G better_world (repeat Execute 2) = Ok (rs, s) /\ Forall (eq (Ok tt)) rs /\
  (exists x d a v, In (EvEval x d a) (history s) /\ user_value a = Some v /\ (cost G v <? ceiling)%num = true) /\
  length (filter (fun e => match e with EvFinal _ => true | _ => false end) (history s)) = 2 /\ s_best s = qc 1 18432 /\ exists d, get_best_controls s = Ok d /\ qsamples d = [[qc 11 32]].
Proof.
  set (G := pulse_run (N := Qcnum) (ex_plain 1) <|g_max_eval := 12%Z|>).
  destruct (program_ok_exists G better_world (repeat Execute 2) (fun rs s => all_fine rs && some_low G s &&
    Nat.eqb (length (filter (fun e => match e with EvFinal _ => true | _ => false end) (history s))) 2 && Qc_list_eqb [[s_best s]] [[qc 1 18432]] && best_is s [[qc 11 32]])) as (rs & s & E & H); [vm_compute; reflexivity|].
  apply andb_prop in H as [H H5]. apply andb_prop in H as [H H4]. apply andb_prop in H as [H H3]. apply andb_prop in H as [H1 H2]. exists rs, s. cbv zeta.
  split; [repeat split|]. split; [exact (ex_plain_fine false 1)|]. split; [exact ex_no_time|]. split; [intros t [<-|[]]; discriminate|]. split; [exact E|].
  split; [now apply all_fine_eq|]. split; [now apply some_low_exists|]. split; [now apply Nat.eqb_eq|]. split; [apply Qc_list_eqb_eq in H4; now injection H4|now apply best_is_eq].
Qed.
(** GRAPE does not: executed again it adds the best update to the base pulse once more, and get_best_controls is no longer the pulse of the best evaluation. *)
Definition grape_again : settings (N := Qcnum) := pulse_run (N := Qcnum) (ex_plain 1) <|g_kind := KGRAPE|>.
Definition grape_again_world : world (N := Qcnum) := pulse_world <|w_lbfgs := fun _ _ => asks (N := Qcnum) [qc 1 4 : @num Qcnum]|>.
Theorem C65_grape_refuted : exists rs1 s1 rs2 s2 d1 d2, plain_run grape_again /\
  program grape_again grape_again_world [Execute] = Ok (rs1, s1) /\ program grape_again grape_again_world [Execute; Execute] = Ok (rs2, s2) /\
  Forall (eq (Ok tt)) rs2 /\ s_best s2 = s_best s1 /\
  get_best_controls s1 = Ok d1 /\ qsamples d1 = [[qc 1 4]] /\ get_best_controls s2 = Ok d2 /\ qsamples d2 = [[qc 1 2]].
Proof.
  assert (V : program_ok grape_again grape_again_world [Execute] (fun rs1 s1 => program_ok grape_again grape_again_world [Execute; Execute] (fun rs2 s2 =>
    all_fine rs2 && Qc_eq_bool (s_best s2) (s_best s1) && best_is s1 [[qc 1 4]] && best_is s2 [[qc 1 2]])) = true) by (vm_compute; reflexivity).
  apply program_ok_exists in V as (rs1 & s1 & E1 & V). apply program_ok_exists in V as (rs2 & s2 & E2 & V).
  apply andb_prop in V as [V B2]. apply andb_prop in V as [V B1]. apply andb_prop in V as [V1 V2].
  apply best_is_eq in B1 as (d1 & G1 & Q1). apply best_is_eq in B2 as (d2 & G2 & Q2). apply Qc_eq_bool_correct in V2. exists rs1, s1, rs2, s2, d1, d2.
  split; [repeat split|]. split; [exact E1|]. split; [exact E2|]. split; [now apply all_fine_eq|]. auto.
Qed.
(** The total time limit is counted anew from each execution: with a limit of 4 minutes, 4 minutes and more after the construction of the optimiser
    the third execution still evaluates. *)
Definition late_world : world (N := F64) := fworld [3]%Z.
Theorem C65_time_refuted : exists rs1 s1 rs2 s2, let G := frun KGRAPE <|g_total_lim := z 4|> in limited G /\
  program G late_world [Execute; Execute] = Ok (rs1, s1) /\ (g_total_lim G <=? minutes (w_clock late_world 0) (clock late_world s1))%num = true /\
  program G late_world [Execute; Execute; Execute] = Ok (rs2, s2) /\ calls (history s1) < calls (history s2).
Proof.
  set (G := frun KGRAPE <|g_total_lim := z 4|>).
  assert (V : program_ok G late_world [Execute; Execute] (fun _ s1 => program_ok G late_world [Execute; Execute; Execute] (fun _ s2 =>
    (g_total_lim G <=? minutes (w_clock late_world 0) (clock late_world s1))%num && Nat.ltb (calls (history s1)) (calls (history s2)))) = true) by (vm_compute; reflexivity).
  apply program_ok_exists in V as (rs1 & s1 & E1 & V). apply program_ok_exists in V as (rs2 & s2 & E2 & V). apply andb_prop in V as [V1 V2].
  exists rs1, s1, rs2, s2. cbv zeta. split; [vm_compute; reflexivity|]. split; [exact E1|]. split; [exact V1|]. split; [exact E2|]. now apply Nat.ltb_lt.
Qed.
Print Assumptions C65_budget. Print Assumptions C65_stopped. Print Assumptions C65_best. Print Assumptions C65_reported.
Print Assumptions C65_best_controls. Print Assumptions C65_grape_refuted. Print Assumptions C65_time_refuted.
