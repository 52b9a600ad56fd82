(** Events added by one evaluation, and what follows a failed evaluation, in any configuration. *)
From Coq Require Import String ZArith List Bool Lia.
From RecordUpdate Require Import RecordSet.
From Verif Require Import Num Py PyFacts ModelPulse ModelControls ModelLinalg ModelState ModelSearch ModelRun SpecRun
  ProofSim ProofSimRun ProofRoutine ProofRespond ProofCore ProofPlain.
Import ListNotations RecordSetNotations.
Open Scope list_scope.
Open Scope bool_scope.
Open Scope run_scope.

Section Answers.
  Context {N : Num} (G : settings) (W : world).

  (** the trace after an evaluation *)
  Inductive adds (x : vec) (s : st) : res num -> st -> Prop :=
  | add_none r s' evs : s_trace s' = evs ++ s_trace s -> Forall check_event evs ->
      (r = Ok initial_fom -> s_running s' = false) -> (forall y, r = Ok y -> y = initial_fom) -> adds x s r s'
  | add_bad d s' evs : s_running s = true -> goal_open G (s_best s) ->
      Forall check_event evs -> user_value (w_fom W (d :: s_hist s)) = None ->
      s_trace s' = EvEval x d (w_fom W (d :: s_hist s)) :: evs ++ s_trace s ->
      adds x s (Err (complaint (w_fom W (d :: s_hist s)))) s'
  | add_good d v evs evs1 s' : s_running s = true -> goal_open G (s_best s) ->
      Forall check_event evs -> user_value (w_fom W (d :: s_hist s)) = Some v ->
      Forall quiet_event evs1 ->
      s_trace s' = evs1 ++ (if success (w_fom W (d :: s_hist s)) then [] else [EvCleared ByStatus]) ++
                   EvEval x d (w_fom W (d :: s_hist s)) :: evs ++ s_trace s ->
      s_xx s' = Some x ->
      adds x s (Ok (factor G * v)%num) s'.

  Lemma adds_routine x it s r s' : routine_call G W x it s = (r, s') -> adds x s r s'.
  Proof.
    intros E. apply routine_cases in E.
    assert (T4 : forall s1 evs c d s3 s4, pre s s1 evs -> pre (handed c d (started x it s1)) s3 [] -> polled s3 s4 ->
                   exists ev4, Forall check_event ev4 /\ s_trace s4 = ev4 ++ s_trace s /\ s_xx s4 = Some x).
    { intros s1 evs c d s3 s4 P1 P3 P4. apply polled_pre in P4 as (ev4 & P4 & _).
      exists (ev4 ++ evs). split; [|split].
      - apply Forall_app. split; [apply P4|apply P1].
      - rewrite (p_trace _ _ _ P4), (p_trace _ _ _ P3). cbn. rewrite (p_trace _ _ _ P1). apply app_assoc.
      - rewrite (f_equal s_xx (p_calm _ _ _ P4)). cbn. now rewrite (f_equal s_xx (p_calm _ _ _ P3)). }
    destruct E as [s1 evs P1 R|e s1 evs P1|e s1 evs c P1 MS _|s1 evs c d s3 evs3 P1 MS _ P3 R3
                  |e s1 evs c d s3 P1 MS _ P3|e s1 evs c d s3 s4 P1 MS _ P3 P4 HB
                  |a v s1 evs c d s3 s4 s7 s8 evs8 P1 MS _ P3 P4 EA EV ER P8 A8].
    - apply (add_none x s _ s1 evs); [apply P1|apply P1|auto|]. intros y Hy. now injection Hy.
    - apply (add_none x s _ s1 evs); [apply P1|apply P1|discriminate|discriminate].
    - apply (add_none x s _ _ evs); [apply P1|apply P1|discriminate|discriminate].
    - apply (add_none x s _ s3 (evs3 ++ evs)).
      + rewrite (p_trace _ _ _ P3). cbn. rewrite (p_trace _ _ _ P1). apply app_assoc.
      + apply Forall_app. split; [apply P3|apply P1].
      + auto.
      + intros y Hy. now injection Hy.
    - apply (add_none x s _ s3 evs); [|apply P1|discriminate|discriminate].
      rewrite (p_trace _ _ _ P3). cbn. apply P1.
    - destruct (T4 s1 evs c d s3 s4 P1 P3 P4) as (ev4 & Q4 & T & _).
      assert (HV : user_value (w_fom W (d :: s_hist s)) = None /\ e = complaint (w_fom W (d :: s_hist s))).
      { destruct HB as [(-> & ->)|[(a & -> & Ea & ->)|(a & -> & Ea & ->)]]; cbn; rewrite ?Ea; auto. }
      destruct HV as [HV1 ->]. apply (add_bad x s d _ ev4); auto; [apply MS|apply MS|]. cbn. now rewrite T.
    - destruct (T4 s1 evs c d s3 s4 P1 P3 P4) as (ev4 & Q4 & T & X4).
      assert (SA : s_status (answered G v a (asked x d (Dict a) s4)) = Some (status_of a))
        by (unfold answered; destruct (_ =? 0)%Z; reflexivity).
      destruct (respond_resp G _ _ _ SA ER) as (evs7 & R7 & _).
      assert (F8 : s_fom s8 = (factor G * v)%num).
      { rewrite (f_equal s_fom (p_calm _ _ _ P8)). cbn. rewrite (f_equal s_fom (rp_same _ _ _ R7)).
        unfold answered. destruct (_ =? 0)%Z; reflexivity. }
      rewrite F8. apply (add_good x s d v ev4 (evs8 ++ evs7)); auto; [apply MS|apply MS|..].
      + rewrite EA. cbn. now rewrite EV.
      + apply Forall_app. split; [apply check_quiet, P8|apply answer_quiet, R7].
      + rewrite (p_trace _ _ _ P8), (rp_trace _ _ _ R7), EA, <- app_assoc. do 2 f_equal.
        assert (SU : success (Dict a) = (status_of a =? 0)%Z).
        { cbn. unfold status_of. destruct (a_status a); reflexivity. }
        rewrite SU. unfold answered. destruct (status_of a =? 0)%Z; cbn; now rewrite T.
      + rewrite (f_equal s_xx (p_calm _ _ _ P8)). cbn. rewrite (f_equal s_xx (rp_same _ _ _ R7)). cbn.
        unfold answered. destruct (_ =? 0)%Z; exact X4.
  Qed.

  (** ** failed evaluations *)
  Fixpoint stops (tr : list event) : Prop :=
    match tr with
    | [] => True
    | e :: past => stops past /\
                   match past with
                   | EvEval _ _ a :: _ => user_value a <> None /\ (success a = false -> e = EvCleared ByStatus)
                   | _ => True
                   end
    end.
  Definition settled (tr : list event) : Prop :=
    match tr with EvEval _ _ a :: _ => user_value a <> None /\ success a = true | _ => True end.
  Definition fine (s : st) : Prop := stops (s_trace s) /\ settled (s_trace s).
  Definition fail_end (e : exn) (s : st) : Prop :=
    stops (s_trace s) /\ (settled (s_trace s) \/
       exists x d a past, s_trace s = EvEval x d a :: past /\ user_value a = None /\ e = complaint a).

  Lemma stops_app l tr : Forall quiet_event l -> stops tr -> settled tr -> stops (l ++ tr) /\ settled (l ++ tr).
  Proof.
    intros H S1 S2. induction H as [|e l He _ [IH1 IH2]]; [auto|]. split.
    - cbn [app stops]. split; [exact IH1|]. destruct (l ++ tr) as [|[] q]; auto. cbn in IH2. intuition congruence.
    - destruct e; cbn in *; tauto.
  Qed.
  Lemma fine_ext s t evs : s_trace t = evs ++ s_trace s -> Forall quiet_event evs -> fine s -> fine t.
  Proof. intros E Q [A B]. unfold fine. rewrite E. now apply stops_app. Qed.
  Lemma fine_same s t : s_trace t = s_trace s -> fine s -> fine t.
  Proof. intros E. unfold fine. now rewrite E. Qed.

  Lemma fine_routine x it s : fine s -> ends fine fail_end (routine_call G W x it s).
  Proof.
    intros F. unfold ends. destruct (routine_call G W x it s) as [r s'] eqn:E. cbn [fst snd].
    apply adds_routine in E.
    destruct E as [r s' evs T Q _ _|d s' evs _ _ Q U T|d v evs evs1 s' _ _ Q U Q1 T _].
    - assert (F' : fine s') by (apply (fine_ext s s' evs); [exact T|now apply check_quiet|exact F]).
      destruct r; [exact F'|]. split; [apply F'|left; apply F'].
    - destruct F as [A B]. destruct (stops_app evs (s_trace s) (check_quiet _ Q) A B) as [A1 B1].
      split.
      + rewrite T. cbn [stops]. split; [exact A1|]. destruct (evs ++ s_trace s) as [|[] q]; auto.
        cbn in B1. intuition congruence.
      + right. repeat eexists; eauto.
    - destruct F as [A B]. destruct (stops_app evs (s_trace s) (check_quiet _ Q) A B) as [A1 B1].
      unfold fine. rewrite T. apply stops_app; [exact Q1|..].
      + assert (A2 : stops (EvEval x d (w_fom W (d :: s_hist s)) :: evs ++ s_trace s)).
        { cbn [stops]. split; [exact A1|]. destruct (evs ++ s_trace s) as [|[] q]; auto. cbn in B1. intuition congruence. }
        destruct (success _) eqn:Es; [exact A2|]. split; [exact A2|]. cbn. split; [congruence|auto].
      + destruct (success _) eqn:Es; cbn; [split; [congruence|exact Es]|exact I].
  Qed.
  Lemma fine_closed : closed G W fine fail_end.
  Proof.
    constructor; try (intros; eapply fine_same; [reflexivity|eassumption]).
    - intros e s [A B]. split; auto.
    - intros s H. apply (fine_ext s _ [EvCleared ByAsync]); auto. repeat constructor.
    - intros d s H. apply (fine_ext s _ [EvGrad d]); auto. repeat constructor.
    - intros f s _ H. apply (fine_ext s _ [EvSave f]); auto. repeat constructor.
    - intros x it s H _. now apply fine_routine.
    - intros x it _ s H. now apply fine_routine.
  Qed.
  Definition fine_final (r : res unit) (s : st) : Prop :=
    match r with Ok _ => fine s | Err e => fail_end e s end.
  Theorem fine_optimise r s : optimise G W = Ok (r, s) -> fine_final r s.
  Proof.
    apply (keeps_optimise G W fine fail_end fine_final r s); auto.
    - apply fine_closed.
    - intros t H. unfold new_state in H. apply rbind_ok in H as (c & _ & H). injection H as <-. split; exact I.
    - intros f o u H _ _. cbn. apply (fine_ext u _ [EvLogged f o; EvFinal f]); auto. repeat constructor.
  Qed.

  (** ** a stopped run stays stopped *)
  Section Stopped.
    Variable tr0 : list event.
    Definition stopped (s : st) : Prop := s_running s = false /\ exists evs, s_trace s = evs ++ tr0 /\ Forall quiet_event evs.
    Lemma stopped_same s t : s_running t = s_running s -> s_trace t = s_trace s -> stopped s -> stopped t.
    Proof. intros E1 E2. unfold stopped. now rewrite E1, E2. Qed.
    Lemma stopped_ext s t evs : s_trace t = evs ++ s_trace s -> Forall quiet_event evs -> s_running t = false ->
      stopped s -> stopped t.
    Proof.
      intros E Q R [A (l & B & C)]. split; [exact R|]. exists (evs ++ l). rewrite E, B. split; [apply app_assoc|].
      apply Forall_app. auto.
    Qed.
    Lemma stopped_routine x it s : stopped s -> ends stopped (fun _ => stopped) (routine_call G W x it s).
    Proof.
      intros H. unfold ends. destruct (routine_call G W x it s) as [r s'] eqn:E. cbn [fst snd].
      assert (R : s_running s = false) by apply H.
      apply routine_cases in E.
      destruct E as [s1 evs P1 R1|e s1 evs P1|e s1 evs c P1 MS _|s1 evs c d s3 evs3 P1 MS _ P3 R3
                  |e s1 evs c d s3 P1 MS _ P3|e s1 evs c d s3 s4 P1 MS _ P3 P4 HB
                  |a v s1 evs c d s3 s4 s7 s8 evs8 P1 MS _ P3 P4 EA EV ER P8 A8];
        try (apply ms_running in MS; congruence).
      - apply (stopped_ext s s1 evs); auto; [apply P1|apply check_quiet, P1].
      - apply (stopped_ext s s1 evs); auto; [apply P1|apply check_quiet, P1|]. rewrite (p_run _ _ _ P1), R. reflexivity.
    Qed.
    Lemma stopped_closed : closed G W stopped (fun _ => stopped).
    Proof.
      constructor; auto; try (intros; eapply stopped_same; [| |eassumption]; reflexivity).
      - intros s H. apply (stopped_ext s _ [EvCleared ByAsync]); auto. repeat constructor.
      - intros d s H. apply (stopped_ext s _ [EvGrad d]); auto; [repeat constructor|apply H].
      - intros f s _ H. apply (stopped_ext s _ [EvSave f]); auto; [repeat constructor|apply H].
      - intros x it s H _. now apply stopped_routine.
      - intros x it _ s H. now apply stopped_routine.
    Qed.
  End Stopped.
  Theorem stopped_run s r s' : s_running s = false -> run G W s = (r, s') -> stopped (s_trace s) s'.
  Proof.
    intros H E. pose proof (keeps_run G W (stopped_closed (s_trace s)) s) as K. unfold ends in K. rewrite E in K.
    assert (H0 : stopped (s_trace s) s) by (split; [exact H|exists []; split; [reflexivity|constructor]]).
    specialize (K H0). cbn in K. destruct r; exact K.
  Qed.

  (** ** events that do not occur *)
  Section Absent.
    Variable timing : event -> Prop.
    Hypothesis HB : forall e, timing e ->
      match e with
      | EvElapsed _ | EvCleared ByTime => (g_total_lim G <? of_Z 10000000000)%num = false
      | EvFinal _ | EvLogged _ _ => True
      | _ => False
      end.
    Definition untimed (s : st) : Prop := Forall (fun e => ~ timing e) (s_trace s).
    Let K {A} (m : M A) := keeps untimed (fun _ => untimed) m.
    Lemma untimed_upd f : (forall s, s_trace (f s) = s_trace s) -> K (upd f).
    Proof. intros H. apply keeps_upd. intros s. unfold untimed. now rewrite H. Qed.
    Lemma untimed_emit e : ~ timing e -> K (emit e).
    Proof. intros H. apply keeps_upd. intros s Hs. now constructor. Qed.
    Ltac kstep :=
      match goal with
      | |- K ?m => change (keeps untimed (fun _ => untimed) m)
      | |- keeps _ _ (bind get _) => apply keeps_get; intros ? ?
      | |- keeps _ _ (bind _ _) => apply keeps_bind; [|intros ?]
      | |- keeps _ _ (ret _) => apply keeps_ret
      | |- keeps _ _ (raise _) => apply keeps_raise; auto
      | |- keeps _ _ (lift _) => apply keeps_lift; auto
      | |- keeps _ _ (upd _) => apply untimed_upd; reflexivity
      | |- keeps _ _ (emit _) => apply untimed_emit; intros HH; apply HB in HH; lazy beta iota in HH; try congruence; try tauto
      | |- keeps _ _ (if ?b then _ else _) => destruct b
      | |- keeps _ _ (match ?b with _ => _ end) => destruct b
      end.
    Lemma untimed_clear c : c <> ByTime -> K (clear c).
    Proof. intros H. unfold clear. repeat kstep. destruct c; congruence || tauto. Qed.
    Lemma untimed_poll : K (poll G W).
    Proof.
      unfold poll, handle_user_cancellation, set_reason, set_conv. repeat kstep; now apply untimed_clear.
    Qed.
    Lemma untimed_stop r c : c <> ByTime -> K (stop_because G W r c).
    Proof.
      intros H. unfold stop_because, set_reason, set_conv. repeat (kstep || apply untimed_poll). now apply untimed_clear.
    Qed.
    Lemma untimed_time : K (check_total_time G W).
    Proof.
      unfold check_total_time, now. case_eq (g_total_lim G <? of_Z 10000000000)%num; intros E; [|apply keeps_ret].
      repeat kstep. unfold stop_because, set_reason, set_conv, clear. repeat (kstep || apply untimed_poll).
    Qed.
    Lemma untimed_routine x it : K (routine_call G W x it).
    Proof.
      unfold routine_call, check_budget, check_goal, get_running, get_controls, get_data, respond,
        get_average, std_default, note_record, log_fom, send_response, update_controls, add_to_track, check_advanced,
        set_sc_reason, set_conv.
      repeat (kstep || apply untimed_poll || apply untimed_time || (apply untimed_stop; discriminate)
              || (apply untimed_clear; discriminate)).
    Qed.
    Lemma untimed_closed : closed G W untimed (fun _ => untimed).
    Proof.
      constructor; auto; try (intros; constructor; [intros HH; now apply HB in HH|assumption]).
      - intros x it s H _. now apply untimed_routine.
      - intros x it _. apply untimed_routine.
    Qed.
  End Absent.

  (** ** no time limit *)
  Definition timing (e : event) : Prop := match e with EvElapsed _ | EvCleared ByTime => True | _ => False end.
  Theorem untimed_optimise r s : (g_total_lim G <? of_Z 10000000000)%num = false -> optimise G W = Ok (r, s) ->
    untimed timing s.
  Proof.
    intros NL. apply (keeps_optimise G W (untimed timing) (fun _ => untimed timing) (fun _ => untimed timing) r s); auto.
    - apply untimed_closed. intros []; cbn; auto. destruct by_; tauto.
    - intros t H. unfold new_state in H. apply rbind_ok in H as (c & _ & H). injection H as <-. constructor.
    - intros f o u H _ _. repeat (constructor; [cbn; tauto|]). exact H.
  Qed.

  (** ** the results file is written once, at the end *)
  Definition ending (e : event) : Prop := match e with EvFinal _ | EvLogged _ _ => True | _ => False end.
  Definition finished (r : res unit) (s : st) : Prop :=
    match r with
    | Ok _ => exists past f o u, s_trace s = EvLogged f o :: EvFinal f :: past /\ Forall (fun e => ~ ending e) past /\
                s = u <|s_trace := s_trace s|> /\ final_results G u = (Ok f, u) /\ s_trace u = past /\
                o = (if String.eqb (s_reason u) "" then None else Some (s_reason u))
    | Err _ => Forall (fun e => ~ ending e) (s_trace s)
    end.
  Theorem finished_optimise r s : optimise G W = Ok (r, s) -> finished r s.
  Proof.
    apply (keeps_optimise G W (untimed ending) (fun _ => untimed ending) finished r s); auto.
    - apply untimed_closed. intros []; cbn; auto; tauto.
    - intros t H. unfold new_state in H. apply rbind_ok in H as (c & _ & H). injection H as <-. constructor.
    - intros f o u H Hf Ho. exists (s_trace u), f, o, u. repeat split; auto.
  Qed.
End Answers.
