(** What is reported after a direct search. *)
From Coq Require Import String ZArith List Bool Lia.
From RecordUpdate Require Import RecordSet.
From Verif Require Import Num NumFacts Py PyFacts ModelPulse ModelControls ModelLinalg ModelState ModelSearch ModelRun SpecControls SpecRun
  ProofEss ProofSI
  ProofSim ProofSimRun ProofRoutine ProofRespond ProofCore ProofSuper.
Import ListNotations RecordSetNotations.
Open Scope list_scope.
Open Scope bool_scope.
Open Scope run_scope.

Section Direct.
  Context {N : Num} (G : settings) (W : world).
  Hypothesis KD : g_kind G = KDirect.

  (** unless somebody interfered, [s_xx] and the controls object are those of the last evaluation *)
  Definition recent (c0 : controls) (s : st) : Prop :=
    In (EvCleared ByAsync) (s_trace s) \/
    (s_xx s = None /\ s_controls s = c0 /\ no_call (s_trace s)) \/
    exists l x d a past c d', s_trace s = l ++ EvEval x d a :: past /\ no_call l /\ s_xx s = Some x /\ evaluations c0 c /\
      get_controls_lists x c = Ok (s_controls s, d') /\ d_pulses d' = [] /\ d_timegrids d' = [] /\ d = mk_delivered [] [] (d_parameters d').

  Lemma no_call_app l l' : no_call (l ++ l') <-> no_call l /\ no_call l'.
  Proof.
    unfold no_call. split.
    - intros H. split; intros x d a K; apply (H x d a), in_or_app; auto.
    - intros [H K] x d a J. apply in_app_or in J as [J|J]; [eapply H|eapply K]; eauto.
  Qed.
  Lemma quiet_no_call l : Forall quiet_event l -> no_call l.
  Proof. intros H x d a K. rewrite Forall_forall in H. exact (H _ K). Qed.

  Lemma recent_ext c0 s t evs : s_trace t = evs ++ s_trace s -> Forall quiet_event evs -> s_xx t = s_xx s -> s_controls t = s_controls s ->
    recent c0 s -> recent c0 t.
  Proof.
    intros E1 Q E2 E3 [H|[(A & B & C)|(l & x & d & a & past & c & d' & A & B & C & H)]].
    - left. rewrite E1. apply in_or_app. auto.
    - right. left. rewrite E2, E3. repeat split; auto. rewrite E1. apply no_call_app. split; [now apply quiet_no_call|exact C].
    - right. right. exists (evs ++ l), x, d, a, past, c, d'. rewrite E1, E2, E3, A. split; [apply app_assoc|].
      split; [apply no_call_app; split; [now apply quiet_no_call|exact B]|]. split; [exact C|exact H].
  Qed.

  Lemma recent_evaluations c0 s : recent c0 s -> In (EvCleared ByAsync) (s_trace s) \/ evaluations c0 (s_controls s).
  Proof.
    intros [H|[(_ & -> & _)|(l & x & d & a & past & c & d' & _ & _ & _ & V & E & _)]]; [now left|right; apply ev_refl|right].
    eapply ev_step; eauto.
  Qed.

  Lemma recent_routine c0 x it s : recent c0 s -> ends (recent c0) (fun _ _ => True) (routine_call G W x it s).
  Proof.
    intros R. unfold ends. destruct (routine_call G W x it s) as [r s'] eqn:E. cbn [fst snd].
    destruct r as [y|e]; [|exact I]. apply routine_cases in E.
    inversion E as [s1 evs P R1| |  |s1 evs c d s3 evs3 P1 MS HH P3 R3 EV3| |
                   |a v s1 evs c d s3 s4 s7 s8 evs8 P1 MS HH P3 P4 EA EV ER P8 A8]; subst.
    - pose proof (p_calm _ _ _ P) as C. apply (recent_ext c0 s _ evs); auto; [apply P|apply check_quiet, P| |].
      + exact (f_equal s_xx C).
      + exact (f_equal s_controls C).
    - left. rewrite (p_trace _ _ _ P3). now left.
    - assert (SA : s_status (answered G v a (asked x d (Dict a) s4)) = Some (status_of a))
        by (unfold answered; destruct (_ =? 0)%Z; reflexivity).
      destruct (respond_resp G _ _ _ SA ER) as (evs7 & R7 & _).
      apply polled_pre in P4 as (ev4 & P4 & _).
      pose proof (p_calm _ _ _ P1) as C1. pose proof (p_calm _ _ _ P3) as C3. pose proof (p_calm _ _ _ P4) as C4.
      pose proof (p_calm _ _ _ P8) as C8. pose proof (rp_same _ _ _ R7) as C7.
      assert (X8 : s_xx s' = Some x).
      { rewrite (f_equal s_xx C8). cbn. rewrite (f_equal s_xx C7). cbn. unfold answered.
        transitivity (s_xx s4); [destruct (_ =? 0)%Z; reflexivity|]. rewrite (f_equal s_xx C4). cbn. now rewrite (f_equal s_xx C3). }
      assert (K8 : s_controls s' = c).
      { rewrite (f_equal s_controls C8). cbn. rewrite (f_equal s_controls C7). cbn. unfold answered.
        transitivity (s_controls s4); [destruct (_ =? 0)%Z; reflexivity|]. rewrite (f_equal s_controls C4). cbn.
        now rewrite (f_equal s_controls C3). }
      assert (T6 : exists l, Forall quiet_event l /\ s_trace (answered G v a (asked x d (Dict a) s4)) = l ++ EvEval x d (Dict a) :: s_trace s4).
      { unfold answered. destruct (_ =? 0)%Z; [exists []|exists [EvCleared ByStatus]]; split; repeat constructor. }
      destruct T6 as (l & Ql & T6).
      destruct HH as (d' & HG & HD). rewrite KD in HD. destruct HD as (D1 & D2 & D3).
      destruct (recent_evaluations _ _ R) as [HA|V].
      + left. rewrite (p_trace _ _ _ P8), (rp_trace _ _ _ R7), T6, (p_trace _ _ _ P4), (p_trace _ _ _ P3). cbn.
        rewrite (p_trace _ _ _ P1). apply in_or_app; right. apply in_or_app; right. apply in_or_app; right. right.
        apply in_or_app; right. now apply in_or_app; right.
      + right. right. exists (evs8 ++ evs7 ++ l), x, d, (Dict a), (s_trace s4), (s_controls s), d'.
        split; [rewrite (p_trace _ _ _ P8), (rp_trace _ _ _ R7), T6, <- !app_assoc; reflexivity|].
        split; [apply quiet_no_call; apply Forall_app; split; [apply check_quiet, P8|apply Forall_app; split; [apply answer_quiet, R7|exact Ql]]|].
        rewrite K8. auto 10.
  Qed.

  Lemma recent_closed c0 : closed1 G W (recent c0) (fun _ _ => True).
  Proof.
    constructor; auto; try (intros; now apply (recent_ext c0 s _ [])).
    - intros s H. apply (recent_ext c0 s _ [EvCleared ByAsync]); auto. repeat constructor.
    - intros f s _ H. apply (recent_ext c0 s _ [EvSave f]); auto. repeat constructor.
    - intros x it s H _. now apply recent_routine.
    - intros x it _ s H. now apply recent_routine.
  Qed.

  (** the stages of a direct search that returns *)
  Lemma direct_stages s : optimise G W = Ok (Ok tt, s) ->
    exists s0 s1 u f o, new_state G W = Ok s0 /\ begin W s0 = (Ok tt, s1) /\ dsm_build G W s1 = (Ok tt, u) /\
      f_xx f = s_xx u /\ s_xx u <> None /\ f_fom f = (factor G * s_best u)%num /\
      s = u <|s_trace ::= cons (EvFinal f)|> <|s_trace ::= cons (EvLogged f o)|>.
  Proof.
    intros H. unfold optimise in H. destruct (new_state G W) as [s0|e] eqn:E0; [|discriminate].
    exists s0. destruct (begin W s0) as [[[]|e] s1] eqn:E1; [|discriminate]. exists s1.
    injection H as H. unfold execute, run in H. rewrite KD in H. unfold bind at 1 in H. rewrite E1 in H.
    unfold bind at 1 in H. destruct (dsm_build G W s1) as [[[]|e] u] eqn:E2; [|discriminate].
    unfold end_, final_results in H. rewrite KD in H. unfold bind, get in H. destruct (s_xx u) as [x|] eqn:EX; [|discriminate H].
    cbn in H. injection H as <-.
    eexists u, _, _. split; [reflexivity|]. split; [reflexivity|]. split; [reflexivity|].
    assert (Q : forall A B C D : Prop, D -> (D -> A) -> B -> (D -> C) -> A /\ B /\ C /\ D) by tauto.
    apply Q; [reflexivity|intros _; symmetry; exact EX|congruence|reflexivity].
  Qed.

  Lemma dsm_recent c0 s u : recent c0 s -> dsm_build G W s = (Ok tt, u) -> recent c0 u.
  Proof.
    intros H E. pose proof (recent_closed c0) as C. pose proof (frame_of_closed1 _ _ C) as F.
    assert (D : has_dsm G = true) by (unfold has_dsm; now rewrite KD).
    assert (IX : forall (e : exn) s, recent c0 s -> True) by auto.
    assert (K : keeps (recent c0) (fun _ _ => True) (dsm_build G W)).
    { unfold dsm_build.
      apply keeps_bind; [apply keeps_get; intros; now apply keeps_lift|]. intros m.
      apply keeps_bind; [apply keeps_get; intros; now apply keeps_lift|]. intros sg.
      apply keeps_bind.
      { apply keeps_get. intros. destruct (uses_seed G);
        (apply keeps_bind; [apply keeps_upd; intros; now apply (c1_cnt _ _ _ _ C)|intros; now apply keeps_ret]). }
      intros r. apply keeps_bind; [now apply keeps_lift|]. intros sx.
      apply keeps_bind; [apply keeps_upd; intros; now apply (c1_best_xx _ _ _ _ C)|]. intros ?.
      apply keeps_bind.
      { apply keeps_sim. apply (sim_run_dsm F); auto.
        - intros. apply keeps_sim. now apply (keeps_inner_none _ _ C).
        - intros. apply keeps_sim. apply (keeps_inner_drift _ _ C); auto. right. now left. }
      intros res. apply keeps_upd. intros t Ht. now apply (recent_ext c0 t _ []). }
    exact (run_ok _ _ _ _ _ _ K H E).
  Qed.

  Lemma final_recent s : optimise G W = Ok (Ok tt, s) -> ~ In (EvCleared ByAsync) (history s) ->
    exists c0 f tr1 x d a tr2 c d', new_controls (g_pulses G) (g_times G) (g_params G) = Ok c0 /\ evaluations c0 c /\
      history s = tr1 ++ EvEval x d a :: tr2 /\ no_call tr2 /\ In (EvFinal f) tr2 /\ f_xx f = Some x /\
      get_controls_lists x c = Ok (s_controls s, d') /\ d_pulses d' = [] /\ d_timegrids d' = [] /\ d = mk_delivered [] [] (d_parameters d').
  Proof.
    intros H HA. destruct (direct_stages s H) as (s0 & s1 & u & f & o & E0 & E1 & E2 & EX & NX & _ & ->).
    unfold new_state in E0. apply rbind_ok in E0 as (c0 & EC & E0).
    assert (R1 : recent c0 s1).
    { right. left. unfold begin, bind, now in E1. cbn in E1. injection E1 as <-. injection E0 as <-. cbn. repeat split; auto. intros x d a []. }
    destruct (dsm_recent _ _ _ R1 E2) as [R|[(R & _)|(l & x & d & a & past & c & d' & T & NC & X & V & HG & D1 & D2 & D3)]].
    - exfalso. apply HA. unfold history. rewrite <- in_rev. cbn. auto.
    - contradiction.
    - exists c0, f, (rev past), x, d, a, (rev l ++ [EvFinal f; EvLogged f o]), c, d'.
      split; [exact EC|]. split; [exact V|]. split; [|split; [|split; [|split; [congruence|]]]].
      + unfold history.
        change (s_trace (u <|s_trace ::= cons (EvFinal f)|> <|s_trace ::= cons (EvLogged f o)|>)) with (EvLogged f o :: EvFinal f :: s_trace u).
        rewrite T. cbn [rev]. rewrite rev_app_distr. cbn [rev]. now rewrite <- !app_assoc.
      + apply no_call_app. split; [|intros ? ? ? [K|[K|[]]]; discriminate]. intros y e b K. apply in_rev in K. exact (NC _ _ _ K).
      + apply in_or_app. right. now left.
      + auto.
  Qed.

  (** parameters: reading the controls at [x] leaves the same values as accepting [x] *)
  Lemma get_is_update x (c c1 : controls) d : get_controls_lists x c = Ok (c1, d) -> d_pulses d = [] -> update_base_controls x c1 = Ok c1.
  Proof.
    intros H D. assert (E : update_base_controls x c = Ok c1).
    { unfold get_controls_lists in H. unfold update_base_controls.
      apply rbind_ok in H as (ts & -> & H). cbn [rbind].
      apply rbind_ok in H as (ps & HP & H). apply rbind_ok in H as (rs & HR & H). injection H as <- <-. cbn in D.
      destruct ps; [|discriminate]. destruct (c_pulses c) as [|p l].
      2: { cbn in HP. apply rbind_ok in HP as (? & _ & HP). apply rbind_ok in HP as (? & _ & HP). discriminate. }
      cbn [rmap rbind]. clear HP D.
      assert (K : rmap (fun r => v <-! gather x (pa_indices r); set_parameter v r) (c_params c) = Ok (map fst rs)).
      { revert rs HR. induction (c_params c) as [|r l IH]; intros rs HR; cbn [rmap] in *; [injection HR as <-; reflexivity|].
        apply rbind_ok in HR as (z & Hz & HR). apply rbind_ok in HR as (rs' & HR' & HR). injection HR as <-.
        apply rbind_ok in Hz as (v & -> & Hz). cbn [rbind]. unfold get_parameter in Hz. apply rbind_ok in Hz as (r' & -> & Hz).
        injection Hz as <-. cbn [rbind]. rewrite (IH _ HR'). reflexivity. }
      rewrite K. reflexivity. }
    rewrite <- update_base_ess, (get_controls_ess_r _ _ _ _ H), update_base_ess. exact E.
  Qed.
End Direct.

Section DirectBest.
  Context {N : Num} (NO : NumOrder N) (NX : NumExact N) (G : settings) (W : world).

  Theorem direct_last s : g_kind G = KDirect -> g_pulses G = [] -> no_optimised_time (g_times G) ->
    (forall t, In t (g_times G) -> tf_value t <> of_Z 0) ->
    optimise G W = Ok (Ok tt, s) -> ~ In (EvCleared ByAsync) (history s) ->
    exists f tr1 x d a tr2, history s = tr1 ++ EvEval x d a :: tr2 /\ no_call tr2 /\ In (EvFinal f) tr2 /\ f_xx f = Some x /\
      get_best_controls s = Ok d.
  Proof.
    intros KD GP NT HZ H HA.
    destruct (final_recent G W KD s H HA) as (c0 & f & tr1 & x & d & a & tr2 & c & d' & EC & V & T & NC & HI & FX & HG & D1 & D2 & D3).
    exists f, tr1, x, d, a, tr2. repeat (split; [assumption|]).
    assert (R : reachable c0 c).
    { clear - V. induction V as [|c c1 c2 x d V IH E]; [apply reach_refl|]. eapply reach_get; eauto. }
    destruct (survive NO NX _ _ _ c0 c x (s_controls s) d' (s_controls s) (s_controls s) (s_controls s) EC R) as (m & c4 & EM & HM); auto.
    - rewrite GP. intros g [].
    - apply ev_refl.
    - exact (get_is_update _ _ _ _ HG D1).
    - unfold get_best_controls. rewrite EM. cbn [rbind]. rewrite HM. cbn. f_equal. destruct d'. cbn in *. congruence.
  Qed.
End DirectBest.
