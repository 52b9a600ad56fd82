(** Invariants of sessions. *)
From Coq Require Import String ZArith List Bool Lia.
From RecordUpdate Require Import RecordSet.
From Verif Require Import Num Py PyFacts ModelPulse ModelControls ModelLinalg ModelState ModelSearch ModelRun ModelSession SpecRun
  ProofSim ProofSimRun ProofRoutine ProofRespond ProofCore ProofPlain ProofAnswers ProofHistory.
Import ListNotations RecordSetNotations.
Open Scope list_scope.
Open Scope bool_scope.
Open Scope run_scope.

Section Session.
  Context {N : Num} (G : settings) (W : world).

  (** an invariant kept by everything an execution does *)
  Lemma keeps_execute (I : st -> Prop) : narrow G W I (fun _ => I) -> (forall t s, I s -> I (s <|s_start := Some t|>)) ->
    (forall f o s, I s -> final_results G s = (Ok f, s) -> I (s <|s_trace ::= cons (EvFinal f)|> <|s_trace ::= cons (EvLogged f o)|>)) ->
    keeps I (fun _ => I) (execute G W).
  Proof.
    intros C Hs Hz. apply keeps_bind; [apply keeps_bind|intros _; apply keeps_bind; [apply (keeps_run G W C)|intros _]].
    - apply keeps_sim. apply (sim_now (frame_of_closed G W C)).
    - intros t. apply keeps_upd. auto.
    - intros s H. unfold end_, bind, ends. destruct (final_results G s) as [[f|e] s3] eqn:EF; cbn [fst snd].
      + assert (s3 = s).
        { unfold final_results, bind, get, ret, raise in EF. destruct (g_kind G); try (now injection EF as _ <-). destruct (s_xx s); [now injection EF as _ <-|discriminate]. }
        subst s3. cbn. now apply Hz.
      + assert (s3 = s).
        { unfold final_results, bind, get, ret, raise in EF. destruct (g_kind G); try discriminate. destruct (s_xx s); [discriminate|now injection EF as _ <-]. }
        now subst s3.
  Qed.
  Lemma session_keeps (I : st -> Prop) cs : keeps I (fun _ => I) (execute G W) -> (In Resume cs -> forall s, I s -> I (s <|s_running := true|>)) ->
    forall s, I s -> I (snd (session G W cs s)).
  Proof.
    intros K R. induction cs as [|c cs IH]; intros s H; [exact H|]. cbn [session]. destruct (perform G W c s) as [r s1] eqn:E.
    specialize (IH (fun i => R (or_intror i)) s1). destruct (session G W cs s1) as [rs s2]. apply IH. destruct c.
    - change (execute G W s = (r, s1)) in E. specialize (K s H). unfold ends in K. rewrite E in K. destruct r; exact K.
    - cbn in E. injection E as _ <-. apply R; [now left|exact H].
  Qed.

  (** ** the budget *)
  Definition counted (s : st) : Prop := calls (s_trace s) <= s_iter s /\ (Z.of_nat (s_iter s) <= Z.max 0 (g_max_total G))%Z.
  Lemma counted_ext s t evs : s_trace t = evs ++ s_trace s -> Forall quiet_event evs -> s_iter t = s_iter s -> counted s -> counted t.
  Proof. intros E Q Ei [A B]. unfold counted. rewrite E, Ei, (calls_app _ _ Q). auto. Qed.
  Lemma counted_pre s t evs : pre s t evs -> counted s -> counted t.
  Proof. intros P. apply (counted_ext s t evs); [apply P|apply check_quiet, P|apply (calm_iter _ _ (p_calm _ _ _ P))]. Qed.
  Lemma counted_routine x it s : counted s -> ends counted (fun _ => counted) (routine_call G W x it s).
  Proof.
    intros L. unfold ends. destruct (routine_call G W x it s) as [r s'] eqn:E. cbn [fst snd]. apply routine_cases in E.
    assert (ST : forall s1 evs c, pre s s1 evs -> may_start G s evs -> counted (started x it s1 <|s_controls := c|>) /\ calls (s_trace s1) < s_iter (started x it s1)).
    { intros s1 evs c P MS. destruct (counted_pre _ _ _ P L) as [A B]. destruct MS as [_ Hb _ _]. pose proof (calm_iter _ _ (p_calm _ _ _ P)) as IT.
      unfold counted. cbn [started set s_trace s_iter]. cbn. lia. }
    assert (ST2 : forall s1 evs c d s3 evs3, pre s s1 evs -> may_start G s evs ->
              pre (handed c d (started x it s1)) s3 evs3 -> counted s3 /\ calls (s_trace s3) < s_iter s3).
    { intros s1 evs c d s3 evs3 P MS P3. destruct (ST s1 evs c P MS) as [A B]. split.
      - apply (counted_pre _ _ _ P3). exact A.
      - rewrite (p_trace _ _ _ P3), (calls_app _ _ (check_quiet _ (p_evs _ _ _ P3))), (calm_iter _ _ (p_calm _ _ _ P3)). exact B. }
    assert (EV : forall s1 evs c d s3 s4 a, pre s s1 evs -> may_start G s evs ->
              pre (handed c d (started x it s1)) s3 [] -> polled s3 s4 -> counted (asked x d a s4)).
    { intros s1 evs c d s3 s4 a P MS P3 P4. apply polled_pre in P4 as (ev4 & P4 & _). destruct (ST2 s1 evs c d s3 [] P MS P3) as [A B].
      pose proof (counted_pre _ _ _ P4 A) as [_ B4]. unfold counted.
      assert (C4 : calls (s_trace s4) < s_iter s4).
      { rewrite (p_trace _ _ _ P4), (calls_app _ _ (check_quiet _ (p_evs _ _ _ P4))), (calm_iter _ _ (p_calm _ _ _ P4)). exact B. }
      split; [|exact B4]. change (calls (s_trace (asked x d a s4))) with (S (calls (s_trace s4))). exact C4. }
    destruct E as [s1 evs P R|e s1 evs P|e s1 evs c P MS _|s1 evs c d s3 evs3 P MS _ P3 R3
                  |e s1 evs c d s3 P MS _ P3|e s1 evs c d s3 s4 P MS _ P3 P4 _
                  |a v s1 evs c d s3 s4 s7 s8 evs8 P MS _ P3 P4 EA EV' ER P8 A8].
    - apply (counted_pre _ _ _ P), L.
    - apply (counted_pre _ _ _ P), L.
    - now apply (ST s1 evs).
    - now apply (ST2 s1 evs c d s3 evs3).
    - now apply (ST2 s1 evs c d s3 []).
    - now apply (EV s1 evs c d s3).
    - specialize (EV s1 evs c d s3 s4 (Dict a) P MS P3 P4).
      assert (L5 : counted (answered G v a (asked x d (Dict a) s4))).
      { unfold answered. destruct (_ =? 0)%Z; [exact EV|]. apply (counted_ext (asked x d (Dict a) s4) _ [EvCleared ByStatus]); auto. repeat constructor. }
      apply (respond_resp G _ _ (status_of a)) in ER as (ev7 & R7 & _); [|reflexivity].
      apply (counted_pre _ _ _ P8). apply (counted_ext _ s7 ev7 (rp_trace _ _ _ R7) (answer_quiet _ (rp_evs _ _ _ R7)) (f_equal s_iter (rp_same _ _ _ R7)) L5).
  Qed.
  Lemma counted_closed : closed G W counted (fun _ => counted).
  Proof.
    constructor; auto.
    - intros x it s H _. now apply counted_routine.
    - intros x it _ s H. now apply counted_routine.
  Qed.
  Theorem session_budget cs rs s : program G W cs = Ok (rs, s) -> (Z.of_nat (calls (history s)) <= Z.max 0 (g_max_total G))%Z.
  Proof.
    intros H. unfold program in H. apply rbind_ok in H as (s0 & E0 & H). injection H as H.
    assert (K : counted (snd (session G W cs s0))).
    { apply session_keeps.
      - apply keeps_execute; [apply closed_narrow, counted_closed|auto|]. intros f o u K _. apply (counted_ext u _ [EvLogged f o; EvFinal f]); auto. repeat constructor.
      - auto.
      - unfold new_state in E0. apply rbind_ok in E0 as (c & _ & E0). injection E0 as <-. unfold counted. cbn. lia. }
    rewrite H in K. destruct K as [A B]. rewrite calls_history. cbn [snd] in *. lia.
  Qed.

  (** ** stopping *)
  Theorem session_stopped cs s rs s' : s_running s = false -> ~ In Resume cs -> session G W cs s = (rs, s') ->
    s_running s' = false /\ exists evs, history s' = history s ++ evs /\ no_call evs.
  Proof.
    intros R NR E.
    assert (K : stopped (s_trace s) (snd (session G W cs s))).
    { apply session_keeps.
      - apply keeps_execute; [apply closed_narrow, stopped_closed|auto|]. intros f o u K _. apply (stopped_ext (s_trace s) u _ [EvLogged f o; EvFinal f]); auto; [repeat constructor|apply K].
      - intros F. now apply NR in F.
      - split; [exact R|]. exists []. split; [reflexivity|constructor]. }
    rewrite E in K. destruct K as [A (l & B & C)]. split; [exact A|]. exists (rev l). unfold history. cbn [snd] in B. rewrite B, rev_app_distr. split; [reflexivity|].
    intros x d a I. apply in_rev in I. exact (quiet_no_call l C x d a I).
  Qed.
End Session.

Section Best.
  Context {N : Num} (NO : NumOrder N) (NS : NumSign N) (G : settings) (W : world).
  Hypothesis PR : plain_run G.
  Definition bested (s : st) : Prop := re_step (s_re s) = 0 /\ is_best (costs G (s_trace s)) (s_best s).
  Lemma bested_ext s t evs : s_trace t = evs ++ s_trace s -> Forall quiet_event evs -> re_step (s_re t) = re_step (s_re s) -> s_best t = s_best s -> bested s -> bested t.
  Proof. intros E Q E1 E2 [A B]. unfold bested. rewrite E, E1, E2, (costs_quiet _ _ _ Q). auto. Qed.
  Lemma bested_pre s t evs : pre s t evs -> bested s -> bested t.
  Proof.
    intros P. apply (bested_ext s t evs); [apply P|apply check_quiet, P|exact (f_equal (fun u => re_step (s_re u)) (p_calm _ _ _ P))|exact (f_equal s_best (p_calm _ _ _ P))].
  Qed.
  Lemma bested_ask x it s : bested s -> s_is_record s = false -> ends bested (fun _ => bested) (routine_call G W x it s).
  Proof.
    intros L Hrec. unfold ends. destruct (routine_call G W x it s) as [r s'] eqn:E. cbn [fst snd] in *. apply routine_cases in E.
    assert (ST2 : forall s1 evs c d s3 evs3, pre s s1 evs -> pre (handed c d (started x it s1)) s3 evs3 -> bested s3).
    { intros s1 evs c d s3 evs3 P1 P3. apply (bested_pre _ _ _ P3). exact (bested_pre _ _ _ P1 L). }
    assert (ST4 : forall s1 evs c d s3 s4, pre s s1 evs -> pre (handed c d (started x it s1)) s3 [] -> polled s3 s4 ->
                   bested s4 /\ s_is_record s4 = false /\ s_sent s4 = Some d).
    { intros s1 evs c d s3 s4 P1 P3 P4. apply polled_pre in P4 as (ev4 & P4 & _).
      pose proof (p_calm _ _ _ P4) as C4. pose proof (p_calm _ _ _ P3) as C3. pose proof (p_calm _ _ _ P1) as C1.
      split; [apply (bested_pre _ _ _ P4); now apply (ST2 s1 evs c d s3 [])|]. split.
      - rewrite (f_equal s_is_record C4). cbn. rewrite (f_equal s_is_record C3). cbn. now rewrite (f_equal s_is_record C1).
      - rewrite (f_equal s_sent C4). cbn. now rewrite (f_equal s_sent C3). }
    destruct E as [s1 evs P1 R|e s1 evs P1|e s1 evs c P1 MS _|s1 evs c d s3 evs3 P1 MS _ P3 R3
                  |e s1 evs c d s3 P1 MS _ P3|e s1 evs c d s3 s4 P1 MS _ P3 P4 HB
                  |a v s1 evs c d s3 s4 s7 s8 evs8 P1 MS _ P3 P4 EA EV ER P8 A8].
    - exact (bested_pre _ _ _ P1 L).
    - exact (bested_pre _ _ _ P1 L).
    - exact (bested_pre _ _ _ P1 L).
    - exact (ST2 _ _ _ _ _ _ P1 P3).
    - exact (ST2 _ _ _ _ _ _ P1 P3).
    - destruct (ST4 s1 evs c d s3 s4 P1 P3 P4) as ([A B] & _).
      set (ans := w_fom W (d :: s_hist s)) in *.
      assert (HV : user_value ans = None).
      { destruct HB as [(-> & ->)|[(a & -> & Ea & ->)|(a & -> & Ea & ->)]]; cbn; rewrite ?Ea; auto. }
      split; [exact A|]. change (s_trace (asked x d ans s4)) with (EvEval x d ans :: s_trace s4). cbn. rewrite HV. exact B.
    - destruct (ST4 s1 evs c d s3 s4 P1 P3 P4) as ([A B] & Er & Es).
      set (s6 := answered G v a (asked x d (Dict a) s4)) in *.
      assert (E6 : s_best s6 = s_best s4 /\ s_is_record s6 = false /\ s_sent s6 = Some d /\ re_step (s_re s6) = 0 /\ s_fom s6 = cost G v /\
                   s_status s6 = Some (status_of a) /\ costs G (s_trace s6) = cost G v :: costs G (s_trace s4)).
      { rewrite <- Er, <- Es, <- A, <- (factor_cost NS G v). unfold s6, answered. destruct (_ =? 0)%Z; cbn; rewrite EV, (factor_cost NS G v); auto 10. }
      destruct E6 as (B1 & B2 & B3 & B4 & B5 & B6 & B7).
      pose proof ER as ER'. apply (respond_resp G _ _ (status_of a)) in ER' as (ev7 & R7 & _); [|exact B6].
      rewrite (respond_plain G d (status_of a) s6 (proj1 PR) B4 B3 B6 B2) in ER. injection ER as <-.
      apply (bested_pre _ _ _ P8). split; [exact B4|]. rewrite (rp_trace _ _ _ R7), (costs_quiet _ _ _ (answer_quiet _ (rp_evs _ _ _ R7))), B7, plain_best. unfold better. rewrite B1, B5.
      apply (is_best_cons NO). exact B.
  Qed.
  Lemma bested_closed : closed G W bested (fun _ => bested).
  Proof.
    pose proof (no_adjust G PR) as NA. constructor; auto; try (intros; exfalso; eauto; fail).
    - intros s [_ B]. split; [reflexivity|exact B].
    - intros x it s H K. now apply bested_ask.
  Qed.
  Theorem session_best cs rs s : program G W cs = Ok (rs, s) -> is_best (costs G (history s)) (s_best s).
  Proof.
    intros H. unfold program in H. apply rbind_ok in H as (s0 & E0 & H). injection H as H.
    assert (K : bested (snd (session G W cs s0))).
    { apply session_keeps.
      - apply keeps_execute; [apply closed_narrow, bested_closed|auto|]. intros f o u K _. apply (bested_ext u _ [EvLogged f o; EvFinal f]); auto. repeat constructor.
      - auto.
      - unfold new_state in E0. apply rbind_ok in E0 as (c & _ & E0). injection E0 as <-. split; [reflexivity|]. split; [now left|intros v []]. }
    rewrite H in K. destruct K as [_ B]. revert B. apply is_best_ext. intros v. symmetry. apply in_costs.
  Qed.
End Best.
