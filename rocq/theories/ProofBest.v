(** One evaluation of a plain run, and the best vector of the gradient algorithms. *)
From Coq Require Import String ZArith List Bool Lia.
From RecordUpdate Require Import RecordSet.
From Verif Require Import Num Py PyFacts ModelPulse ModelControls ModelLinalg ModelState ModelSearch ModelRun SpecRun
  ProofSim ProofSimRun ProofRoutine ProofRespond ProofCore ProofPlain ProofAnswers ProofHistory.
Import ListNotations RecordSetNotations.
Open Scope list_scope.
Open Scope bool_scope.
Open Scope run_scope.

Section Best.
  Context {N : Num} (NO : NumOrder N) (NS : NumSign N) (G : settings) (W : world).
  Hypothesis PR : plain_run G.

  (** controls after handing [x] over, or unchanged if nothing was delivered *)
  Definition delivers (x : vec) (c c' : controls) : Prop := c' = c \/ exists d, get_controls_lists x c = Ok (c', d).

  Record quietly (s s' : st) : Prop := mk_quietly {
    qy_best : s_best s' = s_best s;
    qy_best_xx : s_best_xx s' = s_best_xx s;
    qy_book : s_book s' = s_book s;
    qy_xx : s_xx s' = s_xx s
  }.
  Inductive padds (x : vec) (s : st) : res num -> st -> Prop :=
  | pa_none r s' evs : s_trace s' = evs ++ s_trace s -> Forall check_event evs ->
      s_best s' = s_best s -> s_best_xx s' = s_best_xx s -> s_book s' = s_book s -> delivers x (s_controls s) (s_controls s') ->
      (s_xx s' = s_xx s \/ s_xx s' = Some x) ->
      (forall y, r = Ok y -> s_running s' = false) -> padds x s r s'
  | pa_bad d s' evs : s_trace s' = EvEval x d (w_fom W (d :: s_hist s)) :: evs ++ s_trace s -> Forall check_event evs ->
      s_best s' = s_best s -> s_best_xx s' = s_best_xx s -> s_book s' = s_book s -> delivers x (s_controls s) (s_controls s') ->
      user_value (w_fom W (d :: s_hist s)) = None ->
      padds x s (Err (complaint (w_fom W (d :: s_hist s)))) s'
  | pa_good d v s' evs evs1 :
      s_trace s' = evs1 ++ EvEval x d (w_fom W (d :: s_hist s)) :: evs ++ s_trace s ->
      Forall check_event evs -> Forall quiet_event evs1 ->
      user_value (w_fom W (d :: s_hist s)) = Some v ->
      hands G x s (s_controls s') d ->
      s_best s' = (if (cost G v <? s_best s)%num then cost G v else s_best s) ->
      s_best_xx s' = (if (cost G v <? s_best s)%num then Some x else s_best_xx s) ->
      s_book s' = s_book s -> s_xx s' = Some x ->
      padds x s (Ok (cost G v)) s'.

  Lemma padds_routine x it s r s' : re_step (s_re s) = 0 -> s_is_record s = false ->
    routine_call G W x it s = (r, s') -> padds x s r s'.
  Proof.
    intros St Hrec E. apply routine_cases in E.
    assert (C1 : forall s1 evs, pre s s1 evs -> s_best s1 = s_best s /\ s_best_xx s1 = s_best_xx s /\ s_book s1 = s_book s /\
                   s_controls s1 = s_controls s /\ s_re s1 = s_re s /\ s_is_record s1 = s_is_record s /\ s_xx s1 = s_xx s).
    { intros s1 evs P1. pose proof (p_calm _ _ _ P1) as C.
      rewrite (f_equal s_best C), (f_equal s_best_xx C), (f_equal s_book C), (f_equal s_controls C), (f_equal s_re C),
        (f_equal s_is_record C), (f_equal s_xx C). repeat split. }
    assert (C3 : forall s1 evs c d s3 evs3, pre s s1 evs -> pre (handed c d (started x it s1)) s3 evs3 ->
                   s_best s3 = s_best s /\ s_best_xx s3 = s_best_xx s /\ s_book s3 = s_book s /\
                   s_controls s3 = c /\ s_re s3 = s_re s /\ s_is_record s3 = s_is_record s /\ s_xx s3 = Some x /\
                   s_sent s3 = Some d /\ s_trace s3 = (evs3 ++ evs) ++ s_trace s /\ Forall check_event (evs3 ++ evs)).
    { intros s1 evs c d s3 evs3 P1 P3. destruct (C1 _ _ P1) as (K1 & K2 & K3 & K4 & K5 & K6 & K7).
      pose proof (p_calm _ _ _ P3) as C.
      rewrite (f_equal s_best C), (f_equal s_best_xx C), (f_equal s_book C), (f_equal s_controls C), (f_equal s_re C),
        (f_equal s_is_record C), (f_equal s_xx C), (f_equal s_sent C). cbn. repeat (split; auto).
      - rewrite (p_trace _ _ _ P3). cbn. rewrite (p_trace _ _ _ P1). apply app_assoc.
      - apply Forall_app. split; [apply P3|apply P1]. }
    assert (HD : forall c d, hands G x s c d -> delivers x (s_controls s) c).
    { intros c d (d' & K & _). right. eauto. }
    destruct E as [s1 evs P1 R|e s1 evs P1|e s1 evs c P1 MS HC|s1 evs c d s3 evs3 P1 MS HH P3 R3
                  |e s1 evs c d s3 P1 MS HH P3|e s1 evs c d s3 s4 P1 MS HH P3 P4 HB
                  |a v s1 evs c d s3 s4 s7 s8 evs8 P1 MS HH P3 P4 EA EV ER P8 A8].
    - destruct (C1 _ _ P1) as (K1 & K2 & K3 & K4 & K5 & K6 & K7).
      apply (pa_none x s _ s1 evs); [apply P1|apply P1|auto|auto|auto|now left|now left|auto].
    - destruct (C1 _ _ P1) as (K1 & K2 & K3 & K4 & K5 & K6 & K7).
      apply (pa_none x s _ s1 evs); [apply P1|apply P1|auto|auto|auto|now left|now left|discriminate].
    - destruct (C1 _ _ P1) as (K1 & K2 & K3 & K4 & K5 & K6 & K7).
      apply (pa_none x s _ _ evs); [apply P1|apply P1|auto|auto|auto| |now right|discriminate].
      destruct HC as [->|(d & K)]; [now left|right; eauto].
    - destruct (C3 _ _ _ _ _ _ P1 P3) as (K1 & K2 & K3 & K4 & K5 & K6 & K7 & K8 & K9 & K10).
      apply (pa_none x s _ s3 (evs3 ++ evs)); [auto..| |auto|auto]. rewrite K4. eauto.
    - destruct (C3 _ _ _ _ _ _ P1 P3) as (K1 & K2 & K3 & K4 & K5 & K6 & K7 & K8 & K9 & K10).
      apply (pa_none x s _ s3 ([] ++ evs)); [auto..| |auto|discriminate]. rewrite K4. eauto.
    - apply polled_pre in P4 as (ev4 & P4 & _). pose proof (pre_trans _ _ _ _ _ P3 P4) as P34.
      destruct (C3 _ _ _ _ _ _ P1 P34) as (K1 & K2 & K3 & K4 & K5 & K6 & K7 & K8 & K9 & K10).
      assert (HV : user_value (w_fom W (d :: s_hist s)) = None /\ e = complaint (w_fom W (d :: s_hist s))).
      { destruct HB as [(-> & ->)|[(a & -> & Ea & ->)|(a & -> & Ea & ->)]]; cbn; rewrite ?Ea; auto. }
      destruct HV as [HV1 ->]. eapply (pa_bad x s d); eauto.
      + cbn. now rewrite K9.
      + cbn. rewrite K4. eauto.
    - apply polled_pre in P4 as (ev4 & P4 & _). pose proof (pre_trans _ _ _ _ _ P3 P4) as P34.
      destruct (C3 _ _ _ _ _ _ P1 P34) as (K1 & K2 & K3 & K4 & K5 & K6 & K7 & K8 & K9 & K10).
      set (s6 := answered G v a (asked x d (Dict a) s4)) in *.
      assert (E6 : s_best s6 = s_best s /\ s_best_xx s6 = s_best_xx s /\ s_book s6 = s_book s /\ s_controls s6 = c /\
                   s_is_record s6 = false /\ s_sent s6 = Some d /\ re_step (s_re s6) = 0 /\ s_xx s6 = Some x /\
                   s_fom s6 = cost G v /\ s_status s6 = Some (status_of a)).
      { rewrite <- K1, <- K2, <- K3, <- K4, <- K8, <- K7, <- (factor_cost NS G v), <- St, <- K5, <- Hrec, <- K6.
        unfold s6, answered. destruct (_ =? 0)%Z; cbn; auto 12. }
      destruct E6 as (B1 & B2 & B3 & B4 & B5 & B6 & B7 & B8 & B9 & B10).
      rewrite (respond_plain G d (status_of a) s6 (proj1 PR) B7 B6 B10 B5) in ER. injection ER as <-.
      pose proof (p_calm _ _ _ P8) as C8.
      assert (F8 : s_fom s8 = cost G v) by (rewrite (f_equal s_fom C8); exact B9).
      assert (BT : better s6 = (cost G v <? s_best s)%num) by (unfold better; now rewrite B1, B9).
      rewrite F8.
      assert (T7 : exists l, Forall quiet_event l /\
                    s_trace (plain G d (status_of a) s6) = l ++ EvEval x d (Dict a) :: s_trace s4).
      { assert (T6 : exists l, Forall quiet_event l /\ s_trace s6 = l ++ EvEval x d (Dict a) :: s_trace s4).
        { unfold s6, answered. destruct (_ =? 0)%Z; [exists []|exists [EvCleared ByStatus]]; split; repeat constructor. }
        destruct T6 as (l & Ql & T6). rewrite plain_trace, T6.
        destruct (good _), (better s6).
        - exists (EvPlot (s_iter s6) (s_fom s6) :: EvSave (mk_saved d (s_fom s6) None (super_of G s6) (s_iter s6) (Some (status_of a))) :: l).
          split; [now repeat constructor|reflexivity].
        - exists (EvPlot (s_iter s6) (s_fom s6) :: l). split; [now repeat constructor|reflexivity].
        - exists (EvCleared ByStatus :: l). split; [now repeat constructor|reflexivity].
        - exists (EvCleared ByStatus :: l). split; [now repeat constructor|reflexivity]. }
      destruct T7 as (l & Ql & T7).
      apply (pa_good x s d v s8 ((ev4 ++ []) ++ evs) (evs8 ++ l)).
      + rewrite (p_trace _ _ _ P8), T7, EA, K9, <- (app_assoc evs8 l). reflexivity.
      + exact K10.
      + apply Forall_app. split; [apply check_quiet, P8|exact Ql].
      + rewrite EA. cbn. now rewrite EV.
      + replace (s_controls s8) with c; [exact HH|]. rewrite (f_equal s_controls C8). symmetry. exact B4.
      + rewrite (f_equal s_best C8). rewrite <- BT, <- B1, <- B9. reflexivity.
      + rewrite (f_equal s_best_xx C8). rewrite <- BT, <- B2, <- B8. reflexivity.
      + rewrite (f_equal s_book C8). exact B3.
      + rewrite (f_equal s_xx C8). exact B8.
  Qed.

  (** ** best vector of GRAPE and AD *)
  Definition bx (s : st) : Prop :=
    (s_best_xx s = None /\ s_best s = ceiling) \/
    exists l x d a past v, s_trace s = l ++ EvEval x d a :: past /\ user_value a = Some v /\ cost G v = s_best s /\
      improves G past a /\ s_best_xx s = Some x.
  Lemma bx_ext s t evs : s_trace t = evs ++ s_trace s -> s_best t = s_best s -> s_best_xx t = s_best_xx s -> bx s -> bx t.
  Proof.
    intros E1 E2 E3 [[A B]|(l & x & d & a & past & v & A & B & C & D & F)].
    - left. rewrite E2, E3. auto.
    - right. exists (evs ++ l), x, d, a, past, v. rewrite E1, E2, E3, A. repeat split; auto. apply app_assoc.
  Qed.
  Definition pbx (s : st) : Prop := plive G s /\ bx s.
  Definition pbx_end (e : exn) (s : st) : Prop := pend G e s /\ bx s.
  Lemma improves_quiet l past a : Forall quiet_event l -> improves G past a -> improves G (l ++ past) a.
  Proof. intros H. apply improves_ext. intros v. now rewrite (costs_quiet G l past H). Qed.
  Lemma pbx_ask x it s : pbx s -> s_is_record s = false -> ends pbx pbx_end (routine_call G W x it s).
  Proof.
    intros [P B] Hr. pose proof (plain_ask NO NS G W PR x it s P Hr) as K. unfold ends in *.
    destruct (routine_call G W x it s) as [r s'] eqn:E. cbn [fst snd] in *.
    assert (B' : bx s').
    { apply padds_routine in E; auto; [|apply P].
      destruct E as [r s' evs T _ E1 E2 _ _ _ _|d s' evs T _ E1 E2 _ _ _|d v s' evs evs1 T Q Q1 U _ E1 E2 _ _].
      - now apply (bx_ext s s' evs).
      - now apply (bx_ext s s' (EvEval x d (w_fom W (d :: s_hist s)) :: evs)).
      - destruct (cost G v <? s_best s)%num eqn:Eb.
        + right. exists evs1, x, d, (w_fom W (d :: s_hist s)), (evs ++ s_trace s), v. repeat split; auto.
          apply improves_quiet; [now apply check_quiet|]. apply (best_improves NO _ _ _ (pl_best _ _ (q_pl _ _ P))) in Eb.
          exists v. auto.
        + apply (bx_ext s s' (evs1 ++ EvEval x d (w_fom W (d :: s_hist s)) :: evs)); auto.
          rewrite T, <- app_assoc. reflexivity. }
    destruct r; split; auto.
  Qed.
  Lemma pbx_closed : has_dsm G = false -> closed G W pbx pbx_end.
  Proof.
    intros HD. pose proof (plain_closed NO NS G W PR) as CC. pose proof (no_adjust G PR) as NA.
    constructor.
    - intros e s [A B]. split; [now apply (plive_pend G)|exact B].
    - intros g s [A B]. split; [now apply (cl_cnt _ _ _ _ CC)|now apply (bx_ext s _ [])].
    - intros g s [A B]. split; [now apply (cl_sc _ _ _ _ CC)|now apply (bx_ext s _ [])].
    - intros g s [A B]. split; [now apply (cl_reason _ _ _ _ CC)|now apply (bx_ext s _ [])].
    - intros s [A B]. split; [now apply (cl_clear _ _ _ _ CC)|now apply (bx_ext s _ [EvCleared ByAsync])].
    - intros s [A B]. split; [now apply (cl_re0 _ _ _ _ CC)|now apply (bx_ext s _ [])].
    - intros g s A. now apply NA in A.
    - intros g s A. now apply NA in A.
    - intros g s [A B]. split; [now apply (cl_book _ _ _ _ CC)|now apply (bx_ext s _ [])].
    - intros g s [A B]. split; [now apply (cl_record _ _ _ _ CC)|now apply (bx_ext s _ [])].
    - intros g s D. congruence.
    - intros g s [A B]. split; [now apply (cl_controls _ _ _ _ CC)|now apply (bx_ext s _ [])].
    - intros d s [A B]. split; [now apply (cl_grad _ _ _ _ CC)|now apply (bx_ext s _ [EvGrad d])].
    - intros g s A. now apply NA in A.
    - intros g s A. now apply NA in A.
    - intros x it s H K. now apply pbx_ask.
    - intros x it A. now apply NA in A.
  Qed.
  Theorem best_vector r s : has_dsm G = false -> optimise G W = Ok (r, s) ->
    (s_best_xx s = None /\ s_best s = ceiling) \/
    exists tr1 x d a tr2 v, history s = tr1 ++ EvEval x d a :: tr2 /\ user_value a = Some v /\ cost G v = s_best s /\
      improves G tr1 a /\ s_best_xx s = Some x.
  Proof.
    intros HD H. assert (B : bx s).
    { revert H. apply (keeps_optimise G W pbx pbx_end (fun _ => bx) r s).
      - now apply pbx_closed.
      - intros t H. split; [now apply (new_state_plive G W)|]. unfold new_state in H. apply rbind_ok in H as (c & _ & H).
        injection H as <-. left. split; reflexivity.
      - intros t u [A B]. split; [|now apply (bx_ext u _ [])].
        apply (plive_same G u); auto. destruct (q_live _ _ A) as [[A1 A2 A3 A4 A5] F K].
        constructor; [constructor|..]; assumption.
      - intros e u H. apply H.
      - intros f o u [A B] _ _. now apply (bx_ext u _ [EvLogged f o; EvFinal f]). }
    destruct B as [B|(l & x & d & a & past & v & A & B & C & D & F)]; [now left|right].
    exists (rev past), x, d, a, (rev l), v. repeat split; auto.
    - unfold history. rewrite A, rev_app_distr. cbn. now rewrite <- app_assoc.
    - now apply improves_rev.
  Qed.

  (** ** reported value *)
  Theorem reported r s f : optimise G W = Ok (r, s) -> In (EvFinal f) (history s) -> f_fom f = cost G (s_best s).
  Proof.
    intros H K. apply finished_optimise in H. unfold history in K. apply in_rev in K. destruct r as [u|e]; cbn in H.
    - destruct H as (past & g & o & u' & T & F & -> & EF & _). rewrite T in K. destruct K as [K|[K|K]]; [discriminate| |].
      + injection K as <-. cbn. rewrite <- (factor_cost NS). unfold final_results, bind, get, ret, raise in EF.
        destruct (g_kind G); try (now injection EF as <-). destruct (s_xx u'); [now injection EF as <-|discriminate].
      + rewrite Forall_forall in F. exfalso. apply (F _ K). exact I.
    - rewrite Forall_forall in H. exfalso. apply (H _ K). exact I.
  Qed.
  Theorem reports_once s : optimise G W = Ok (Ok tt, s) -> exists tr f o, history s = tr ++ [EvFinal f; EvLogged f o] /\
    forall g, ~ In (EvFinal g) tr.
  Proof.
    intros H. apply finished_optimise in H as (past & g & o & u' & T & F & _). exists (rev past), g, o. split.
    - unfold history. rewrite T. cbn. now rewrite <- app_assoc.
    - intros f K. apply in_rev in K. rewrite Forall_forall in F. apply (F _ K). exact I.
  Qed.
End Best.
