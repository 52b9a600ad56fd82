(** What one call of the evaluation routine does. *)
From Coq Require Import String ZArith List Bool Lia.
From RecordUpdate Require Import RecordSet.
From Verif Require Import Num Py ModelPulse ModelControls ModelLinalg ModelState ModelSearch ModelRun.
Import ListNotations RecordSetNotations.
Open Scope list_scope.
Open Scope bool_scope.
Open Scope run_scope.

Section Routine.
  Context {N : Num} (G : settings) (W : world).

  (** only the running flag, the reason, the trace, the stopping criteria and the clock and poll counters differ *)
  Definition calm (s t : st) : Prop :=
    t = s <|s_running := s_running t|> <|s_reason := s_reason t|> <|s_trace := s_trace t|> <|s_sc := s_sc t|>
          <|s_cnt := (s_cnt s) <|k_clock := k_clock (s_cnt t)|> <|k_poll := k_poll (s_cnt t)|>|>.
  Lemma calm_refl s : calm s s.
  Proof. unfold calm. destruct s as [? ? ? ? ? ? ? ? ? ? ? ? ? ? ? ? ? ? ? ? ? []]; reflexivity. Qed.
  Lemma calm_trans s t u : calm s t -> calm t u -> calm s u.
  Proof.
    unfold calm. intros H K. rewrite H in K. cbn in K. rewrite K. cbn. reflexivity.
  Qed.

  Definition clears (e : event) : bool := match e with EvCleared _ => true | _ => false end.
  Definition check_event (e : event) : Prop :=
    match e with EvElapsed _ | EvCleared _ => True | _ => False end.

  (** a step that only adds checks and stops to the trace *)
  Record pre (s t : st) (evs : list event) : Prop := mk_pre {
    p_calm : calm s t;
    p_trace : s_trace t = evs ++ s_trace s;
    p_evs : Forall check_event evs;
    p_run : s_running t = s_running s && negb (existsb clears evs)
  }.
  Lemma pre_refl s : pre s s [].
  Proof. constructor; auto using calm_refl. cbn. now rewrite andb_true_r. Qed.
  Lemma pre_trans s t u e1 e2 : pre s t e1 -> pre t u e2 -> pre s u (e2 ++ e1).
  Proof.
    intros [A1 B1 C1 D1] [A2 B2 C2 D2]. constructor.
    - eapply calm_trans; eauto.
    - rewrite B2, B1. apply app_assoc.
    - now apply Forall_app.
    - rewrite D2, D1, existsb_app, negb_orb. destruct (s_running s), (existsb clears e1), (existsb clears e2); reflexivity.
  Qed.

  (** a point where the environment may act *)
  Definition polled (s t : st) : Prop :=
    pre s t [] \/ pre s t [EvCleared ByAsync].
  Lemma polled_pre s t : polled s t -> exists evs, pre s t evs /\ (evs = [] \/ evs = [EvCleared ByAsync]).
  Proof. intros [H|H]; eexists; split; eauto. Qed.

  Lemma pre_cnt s t evs f : (forall c, f c = c <|k_clock := k_clock (f c)|> <|k_poll := k_poll (f c)|>) ->
    pre (s <|s_cnt ::= f|>) t evs -> pre s t evs.
  Proof.
    intros Hf [A B C D]. constructor; auto. unfold calm in *. cbn in A. rewrite A. cbn.
    rewrite (Hf (s_cnt s)). cbn. reflexivity.
  Qed.

  Ltac solve_calm := unfold calm;
    repeat match goal with s : st |- _ => destruct s as [? ? ? ? ? ? ? ? ? ? ? ? ? ? ? ? ? ? ? ? ? []] end; reflexivity.
  Ltac solve_pre := constructor; [try solve_calm | cbn; try reflexivity | cbn; repeat constructor
                                 | cbn; try (now rewrite andb_false_r); try (now rewrite andb_true_r)].

  Lemma poll_cases s r t : poll G W s = (r, t) ->
    (r = Ok tt /\ polled s t) \/ (exists e, r = Err e /\ has_dsm G = false /\ pre s t []).
  Proof.
    unfold poll, bind, get, upd, clear, handle_user_cancellation, set_reason, set_conv, emit, upd.
    destruct (w_async W _).
    - intros H. injection H as <- <-. left. split; [reflexivity|]. left.
      solve_pre.
    - intros H. cbn in H. injection H as <- <-. left. split; [reflexivity|]. right.
      solve_pre.
    - destruct (has_dsm G); cbn; intros H; injection H as <- <-.
      + left. split; [reflexivity|]. right.
        solve_pre.
      + right. eexists. split; [reflexivity|]. split; [reflexivity|].
        solve_pre.
  Qed.

  (** stopping *)
  Lemma stop_cases why by_ s r t : stop_because G W why by_ s = (r, t) ->
    (r = Ok tt /\ s_running t = false /\ exists evs, pre s t evs /\ (evs = [EvCleared by_] \/ evs = [EvCleared by_; EvCleared ByAsync]))
    \/ (exists e, r = Err e /\ pre s t []).
  Proof.
    unfold stop_because, bind. destruct (poll G W s) as [[u|e] s1] eqn:E; apply poll_cases in E.
    - destruct E as [[_ P]|(e & K & _)]; [|discriminate].
      apply polled_pre in P as (evs & P & Hevs).
      assert (Q : forall s2, (s2 = s1 <|s_reason := why|> <|s_sc ::= set sc_conv (fun _ => true)|>
                                     <|s_running := false|> <|s_trace ::= cons (EvCleared by_)|>
                              \/ s2 = s1 <|s_reason := why|> <|s_running := false|> <|s_trace ::= cons (EvCleared by_)|>) ->
                 pre s1 s2 [EvCleared by_]).
      { intros s2 [-> | ->]; solve_pre. }
      intros H. left.
      assert (T : r = Ok tt /\ s_running t = false /\ pre s1 t [EvCleared by_]).
      { unfold set_reason, set_conv, clear, emit, upd, bind, ret in H. destruct (has_dsm G); cbn in H;
          injection H as <- <-; (split; [reflexivity|]; split; [reflexivity|]; apply Q); [left|right]; reflexivity. }
      destruct T as (-> & Hr & T). split; [reflexivity|]. split; [exact Hr|].
      exists (EvCleared by_ :: evs). split; [exact (pre_trans _ _ _ _ _ P T)|].
      destruct Hevs as [-> | ->]; [left|right]; reflexivity.
    - intros H. injection H as <- <-. destruct E as [[K _]|(e' & K & _ & P)]; [discriminate|].
      right. eauto.
  Qed.

  Lemma budget_cases s r t : check_budget G W s = (r, t) ->
    (r = Ok tt /\ t = s /\ (Z.of_nat (s_iter s) < g_max_total G)%Z)
    \/ (r = Ok tt /\ s_running t = false /\ exists evs, pre s t evs /\ forall x, ~ In (EvElapsed x) evs)
    \/ (exists e evs, r = Err e /\ pre s t evs).
  Proof.
    unfold check_budget, bind, get. destruct (_ <=? _)%Z eqn:E.
    - intros H. apply stop_cases in H as [(-> & Hr & evs & P & Hevs)|(e & -> & P)].
      + right. left. repeat split; auto. exists evs. split; auto.
        intros x Hx. destruct Hevs as [-> | ->]; cbn in Hx; intuition discriminate.
      + right. right. eauto.
    - intros H. injection H as <- <-. left. repeat split. apply Z.leb_gt in E. lia.
  Qed.

  (** the goal is not reached *)
  Definition goal_open (b : num) : Prop := forall g, goal G = Some g -> (b <=? g)%num = false.
  Lemma goal_cases s r t : check_goal G W s = (r, t) ->
    (r = Ok tt /\ t = s /\ goal_open (s_best s))
    \/ (r = Ok tt /\ s_running t = false /\ exists evs, pre s t evs /\ forall x, ~ In (EvElapsed x) evs)
    \/ (exists e evs, r = Err e /\ pre s t evs).
  Proof.
    unfold check_goal, bind, get, goal_open. destruct (goal G) as [g|].
    2: { intros H. injection H as <- <-. left. repeat split. discriminate. }
    destruct (_ <=? _)%num eqn:E.
    - intros H. apply stop_cases in H as [(-> & Hr & evs & P & Hevs)|(e & -> & P)].
      + right. left. repeat split; auto. exists evs. split; auto.
        intros x Hx. destruct Hevs as [-> | ->]; cbn in Hx; intuition discriminate.
      + right. right. eauto.
    - intros H. injection H as <- <-. left. repeat split. intros g' K. now injection K as <-.
  Qed.

  (** what the check of the total time adds to the trace when it lets the run go on *)
  Definition time_ok (evs : list event) : Prop :=
    ((g_total_lim G <? of_Z 10000000000)%num = false /\ evs = [])
    \/ ((g_total_lim G <? of_Z 10000000000)%num = true /\
        exists m, evs = [EvElapsed m] /\ (g_total_lim G <=? m)%num = false).
  Lemma time_cases s r t : check_total_time G W s = (r, t) ->
    (r = Ok tt /\ exists evs, pre s t evs /\ time_ok evs)
    \/ (r = Ok tt /\ s_running t = false /\ exists evs, pre s t evs)
    \/ (exists e evs, r = Err e /\ pre s t evs).
  Proof.
    unfold check_total_time, bind, get, now, upd, ret, raise, emit, upd.
    destruct (g_total_lim G <? _)%num eqn:El.
    2: { intros H. injection H as <- <-. left. split; [reflexivity|]. exists []. split; [apply pre_refl|]. now left. }
    cbn.
    set (s1 := s <|s_cnt ::= set k_clock S|>).
    assert (P1 : pre s s1 []).
    { unfold s1; solve_pre. }
    destruct (s_start s) as [t0|].
    2: { intros H. injection H as <- <-. right. right. eauto. }
    cbv beta iota.
    set (m := minutes t0 _). set (s2 := set s_trace _ s1).
    assert (P2 : pre s s2 [EvElapsed m]).
    { apply (pre_trans _ _ _ [] [EvElapsed m] P1). unfold s2; solve_pre. }
    destruct (_ <=? m)%num eqn:E.
    - intros H. apply stop_cases in H as [(-> & Hr & evs & P & Hevs)|(e & -> & P)].
      + right. left. repeat split; auto. eexists. eapply pre_trans; eauto.
      + right. right. eexists. eexists. split; [reflexivity|]. eapply pre_trans; eauto.
    - intros H. injection H as <- <-. left. split; [reflexivity|]. exists [EvElapsed m].
      split; [exact P2|]. right. split; [exact El|]. exists m. auto.
  Qed.

  (** an evaluation may start *)
  Record may_start (s : st) (evs : list event) : Prop := mk_may {
    ms_running : s_running s = true;
    ms_budget : (Z.of_nat (s_iter s) < g_max_total G)%Z;
    ms_goal : goal_open (s_best s);
    ms_time : time_ok evs
  }.

  Definition started (x : vec) (it : nat) (s : st) : st :=
    s <|s_xx := Some x|> <|s_alg_iter := it|> <|s_iter ::= S|>.
  Definition handed (c : controls) (d : delivered) (s : st) : st := s <|s_controls := c|> <|s_sent := Some d|>.
  Definition asked (x : vec) (d : delivered) (a : answer) (s : st) : st := s <|s_hist ::= cons d|> <|s_trace ::= cons (EvEval x d a)|>.
  Definition status_of (a : adict) : Z := match a_status a with Some c => c | None => 0%Z end.
  Definition answered (v : num) (a : adict) (s : st) : st :=
    (if (status_of a =? 0)%Z then s else s <|s_running := false|> <|s_trace ::= cons (EvCleared ByStatus)|>)
      <|s_fom := (factor G * v)%num|> <|s_std := a_std a|> <|s_status := Some (status_of a)|>.
  (** the controls handed over by [get_controls] *)
  Definition hands (x : vec) (s : st) (c : controls) (d : delivered) : Prop :=
    exists d', get_controls_lists x (s_controls s) = Ok (c, d') /\
      match g_kind G with
      | KDirect => d_pulses d' = [] /\ d_timegrids d' = [] /\ d = mk_delivered [] [] (d_parameters d')
      | _ => d = d'
      end.

  Inductive rc (x : vec) (it : nat) (s : st) : res num -> st -> Prop :=
  | rc_refused s1 evs : pre s s1 evs -> s_running s1 = false -> rc x it s (Ok initial_fom) s1
  | rc_raised e s1 evs : pre s s1 evs -> rc x it s (Err e) s1
  | rc_failed e s1 evs c : pre s s1 evs -> may_start s evs ->
      (c = s_controls s \/ exists d, get_controls_lists x (s_controls s) = Ok (c, d)) ->
      rc x it s (Err e) (started x it s1 <|s_controls := c|>)
  | rc_late s1 evs c d s3 evs3 : pre s s1 evs -> may_start s evs -> hands x s c d ->
      pre (handed c d (started x it s1)) s3 evs3 -> s_running s3 = false -> evs3 = [EvCleared ByAsync] -> rc x it s (Ok initial_fom) s3
  | rc_late_raised e s1 evs c d s3 : pre s s1 evs -> may_start s evs -> hands x s c d ->
      pre (handed c d (started x it s1)) s3 [] -> rc x it s (Err e) s3
  | rc_bad e s1 evs c d s3 s4 : pre s s1 evs -> may_start s evs -> hands x s c d ->
      pre (handed c d (started x it s1)) s3 [] -> polled s3 s4 ->
      (w_fom W (d :: s_hist s) = Raise /\ e = UserError
       \/ (exists a, w_fom W (d :: s_hist s) = Dict a /\ a_fom a = FMissing /\ e = KeyError)
       \/ (exists a, w_fom W (d :: s_hist s) = Dict a /\ a_fom a = FNone /\ e = TypeError)) ->
      rc x it s (Err e) (asked x d (w_fom W (d :: s_hist s)) s4)
  | rc_good a v s1 evs c d s3 s4 s7 s8 evs8 : pre s s1 evs -> may_start s evs -> hands x s c d ->
      pre (handed c d (started x it s1)) s3 [] -> polled s3 s4 ->
      w_fom W (d :: s_hist s) = Dict a -> a_fom a = FVal v ->
      respond G (answered v a (asked x d (Dict a) s4)) = (Ok tt, s7) ->
      pre s7 s8 evs8 -> Forall (fun e => e = EvCleared ByAsync) evs8 ->
      rc x it s (Ok (s_fom s8)) s8.

  Lemma std_ok s : exists v t, std_default s = (Ok v, t).
  Proof. unfold std_default, bind, get. destruct (s_std s); repeat eexists. Qed.
  Lemma average_ok o s : exists v t, get_average o s = (Ok v, t).
  Proof.
    unfold get_average, bind at 1, get. destruct (re_step (s_re s)) as [|k].
    - unfold bind. destruct (std_ok s) as (v & t & ->). repeat eexists.
    - destruct o as [[m sg]|]; [repeat eexists|]. unfold bind. destruct (std_ok s) as (v & t & ->). repeat eexists.
  Qed.
  Lemma note_ok v s : exists t, note_record v s = (Ok tt, t).
  Proof. unfold note_record, bind, get. destruct (v <? s_best s)%num; repeat eexists. Qed.
  Lemma log_ok v s : exists t, log_fom G v s = (Ok tt, t).
  Proof. unfold log_fom, bind, get. destruct (s_status s) as [c|]; [destruct (c =? 0)%Z|]; repeat eexists. Qed.
  Lemma save_ok b v o1 o2 i o3 s : exists t, update_controls b v o1 o2 i o3 s = (Ok tt, t).
  Proof. unfold update_controls, bind, get. destruct (s_sent s); [destruct b|]; repeat eexists. Qed.
  Lemma send_ok v o s : exists t, send_response v o s = (Ok tt, t).
  Proof.
    unfold send_response, bind at 1, get. destruct (s_status s) as [c|]; [|repeat eexists].
    destruct (c =? 0)%Z; [|repeat eexists]. unfold bind.
    destruct (save_ok (s_is_record s) v None o (s_iter s) (Some c) s) as (t & ->). repeat eexists.
  Qed.
  Lemma respond_ok s : exists t, respond G s = (Ok tt, t).
  Proof.
    unfold respond. destruct (g_kind G).
    - unfold bind at 1. destruct (average_ok None s) as ([v sg] & t & ->).
      unfold bind at 1. assert (E : exists t', (match g_steps G with None => note_record v | Some _ => ret tt end) t = (Ok tt, t'))
        by (destruct (g_steps G); [repeat eexists|apply note_ok]).
      destruct E as (t' & ->). unfold bind at 1. destruct (log_ok v t') as (t2 & ->).
      unfold bind, get. apply send_ok.
    - unfold bind at 1, get. cbv zeta. unfold bind at 1. 
      assert (E : exists t', (match g_steps G with
                              | None => note_record (s_fom s) ;;; log_fom G (s_fom s)
                              | Some _ => ' (avg, _) <- get_average None;; log_fom G avg end) s = (Ok tt, t')).
      { destruct (g_steps G).
        - unfold bind. destruct (average_ok None s) as ([v sg] & t & ->). apply log_ok.
        - unfold bind. destruct (note_ok (s_fom s) s) as (t & ->). apply log_ok. }
      destruct E as (t' & ->). apply send_ok.
    - unfold bind at 1, get. cbv zeta. unfold bind. destruct (note_ok (s_fom s) s) as (t & ->).
      destruct (log_ok (s_fom s) t) as (t2 & ->). apply send_ok.
    - unfold bind at 1, get. cbv zeta. unfold bind. destruct (note_ok (s_fom s) s) as (t & ->).
      destruct (log_ok (s_fom s) t) as (t2 & ->). apply send_ok.
  Qed.

  Lemma track_pre v s r t : add_to_track G v s = (r, t) -> r = Ok tt /\ pre s t [].
  Proof.
    unfold add_to_track. destruct (has_dsm G); [|intros H; injection H as <- <-; auto using pre_refl].
    destruct (g_cbs_n G) as [n|]; [|intros H; injection H as <- <-; auto using pre_refl].
    destruct (1 <? n)%Z; [|intros H; injection H as <- <-; auto using pre_refl].
    intros H. injection H as <- <-. split; [reflexivity|].
    solve_pre.
  Qed.
  Lemma pre_sc g s : pre s (s <|s_sc ::= g|>) [].
  Proof.
    solve_pre.
  Qed.
  Definition only_async (evs : list event) : Prop := Forall (fun e => e = EvCleared ByAsync) evs.
  Lemma poll_dsm s r t : has_dsm G = true -> poll G W s = (r, t) -> r = Ok tt /\ exists evs, pre s t evs /\ only_async evs.
  Proof.
    intros D H. apply poll_cases in H as [(-> & P)|(e & _ & K & _)]; [|congruence].
    split; [reflexivity|]. apply polled_pre in P as (evs & P & [-> | ->]); eexists; split; eauto; repeat constructor.
  Qed.
  Lemma advanced_pre s r t : check_advanced G W s = (r, t) -> r = Ok tt /\ exists evs, pre s t evs /\ only_async evs.
  Proof.
    unfold check_advanced.
    assert (Z0 : forall s' : st, (Ok tt, s') = (r, t) -> r = Ok tt /\ exists evs, pre s' t evs /\ only_async evs).
    { intros s' H. injection H as <- <-. split; [reflexivity|]. exists []. split; [apply pre_refl|constructor]. }
    destruct (has_dsm G) eqn:D; [|apply Z0].
    destruct (g_cbs_n G) as [n|]; [|apply Z0]. destruct (1 <? n)%Z; [|apply Z0].
    unfold bind at 1. destruct (poll G W s) as [r1 s1] eqn:E1. apply poll_dsm in E1 as (-> & e1 & P1 & A1); [|exact D].
    unfold bind at 1, set_sc_reason, upd. set (s2 := set s_sc _ s1).
    assert (P2 : pre s s2 e1). { apply (pre_trans _ _ _ e1 [] P1). apply pre_sc. }
    assert (Z1 : (Ok tt, s2) = (r, t) -> r = Ok tt /\ exists evs, pre s t evs /\ only_async evs).
    { intros H. injection H as <- <-. eauto. }
    destruct (g_cbs_change G) as [ch|]; [|apply Z1].
    unfold bind at 1, get. cbv zeta. destruct (n <=? _)%Z; [|apply Z1].
    destruct (_ <? ch)%num; [|apply Z1].
    unfold bind. destruct (poll G W s2) as [r3 s3] eqn:E3. apply poll_dsm in E3 as (-> & e3 & P3 & A3); [|exact D].
    intros H. injection H as <- <-. split; [reflexivity|]. exists (e3 ++ e1). split; [|now apply Forall_app].
    apply (pre_trans _ s3 _ (e3 ++ e1) []); [now apply (pre_trans _ s2)|]. apply pre_sc.
  Qed.

  (** calls and history are untouched before the evaluation *)
  Lemma calm_hist s t : calm s t -> s_hist t = s_hist s.
  Proof. intros H. exact (f_equal s_hist H). Qed.
  Lemma calm_controls s t : calm s t -> s_controls t = s_controls s.
  Proof. intros H. exact (f_equal s_controls H). Qed.
  Lemma calm_iter s t : calm s t -> s_iter t = s_iter s.
  Proof. intros H. exact (f_equal s_iter H). Qed.
  Lemma calm_best s t : calm s t -> s_best t = s_best s.
  Proof. intros H. exact (f_equal s_best H). Qed.

  Lemma checks_cases s r t : (check_budget G W;;; check_goal G W;;; check_total_time G W;;; get_running G W) s = (r, t) ->
    (exists evs, r = Ok true /\ pre s t evs /\ may_start s evs /\ s_running t = true)
    \/ (exists evs, r = Ok false /\ pre s t evs /\ s_running t = false)
    \/ (exists e evs, r = Err e /\ pre s t evs).
  Proof.
    unfold bind at 1. destruct (check_budget G W s) as [r1 s1] eqn:E1. apply budget_cases in E1.
    assert (H1 : exists ev1, pre s s1 ev1 /\
      ((exists e, r1 = Err e) \/
       (r1 = Ok tt /\ (s_running s1 = true -> s_running s = true /\ (Z.of_nat (s_iter s) < g_max_total G)%Z /\ ev1 = [])))).
    { destruct E1 as [(-> & -> & B)|[(-> & Hr & evs & P & _)|(e & evs & -> & P)]].
      - exists []. split; [apply pre_refl|]. right. auto.
      - exists evs. split; [exact P|]. right. split; [reflexivity|]. congruence.
      - exists evs. split; [exact P|]. left. eauto. }
    clear E1. destruct H1 as (ev1 & P1 & [(e & ->)|(-> & F1)]).
    { intros H. injection H as <- <-. right. right. eauto. }
    unfold bind at 1. destruct (check_goal G W s1) as [r2 s2] eqn:E2. apply goal_cases in E2.
    assert (H2 : exists ev2, pre s s2 ev2 /\
      ((exists e, r2 = Err e) \/
       (r2 = Ok tt /\ (s_running s2 = true -> s_running s = true /\ (Z.of_nat (s_iter s) < g_max_total G)%Z /\
                       goal_open (s_best s) /\ ev2 = [])))).
    { destruct E2 as [(-> & -> & B)|[(-> & Hr & evs & P & _)|(e & evs & -> & P)]].
      - exists ev1. split; [exact P1|]. right. split; [reflexivity|]. intros Hr.
        destruct (F1 Hr) as (? & ? & ?). repeat split; auto. now rewrite <- (calm_best _ _ (p_calm _ _ _ P1)).
      - exists (evs ++ ev1). split; [now apply (pre_trans _ s1)|]. right. split; [reflexivity|]. congruence.
      - exists (evs ++ ev1). split; [now apply (pre_trans _ s1)|]. left. eauto. }
    clear E2. destruct H2 as (ev2 & P2 & [(e & ->)|(-> & F2)]).
    { intros H. injection H as <- <-. right. right. eauto. }
    unfold bind at 1. destruct (check_total_time G W s2) as [r3 s3] eqn:E3. apply time_cases in E3.
    assert (H3 : exists ev3, pre s s3 ev3 /\
      ((exists e, r3 = Err e) \/
       (r3 = Ok tt /\ (s_running s3 = true -> s_running s = true /\ (Z.of_nat (s_iter s) < g_max_total G)%Z /\
                       goal_open (s_best s) /\ time_ok ev3)))).
    { destruct E3 as [(-> & evs & P & B)|[(-> & Hr & evs & P)|(e & evs & -> & P)]].
      - exists (evs ++ ev2). split; [now apply (pre_trans _ s2)|]. right. split; [reflexivity|]. intros Hr.
        rewrite (p_run _ _ _ P) in Hr. apply andb_true_iff in Hr as [Hr _].
        destruct (F2 Hr) as (? & ? & ? & ->). repeat split; auto. now rewrite app_nil_r.
      - exists (evs ++ ev2). split; [now apply (pre_trans _ s2)|]. right. split; [reflexivity|]. congruence.
      - exists (evs ++ ev2). split; [now apply (pre_trans _ s2)|]. left. eauto. }
    clear E3. destruct H3 as (ev3 & P3 & [(e & ->)|(-> & F3)]).
    { intros H. injection H as <- <-. right. right. eauto. }
    unfold get_running, bind, get, ret. destruct (poll G W s3) as [r4 s4] eqn:E4.
    apply poll_cases in E4 as [(-> & P)|(e & -> & _ & P)].
    2: { intros H. injection H as <- <-. right. right. exists e, ([] ++ ev3). split; [reflexivity|].
         now apply (pre_trans _ s3). }
    intros H. injection H as <- <-.
    apply polled_pre in P as (ev4 & P & Hev).
    destruct (s_running s4) eqn:R4.
    - left. destruct Hev as [-> | ->].
      2: { rewrite (p_run _ _ _ P) in R4. cbn in R4. now rewrite andb_false_r in R4. }
      rewrite (p_run _ _ _ P) in R4. cbn in R4. rewrite andb_true_r in R4.
      destruct (F3 R4) as (? & ? & ? & ?).
      exists ev3. split; [reflexivity|]. split; [exact (pre_trans _ _ _ _ _ P3 P)|]. split; [constructor; auto|reflexivity].
    - right. left. exists (ev4 ++ ev3). split; [reflexivity|]. split; [now apply (pre_trans _ s3)|reflexivity].
  Qed.

  Lemma bind_ok {A B} (m : M A) (k : A -> M B) s a s1 : m s = (Ok a, s1) -> bind m k s = k a s1.
  Proof. intros H. unfold bind. now rewrite H. Qed.
  Lemma bind_err {A B} (m : M A) (k : A -> M B) s e s1 : m s = (Err e, s1) -> bind m k s = (Err e, s1).
  Proof. intros H. unfold bind. now rewrite H. Qed.
  Lemma bind_get {B} (k : st -> M B) s : bind get k s = k s s.
  Proof. reflexivity. Qed.
  Lemma bind_upd {B} f (k : unit -> M B) s : bind (upd f) k s = k tt (f s).
  Proof. reflexivity. Qed.

  Theorem routine_cases x it s r s' : routine_call G W x it s = (r, s') -> rc x it s r s'.
  Proof.
    unfold routine_call.
    match goal with |- (_ ;;; _ ;;; _ ;;; (bind (get_running G W) ?k)) s = _ -> _ => set (rest := k) end.
    assert (E : (check_budget G W;;; check_goal G W;;; check_total_time G W;;; (bind (get_running G W) rest)) s
                = bind (check_budget G W;;; check_goal G W;;; check_total_time G W;;; get_running G W) rest s).
    { unfold bind. destruct (check_budget G W s) as [[u|e] s1]; [|reflexivity].
      destruct (check_goal G W s1) as [[u2|e] s2]; [|reflexivity].
      destruct (check_total_time G W s2) as [[u3|e] s3]; reflexivity. }
    rewrite E. clear E. unfold bind at 1.
    destruct ((check_budget G W;;; check_goal G W;;; check_total_time G W;;; get_running G W) s) as [r1 s1] eqn:E1.
    apply checks_cases in E1 as [(evs & -> & P & MS & R1)|[(evs & -> & P & R1)|(e & evs & -> & P)]].
    2: { cbn. intros H. injection H as <- <-. now apply (rc_refused x it s s1 evs). }
    2: { intros H. injection H as <- <-. now apply (rc_raised x it s e s1 evs). }
    cbv beta iota. unfold rest. clear rest. cbv beta iota. cbn [negb].
    rewrite bind_upd. cbv beta.
    change (set s_iter S (set s_alg_iter (fun _ => it) (set s_xx (fun _ => Some x) s1))) with (started x it s1).
    pose proof (calm_controls _ _ (p_calm _ _ _ P)) as EC.
    pose proof (calm_hist _ _ (p_calm _ _ _ P)) as EH.
    assert (HD : (exists c d, hands x s c d /\ get_controls G x (started x it s1) = (Ok d, started x it s1 <|s_controls := c|>))
                 \/ (exists e c, (c = s_controls s \/ exists d, get_controls_lists x (s_controls s) = Ok (c, d)) /\
                              get_controls G x (started x it s1) = (Err e, started x it s1 <|s_controls := c|>))).
    { unfold get_controls. rewrite bind_get. cbv beta.
      change (s_controls (started x it s1)) with (s_controls s1). rewrite EC.
      destruct (get_controls_lists x (s_controls s)) as [[c d']|e] eqn:EG.
      - unfold hands, bind, lift, upd. cbv beta iota. destruct (g_kind G); try (left; exists c, d'; split; [exists d'; auto|reflexivity]).
        destruct (d_pulses d') eqn:Ed.
        2: { right. exists ValueError, c. split; [right; eauto|reflexivity]. }
        destruct (d_timegrids d') eqn:Et.
        2: { right. exists ValueError, c. split; [right; eauto|reflexivity]. }
        left. exists c. eexists. split; [|reflexivity]. exists d'. auto.
      - right. exists e, (s_controls s). split; [auto|].
        transitivity (Err (A := delivered) e, started x it s1); [reflexivity|]. rewrite <- EC. destruct s1; reflexivity. }
    destruct HD as [(c & d & HD & EG)|(e & c & HD & EG)].
    2: { rewrite (bind_err _ _ _ _ _ EG). intros H. injection H as <- <-. now apply (rc_failed x it s e s1 evs). }
    rewrite (bind_ok _ _ _ _ _ EG), bind_upd. cbv beta.
    change (set s_sent (fun _ => Some d) _) with (handed c d (started x it s1)).
    set (s2 := handed c d (started x it s1)).
    unfold get_running. destruct (poll G W s2) as [r3 s3] eqn:E3.
    pose proof E3 as Q3. apply poll_cases in Q3 as [(-> & P3)|(e & -> & _ & P3)].
    2: { unfold bind at 1. rewrite (bind_err _ _ _ _ _ E3). intros H. injection H as <- <-.
         now apply (rc_late_raised x it s e s1 evs c d s3). }
    apply polled_pre in P3 as (ev3 & P3 & Hev3).
    unfold bind at 1. rewrite (bind_ok _ _ _ _ _ E3), bind_get. unfold ret at 1. cbv beta iota.
    destruct (s_running s3) eqn:R3; cbn [negb].
    2: { intros H. injection H as <- <-. apply (rc_late x it s s1 evs c d s3 ev3); auto.
         destruct Hev3 as [-> | ->]; [|reflexivity]. rewrite (p_run _ _ _ P3) in R3. cbn in R3. rewrite andb_true_r in R3.
         change (s_running s2) with (s_running s1) in R3. congruence. }
    assert (ev3 = []) as ->.
    { destruct Hev3 as [-> | ->]; [reflexivity|]. rewrite (p_run _ _ _ P3) in R3. cbn in R3.
      now rewrite andb_false_r in R3. }
    destruct (poll G W s3) as [r4 s4] eqn:E4. pose proof E4 as Q4.
    apply poll_cases in Q4 as [(-> & P4)|(e & -> & _ & P4)].
    2: { unfold bind at 1, get_data. rewrite (bind_err _ _ _ _ _ E4). intros H. injection H as <- <-.
         apply (rc_late_raised x it s e s1 evs c d s4); auto. exact (pre_trans _ _ _ [] [] P3 P4). }
    assert (P34 : exists ev, pre s2 s4 ev).
    { apply polled_pre in P4 as (ev4 & P4' & _). exists (ev4 ++ []). now apply (pre_trans _ s3). }
    destruct P34 as (ev34 & P34).
    assert (ES : s_sent s4 = Some d) by exact (f_equal s_sent (p_calm _ _ _ P34)).
    assert (EH4 : s_hist s4 = s_hist s)
      by (rewrite <- EH; exact (f_equal s_hist (p_calm _ _ _ P34))).
    set (ans := w_fom W (d :: s_hist s)).
    set (s5 := asked x d ans s4).
    assert (ED : get_data G W x s3 =
      (match ans with
        | Raise => raise UserError
        | Dict a =>
            match a_fom a with
            | FMissing => raise KeyError
            | FNone => raise TypeError
            | FVal v =>
                let status := match a_status a with Some c => c | None => 0%Z end in
                (if (status =? 0)%Z then ret tt else clear ByStatus);;;
                upd (fun s => s <|s_fom := (factor G * v)%num|> <|s_std := a_std a|> <|s_status := Some status|>)
            end
        end) s5).
    { unfold get_data. rewrite (bind_ok _ _ _ _ _ E4), bind_get. cbv beta. rewrite ES, EH4. reflexivity. }
    assert (EBAD : forall e, ans = Raise /\ e = UserError
       \/ (exists a, ans = Dict a /\ a_fom a = FMissing /\ e = KeyError)
       \/ (exists a, ans = Dict a /\ a_fom a = FNone /\ e = TypeError) ->
        get_data G W x s3 = (Err e, s5)).
    { intros e [(E & ->)|[(a & E & E2 & ->)|(a & E & E2 & ->)]]; rewrite ED, E; try rewrite E2; reflexivity. }
    assert (XBAD : forall e k, ans = Raise /\ e = UserError
       \/ (exists a, ans = Dict a /\ a_fom a = FMissing /\ e = KeyError)
       \/ (exists a, ans = Dict a /\ a_fom a = FNone /\ e = TypeError) ->
        bind (get_data G W x) k s3 = (r, s') -> rc x it s r s').
    { intros e k HE. rewrite (bind_err _ _ _ _ _ (EBAD e HE)). intros H. injection H as <- <-.
      now apply (rc_bad x it s e s1 evs c d s3 s4). }
    destruct ans as [|a] eqn:EA.
    { apply (XBAD UserError). auto. }
    destruct (a_fom a) as [| |v] eqn:EV.
    { apply (XBAD KeyError). right. left. eauto. }
    { apply (XBAD TypeError). right. right. eauto. }
    clear EBAD XBAD. cbv zeta in ED. fold (status_of a) in ED.
    assert (EB : get_data G W x s3 = (Ok tt, answered v a s5)).
    { rewrite ED. unfold answered. destruct (status_of a =? 0)%Z; reflexivity. }
    rewrite (bind_ok _ _ _ _ _ EB).
    destruct (respond_ok (answered v a s5)) as (s7 & E7). rewrite (bind_ok _ _ _ _ _ E7), bind_get. cbv beta.
    destruct (add_to_track G (s_fom s7) s7) as [r8 s8] eqn:E8.
    pose proof E8 as Q8. apply track_pre in Q8 as (-> & P8). rewrite (bind_ok _ _ _ _ _ E8).
    destruct (check_advanced G W s8) as [r9 s9] eqn:E9.
    pose proof E9 as Q9. apply advanced_pre in Q9 as (-> & ev9 & P9 & A9).
    rewrite (bind_ok _ _ _ _ _ E9), bind_get.
    intros H. injection H as <- <-.
    apply (rc_good x it s a v s1 evs c d s3 s4 s7 s9 (ev9 ++ [])); auto.
    - now apply (pre_trans _ s8).
    - now rewrite app_nil_r.
  Qed.
End Routine.
