(** The stopping criteria inside a whole run. *)
From Coq Require Import String ZArith List Bool Lia Reals Lra.
From Flocq Require Import Core.Raux.
From RecordUpdate Require Import RecordSet.
From Verif Require Import Num NumFacts Py PyFacts ModelPulse ModelControls ModelLinalg ModelState ModelSearch ModelRun
  SpecRun SpecSearch SpecStop SpecFit ProofSim ProofNM ProofHistory ProofPlain ProofBest ProofCancel ProofWalk ProofFit ProofStop.
Import ListNotations RecordSetNotations.
Open Scope nat_scope.
Open Scope list_scope.
Open Scope run_scope.

Section StopRun.
  Context {N : Num} (G : settings) (W : world).

  (** ** parts that change neither criteria, evaluations, stored reason nor figure of merit *)
  Definition still {A} (m : M A) : Prop := forall s a s', m s = (Ok a, s') ->
    s_sc s' = s_sc s /\ evals s' = evals s /\ b_term (s_book s') = b_term (s_book s) /\ s_fom s' = s_fom s.
  Lemma still_bind {A B} (m : M A) (k : A -> M B) : still m -> (forall a, still (k a)) -> still (bind m k).
  Proof.
    intros Hm Hk s b s' H. apply bind_ok in H as (a & s1 & E & H). apply Hm in E as (A1 & A2 & A3 & A4). apply Hk in H as (B1 & B2 & B3 & B4).
    repeat split; congruence.
  Qed.
  Lemma still_ret {A} (a : A) : still (ret a). Proof. intros s b s' H. injection H as <- <-. now repeat split. Qed.
  Lemma still_lift {A} (r : res A) : still (lift r). Proof. intros s b s' H. apply lift_ok in H as [_ ->]. now repeat split. Qed.
  Lemma still_raise {A} e : still (raise (A := A) e). Proof. intros s b s' H. discriminate. Qed.
  Lemma still_get : still get. Proof. intros s b s' H. injection H as <- <-. now repeat split. Qed.
  Lemma still_upd f : (forall s, s_sc (f s) = s_sc s /\ evals (f s) = evals s /\ b_term (s_book (f s)) = b_term (s_book s) /\ s_fom (f s) = s_fom s) -> still (upd f).
  Proof. intros F s u s' H. injection H as <- <-. apply F. Qed.
  Lemma still_emit e : is_eval e = false -> still (emit e).
  Proof. intros E. unfold emit. apply still_upd. intros s. unfold evals. cbn. now rewrite E. Qed.
  Lemma still_clear b : still (clear b). Proof. unfold clear. apply still_bind; [now apply still_upd|]. intros _. now apply still_emit. Qed.
  Ltac sl := repeat first
    [ solve [auto] | apply still_ret | apply still_lift | apply still_raise | apply still_get | apply still_clear
    | (apply still_upd; intros ?; now repeat split) | (apply still_emit; reflexivity) | apply still_bind
    | match goal with
      | |- forall _, _ => intro
      | |- still (if ?c then _ else _) => destruct c
      | |- still (match ?c with _ => _ end) => destruct c
      | |- still (let _ := _ in _) => cbv zeta
      end ].
  Lemma still_respond : still (respond G).
  Proof. unfold respond, note_record, log_fom, send_response, update_controls, get_average, std_default. sl. Qed.

  (** the change-based criterion collects values *)
  Definition tracking : bool := has_dsm G && match g_cbs_n G with Some n => (1 <? n)%Z | None => false end.
  Lemma track_spec v s u s' : add_to_track G v s = (Ok u, s') ->
    s_sc s' = (if tracking then (s_sc s) <|sc_track ::= fun l => l ++ [v]|> else s_sc s) /\ evals s' = evals s /\ b_term (s_book s') = b_term (s_book s) /\ s_fom s' = s_fom s.
  Proof.
    unfold add_to_track, tracking. destruct (has_dsm G); [|now intros [= <- <-]]. destruct (g_cbs_n G) as [n|]; [|now intros [= <- <-]].
    destruct (1 <? n)%Z; cbn [andb]; intros [= <- <-]; now repeat split.
  Qed.

  (** ** relations that survive a whole run *)
  Section Rel.
    Variable R : st -> st -> Prop.
    Hypothesis Rrefl : forall s, R s s.
    Hypothesis Rtrans : forall s1 s2 s3, R s1 s2 -> R s2 s3 -> R s1 s3.
    Hypothesis Rconv : forall b s, R s (s <|s_sc ::= set sc_conv (fun _ => b)|>).
    Hypothesis Rreason : forall r s, In r search_reasons -> R s (s <|s_sc ::= set sc_reason (fun _ => r)|>).
    Hypothesis Rother : forall s s', s_sc s' = s_sc s -> evals s' = evals s -> b_term (s_book s') = b_term (s_book s) -> R s s'.
    Hypothesis Reval : forall s s' x d a v, a_fom a = FVal v -> evals s' = EvEval x d (Dict a) :: evals s ->
      s_sc s' = (if tracking then (s_sc s) <|sc_track ::= fun l => l ++ [(factor G * v)%num]|> else s_sc s) ->
      b_term (s_book s') = b_term (s_book s) -> R s s'.
    Notation walk := (walk R).
    Lemma r_poll : walk (poll G W). Proof. now apply walk_poll. Qed.
    Lemma r_stop r b : walk (stop_because G W r b).
    Proof.
      unfold stop_because. apply walk_bind; [assumption|apply r_poll|]. intros _. apply walk_bind; [assumption|now apply walk_upd|]. intros _.
      apply walk_bind; [assumption| |intros _; now apply walk_clear]. destruct (has_dsm G); [now apply walk_conv|now apply walk_ret].
    Qed.
    Lemma r_checks : walk (check_budget G W) /\ walk (check_goal G W) /\ walk (check_total_time G W).
    Proof.
      repeat split.
      - unfold check_budget. apply walk_bind; [assumption|now apply walk_get|]. intros s. destruct (_ <=? _)%Z; [apply r_stop|now apply walk_ret].
      - unfold check_goal. apply walk_bind; [assumption|now apply walk_get|]. intros s. destruct (goal G); [|now apply walk_ret].
        destruct (_ <=? _)%num; [apply r_stop|now apply walk_ret].
      - unfold check_total_time. destruct (_ <? _)%num; [|now apply walk_ret]. apply walk_bind; [assumption|now apply walk_now|]. intros t.
        apply walk_bind; [assumption|now apply walk_get|]. intros s. destruct (s_start s); [|now apply walk_raise].
        apply walk_bind; [assumption|now apply walk_emit|]. intros _. destruct (_ <=? _)%num; [apply r_stop|now apply walk_ret].
    Qed.
    Lemma r_controls x : walk (get_controls G x).
    Proof.
      unfold get_controls. apply walk_bind; [assumption|now apply walk_get|]. intros s. apply walk_bind; [assumption|now apply walk_lift|]. intros [c d].
      apply walk_bind; [assumption|now apply walk_upd|]. intros _. destruct (g_kind G); try now apply walk_ret.
      destruct (d_pulses d); [|now apply walk_raise]. destruct (d_timegrids d); [now apply walk_ret|now apply walk_raise].
    Qed.
    Lemma r_advanced : walk (check_advanced G W).
    Proof.
      unfold check_advanced. destruct (has_dsm G); [|now apply walk_ret]. destruct (g_cbs_n G) as [n|]; [|now apply walk_ret].
      destruct (1 <? n)%Z; [|now apply walk_ret]. apply walk_bind; [assumption|apply r_poll|]. intros _.
      apply walk_bind; [assumption|apply walk_reason; [assumption|cbn; tauto]|]. intros _. destruct (g_cbs_change G); [|now apply walk_ret].
      apply walk_bind; [assumption|now apply walk_get|]. intros s. cbv zeta. destruct (_ <=? _)%Z; [|now apply walk_ret].
      destruct (_ <? _)%num; [|now apply walk_ret]. apply walk_bind; [assumption|apply r_poll|]. intros _. now apply walk_conv.
    Qed.
    Lemma r_eval x s u s' : (get_data G W x;;; respond G;;; s <- get;; add_to_track G (s_fom s)) s = (Ok u, s') -> R s s'.
    Proof.
      intros H. apply bind_ok in H as ([] & s1 & E1 & H). apply bind_ok in H as ([] & s2 & E2 & H). apply bind_ok in H as (t & s3 & E3 & H).
      injection E3 as <- <-. apply track_spec in H as (T1 & T2 & T3 & T4). apply still_respond in E2 as (S1 & S2 & S3 & S4).
      unfold get_data in E1. apply bind_ok in E1 as ([] & s4 & E4 & E1). apply r_poll in E4. eapply Rtrans; [exact E4|]. clear E4.
      apply bind_ok in E1 as (t & t' & E & E1). injection E as <- <-. destruct (s_sent s4) as [d|]; [|discriminate]. cbv zeta in E1.
      rewrite bind_upd in E1. unfold emit in E1. rewrite bind_upd in E1. destruct (w_fom W _) as [|a]; [discriminate|].
      destruct (a_fom a) as [|  |v] eqn:F; try discriminate.
      assert (evals s1 = EvEval x d (Dict a) :: evals s4 /\ s_sc s1 = s_sc s4 /\ b_term (s_book s1) = b_term (s_book s4) /\ s_fom s1 = (factor G * v)%num) as (A1 & A2 & A3 & A4).
      { apply bind_ok in E1 as ([] & s5 & E5 & E1). injection E1 as <-.
        destruct (_ =? 0)%Z; [injection E5 as <-; now repeat split|]. pose proof (f_equal snd E5) as E'. cbn in E'. rewrite <- E'. now repeat split. }
      apply (Reval s4 s' x d a v F); [congruence| |congruence]. rewrite T1, S1, S4, A2, A4. reflexivity.
    Qed.
    Lemma r_routine x it : walk (routine_call G W x it).
    Proof.
      destruct r_checks as (C1 & C2 & C3). unfold routine_call. do 3 (apply walk_bind; [assumption|assumption|intros _]).
      apply walk_bind; [assumption|now apply walk_running|]. intros r. destruct r; cbn [negb]; [|now apply walk_ret].
      apply walk_bind; [assumption|now apply walk_upd|]. intros _. apply walk_bind; [assumption|apply r_controls|]. intros d.
      apply walk_bind; [assumption|now apply walk_upd|]. intros _. apply walk_bind; [assumption|now apply walk_running|]. intros r. destruct r; cbn [negb]; [|now apply walk_ret].
      intros s a s' H. apply bind_ok in H as ([] & s1 & E1 & H). apply bind_ok in H as ([] & s2 & E2 & H). apply bind_ok in H as (t & s3 & E3 & H).
      injection E3 as <- <-. apply bind_ok in H as (u & s4 & E4 & H).
      assert (R s s4) as K.
      { apply (r_eval x s u s4). unfold bind at 1. rewrite E1. unfold bind at 1. rewrite E2. unfold bind at 1, get. exact E4. }
      eapply Rtrans; [exact K|]. clear E1 E2 E4 K. revert s4 a s' H.
      change (walk (check_advanced G W;;; s <- get;; ret (s_fom s))). apply walk_bind; [assumption|apply r_advanced|]. intros _.
      apply walk_bind; [assumption|now apply walk_get|]. intros t. now apply walk_ret.
    Qed.
  End Rel.

  (** ** only the reasons of searches are stored *)
  Definition known (r : string) : Prop := r = ""%string \/ In r search_reasons.
  Definition knows (s : st) : Prop := known (sc_reason (s_sc s)) /\ known (b_term (s_book s)).
  Definition keeps_knowing (s s' : st) : Prop := knows s -> knows s'.
  Ltac kk := first [now intros ? | (intros; unfold keeps_knowing in *; now auto) | (intros; unfold keeps_knowing, knows in *; cbn in *; tauto) | idtac].
  Lemma knowing_other s s' : s_sc s' = s_sc s -> evals s' = evals s -> b_term (s_book s') = b_term (s_book s) -> keeps_knowing s s'.
  Proof. intros A _ C. unfold keeps_knowing, knows. now rewrite A, C. Qed.
  Lemma knowing_eval s s' x d a v : a_fom a = FVal v -> evals s' = EvEval x d (Dict a) :: evals s ->
    s_sc s' = (if tracking then (s_sc s) <|sc_track ::= fun l => l ++ [(factor G * v)%num]|> else s_sc s) ->
    b_term (s_book s') = b_term (s_book s) -> keeps_knowing s s'.
  Proof. intros _ _ A B. unfold keeps_knowing, knows. rewrite A, B. destruct tracking; auto. Qed.
  Lemma knowing_reason r s : In r search_reasons -> keeps_knowing s (s <|s_sc ::= set sc_reason (fun _ => r)|>).
  Proof. intros I [A B]. split; [now right|assumption]. Qed.
  Lemma knowing_refl s : keeps_knowing s s. Proof. now intros ?. Qed.
  Lemma knowing_trans s1 s2 s3 : keeps_knowing s1 s2 -> keeps_knowing s2 s3 -> keeps_knowing s1 s3.
  Proof. unfold keeps_knowing. auto. Qed.
  Lemma knowing_conv b s : keeps_knowing s (s <|s_sc ::= set sc_conv (fun _ => b)|>). Proof. now intros [A B]. Qed.
  Ltac kn := first [exact knowing_refl | exact knowing_trans | exact knowing_conv | exact knowing_reason | exact knowing_other | exact knowing_eval].
  Lemma knowing_routine x it : walk keeps_knowing (routine_call G W x it).
  Proof. apply r_routine; kn. Qed.
  Ltac kr := first [kn | exact knowing_routine].
  Lemma knowing_build s s' : dsm_build G W s = (Ok tt, s') -> keeps_knowing s s'.
  Proof.
    intros H. apply (walk_build G W keeps_knowing) in H as (s1 & res & A & -> & B); [|kr..].
    intros K. destruct (A K) as [K1 K2]. split; [assumption|]. cbn. now rewrite B.
  Qed.
  Lemma knowing_super k s s' : super_iteration G W k s = (Ok tt, s') -> keeps_knowing s s'.
  Proof.
    intros H. unfold super_iteration in H. apply bind_ok in H as ([] & s1 & E1 & H). apply bind_ok in H as ([] & s2 & E2 & H).
    apply bind_ok in H as ([] & s3 & E3 & H). apply bind_ok in H as ([] & s4 & E4 & H). apply bind_ok in H as ([] & s5 & E5 & H).
    apply bind_ok in H as ([] & s6 & E6 & H).
    assert (keeps_knowing s s3) as K3.
    { unfold reset_start_time, now, bind, get, upd, ret in E1. injection E1 as <-. injection E2 as <-. injection E3 as <-. now intros [A B]. }
    assert (keeps_knowing s3 s4) as K4.
    { destruct (_ && _)%bool; [|now injection E4 as <-]. apply (walk_update_FoM G W keeps_knowing) in E4; [assumption|kr..]. }
    apply (walk_choose G W keeps_knowing) in E5; [|kn..]. apply knowing_build in E6. apply (walk_base_pulses keeps_knowing) in H; [|kn..]. unfold keeps_knowing in *. auto 9.
  Qed.
  Lemma knowing_loop ks s s' : dcrab_loop G W ks s = (Ok tt, s') -> keeps_knowing s s'.
  Proof.
    revert s. induction ks as [|k ks IH]; intros s H; cbn [dcrab_loop] in H; [injection H as <-; apply knowing_refl|].
    apply bind_ok in H as (r & s1 & E & H). apply (walk_running G W keeps_knowing) in E; [|kn..]. destruct r; cbn [negb] in H; [|now injection H as <-].
    apply bind_ok in H as ([] & s2 & E2 & H). apply knowing_super in E2. apply IH in H. unfold keeps_knowing in *. auto.
  Qed.
  Theorem stored_reason r s f : optimise G W = Ok (r, s) -> In (EvFinal f) (history s) -> forall x, f_reason f = Some x -> known x.
  Proof.
    intros H I x F. destruct r as [[]|e]; [|now destruct (no_results _ _ _ _ f H)].
    destruct (reports_once _ _ _ H) as (tr & g & o & E & K). unfold optimise in H. apply rbind_ok in H as (s0 & E0 & H). injection H as H.
    assert (knows s0) as K0.
    { unfold new_state in E0. apply rbind_ok in E0 as (c & _ & E0). injection E0 as <-. unfold knows. cbn. split; [|now left].
      destruct (g_method G); [right|left]; cbn; auto. }
    unfold execute in H. apply bind_ok in H as ([] & s1 & E1 & H). apply bind_ok in H as ([] & s2 & E2 & H).
    assert (knows s1) as K1 by (unfold begin, now, bind, get, upd, ret in E1; injection E1 as <-; exact K0).
    unfold end_ in H. apply bind_ok in H as (f' & s3 & E3 & H). apply bind_ok in H as ([] & s4 & E4 & H). apply bind_ok in H as (t & s5 & E5 & H).
    injection E5 as <- <-. injection E4 as <-. injection H as <-.
    assert (f' = f /\ s3 = s2) as [-> ->].
    { assert (s3 = s2) as ->. { unfold final_results in E3. apply bind_ok in E3 as (t & t' & E'' & E3). injection E'' as <- <-.
        destruct (g_kind G); try (now injection E3 as _ <-). destruct (s_xx s2); [|discriminate]. now injection E3 as _ <-. }
      split; [|reflexivity]. unfold history in E. cbn in E. rewrite <- app_assoc in E.
      change [EvFinal g; EvLogged g o] with ([EvFinal g] ++ [EvLogged g o]) in E. rewrite !app_assoc in E.
      apply app_inj_tail in E as [X1 _]. apply app_inj_tail in X1 as [X1 X3]. injection X3 as ->.
      unfold history in I. cbn in I. rewrite <- app_assoc, X1 in I. apply in_app_or in I as [I|I]; [now destruct (K f)|].
      cbn in I. destruct I as [I|[I|[]]]; [now injection I|discriminate]. }
    unfold final_results in E3. apply bind_ok in E3 as (t & t' & E' & E3). injection E' as <- <-. unfold run in E2. destruct (g_kind G).
    - injection E3 as <-. injection F as <-. now destruct (knowing_loop _ _ _ E2 K1).
    - destruct (s_xx s2); [|discriminate]. injection E3 as <-. injection F as <-. now destruct (knowing_build _ _ E2 K1).
    - injection E3 as <-. discriminate.
    - injection E3 as <-. discriminate.
  Qed.

  (** ** the values collected are the costs of the evaluations *)
  Section Tracks.
    Hypothesis NS : NumSign N.
    Definition tracks (s s' : st) : Prop := exists new,
      costs G (history s') = costs G (history s) ++ new /\ sc_track (s_sc s') = sc_track (s_sc s) ++ (if tracking then new else []).
    Lemma costs_evals s : costs G (history s) = costs G (rev (evals s)).
    Proof.
      unfold history, evals. induction (s_trace s) as [|e l IH]; [reflexivity|]. cbn [rev filter]. rewrite costs_app, IH.
      destruct e; cbn [is_eval rev]; try (now rewrite app_nil_r). now rewrite costs_app.
    Qed.
    Lemma tracks_refl s : tracks s s. Proof. exists []. now destruct tracking; rewrite !app_nil_r. Qed.
    Lemma tracks_trans s1 s2 s3 : tracks s1 s2 -> tracks s2 s3 -> tracks s1 s3.
    Proof.
      intros (n1 & A1 & B1) (n2 & A2 & B2). exists (n1 ++ n2). rewrite A2, A1, B2, B1. destruct tracking; now rewrite <- !app_assoc.
    Qed.
    Lemma tracks_conv b s : tracks s (s <|s_sc ::= set sc_conv (fun _ => b)|>). Proof. exact (tracks_refl s). Qed.
    Lemma tracks_reason r s : In r search_reasons -> tracks s (s <|s_sc ::= set sc_reason (fun _ => r)|>). Proof. intros _. exact (tracks_refl s). Qed.
    Lemma tracks_other s s' : s_sc s' = s_sc s -> evals s' = evals s -> b_term (s_book s') = b_term (s_book s) -> tracks s s'.
    Proof. intros A B _. exists []. rewrite !costs_evals, A, B, app_nil_r. destruct tracking; now rewrite app_nil_r. Qed.
    Lemma tracks_eval s s' x d a v : a_fom a = FVal v -> evals s' = EvEval x d (Dict a) :: evals s ->
      s_sc s' = (if tracking then (s_sc s) <|sc_track ::= fun l => l ++ [(factor G * v)%num]|> else s_sc s) ->
      b_term (s_book s') = b_term (s_book s) -> tracks s s'.
    Proof.
      intros F A B _. exists [cost G v]. rewrite !costs_evals, A, B. cbn [rev]. rewrite costs_app. split.
      - f_equal. cbn. now rewrite F.
      - rewrite <- (factor_cost NS). destruct tracking; [reflexivity|now rewrite app_nil_r].
    Qed.
    Ltac tr := first [exact tracks_refl | exact tracks_trans | exact tracks_conv | exact tracks_reason | exact tracks_other | exact tracks_eval].
    Lemma tracks_routine x it : walk tracks (routine_call G W x it). Proof. apply r_routine; tr. Qed.
    Ltac trr := first [tr | exact tracks_routine].
    Lemma tracks_build s s' : dsm_build G W s = (Ok tt, s') -> tracks s s'.
    Proof. intros H. apply (walk_build G W tracks) in H as (s1 & res & A & -> & _); [|trr..]. eapply tracks_trans; [exact A|]. exact (tracks_refl s1). Qed.
    Theorem super_tracks k s s' : tracking = true -> super_iteration G W k s = (Ok tt, s') ->
      costs G (history s') = costs G (history s) ++ sc_track (s_sc s').
    Proof.
      intros T H. unfold super_iteration in H. apply bind_ok in H as ([] & s1 & E1 & H). apply bind_ok in H as ([] & s2 & E2 & H).
      apply bind_ok in H as ([] & s3 & E3 & H). apply bind_ok in H as ([] & s4 & E4 & H). apply bind_ok in H as ([] & s5 & E5 & H).
      apply bind_ok in H as ([] & s6 & E6 & H).
      assert (costs G (history s3) = costs G (history s) /\ sc_track (s_sc s3) = []) as [K1 K2].
      { unfold reset_start_time, now, bind, get, upd, ret in E1. injection E1 as <-. injection E2 as <-. injection E3 as <-. now split. }
      assert (tracks s3 s4) as K4.
      { destruct (_ && _)%bool; [|injection E4 as <-; apply tracks_refl]. apply (walk_update_FoM G W tracks) in E4; [assumption|trr..]. }
      apply (walk_choose G W tracks) in E5; [|tr..]. apply tracks_build in E6. apply (walk_base_pulses tracks) in H; [|tr..].
      assert (tracks s3 s') as (new & A & B) by eauto using tracks_trans. rewrite T, K2 in B. rewrite A, K1, B. reflexivity.
    Qed.
    Theorem direct_tracks s : tracking = true -> g_kind G = KDirect -> optimise G W = Ok (Ok tt, s) -> sc_track (s_sc s) = costs G (history s).
    Proof.
      intros T K H. unfold optimise in H. apply rbind_ok in H as (s0 & E0 & H). injection H as H.
      assert (history s0 = [] /\ sc_track (s_sc s0) = []) as [K1 K2].
      { unfold new_state in E0. apply rbind_ok in E0 as (c & _ & E0). injection E0 as <-. now split. }
      unfold execute in H. apply bind_ok in H as ([] & s1 & E1 & H). apply bind_ok in H as ([] & s2 & E2 & H).
      unfold begin, now, bind, get, upd, ret in E1. injection E1 as <-. unfold run in E2. rewrite K in E2. apply tracks_build in E2 as (new & A & B).
      rewrite T in B. cbn in B. rewrite K2 in B.
      change (history (s0 <|s_cnt ::= set k_clock S|> <|s_start := Some (w_clock W (k_clock (s_cnt s0)))|>)) with (history s0) in A. rewrite K1 in A.
      unfold end_ in H. apply bind_ok in H as (f & s3 & E3 & H). apply bind_ok in H as ([] & s4 & E4 & H). apply bind_ok in H as (t & s5 & E5 & H).
      injection E5 as <- <-. injection E4 as <-. injection H as <-.
      assert (s3 = s2) as ->. { unfold final_results in E3. apply bind_ok in E3 as (t & t' & E'' & E3). injection E'' as <- <-.
        destruct (g_kind G); try (now injection E3 as _ <-). destruct (s_xx s2); [|discriminate]. now injection E3 as _ <-. }
      transitivity (costs G (history s2)); [rewrite A; exact B|]. now rewrite !costs_evals.
    Qed.
  End Tracks.

  (** ** as long as the run goes on nothing but the change-based criterion touches the stopping criteria during an evaluation *)
  Definition live {A} (m : M A) : Prop := forall s a s', m s = (Ok a, s') -> s_running s' = true -> s_running s = true /\ s_sc s' = s_sc s.
  Lemma live_bind {A B} (m : M A) (k : A -> M B) : live m -> (forall a, live (k a)) -> live (bind m k).
  Proof.
    intros Hm Hk s b s' H q. apply bind_ok in H as (a & s1 & E & H). destruct (Hk _ _ _ _ H q) as (A1 & A2). destruct (Hm _ _ _ E A1) as (B1 & B2).
    split; congruence.
  Qed.
  Lemma live_ret {A} (a : A) : live (ret a). Proof. intros s b s' H. injection H as <- <-. now split. Qed.
  Lemma live_lift {A} (r : res A) : live (lift r). Proof. intros s b s' H. apply lift_ok in H as [_ ->]. now split. Qed.
  Lemma live_raise {A} e : live (raise (A := A) e). Proof. intros s b s' H. discriminate. Qed.
  Lemma live_get : live get. Proof. intros s b s' H. injection H as <- <-. now split. Qed.
  Lemma live_upd f : (forall s, s_running (f s) = s_running s /\ s_sc (f s) = s_sc s) -> live (upd f).
  Proof. intros F s u s' H q. injection H as <- <-. destruct (F s) as [A B]. split; congruence. Qed.
  Lemma live_clear b : live (clear b).
  Proof. intros s u s' H q. pose proof (f_equal snd H) as H'. cbn in H'. rewrite <- H' in q. discriminate. Qed.
  Lemma live_emit e : live (emit e). Proof. unfold emit. now apply live_upd. Qed.
  Ltac lv := repeat first
    [ solve [auto] | apply live_ret | apply live_lift | apply live_raise | apply live_get | apply live_clear | apply live_emit
    | (apply live_upd; intros ?; now repeat split) | apply live_bind
    | match goal with
      | |- forall _, _ => intro
      | |- live (if ?c then _ else _) => destruct c
      | |- live (match ?c with _ => _ end) => destruct c
      | |- live (let _ := _ in _) => cbv zeta
      end ].
  Lemma live_poll : live (poll G W).
  Proof.
    unfold poll. apply live_bind; [lv|]. intros t. apply live_bind; [lv|]. intros _. destruct (w_async W _); [lv|lv|].
    intros s u s' H q. unfold handle_user_cancellation in H. apply bind_ok in H as ([] & s1 & _ & H).
    apply bind_ok in H as ([] & s2 & _ & H). pose proof (f_equal snd H) as H'. cbn in H'. rewrite <- H' in q. discriminate.
  Qed.
  Lemma live_running : live (get_running G W). Proof. unfold get_running. pose proof live_poll. lv. Qed.
  Lemma live_now : live (now W). Proof. unfold now. lv. Qed.
  Lemma live_stop r b : live (stop_because G W r b).
  Proof.
    intros s u s' H q. unfold stop_because in H. apply bind_ok in H as (? & s1 & _ & H). apply bind_ok in H as (? & s2 & _ & H).
    apply bind_ok in H as (? & s3 & _ & H). pose proof (f_equal snd H) as H'. cbn in H'. rewrite <- H' in q. discriminate.
  Qed.
  Lemma live_checks : live (check_budget G W) /\ live (check_goal G W) /\ live (check_total_time G W).
  Proof. pose proof live_stop. pose proof live_now. unfold check_budget, check_goal, check_total_time. (split; [|split]); lv. Qed.
  Lemma live_controls x : live (get_controls G x). Proof. unfold get_controls. lv. Qed.
  Lemma live_data x : live (get_data G W x). Proof. unfold get_data. pose proof live_poll. lv. Qed.
  Lemma live_respond : live (respond G).
  Proof. unfold respond, note_record, log_fom, send_response, update_controls, get_average, std_default. lv. Qed.

  (** without the change-based criterion *)
  Section Plain.
    Hypothesis NT : tracking = false.
    Lemma live_routine x it : live (routine_call G W x it).
    Proof.
      assert (forall v, live (add_to_track G v)) as T.
      { intros v. unfold add_to_track. unfold tracking in NT. destruct (has_dsm G); [|apply live_ret]. destruct (g_cbs_n G); [|apply live_ret].
        cbn in NT. rewrite NT. apply live_ret. }
      assert (live (check_advanced G W)) as A.
      { unfold check_advanced. unfold tracking in NT. destruct (has_dsm G); [|apply live_ret]. destruct (g_cbs_n G); [|apply live_ret].
        cbn in NT. rewrite NT. apply live_ret. }
      destruct live_checks as (C1 & C2 & C3). pose proof live_running. pose proof (live_controls x). pose proof (live_data x). pose proof live_respond.
      unfold routine_call. lv.
    Qed.
    Lemma live_re x it ps ii : live (re_evaluate G W x it ps ii).
    Proof.
      revert ii. induction ps; intros ii; cbn [re_evaluate]; unfold test_average, get_average, store_test, std_default; pose proof (live_routine x it); lv.
    Qed.
    Lemma live_inner x it v : live (inner_routine_call G W x it v).
    Proof.
      unfold inner_routine_call, test_average, update_controls, get_average, store_test, std_default. pose proof (live_routine x it). pose proof (live_re x it). lv.
    Qed.
    (** the search of a run that goes on afterwards *)
    Theorem run_reason (NO : NumOrder N) (SO : sorts W) adaptive x0 sim drift_min drift_avg : proper_start x0 sim -> x0 <> [] ->
      forall s0 r s', run_nm G W (inner_routine_call G W) adaptive x0 sim drift_min drift_avg s0 = (Ok r, s') -> s_running s' = true ->
      exists L s, boundary G W (inner_routine_call G W) adaptive x0 sim drift_min drift_avg s0 L s /\
        hd_error (n_sim L) = Some (r_x r) /\ hd_error (n_fsim L) = Some (r_fval r) /\ n_calls L = r_calls r /\
        first_fulfilled (nm_criteria G (n_sim L) (n_fsim L) (n_calls L) (sc_start (s_sc s0)) (w_clock W (pred (k_clock (s_cnt s'))))) (r_reason r).
    Proof.
      intros PS D s0 r s' H q.
      destruct (search_reason G W (fun s => s_running s = true) ltac:(reflexivity) ltac:(reflexivity)
        (fun s s' E q => live_poll s tt s' E q) (inner_routine_call G W)
        (fun x it v s y s' E q => live_inner x it v s y s' E q) SO NO adaptive x0 sim drift_min drift_avg PS D s0 r s' H q) as (L & s & B & A1 & A2 & A3 & A4).
      exists L, s. repeat (split; [assumption|]). destruct A4 as [[_ A4]|A4]; [congruence|assumption].
    Qed.
  End Plain.

  (** ** when the change-based criterion fires *)
  Definition at_level (n : Z) (c : num) (track : list num) : bool :=
    ((n <=? Z.of_nat (length track))%Z && (nabs (fit_slope (last_n (Z.to_nat n) track) * of_Z n) <? c)%num)%bool.
  Lemma advanced_fires (NSI : no_sigint W) n c s u s' : has_dsm G = true -> g_cbs_n G = Some n -> (1 < n)%Z -> g_cbs_change G = Some c ->
    check_advanced G W s = (Ok u, s') ->
    converged s' = (converged s || at_level n c (sc_track (s_sc s)))%bool /\ reason s' = "Change-based stopping criterion reached."%string /\
    sc_track (s_sc s') = sc_track (s_sc s).
  Proof.
    intros HD HN Hn HC H. unfold check_advanced in H. rewrite HD, HN, HC in H. destruct (Z.ltb_spec 1 n); [|lia].
    assert (forall s v s', poll G W s = (Ok v, s') -> s_sc s' = s_sc s) as P.
    { clear - NSI. intros s v s' H. unfold poll in H. unfold bind at 1, get in H. cbv beta iota in H. rewrite bind_upd in H. specialize (NSI (k_poll (s_cnt s))).
      destruct (w_async W _); [now injection H as _ <-| |congruence]. pose proof (f_equal snd H) as H'. cbn in H'. now rewrite <- H'. }
    apply bind_ok in H as (? & s1 & E1 & H). apply P in E1. unfold set_sc_reason in H. rewrite bind_upd in H.
    apply bind_ok in H as (t & t' & E & H). injection E as <- <-. cbv zeta in H.
    change (sc_track (s_sc (s1 <|s_sc ::= set sc_reason (fun _ => "Change-based stopping criterion reached."%string)|>))) with (sc_track (s_sc s1)) in H.
    rewrite E1 in H. unfold at_level, converged, reason. destruct (n <=? _)%Z; cbn [andb].
    2: { injection H as _ <-. cbn. now rewrite E1, orb_false_r. }
    destruct (_ <? c)%num.
    2: { injection H as _ <-. cbn. now rewrite E1, orb_false_r. }
    apply bind_ok in H as (? & s2 & E2 & H). apply P in E2. injection H as _ <-. cbn. rewrite E2. cbn. now rewrite E1, orb_true_r.
  Qed.
  Theorem routine_fires (NS : NumSign N) (NSI : no_sigint W) n c x it s y s' : has_dsm G = true -> g_cbs_n G = Some n -> (1 < n)%Z -> g_cbs_change G = Some c ->
    routine_call G W x it s = (Ok y, s') -> length (costs G (history s)) < length (costs G (history s')) ->
    costs G (history s') = costs G (history s) ++ [y] /\ sc_track (s_sc s') = sc_track (s_sc s) ++ [y] /\
    converged s' = (converged s || at_level n c (sc_track (s_sc s) ++ [y]))%bool /\ reason s' = "Change-based stopping criterion reached."%string.
  Proof.
    intros HD HN Hn HC H NE. assert (tracking = true) as T by (unfold tracking; rewrite HD, HN; destruct (Z.ltb_spec 1 n); [reflexivity|lia]).
    assert (forall s v s', poll G W s = (Ok v, s') -> s_sc s' = s_sc s) as P.
    { clear - NSI. intros s v s' H. unfold poll in H. unfold bind at 1, get in H. cbv beta iota in H. rewrite bind_upd in H. specialize (NSI (k_poll (s_cnt s))).
      destruct (w_async W _); [now injection H as _ <-| |congruence]. pose proof (f_equal snd H) as H'. cbn in H'. now rewrite <- H'. }
    assert (evals s' <> evals s) as NE' by (intros K; rewrite !costs_evals, K in NE; lia). clear NE.
    set (R := fun s s' : st => evals s' = evals s).
    assert (forall s, R s s) as R1 by reflexivity. assert (forall s1 s2 s3, R s1 s2 -> R s2 s3 -> R s1 s3) as R2 by (unfold R; congruence).
    assert (forall b s, R s (s <|s_sc ::= set sc_conv (fun _ => b)|>)) as R3 by reflexivity.
    assert (forall s s', s_sc s' = s_sc s -> evals s' = evals s -> b_term (s_book s') = b_term (s_book s) -> R s s') as R5 by (unfold R; auto).
    destruct live_checks as (C1 & C2 & C3). destruct (r_checks R R1 R2 R3 R5) as (D1 & D2 & D3). pose proof (walk_running G W R R1 R2 R3 R5) as D4.
    unfold routine_call in H.
    apply bind_ok in H as (? & s1 & E1 & H). apply bind_ok in H as (? & s2 & E2 & H). apply bind_ok in H as (? & s3 & E3 & H).
    apply bind_ok in H as (r & s4 & E4 & H).
    assert (r = s_running s4) as -> by (unfold get_running in E4; apply bind_ok in E4 as (? & ? & _ & E4); now injection E4 as <- <-).
    assert (R s s4) as K4 by (unfold R; rewrite (D4 _ _ _ E4), (D3 _ _ _ E3), (D2 _ _ _ E2), (D1 _ _ _ E1); reflexivity).
    destruct (s_running s4) eqn:Q4; cbn [negb] in H; [|injection H as _ <-; contradiction].
    destruct (live_running _ _ _ E4 Q4) as [Q3 S4]. destruct (C3 _ _ _ E3 Q3) as [Q2 S3]. destruct (C2 _ _ _ E2 Q2) as [Q1 S2]. destruct (C1 _ _ _ E1 Q1) as [Q0 S1].
    rewrite bind_upd in H. apply bind_ok in H as (d & s5 & E5 & H). rewrite bind_upd in H. apply bind_ok in H as (r & s6 & E6 & H).
    assert (R s s6) as K6.
    { unfold R. rewrite (D4 _ _ _ E6). transitivity (evals s5); [reflexivity|]. pose proof (r_controls R R1 R2 R5 x _ _ _ E5) as X. unfold R in X. rewrite X. exact K4. }
    assert (r = s_running s6) as -> by (unfold get_running in E6; apply bind_ok in E6 as (? & ? & _ & E6); now injection E6 as <- <-).
    destruct (s_running s6) eqn:Q6; cbn [negb] in H; [|injection H as _ <-; contradiction].
    destruct (live_running _ _ _ E6 Q6) as [Q5' S6]. change (s_running (s5 <|s_sent := Some d|>)) with (s_running s5) in Q5'. change (s_sc (s5 <|s_sent := Some d|>)) with (s_sc s5) in S6.
    destruct (live_controls x _ _ _ E5 Q5') as [_ S5].
    assert (s_sc s6 = s_sc s) as S by (rewrite S6, S5; cbn; congruence). clear S1 S2 S3 S4 S5 S6.
    apply bind_ok in H as ([] & s7 & E7 & H). apply bind_ok in H as ([] & s8 & E8 & H). apply bind_ok in H as (t & s9 & E9 & H). injection E9 as <- <-.
    apply bind_ok in H as (u & s9 & E9 & H). apply bind_ok in H as (u' & s10 & E10 & H). apply bind_ok in H as (t & s11 & E11 & H). injection E11 as <- <-.
    injection H as <- <-. apply track_spec in E9 as (T1 & T2 & T3 & T4). rewrite T in T1.
    apply still_respond in E8 as (A1 & A2 & A3 & A4). unfold get_data in E7. apply bind_ok in E7 as (? & s12 & E12 & E7).
    pose proof (P _ _ _ E12) as P12. pose proof (walk_poll G W R R1 R2 R3 R5 _ _ _ E12) as K12.
    apply bind_ok in E7 as (t & t' & E & E7). injection E as <- <-. destruct (s_sent s12) as [d'|]; [|discriminate]. cbv zeta in E7.
    rewrite bind_upd in E7. unfold emit in E7. rewrite bind_upd in E7. destruct (w_fom W _) as [|a]; [discriminate|].
    destruct (a_fom a) as [| |v] eqn:F; try discriminate.
    assert (evals s7 = EvEval x d' (Dict a) :: evals s12 /\ s_sc s7 = s_sc s12 /\ s_fom s7 = (factor G * v)%num) as (B1 & B2 & B3).
    { apply bind_ok in E7 as ([] & s13 & E13 & E7). injection E7 as <-.
      destruct (_ =? 0)%Z; [injection E13 as <-; now repeat split|]. pose proof (f_equal snd E13) as E'. cbn in E'. rewrite <- E'. now repeat split. }
    destruct (advanced_fires NSI n c _ _ _ HD HN Hn HC E10) as (F1 & F2 & F3).
    assert (s_fom s10 = s_fom s9) as F4.
    { clear - P E10. unfold check_advanced in E10. destruct (has_dsm G); [|now injection E10 as _ <-]. destruct (g_cbs_n G) as [m|]; [|now injection E10 as _ <-].
      assert (forall s v s', poll G W s = (Ok v, s') -> s_fom s' = s_fom s) as PF.
      { clear. intros s v s' H. unfold poll in H. unfold bind at 1, get in H. cbv beta iota in H. rewrite bind_upd in H.
        destruct (w_async W _); [now injection H as _ <-| |].
        - pose proof (f_equal snd H) as H'. cbn in H'. now rewrite <- H'.
        - unfold handle_user_cancellation in H. destruct (has_dsm G); pose proof (f_equal snd H) as H'; cbn in H'; now rewrite <- H'. }
      destruct (1 <? m)%Z; [|now injection E10 as _ <-]. apply bind_ok in E10 as (? & t1 & X1 & E10). apply PF in X1. unfold set_sc_reason in E10. rewrite bind_upd in E10.
      destruct (g_cbs_change G); [|injection E10 as _ <-; exact X1]. apply bind_ok in E10 as (t & t' & X & E10). injection X as <- <-. cbv zeta in E10.
      destruct (_ <=? _)%Z; [|injection E10 as _ <-; exact X1]. destruct (_ <? _)%num; [|injection E10 as _ <-; exact X1].
      apply bind_ok in E10 as (? & t2 & X2 & E10). apply PF in X2. injection E10 as _ <-. exact (eq_trans X2 X1). }
    assert (s_fom s10 = cost G v) as FV by (rewrite F4, T4, A4, B3; apply (factor_cost NS)). rewrite FV.
    assert (sc_track (s_sc s9) = sc_track (s_sc s) ++ [cost G v]) as FT by (rewrite T1; cbn; rewrite A1, B2, P12, S, A4, B3, (factor_cost NS); reflexivity).
    assert (evals s10 = evals s9) as FE.
    { exact (r_advanced R R1 R2 R3 (fun _ _ _ => eq_refl) R5 _ _ _ E10). }
    split.
    - rewrite !costs_evals, FE, T2, A2, B1. unfold R in K12, K6. rewrite K12, K6. cbn [rev]. rewrite costs_app. f_equal. cbn. now rewrite F.
    - rewrite F3, FT. split; [reflexivity|]. split; [|assumption]. rewrite F1, FT. f_equal. unfold converged. rewrite T1. cbn. now rewrite A1, B2, P12, S.
  Qed.
End StopRun.

(** ** over the reals *)
Lemma levels_slope n (c : R) (old ys : list R) : 2 <= n -> length ys = n ->
  levels_off n c (old ++ ys) <-> (Rabs (fit_slope (N := Rnum) ys * INR n) < c)%R.
Proof.
  intros Hn L. split.
  - intros (old' & ys' & m & E & L' & S & B).
    assert (ys' = ys) as ->.
    { apply (f_equal (fun l => skipn (length l - n) l)) in E. rewrite !app_length, L, L' in E.
      replace (length old + n - n) with (length old) in E by lia. replace (length old' + n - n) with (length old') in E by lia.
      rewrite !skipn_app, !skipn_all, !Nat.sub_diag in E. cbn in E. now symmetry. }
    apply (fit_slope_spec ys) in S; [|lia]. now subst m.
  - intros B. exists old, ys, (fit_slope (N := Rnum) ys). repeat split; auto. apply fit_slope_spec; [lia|reflexivity].
Qed.
Lemma at_level_R n (c : R) (track : list R) : (1 < n)%Z -> at_level (N := Rnum) n c track = true <-> levels_off (Z.to_nat n) c track.
Proof.
  intros Hn. unfold at_level. rewrite andb_true_iff. rewrite Z.leb_le. change (@num Rnum) with R.
  change (@nltb Rnum) with Rlt_bool. change (@nabs Rnum) with Rabs. change (@nmul Rnum) with Rmult. change (@of_Z Rnum) with IZR.
  assert (IZR n = INR (Z.to_nat n)) as -> by (rewrite INR_IZR_INZ; f_equal; lia).
  split.
  - intros [A B]. unfold last_n in B. rewrite <- (firstn_skipn (length track - Z.to_nat n) track). apply levels_slope; [lia|rewrite skipn_length; lia|].
    revert B. case Rlt_bool_spec; [auto|discriminate].
  - intros L. pose proof L as (old & ys & m & E & K & _). rewrite E in L. apply levels_slope in L; [|lia|assumption].
    rewrite E, app_length, K. split; [lia|]. unfold last_n. rewrite app_length, K. replace (length old + Z.to_nat n - Z.to_nat n) with (length old) by lia.
    rewrite skipn_app, skipn_all, Nat.sub_diag. cbn [app skipn]. case Rlt_bool_spec; [reflexivity|]. intros X. exfalso. revert X. now apply Rlt_not_le.
Qed.
Lemma levels_split n c (track : list R) : levels_off n c track -> exists old ys, track = old ++ ys /\ length ys = n.
Proof. intros (old & ys & m & A & B & _). eauto. Qed.
Lemma levels_shift (n : nat) (c a : R) (track : list R) : 2 <= n -> levels_off n c (map (fun y => (y + a)%R) track) <-> levels_off n c track.
Proof.
  intros Hn. destruct (le_lt_dec n (length track)) as [K|K].
  - rewrite <- (firstn_skipn (length track - n) track). rewrite map_app. rewrite !levels_slope; auto; rewrite ?map_length, ?skipn_length; try lia. now rewrite fit_shift.
  - split; intros L; apply levels_split in L as (old & ys & E & L); apply (f_equal (@length R)) in E; rewrite app_length, ?map_length in E; lia.
Qed.
Lemma levels_opp (n : nat) (c : R) (track : list R) : 2 <= n -> levels_off n c (map Ropp track) <-> levels_off n c track.
Proof.
  intros Hn. destruct (le_lt_dec n (length track)) as [K|K].
  - rewrite <- (firstn_skipn (length track - n) track). rewrite map_app. rewrite !levels_slope; auto; rewrite ?map_length, ?skipn_length; try lia. rewrite fit_opp.
    rewrite Ropp_mult_distr_l_reverse, Rabs_Ropp. reflexivity.
  - split; intros L; apply levels_split in L as (old & ys & E & L); apply (f_equal (@length R)) in E; rewrite app_length, ?map_length in E; lia.
Qed.
Lemma levels_progression (n : nat) (c a d : R) (old : list R) : 2 <= n -> levels_off n c (old ++ progression a d n) <-> (Rabs d * INR n < c)%R.
Proof.
  intros Hn. rewrite levels_slope; [|assumption|unfold progression; now rewrite map_length, seq_length]. rewrite fit_progression by assumption.
  rewrite Rabs_mult, (Rabs_pos_eq (INR n)) by apply pos_INR. reflexivity.
Qed.
Lemma levels_constant (n : nat) (c a : R) (old : list R) : 2 <= n -> levels_off n c (old ++ repeat a n) <-> (0 < c)%R.
Proof.
  intros Hn. assert (repeat a n = progression a 0 n) as ->.
  { unfold progression. generalize 0 as k. clear. induction n as [|n IH]; intros k; [reflexivity|]. cbn [repeat seq map]. rewrite <- IH. f_equal. ring. }
  rewrite levels_progression by assumption. rewrite Rabs_R0, Rmult_0_l. reflexivity.
Qed.
