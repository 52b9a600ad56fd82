(** Ctrl-C: SIGINT delivered to the optimisation. *)
From Coq Require Import String ZArith List Bool Lia.
From RecordUpdate Require Import RecordSet.
From Verif Require Import Num Py ModelPulse ModelControls ModelLinalg ModelState ModelSearch ModelRun SpecRun
  ProofSim ProofSimRun ProofRoutine ProofAnswers.
Import ListNotations RecordSetNotations.
Open Scope list_scope.
Open Scope bool_scope.
Open Scope run_scope.

(** ** Invariants on the number of passed interruption points, the running flag and the recorded reason *)
Section Flags.
  Context {N : Num} (G : settings) (W : world).
  Definition from_outside (e : event) : bool := match e with EvCleared ByAsync => true | _ => false end.
  Definition seen (s : st) : bool := existsb from_outside (s_trace s).
  Variables (P : nat -> bool -> string -> bool -> Prop) (Q : exn -> nat -> bool -> string -> bool -> Prop).
  Definition flags (s : st) : Prop := P (k_poll (s_cnt s)) (s_running s) (s_reason s) (seen s).
  Definition flags_end (e : exn) (s : st) : Prop := Q e (k_poll (s_cnt s)) (s_running s) (s_reason s) (seen s).
  Hypothesis PQ : forall e n b r a, P n b r a -> Q e n b r a.
  Hypothesis PC : forall n b r a, P n b r a -> P n false r a.
  Hypothesis PR : forall n b r r' a, P n b r a -> In r' (tl stop_reasons) -> P n b r' a.
  Hypothesis PP : keeps flags flags_end (poll G W).

  Lemma flags_x e s : flags s -> flags_end e s.
  Proof. apply PQ. Qed.
  Lemma flags_same s t : k_poll (s_cnt t) = k_poll (s_cnt s) -> s_running t = s_running s -> s_reason t = s_reason s ->
    seen t = seen s -> flags s -> flags t.
  Proof. unfold flags. now intros -> -> -> ->. Qed.
  Lemma keeps_clear c : c <> ByAsync -> keeps flags flags_end (clear c).
  Proof.
    intros K s H. unfold ends, clear, emit, bind, upd. cbn [fst snd]. unfold flags, seen. destruct c; [congruence|..]; cbn; exact (PC _ _ _ _ H).
  Qed.
  Lemma keeps_upd_same f : (forall s, k_poll (s_cnt (f s)) = k_poll (s_cnt s) /\ s_running (f s) = s_running s /\ s_reason (f s) = s_reason s /\ seen (f s) = seen s) ->
    keeps flags flags_end (upd f).
  Proof. intros F. apply keeps_upd. intros s H. destruct (F s) as (A & B & C & D). now apply (flags_same s). Qed.
  Ltac same := apply keeps_upd_same; intros; repeat split.
  Ltac k1 := lazymatch goal with
    | |- keeps _ _ (bind get _) => apply keeps_get; intros ? _
    | |- keeps _ _ (bind _ _) => apply keeps_bind; [|intros ?]
    | |- keeps _ _ (ret _) => apply keeps_ret
    | |- keeps _ _ (raise _) => apply keeps_raise; apply flags_x
    | |- keeps _ _ (lift _) => apply keeps_lift; apply flags_x
    | |- keeps _ _ (poll _ _) => exact PP
    | |- keeps _ _ (clear _) => apply keeps_clear; discriminate
    | |- keeps _ _ (upd _) => same
    | |- keeps _ _ (emit _) => same
    end.

  Lemma keeps_stop why by_ : In why (tl stop_reasons) -> by_ <> ByAsync -> keeps flags flags_end (stop_because G W why by_).
  Proof.
    intros I NA. unfold stop_because. apply keeps_bind; [exact PP|intros _].
    apply keeps_bind; [apply keeps_upd; intros s H; exact (PR _ _ _ _ _ H I)|intros _].
    apply keeps_bind; [destruct (has_dsm G); [same|apply keeps_ret]|intros _]. now apply keeps_clear.
  Qed.
  Lemma keeps_get_running' : keeps flags flags_end (get_running G W).
  Proof. unfold get_running. repeat k1. Qed.
  Lemma keeps_is_conv' : keeps flags flags_end (is_conv G W).
  Proof. unfold is_conv. repeat k1. Qed.
  Lemma keeps_now' : keeps flags flags_end (now W).
  Proof. unfold now. repeat k1. Qed.
  Lemma keeps_routine' x it : keeps flags flags_end (routine_call G W x it).
  Proof.
    unfold routine_call. apply keeps_bind.
    { unfold check_budget. k1. destruct (_ <=? _)%Z; [apply keeps_stop; [cbn; tauto|discriminate]|k1]. }
    intros _. apply keeps_bind.
    { unfold check_goal. k1. destruct (goal G); [|k1]. destruct (_ <=? _)%num; [apply keeps_stop; [cbn; tauto|discriminate]|k1]. }
    intros _. apply keeps_bind.
    { unfold check_total_time. destruct (_ <? _)%num; [|k1]. apply keeps_bind; [apply keeps_now'|intros t]. k1.
      destruct (s_start _); [|k1]. apply keeps_bind; [same|intros _]. destruct (_ <=? _)%num; [apply keeps_stop; [cbn; tauto|discriminate]|k1]. }
    intros _. apply keeps_bind; [apply keeps_get_running'|intros r1]. destruct (negb r1); [k1|].
    apply keeps_bind; [same|intros _]. apply keeps_bind.
    { unfold get_controls. k1. apply keeps_bind; [k1|intros [c d]]. apply keeps_bind; [same|intros _].
      destruct (g_kind G); try k1. destruct (d_pulses d), (d_timegrids d); k1. }
    intros d. apply keeps_bind; [same|intros _]. apply keeps_bind; [apply keeps_get_running'|intros r2]. destruct (negb r2); [k1|].
    apply keeps_bind.
    { unfold get_data. k1; [exact PP|]. k1. destruct (s_sent _); [|k1]. cbv zeta. apply keeps_bind; [same|intros _].
      apply keeps_bind; [same|intros _]. destruct (w_fom W _) as [|a0]; [k1|]. destruct (a_fom a0); k1; [destruct (_ =? 0)%Z; k1|same]. }
    intros _. assert (SD : keeps flags flags_end std_default) by (unfold std_default; k1; destruct (s_std _); repeat k1).
    assert (GA : keeps flags flags_end (get_average None)).
    { unfold get_average. k1. cbv zeta. destruct (re_step _); (apply keeps_bind; [exact SD|intros sd; k1]). }
    assert (NR : forall v, keeps flags flags_end (note_record v)) by (intros v; unfold note_record; k1; destruct (_ <? _)%num; k1).
    assert (LF : forall v, keeps flags flags_end (log_fom G v)).
    { intros v. unfold log_fom. k1. destruct (s_status _); [|k1]. destruct (_ =? 0)%Z; k1. }
    assert (SR : forall v o, keeps flags flags_end (send_response v o)).
    { intros v o. unfold send_response. k1. destruct (s_status _); [|k1]. destruct (_ =? 0)%Z; [|k1].
      apply keeps_bind; [|intros _; same]. unfold update_controls. k1. destruct (s_sent _); [|k1]. destruct (s_is_record _); [same|k1]. }
    apply keeps_bind.
    { unfold respond. destruct (g_kind G).
      - apply keeps_bind; [exact GA|intros [f sd]]. apply keeps_bind; [destruct (g_steps G); [k1|apply NR]|intros _].
        apply keeps_bind; [apply LF|intros _]. k1. apply SR.
      - k1. cbv zeta. apply keeps_bind; [|intros _; apply SR]. destruct (g_steps G).
        + apply keeps_bind; [exact GA|intros [f sd]]. apply LF.
        + apply keeps_bind; [apply NR|intros _; apply LF].
      - k1. cbv zeta. apply keeps_bind; [apply NR|intros _]. apply keeps_bind; [apply LF|intros _; apply SR].
      - k1. cbv zeta. apply keeps_bind; [apply NR|intros _]. apply keeps_bind; [apply LF|intros _; apply SR]. }
    intros _. k1. apply keeps_bind.
    { unfold add_to_track. destruct (has_dsm G); [|k1]. destruct (g_cbs_n G) as [n|]; [|k1]. destruct (1 <? n)%Z; k1. }
    intros _. apply keeps_bind; [|intros _; repeat k1].
    unfold check_advanced. destruct (has_dsm G); [|k1]. destruct (g_cbs_n G) as [n|]; [|k1]. destruct (1 <? n)%Z; [|k1].
    k1; [exact PP|]. apply keeps_bind; [same|intros _]. destruct (g_cbs_change G); [|k1]. k1. cbv zeta.
    destruct (_ <=? _)%Z; [|k1]. destruct (_ <? _)%num; [|k1]. k1; [exact PP|]. same.
  Qed.

  Lemma flags_narrow : narrow G W flags flags_end.
  Proof.
    constructor.
    - apply flags_x.
    - intros g s K. apply flags_same; try reflexivity. cbn. apply K.
    - intros g s. now apply flags_same.
    - exact PP.
    - intros s. now apply flags_same.
    - intros r s _ H _. revert H. now apply flags_same.
    - intros v s _. now apply flags_same.
    - intros g s. now apply flags_same.
    - intros b s. now apply flags_same.
    - intros m s _. now apply flags_same.
    - intros c s. now apply flags_same.
    - intros d s. now apply flags_same.
    - intros b s _. now apply flags_same.
    - intros f s _. now apply flags_same.
    - intros x it s H _. exact (keeps_routine' x it s H).
    - intros x it _. apply keeps_routine'.
  Qed.
End Flags.

Section Cancel.
  Context {N : Num} (G : settings) (W : world).
  Let sig (n : nat) : Prop := exists m, m < n /\ w_async W m = ASigint.
  Let stp (n : nat) : Prop := exists m, m < n /\ w_async W m = AStop.

  Lemma sig_S n : sig (S n) -> sig n \/ w_async W n = ASigint.
  Proof. intros (m & L & E). destruct (Nat.eq_dec m n) as [->|K]; [now right|]. left. exists m. split; [lia|exact E]. Qed.
  Lemma stp_S n : stp n -> stp (S n).
  Proof. intros (m & L & E). exists m. split; [lia|exact E]. Qed.

  (** dCRAB and direct search *)
  Theorem cancel_dsm r s : has_dsm G = true -> optimise G W = Ok (r, s) -> cancelled W s ->
    s_running s = false /\ In (s_reason s) stop_reasons /\ (r = Ok tt -> exists f tr, history s = tr ++ [EvFinal f; EvLogged f (Some (s_reason s))]).
  Proof.
    intros D H. set (P := fun n b rs (a : bool) => sig n -> b = false /\ In rs stop_reasons).
    assert (C : narrow G W (flags P) (flags_end (fun _ => P))).
    { apply flags_narrow.
      - auto.
      - intros n b rs a HP K. now apply HP in K as [_ K].
      - intros n b rs rs' a HP I K. split; [now apply HP in K|]. now right.
      - intros t HP. unfold ends, poll, bind, get, upd. destruct (w_async W (k_poll (s_cnt t))) eqn:EA; cbn [fst snd].
        + intros K. apply sig_S in K as [K|K]; [now apply HP|congruence].
        + intros K. apply sig_S in K as [K|K]; [|cbn in K; congruence]. split; [reflexivity|]. now apply HP.
        + unfold handle_user_cancellation. rewrite D. intros _. split; [reflexivity|]. now left. }
    revert H. apply (keeps_optimise_n G W _ _ (fun r s => cancelled W s -> s_running s = false /\ In (s_reason s) stop_reasons /\
        (r = Ok tt -> exists f tr, history s = tr ++ [EvFinal f; EvLogged f (Some (s_reason s))])) r s C).
    - intros s0 E0 K. exfalso. revert K. unfold new_state in E0. destruct (new_controls _ _ _); [|discriminate]. injection E0 as <-.
      cbn. destruct (has_dsm G); cbn; intros (m & L & _); lia.
    - intros t s0 HP. exact HP.
    - intros e s0 HP K. destruct (HP K) as [A B]. split; [exact A|]. split; [exact B|discriminate].
    - intros f o s0 HP _ -> K. destruct (HP K) as [A B]. split; [exact A|]. split; [exact B|]. intros _. exists f, (history s0).
      assert (E : String.eqb (s_reason s0) "" = false).
      { apply String.eqb_neq. intros E. rewrite E in B. cbn in B. intuition discriminate. }
      rewrite E. unfold history. cbn. now rewrite <- app_assoc.
  Qed.

  (** GRAPE and AD *)
  Theorem cancel_gradient r s : has_dsm G = false -> optimise G W = Ok (r, s) -> cancelled W s ->
    r = Err AttributeError /\ s_reason s = "User stopped the optimization"%string /\
    (In (EvCleared ByAsync) (history s) -> exists n, n < k_poll (s_cnt s) /\ w_async W n = AStop).
  Proof.
    intros D H. set (P := fun n (b : bool) (rs : string) (a : bool) => ~ sig n /\ (a = true -> stp n)).
    set (Q := fun e n (b : bool) rs (a : bool) => (sig n -> e = AttributeError /\ rs = "User stopped the optimization"%string) /\ (a = true -> stp n)).
    assert (C : narrow G W (flags P) (flags_end Q)).
    { apply flags_narrow.
      - intros e n b rs a [A B]. split; [intros K; contradiction|exact B].
      - auto.
      - auto.
      - intros t [HA HB]. unfold ends, poll, bind, get, upd. destruct (w_async W (k_poll (s_cnt t))) eqn:EA; cbn [fst snd].
        + split; [intros K; apply sig_S in K as [K|K]; [now apply HA|congruence]|]. intros K. apply stp_S. now apply HB.
        + split; [intros K; apply sig_S in K as [K|K]; [now apply HA|cbn in K; congruence]|]. intros _. exists (k_poll (s_cnt t)). cbn. split; [lia|exact EA].
        + unfold handle_user_cancellation. rewrite D. cbn. split; [auto|]. intros K. apply stp_S. now apply HB. }
    assert (SE : forall s, In (EvCleared ByAsync) (history s) -> seen s = true).
    { intros s0 K. apply existsb_exists. exists (EvCleared ByAsync). split; [now apply in_rev|reflexivity]. }
    revert H. apply (keeps_optimise_n G W _ _ (fun r s => cancelled W s -> r = Err AttributeError /\ s_reason s = "User stopped the optimization"%string /\
        (In (EvCleared ByAsync) (history s) -> exists n, n < k_poll (s_cnt s) /\ w_async W n = AStop)) r s C).
    - intros s0 E0. unfold new_state in E0. destruct (new_controls _ _ _); [|discriminate]. injection E0 as <-.
      split; [|discriminate]. cbn. destruct (has_dsm G); cbn; intros (m & L & _); lia.
    - intros t s0 HP. exact HP.
    - intros e s0 [A B] K. destruct (A K) as [-> E]. split; [reflexivity|]. split; [exact E|]. intros I. now apply B, SE.
    - intros f o s0 [A B] _ _ K. contradiction.
  Qed.

  Lemma no_results e s f : optimise G W = Ok (Err e, s) -> ~ In (EvFinal f) (history s).
  Proof.
    intros H K. apply finished_optimise in H. cbn in H. rewrite Forall_forall in H. apply in_rev in K. apply (H _ K). exact I.
  Qed.
End Cancel.
