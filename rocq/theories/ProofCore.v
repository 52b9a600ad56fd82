(** Invariants of every run: budget, stop, time limit. *)
From Coq Require Import String ZArith List Bool Lia.
From RecordUpdate Require Import RecordSet.
From Verif Require Import Num Py PyFacts ModelPulse ModelControls ModelLinalg ModelState ModelSearch ModelRun SpecRun
  ProofSim ProofSimRun ProofRoutine ProofRespond.
Import ListNotations RecordSetNotations.
Open Scope list_scope.
Open Scope bool_scope.
Open Scope run_scope.

Section Core.
  Context {N : Num} (G : settings) (W : world).

  Definition timely (past : list event) : Prop :=
    limited G -> exists t p, (past = EvElapsed t :: p \/ past = EvCleared ByAsync :: EvElapsed t :: p) /\
                             (g_total_lim G <=? t)%num = false.
  Definition in_flight (past : list event) : Prop :=
    no_stop past \/ exists p, past = EvCleared ByAsync :: p /\ no_stop p.
  Definition no_late (past : list event) : Prop := forall t, In (EvElapsed t) past -> ~ too_late G t.
  (** every call was legitimate when it happened (newest event first) *)
  Fixpoint ordered (tr : list event) : Prop :=
    match tr with
    | [] => True
    | e :: past => ordered past /\
                   match e with EvEval _ _ _ => in_flight past /\ timely past /\ no_late past | _ => True end
    end.

  Record core (s : st) : Prop := mk_core {
    c_le : calls (s_trace s) <= s_iter s;
    c_iter : s_iter s <= S (calls (s_trace s));
    c_max : (Z.of_nat (s_iter s) <= Z.max 0 (g_max_total G))%Z;
    c_stop : existsb clears (s_trace s) = negb (s_running s);
    c_ord : ordered (s_trace s)
  }.
  Record live (s : st) : Prop := mk_live {
    l_core : core s;
    l_eq : s_running s = true -> s_iter s = calls (s_trace s);
    l_late : s_running s = true -> no_late (s_trace s)
  }.

  Definition quiet_event (e : event) : Prop := match e with EvEval _ _ _ => False | _ => True end.
  Lemma calls_app l tr : Forall quiet_event l -> calls (l ++ tr) = calls tr.
  Proof.
    induction 1 as [|e l He _ IH]; [reflexivity|]. unfold calls in *. cbn. destruct e; cbn in *; tauto.
  Qed.
  Lemma ordered_app l tr : Forall quiet_event l -> (ordered (l ++ tr) <-> ordered tr).
  Proof.
    induction 1 as [|e l He _ IH]; [reflexivity|]. cbn. destruct e; cbn in *; tauto.
  Qed.
  Lemma check_quiet l : Forall check_event l -> Forall quiet_event l.
  Proof. apply Forall_impl. intros []; cbn; auto. Qed.
  Lemma answer_quiet l : Forall answer_event l -> Forall quiet_event l.
  Proof. apply Forall_impl. intros []; cbn; auto. Qed.
  Lemma no_stop_iff tr : no_stop tr <-> existsb clears tr = false.
  Proof.
    unfold no_stop. split.
    - intros H. destruct (existsb clears tr) eqn:E; [|reflexivity]. apply existsb_exists in E as ([] & Hx & E); try discriminate.
      now apply H in Hx.
    - intros H b Hb. assert (existsb clears tr = true) by (apply existsb_exists; eauto). congruence.
  Qed.

  (** extension of the trace by events other than calls *)
  Lemma core_ext s t evs : s_trace t = evs ++ s_trace s -> Forall quiet_event evs -> s_iter t = s_iter s ->
    s_running t = s_running s && negb (existsb clears evs) -> core s -> core t.
  Proof.
    intros E Q Ei Er [A B C D F]. constructor; rewrite ?E, ?Ei, ?(calls_app _ _ Q); auto.
    - rewrite existsb_app, D, Er. destruct (s_running s), (existsb clears evs); reflexivity.
    - now apply ordered_app.
  Qed.
  Lemma core_pre s t evs : pre s t evs -> core s -> core t.
  Proof.
    intros P. apply (core_ext s t evs).
    - apply (p_trace _ _ _ P).
    - apply check_quiet, (p_evs _ _ _ P).
    - apply (calm_iter _ _ (p_calm _ _ _ P)).
    - apply (p_run _ _ _ P).
  Qed.
  Lemma live_stopped s : s_running s = false -> core s -> live s.
  Proof. intros H C. constructor; auto; congruence. Qed.
  Lemma live_ext s t evs : s_trace t = evs ++ s_trace s -> Forall quiet_event evs -> s_iter t = s_iter s ->
    s_running t = s_running s && negb (existsb clears evs) -> (forall x, ~ In (EvElapsed x) evs) -> live s -> live t.
  Proof.
    intros E Q Ei Er El [C A B]. constructor.
    - now apply (core_ext s t evs).
    - intros H. rewrite Er in H. apply andb_true_iff in H as [H _]. rewrite E, Ei, (calls_app _ _ Q). auto.
    - intros H. rewrite Er in H. apply andb_true_iff in H as [H _]. rewrite E. intros x Hx.
      apply in_app_or in Hx as [Hx|Hx]; [now apply El in Hx|]. now apply (B H).
  Qed.

  Lemma time_ok_late evs tr : time_ok G evs -> no_late tr -> no_late (evs ++ tr).
  Proof.
    intros [(_ & ->)|(_ & m & -> & Hm)] H x Hx; [now apply H|].
    cbn in Hx. destruct Hx as [Hx|Hx]; [|now apply H]. injection Hx as <-. intros [_ K]. congruence.
  Qed.
  Lemma time_ok_quiet evs : time_ok G evs -> Forall quiet_event evs.
  Proof. intros [(_ & ->)|(_ & m & -> & _)]; repeat constructor. Qed.

  Theorem core_routine x it s : live s -> ends live (fun _ => core) (routine_call G W x it s).
  Proof.
    intros L. unfold ends. destruct (routine_call G W x it s) as [r s'] eqn:E. cbn [fst snd].
    apply routine_cases in E.
    assert (ST : forall s1 evs c, pre s s1 evs -> may_start G s evs -> core (started x it s1 <|s_controls := c|>)).
    { intros s1 evs c P MS. destruct (core_pre _ _ _ P (l_core _ L)) as [A B C D F].
      destruct MS as [Hr Hb _ Ht].
      pose proof (l_eq _ L Hr) as K.
      assert (CT : calls (s_trace s1) = calls (s_trace s))
        by (rewrite (p_trace _ _ _ P); apply calls_app, check_quiet, P).
      pose proof (calm_iter _ _ (p_calm _ _ _ P)) as IT.
      constructor; cbn [started set s_trace s_iter s_running]; auto; cbn; lia. }
    assert (ST2 : forall s1 evs c d s3 evs3, pre s s1 evs -> may_start G s evs ->
              pre (handed c d (started x it s1)) s3 evs3 -> core s3).
    { intros s1 evs c d s3 evs3 P MS P3. apply (core_pre _ _ _ P3).
      destruct (ST s1 evs c P MS) as [A B C D F]. now constructor. }
    assert (EV : forall s1 evs c d s3 s4 a, pre s s1 evs -> may_start G s evs ->
              pre (handed c d (started x it s1)) s3 [] -> polled s3 s4 -> live (asked x d a s4)).
    { intros s1 evs c d s3 s4 a P MS P3 P4.
      apply polled_pre in P4 as (ev4 & P4 & Hev4).
      assert (T : s_trace s4 = ev4 ++ evs ++ s_trace s).
      { rewrite (p_trace _ _ _ P4), (p_trace _ _ _ P3). cbn. now rewrite (p_trace _ _ _ P). }
      assert (I4 : s_iter s4 = S (s_iter s)).
      { rewrite (calm_iter _ _ (p_calm _ _ _ P4)), (calm_iter _ _ (p_calm _ _ _ P3)). cbn.
        now rewrite (calm_iter _ _ (p_calm _ _ _ P)). }
      assert (R3 : s_running s3 = true).
      { rewrite (p_run _ _ _ P3). cbn. rewrite (p_run _ _ _ P), (ms_running _ _ _ MS). cbn.
        destruct (ms_time _ _ _ MS) as [(_ & ->)|(_ & m & -> & _)]; reflexivity. }
      assert (C4 : core s4) by (apply (core_pre _ _ _ P4); now apply (ST2 s1 evs c d s3 [])).
      pose proof (l_eq _ L (ms_running _ _ _ MS)) as K.
      pose proof (l_late _ L (ms_running _ _ _ MS)) as KL.
      pose proof (time_ok_quiet _ (ms_time _ _ _ MS)) as TQ.
      assert (Q4 : Forall quiet_event ev4) by (destruct Hev4 as [-> | ->]; repeat constructor).
      assert (CT : calls (s_trace s4) = calls (s_trace s)).
      { rewrite T, (calls_app _ _ Q4), (calls_app _ _ TQ). reflexivity. }
      assert (NL : no_late (s_trace s4)).
      { rewrite T. intros y Hy. apply in_app_or in Hy as [Hy|Hy].
        - destruct Hev4 as [-> | ->]; cbn in Hy; intuition discriminate.
        - revert y Hy. now apply time_ok_late; [apply MS|]. }
      assert (NS : no_stop (evs ++ s_trace s)).
      { apply no_stop_iff. rewrite existsb_app, (c_stop _ (l_core _ L)), (ms_running _ _ _ MS).
        destruct (ms_time _ _ _ MS) as [(_ & ->)|(_ & m & -> & _)]; reflexivity. }
      constructor.
      - destruct C4 as [A B C D F]. constructor; cbn [asked s_trace s_iter s_running set];
          change (calls (EvEval x d a :: s_trace s4)) with (S (calls (s_trace s4))).
        + cbn. unfold calls in *. cbn. lia.
        + cbn. unfold calls in *. cbn. lia.
        + exact C.
        + exact D.
        + cbn. split; [exact F|]. split; [|split; [|exact NL]].
          * rewrite T. destruct Hev4 as [-> | ->]; [left; exact NS|right; eexists; split; [reflexivity|exact NS]].
          * intros Hl. rewrite T. destruct (ms_time _ _ _ MS) as [(El & _)|(_ & m & -> & Hm)].
            { unfold limited, ceiling in Hl. congruence. }
            exists m, (s_trace s). split; [|exact Hm]. destruct Hev4 as [-> | ->]; [left|right]; reflexivity.
      - intros _. cbn. unfold calls in *. cbn. lia.
      - intros _. cbn. intros y [Hy|Hy]; [discriminate|]. now apply NL. }
    destruct E as [s1 evs P R|e s1 evs P|e s1 evs c P MS _|s1 evs c d s3 evs3 P MS _ P3 R3
                  |e s1 evs c d s3 P MS _ P3|e s1 evs c d s3 s4 P MS _ P3 P4 _
                  |a v s1 evs c d s3 s4 s7 s8 evs8 P MS _ P3 P4 EA EV' ER P8 A8].
    - apply live_stopped; [exact R|]. apply (core_pre _ _ _ P), L.
    - apply (core_pre _ _ _ P), L.
    - now apply (ST s1 evs).
    - apply live_stopped; [exact R3|]. now apply (ST2 s1 evs c d s3 evs3).
    - now apply (ST2 s1 evs c d s3 []).
    - apply l_core. now apply (EV s1 evs c d s3).
    - specialize (EV s1 evs c d s3 s4 (Dict a) P MS P3 P4).
      assert (L5 : live (answered G v a (asked x d (Dict a) s4))).
      { unfold answered. destruct (_ =? 0)%Z.
        - destruct EV as [[A B C D F] E1 E2]. constructor; [constructor|..]; assumption.
        - apply (live_ext (asked x d (Dict a) s4) _ [EvCleared ByStatus]); auto.
          + repeat constructor.
          + cbn. now rewrite andb_false_r.
          + intros y [Hy|[]]; discriminate. }
      apply (respond_resp G _ _ (status_of a)) in ER as (ev7 & R7 & _); [|reflexivity].
      assert (L7 : live s7).
      { apply (live_ext _ s7 ev7 (rp_trace _ _ _ R7) (answer_quiet _ (rp_evs _ _ _ R7))
                 (f_equal s_iter (rp_same _ _ _ R7)) (rp_run _ _ _ R7)); [|exact L5].
        intros y Hy. pose proof (proj1 (Forall_forall _ _) (rp_evs _ _ _ R7) _ Hy). assumption. }
      apply (live_ext _ s8 evs8 (p_trace _ _ _ P8) (check_quiet _ (p_evs _ _ _ P8))
               (calm_iter _ _ (p_calm _ _ _ P8)) (p_run _ _ _ P8)); [|exact L7].
      intros y Hy. pose proof (proj1 (Forall_forall _ _) A8 _ Hy). discriminate.
  Qed.

  Lemma live_quiet s t e : s_trace t = e :: s_trace s -> quiet_event e -> s_iter t = s_iter s ->
    s_running t = s_running s && negb (clears e) -> (forall x, e <> EvElapsed x) -> live s -> live t.
  Proof.
    intros. apply (live_ext s t [e]); auto.
    - cbn. now rewrite orb_false_r.
    - intros x [Hx|[]]. now apply (H3 x).
  Qed.

  Lemma core_closed : closed G W live (fun _ => core).
  Proof.
    constructor.
    - intros e s H. apply H.
    - intros g s [[A B C D E] F H]. constructor; [constructor|..]; assumption.
    - intros g s [[A B C D E] F H]. constructor; [constructor|..]; assumption.
    - intros g s [[A B C D E] F H]. constructor; [constructor|..]; assumption.
    - intros s H. apply (live_quiet s _ (EvCleared ByAsync)); cbn; auto; [now rewrite andb_false_r|discriminate].
    - intros s [[A B C D E] F H]. constructor; [constructor|..]; assumption.
    - intros g s _ [[A B C D E] F H]. constructor; [constructor|..]; assumption.
    - intros g s _ [[A B C D E] F H]. constructor; [constructor|..]; assumption.
    - intros g s [[A B C D E] F H]. constructor; [constructor|..]; assumption.
    - intros g s [[A B C D E] F H]. constructor; [constructor|..]; assumption.
    - intros g s _ [[A B C D E] F H]. constructor; [constructor|..]; assumption.
    - intros g s [[A B C D E] F H]. constructor; [constructor|..]; assumption.
    - intros d s H. apply (live_quiet s _ (EvGrad d)); cbn; auto; [now rewrite andb_true_r|discriminate].
    - intros b s _ [[A B C D E] F H]. constructor; [constructor|..]; assumption.
    - intros f s _ H. apply (live_quiet s _ (EvSave f)); cbn; auto; [now rewrite andb_true_r|discriminate].
    - intros x it s H _. now apply core_routine.
    - intros x it _ s H. now apply core_routine.
  Qed.

  Lemma new_state_live s : new_state G W = Ok s -> live s.
  Proof.
    unfold new_state. intros H. apply rbind_ok in H as (c & _ & H). injection H as <-.
    constructor; [constructor|..]; cbn; auto; try lia. intros _ x [].
  Qed.

  Theorem core_optimise r s : optimise G W = Ok (r, s) -> core s.
  Proof.
    intros H. apply (keeps_optimise G W live (fun _ => core) (fun _ => core) r s); auto.
    - apply core_closed.
    - apply new_state_live.
    - intros t u [[A B C D E] F K]. constructor; [constructor|..]; assumption.
    - intros f o u K _ _. apply (core_ext u _ [EvLogged f o; EvFinal f]); auto; [repeat constructor|cbn; now rewrite andb_true_r|].
      apply K.
  Qed.
End Core.
