(** Nelder-Mead searches inside a run: the function is the evaluation routine. *)
From Coq Require Import String ZArith List Bool Lia Permutation Sorted.
From RecordUpdate Require Import RecordSet.
From Verif Require Import Num NumFacts Py PyFacts ModelPulse ModelControls ModelLinalg ModelState ModelSearch ModelRun
  SpecRun SpecSearch ProofSim ProofSimRun ProofRoutine ProofRespond ProofCore ProofPlain ProofAnswers ProofHistory ProofBest
  ProofNM ProofSearch.
Import ListNotations RecordSetNotations.
Open Scope list_scope.
Open Scope run_scope.

Section Run.
  Context {N : Num} (NO : NumOrder N) (NS : NumSign N) (G : settings) (W : world).
  Hypothesis HD : has_dsm G = true.

  (** if the run goes on afterwards, it went on before and the flag of the search has not been touched *)
  Definition rel (s s' : st) : Prop :=
    s_running s' = true -> s_running s = true /\ sc_conv (s_sc s') = sc_conv (s_sc s).
  Definition gentle {A} (m : M A) : Prop := forall s a s', m s = (Ok a, s') -> rel s s'.
  Lemma rel_trans s1 s2 s3 : rel s1 s2 -> rel s2 s3 -> rel s1 s3.
  Proof. unfold rel. intros A B R. destruct (B R) as [R2 C2]. destruct (A R2) as [R1 C1]. split; congruence. Qed.
  Lemma gentle_bind {A B} (m : M A) (k : A -> M B) : gentle m -> (forall a, gentle (k a)) -> gentle (bind m k).
  Proof. intros Hm Hk s b s' H. apply bind_ok in H as (a & s1 & E & H). eapply rel_trans; [eapply Hm|eapply Hk]; eauto. Qed.
  Lemma gentle_ret {A} (a : A) : gentle (ret a).
  Proof. intros s b s' H. injection H as <- <-. now intros R. Qed.
  Lemma gentle_lift {A} (r : res A) : gentle (lift r).
  Proof. intros s b s' H. apply lift_ok in H as [_ ->]. now intros R. Qed.
  Lemma gentle_raise {A} e : gentle (raise (A := A) e).
  Proof. intros s b s' H. discriminate. Qed.
  Lemma gentle_get : gentle get.
  Proof. intros s b s' H. injection H as <- <-. now intros R. Qed.
  Lemma gentle_upd f : (forall s, s_running (f s) = s_running s /\ sc_conv (s_sc (f s)) = sc_conv (s_sc s)) -> gentle (upd f).
  Proof. intros F s u s' H. injection H as <- <-. destruct (F s) as [A B]. intros R. split; congruence. Qed.
  Lemma gentle_clear b : gentle (clear b).
  Proof. intros s u s' H. pose proof (f_equal snd H) as H'. cbn in H'. rewrite <- H'. intros R. discriminate. Qed.
  Lemma clear_off b s u s' : clear b s = (Ok u, s') -> s_running s' = false.
  Proof. intros H. pose proof (f_equal snd H) as H'. cbn in H'. now rewrite <- H'. Qed.
  Ltac ge := repeat first
    [ solve [auto] | apply gentle_ret | apply gentle_lift | apply gentle_raise | apply gentle_get | apply gentle_clear
    | (apply gentle_upd; intros ?; split; reflexivity) | apply gentle_bind
    | match goal with
      | |- forall _, _ => intro
      | |- gentle (if ?c then _ else _) => destruct c
      | |- gentle (match ?c with _ => _ end) => destruct c
      | |- gentle (let _ := _ in _) => cbv zeta
      end ].
  Lemma gentle_poll : gentle (poll G W).
  Proof.
    unfold poll. apply gentle_bind; [apply gentle_get|]. intros s0. apply gentle_bind; [ge|]. intros _.
    destruct (w_async W _); [apply gentle_ret|apply gentle_clear|].
    intros s u s' H. unfold handle_user_cancellation in H. rewrite HD in H.
    apply bind_ok in H as (? & s1 & _ & H). apply bind_ok in H as (? & s2 & _ & H). apply clear_off in H.
    intros R. congruence.
  Qed.
  Lemma gentle_stop r b : gentle (stop_because G W r b).
  Proof.
    intros s u s' H. unfold stop_because in H.
    apply bind_ok in H as (? & s1 & _ & H). apply bind_ok in H as (? & s2 & _ & H). apply bind_ok in H as (? & s3 & _ & H).
    apply clear_off in H. intros R. congruence.
  Qed.
  Hypothesis NC : g_cbs_n G = None.
  Lemma gentle_routine x it : gentle (routine_call G W x it).
  Proof.
    pose proof gentle_poll as P1. pose proof gentle_stop as P2.
    unfold routine_call, check_budget, check_goal, check_total_time, get_running, now, emit, get_controls, get_data, add_to_track, check_advanced.
    rewrite NC. unfold respond, get_average, std_default, note_record, log_fom, send_response, update_controls, emit. ge.
  Qed.
  Hypothesis PR : plain_run G.
  Lemma gentle_inner x it : gentle (inner_routine_call G W x it None).
  Proof.
    destruct PR as (E & _). unfold inner_routine_call. rewrite E. pose proof gentle_routine. ge.
  Qed.

  Definition seen (s : st) : list (vec * num) := answers G (history s).
  Lemma answers_app a b : answers G (a ++ b) = answers G a ++ answers G b.
  Proof. unfold answers. apply flat_map_app. Qed.
  Lemma answers_none evs : Forall (fun e => match e with EvEval _ _ _ => False | _ => True end) evs -> answers G (rev evs) = [].
  Proof.
    intros F. induction F as [|e evs He F IH]; [reflexivity|]. cbn [rev]. rewrite answers_app, IH. destruct e; easy.
  Qed.
  Lemma inner_seen x it s y s' : inner_routine_call G W x it None s = (Ok y, s') -> s_running s' = true ->
    seen s' = seen s ++ [(x, y)].
  Proof.
    intros H R. unfold inner_routine_call in H. destruct PR as (E & _). rewrite E in H.
    rewrite bind_upd in H. apply bind_ok in H as (f & s1 & H & K). injection K as <- <-.
    apply (padds_routine NS G W PR) in H; [|reflexivity|reflexivity].
    remember (Ok f) as r eqn:Er. destruct H as [r s' evs _ _ _ _ _ _ _ A|d s' evs _ _ _ _ _ _ _|d v s' evs evs1 T F1 F2 U _ _ _ _ _].
    - specialize (A f Er). congruence.
    - discriminate.
    - injection Er as <-. unfold seen, history. rewrite T. cbn [s_trace].
      rewrite !rev_app_distr. cbn [rev]. rewrite !rev_app_distr, !answers_app.
      rewrite (answers_none evs1), (answers_none evs).
      + cbn in U |- *. rewrite U. cbn. rewrite ?app_nil_r. reflexivity.
      + eapply Forall_impl; [|exact F1]. intros e. now destruct e.
      + eapply Forall_impl; [|exact F2]. intros e. now destruct e.
  Qed.

  Lemma run_search adaptive x0 sim avg s0 r s' : sorts W -> proper_start x0 sim ->
    run_nm G W (inner_routine_call G W) adaptive x0 sim (g_drift_min G) avg s0 = (Ok r, s') ->
    s_running s' = true -> nan_free (costs G (history s')) ->
    exists new, seen s' = seen s0 ++ new /\ r_calls r = length new /\ In (r_x r, r_fval r) new /\
                forall p, In p new -> (r_fval r <=? snd p)%num = true.
  Proof.
    intros SO PS H R NF.
    assert (forall tr, map snd (answers G tr) = costs G tr) as MC.
    { induction tr as [|e tr IH]; [reflexivity|]. unfold costs in *. cbn. rewrite map_app. f_equal; [|exact IH].
      destruct e; try reflexivity. now destruct (user_value a). }
    assert (forall s, nan_free (costs G (history s)) <-> nan_free (map snd (seen s))) as NN by (intros s; unfold seen; now rewrite MC).
    pose proof (fun s s' K => gentle_poll s tt s' K) as GP.
    assert (forall s s', poll G W s = (Ok tt, s') -> seen s' = seen s) as LP.
    { clear - HD. intros s s' H. unfold poll in H. apply bind_ok in H as (t & s1 & E & H). injection E as <- <-.
      rewrite bind_upd in H. unfold handle_user_cancellation in H. rewrite HD in H.
      assert (forall t, s_trace t = EvCleared ByAsync :: s_trace s -> seen t = seen s) as K.
      { intros t E. unfold seen, history. rewrite E. cbn [rev]. rewrite answers_app. apply app_nil_r. }
      destruct (w_async W _); pose proof (f_equal snd H) as H'; cbn in H'; rewrite <- H'; [reflexivity|now apply K..]. }
    apply (run_result NO G W SO (inner_routine_call G W) adaptive x0 sim (g_drift_min G) avg PS
             (fun s => s_running s = true /\ nan_free (map snd (seen s))) seen s0); try reflexivity; try assumption.
    - intros s t E [A B]. destruct (GP s t E A) as [A' C]. pose proof (LP s t E) as L. rewrite L in B. repeat split; assumption.
    - intros x it s y t E [A B]. destruct (gentle_inner x it s y t E A) as [A' C]. pose proof (inner_seen x it s y t E A) as L.
      split; [|now split]. split; [assumption|]. rewrite L, map_app in B. intros z Z. apply B. apply in_or_app. now left.
    - intros s new [_ B] E z Z. apply B. rewrite E, map_app. apply in_or_app. now right.
    - apply PR.
    - split; [assumption|]. now apply NN.
  Qed.
End Run.
