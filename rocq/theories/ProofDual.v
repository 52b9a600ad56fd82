(** Two runs that differ in the sign of the figure of merit, or only in random numbers that are not used. *)
From Coq Require Import String ZArith List Bool.
From RecordUpdate Require Import RecordSet.
From Verif Require Import Num Py ModelPulse ModelControls ModelLinalg ModelState ModelSearch ModelRun SpecRun ProofSim ProofSimRun.
Import ListNotations RecordSetNotations.
Open Scope list_scope.
Open Scope run_scope.

Section Dual.
  Context {N : Num} (fl : num -> num) (G1 G2 : settings) (W1 W2 : world).
  Hypotheses (HG : same_settings G1 G2) (HW : same_world G1 W1 W2)
             (Hans : forall h, w_fom W2 h = map_answer fl (w_fom W1 h))
             (Hcost : forall v, (factor G2 * fl v)%num = (factor G1 * v)%num)
             (Hlog : forall v, (factor G2 * v)%num = fl (factor G1 * v)%num)
             (Hgoal : goal G2 = goal G1).

  Lemma bind_ok' {A B} (m : M A) (k : A -> M B) s a s1 : m s = (Ok a, s1) -> bind m k s = k a s1.
  Proof. unfold bind. now intros ->. Qed.
  Lemma bind_err' {A B} (m : M A) (k : A -> M B) s e s1 : m s = (Err e, s1) -> bind m k s = (Err e, s1).
  Proof. unfold bind. now intros ->. Qed.
  Lemma bind_get' {B} (k : st -> M B) s : bind get k s = k s s.
  Proof. reflexivity. Qed.

  Definition mirror (s : st) : st := s <|s_fom_list ::= map fl|> <|s_trace ::= map (map_event fl)|>.
  Definition R (s t : st) : Prop := t = mirror s.
  Definition X (_ : exn) : st -> st -> Prop := R.

  Lemma dual_frame : wide_frame R X G1 W1 G2 W2.
  Proof.
    constructor; auto; try (intros; unfold R in *; subst; reflexivity).
    intros s t ->. constructor; reflexivity.
  Qed.
  Let F : frame R X G1 W1 G2 W2 := dual_frame.
  Ltac up := apply sim_upd; intros ? ? ->; reflexivity.
  Lemma kind2 : g_kind G2 = g_kind G1. Proof. now rewrite HG. Qed.
  Lemma steps2 : g_steps G2 = g_steps G1. Proof. now rewrite HG. Qed.
  Lemma avg2 : g_drift_avg G2 = g_drift_avg G1. Proof. now rewrite HG. Qed.
  Lemma dsm2 : has_dsm G2 = has_dsm G1. Proof. now rewrite HG. Qed.
  Lemma seed2 : uses_seed G2 = uses_seed G1. Proof. now rewrite HG. Qed.
  Lemma total2 : g_total_lim G2 = g_total_lim G1. Proof. now rewrite HG. Qed.
  Lemma max2 : g_max_total G2 = g_max_total G1. Proof. now rewrite HG. Qed.

  Lemma dual_clear c : sim R X (clear c) (clear c).
  Proof. intros s t ->. split; reflexivity. Qed.
  Lemma dual_stop w c : sim R X (stop_because G1 W1 w c) (stop_because G2 W2 w c).
  Proof.
    unfold stop_because. sim_step F. intros _. apply sim_bind; [up|]. intros _. rewrite dsm2.
    apply sim_bind; [repeat sim_step F|]. intros _. apply dual_clear.
  Qed.
  Lemma dual_budget : sim R X (check_budget G1 W1) (check_budget G2 W2).
  Proof. unfold check_budget. sim_step F. rewrite max2, (e_iter _ _ E). destruct (_ <=? _)%Z; [apply dual_stop|sim_step F]. Qed.
  Lemma dual_goal : sim R X (check_goal G1 W1) (check_goal G2 W2).
  Proof.
    unfold check_goal. sim_step F. rewrite Hgoal, (e_best _ _ E).
    destruct (goal G1); [|sim_step F]. destruct (_ <=? _)%num; [apply dual_stop|sim_step F].
  Qed.
  Lemma dual_time : sim R X (check_total_time G1 W1) (check_total_time G2 W2).
  Proof.
    unfold check_total_time. rewrite total2. destruct (_ <? _)%num; [|sim_step F].
    sim_step F. intros t. sim_step F. rewrite (e_start _ _ E). destruct (s_start _); [|sim_step F].
    apply sim_bind; [up|]. intros _. destruct (_ <=? _)%num; [apply dual_stop|sim_step F].
  Qed.
  Lemma dual_controls x : sim R X (get_controls G1 x) (get_controls G2 x).
  Proof.
    unfold get_controls. sim_step F. rewrite (e_controls _ _ E).
    sim_step F. intros [c d]. apply sim_bind; [up|]. intros _. rewrite kind2. repeat sim_step F.
  Qed.
  Lemma dual_data x : sim R X (get_data G1 W1 x) (get_data G2 W2 x).
  Proof.
    unfold get_data. sim_step F. intros _. sim_step F. rewrite (e_sent _ _ E). destruct (s_sent _) as [d|]; [|sim_step F].
    rewrite (e_hist _ _ E), Hans. cbv zeta.
    apply sim_bind; [up|]. intros _. apply sim_bind; [up|]. intros _.
    destruct (w_fom W1 _) as [|[[| |v] sd stt]]; cbn [map_answer a_fom a_std a_status]; [sim_step F| | |];
      [sim_step F|sim_step F|].
    apply sim_bind; [|intros _; rewrite Hcost; up].
    match goal with |- sim _ _ (if ?b then _ else _) _ => destruct b end; [sim_step F|apply dual_clear].
  Qed.
  Lemma dual_save b v o1 o2 i o3 : sim R X (update_controls b v o1 o2 i o3) (update_controls b v o1 o2 i o3).
  Proof. unfold update_controls. sim_step F. rewrite (e_sent _ _ E). repeat sim_step F. up. Qed.
  Lemma dual_send v o : sim R X (send_response v o) (send_response v o).
  Proof.
    unfold send_response. sim_step F. rewrite (e_status _ _ E), (e_is_record _ _ E), (e_iter _ _ E).
    destruct (s_status _); [|sim_step F]. destruct (_ =? 0)%Z; [|apply dual_clear].
    apply sim_bind; [apply dual_save|]. intros _. up.
  Qed.
  Lemma dual_std : sim R X std_default std_default.
  Proof. unfold std_default. sim_step F. rewrite (e_std _ _ E). destruct (s_std _); [sim_step F|]. apply sim_bind; [up|]. repeat sim_step F. Qed.
  Lemma dual_average o : sim R X (get_average o) (get_average o).
  Proof.
    unfold get_average. sim_step F. rewrite (e_re _ _ E), (e_fom _ _ E).
    destruct (re_step (s_re _)); [apply sim_bind; [apply dual_std|]; repeat sim_step F|].
    destruct o as [[]|]; [sim_step F|]. apply sim_bind; [apply dual_std|]; repeat sim_step F.
  Qed.
  Lemma dual_note v : sim R X (note_record v) (note_record v).
  Proof. unfold note_record. sim_step F. rewrite (e_best _ _ E). destruct (_ <? _)%num; [|sim_step F]. up. Qed.
  Lemma dual_log v : sim R X (log_fom G1 v) (log_fom G2 v).
  Proof.
    unfold log_fom. sim_step F. rewrite (e_status _ _ E). destruct (s_status _); [|sim_step F].
    destruct (_ =? 0)%Z; [|sim_step F]. apply sim_upd. intros u w ->. rewrite Hlog.
    exact (f_equal (fun L => mirror u <|s_fom_list := L|> <|s_iter_list ::= fun l => l ++ [s_iter u]|>)
             (eq_sym (map_app fl (s_fom_list u) [(factor G1 * v)%num]))).
  Qed.
  Lemma dual_respond : sim R X (respond G1) (respond G2).
  Proof.
    unfold respond. rewrite kind2, steps2. destruct (g_kind G1).
    - apply sim_bind; [apply dual_average|]. intros [v sd]. apply sim_bind; [destruct (g_steps G1); [sim_step F|apply dual_note]|].
      intros _. apply sim_bind; [apply dual_log|]. intros _. sim_step F. rewrite (e_book _ _ E). apply dual_send.
    - sim_step F. rewrite (e_fom _ _ E). cbv zeta. apply sim_bind; [|intros _; apply dual_send].
      destruct (g_steps G1).
      + apply sim_bind; [apply dual_average|]. intros [v sd]. apply dual_log.
      + apply sim_bind; [apply dual_note|]. intros _. apply dual_log.
    - sim_step F. rewrite (e_fom _ _ E). cbv zeta. apply sim_bind; [apply dual_note|]. intros _.
      apply sim_bind; [apply dual_log|]. intros _. apply dual_send.
    - sim_step F. rewrite (e_fom _ _ E). cbv zeta. apply sim_bind; [apply dual_note|]. intros _.
      apply sim_bind; [apply dual_log|]. intros _. apply dual_send.
  Qed.
  Lemma dual_routine x it : sim R X (routine_call G1 W1 x it) (routine_call G2 W2 x it).
  Proof.
    unfold routine_call. apply sim_bind; [apply dual_budget|]. intros _. apply sim_bind; [apply dual_goal|]. intros _.
    apply sim_bind; [apply dual_time|]. intros _. sim_step F. intros r. destruct (negb r); [sim_step F|].
    apply sim_bind; [up|]. intros _. apply sim_bind; [apply dual_controls|]. intros d. apply sim_bind; [up|]. intros _.
    sim_step F. intros r2. destruct (negb r2); [sim_step F|].
    apply sim_bind; [apply dual_data|]. intros _. apply sim_bind; [apply dual_respond|]. intros _.
    sim_step F. rewrite (e_fom _ _ E). apply sim_bind; [apply (sim_add_track F)|]. intros _.
    apply sim_bind; [apply (sim_advanced F)|]. intros _. sim_step F. rewrite (e_fom _ _ E0). sim_step F.
  Qed.
  Lemma dual_store i v : sim R X (store_test i v) (store_test i v).
  Proof.
    unfold store_test. sim_step F. rewrite (e_re _ _ E). sim_step F. intros l. apply sim_bind; [up|]. intros _.
    apply sim_bind; [apply dual_std|]. intros sd. sim_step F. rewrite (e_re _ _ E0). sim_step F. intros l2.
    apply sim_bind; [up|]. intros _. up.
  Qed.
  Lemma dual_test : sim R X test_average test_average.
  Proof. unfold test_average. sim_step F. rewrite (e_re _ _ E). apply dual_average. Qed.
  Lemma prob2 : probability W2 = probability W1.
  Proof. unfold probability. rewrite (proj1 HW). reflexivity. Qed.
  Lemma dual_re_evaluate x it ps ii : sim R X (re_evaluate G1 W1 x it ps ii) (re_evaluate G2 W2 x it ps ii).
  Proof.
    revert ii. induction ps as [|p ps IH]; intros ii; cbn [re_evaluate]; [sim_step F|].
    apply sim_bind; [apply dual_test|]. intros [mu sg]. sim_step F. rewrite (e_best _ _ E), (e_re _ _ E), prob2.
    destruct (_ <? p)%num; [sim_step F|]. apply sim_bind; [apply dual_routine|]. intros y.
    apply sim_bind; [apply dual_store|]. intros _. apply IH.
  Qed.
  Lemma dual_super s t : R s t -> super_of G2 t = super_of G1 s.
  Proof. intros ->. unfold super_of. rewrite kind2. reflexivity. Qed.
  Lemma dual_inner x it o : sim R X (inner_routine_call G1 W1 x it o) (inner_routine_call G2 W2 x it o).
  Proof.
    unfold inner_routine_call. destruct o as [mu|].
    - apply sim_bind; [up|]. intros _. sim_step F. rewrite (e_xx _ _ E), (dual_super _ _ H), (e_iter _ _ E).
      destruct (s_xx _); [|sim_step F]. apply sim_bind; [up|]. intros _. apply sim_bind; [apply dual_save|]. repeat sim_step F.
    - apply sim_bind; [up|]. intros _. apply sim_bind; [apply dual_routine|]. intros y. rewrite steps2.
      destruct (g_steps G1) as [steps|]; [|sim_step F]. sim_step F. rewrite (e_iter _ _ E). cbv zeta.
      apply sim_bind; [up|]. intros _. apply sim_bind; [apply dual_store|]. intros _.
      apply sim_bind; [apply dual_re_evaluate|]. intros [mu|]; [sim_step F|].
      apply sim_bind; [apply dual_test|]. intros [mu sg].
      apply sim_get. intros s1 t1 H1. pose proof (fr_same _ _ _ _ _ _ F _ _ H1) as E1.
      rewrite (e_best _ _ E1), (e_re _ _ E1), prob2, (e_xx _ _ E1), (dual_super _ _ H1), (e_iter _ _ E1).
      sim_step F. intros p. destruct (p <? _)%num; [|sim_step F].
      apply sim_bind; [up|]. intros _. destruct (s_xx t1); [|sim_step F]. apply sim_bind; [up|]. intros _.
      apply sim_bind; [apply dual_save|]. repeat sim_step F.
  Qed.
  Lemma dual_mean : sim R X mean_value mean_value.
  Proof. unfold mean_value. sim_step F. rewrite (e_controls _ _ E). apply sim_lift. intros e u v Q. exact Q. Qed.
  Lemma dual_sum n x acc : sim R X (sum_routine G1 W1 n x acc) (sum_routine G2 W2 n x acc).
  Proof. revert acc. induction n as [|n IH]; intros acc; cbn [sum_routine]; [sim_step F|]. apply sim_bind; [apply dual_routine|]. intros y. apply IH. Qed.
  Lemma dual_update : sim R X (update_FoM G1 W1) (update_FoM G2 W2).
  Proof.
    unfold update_FoM. rewrite avg2. apply sim_bind; [apply dual_mean|]. intros x0. apply sim_bind; [up|]. intros _.
    apply sim_bind; [apply dual_sum|]. intros tot. destruct (_ =? 0)%Z; [sim_step F|]. up.
  Qed.
  Lemma dual_choose : sim R X (choose_basis G1 W1) (choose_basis G2 W2).
  Proof.
    unfold choose_basis. sim_step F. rewrite seed2, (e_cnt _ _ E), (e_controls _ _ E). destruct (uses_seed G1) eqn:U.
    - replace (w_rng W2) with (w_rng W1) by (rewrite (proj1 HW); reflexivity). sim_step F. intros [c p]. up.
    - rewrite (proj1 (proj2 HW) U). sim_step F. intros [c p]. up.
  Qed.
  Lemma dual_gradient x : sim R X (gradient W1 x) (gradient W2 x).
  Proof.
    unfold gradient. sim_step F. rewrite (e_controls _ _ E), (e_cnt _ _ E). sim_step F. intros [c d].
    apply sim_bind; [up|]. intros _. apply sim_bind; [up|]. intros _.
    replace (w_gradient W2) with (w_gradient W1) by (rewrite (proj1 HW); reflexivity). repeat sim_step F.
  Qed.
  Lemma dual_base : sim R X update_base update_base.
  Proof.
    unfold update_base. sim_step F. rewrite (e_best_xx _ _ E), (e_controls _ _ E). destruct (s_best_xx _); [|sim_step F].
    sim_step F. intros c. apply sim_bind; [up|]. repeat sim_step F.
  Qed.
  Lemma dual_ops : ops R X G1 W1 G2 W2.
  Proof.
    constructor.
    - exact F.
    - intros x s t ->. apply dual_routine. reflexivity.
    - intros. apply dual_inner.
    - intros. apply dual_inner.
    - intros. apply dual_update.
    - apply dual_choose.
    - apply dual_gradient.
    - apply dual_base.
    - intros _ m s t ->. reflexivity.
    - intros g s t ->. reflexivity.
  Qed.

  Lemma final_state G s : snd (final_results G s) = s.
  Proof. unfold final_results. rewrite bind_get'. destruct (g_kind G); try reflexivity. destruct (s_xx s); reflexivity. Qed.
  Lemma dual_final s : fst (final_results G2 (mirror s)) = (f <-! fst (final_results G1 s); Ok (map_final fl f))%res.
  Proof.
    unfold final_results. rewrite !bind_get'. cbv zeta. rewrite kind2, Hlog. destruct (g_kind G1); try reflexivity.
    change (s_xx (mirror s)) with (s_xx s). destruct (s_xx s); reflexivity.
  Qed.
  Lemma dual_end : sim R X (end_ G1) (end_ G2).
  Proof.
    intros s t ->. pose proof (final_state G1 s) as E1. pose proof (final_state G2 (mirror s)) as E2.
    pose proof (dual_final s) as E. unfold end_.
    destruct (final_results G1 s) as [[f|e] s1] eqn:F1, (final_results G2 (mirror s)) as [[g|e'] s2] eqn:F2; cbn [fst snd] in E1, E2, E; subst.
    - injection E as ->. rewrite (bind_ok' _ _ _ _ _ F1), (bind_ok' _ _ _ _ _ F2). split; reflexivity.
    - discriminate.
    - discriminate.
    - injection E as ->. rewrite (bind_err' _ _ _ _ _ F1), (bind_err' _ _ _ _ _ F2). split; reflexivity.
  Qed.
  Lemma dual_begin : sim R X (begin W1) (begin W2).
  Proof. unfold begin. sim_step F. intros t. up. Qed.
  Theorem dual_optimise : optimise G2 W2 = (o <-! optimise G1 W1; Ok (fst o, mirror (snd o)))%res.
  Proof.
    unfold optimise. assert (E : new_state G2 W2 = (s <-! new_state G1 W1; Ok (mirror s))%res).
    { unfold new_state. rewrite dsm2. rewrite HG, (proj1 HW). cbn.
      destruct (new_controls _ _ _); reflexivity. }
    rewrite E. destruct (new_state G1 W1) as [s|e]; [|reflexivity].
    change (Ok (execute G2 W2 (mirror s)) = Ok (fst (execute G1 W1 s), mirror (snd (execute G1 W1 s)))).
    assert (K : sim R X (execute G1 W1) (execute G2 W2)).
    { unfold execute. apply sim_bind; [apply dual_begin|]. intros _. apply sim_bind; [apply (sim_run dual_ops)|].
      intros _. apply dual_end. }
    destruct (K s (mirror s) eq_refl) as [K1 K2]. destruct (execute G1 W1 s) as [r1 s1], (execute G2 W2 (mirror s)) as [r2 s2].
    cbn [fst snd] in *. subst r2. f_equal. f_equal. destruct r1; exact K2.
  Qed.
End Dual.

Section Consequences.
  Context {N : Num}.
  Lemma reversed_same (G : settings) : same_settings G (reversed G).
  Proof. destruct G; reflexivity. Qed.
  Lemma reversed_goal (S : NumSign N) (G : settings) : goal (reversed G) = goal G.
  Proof.
    unfold goal, factor, reversed, negated, set. destruct G as [? ? ? ? mx gg]; cbn.
    destruct mx, gg; cbn; rewrite ?(nmul_1 _ S), ?(nmul_neg_neg _ S); reflexivity.
  Qed.
  Lemma maximise_minimise (S : NumSign N) G W r s : optimise G W = Ok (r, s) ->
    exists s', optimise (reversed G) (negated_fom W) = Ok (r, s') /\
      history s' = map (map_event negated) (history s) /\
      s_fom_list s' = map negated (s_fom_list s) /\ s_iter_list s' = s_iter_list s /\
      s_best s' = s_best s /\ s_best_xx s' = s_best_xx s /\ s_controls s' = s_controls s /\ s_book s' = s_book s /\
      s_reason s' = s_reason s.
  Proof.
    intros H. pose proof (dual_optimise negated G (reversed G) W (negated_fom W)) as D.
    rewrite H in D. exists (mirror negated s). split.
    - apply D.
      + apply reversed_same.
      + destruct W; repeat split; auto.
      + reflexivity.
      + intros v. unfold factor, negated. destruct G; cbn. destruct g_maximise; cbn; now rewrite ?(nmul_1 _ S), ?(nmul_neg_neg _ S).
      + intros v. unfold factor, negated. destruct G; cbn. destruct g_maximise; cbn; now rewrite ?(nmul_1 _ S), ?(nmul_neg_neg _ S).
      + now apply reversed_goal.
    - unfold history. change (s_trace (mirror negated s)) with (map (map_event negated) (s_trace s)).
      rewrite map_rev. repeat split.
  Qed.

  Lemma map_answer_id a : map_answer (fun v => v) a = a.
  Proof. destruct a as [|[[| |v] sd st]]; reflexivity. Qed.
  Lemma map_event_id e : map_event (fun v => v) e = e.
  Proof.
    destruct e; cbn; rewrite ?map_answer_id; try reflexivity.
    - now destruct f. - now destruct f.
  Qed.
  Lemma mirror_id s : mirror (fun v => v) s = s.
  Proof.
    assert (E : s <|s_fom_list ::= map (fun v => v)|> = s).
    { destruct s; unfold set; cbn. f_equal. apply map_id. }
    unfold mirror. rewrite E. destruct s; unfold set; cbn. f_equal.
    rewrite <- (map_id s_trace) at 2. apply map_ext, map_event_id.
  Qed.
  Lemma unused_random G W u v : (uses_seed G = false -> u = w_np W) ->
    (forall p, g_method G = MCMAES p -> has_dsm G = true -> v = w_randn W) ->
    optimise G (W <|w_np := u|> <|w_randn := v|>) = optimise G W.
  Proof.
    intros Hu Hv. rewrite (dual_optimise (fun v => v) G G W (W <|w_np := u|> <|w_randn := v|>)).
    - destruct (optimise G W) as [[r s]|]; cbn; [now rewrite mirror_id|reflexivity].
    - apply same_settings_refl.
    - destruct W; repeat split; auto.
    - intros h. destruct W; cbn. now rewrite map_answer_id.
    - reflexivity.
    - reflexivity.
    - reflexivity.
  Qed.
End Consequences.
