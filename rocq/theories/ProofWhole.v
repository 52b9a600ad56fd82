(** Every control that a run hands to the user or saves was made by the controls object of the run, in a state that it can come to. *)
From Coq Require Import String ZArith List Bool.
From RecordUpdate Require Import RecordSet.
From Verif Require Import Num Py ModelPulse ModelControls ModelLinalg ModelState ModelSearch ModelRun SpecControls SpecRun ProofSim ProofSimRun.
Import ListNotations RecordSetNotations.
Open Scope list_scope.
Open Scope run_scope.

Section Whole.
  Context {N : Num} (G : settings) (W : world) (c0 : controls).

  (** [d] is what the controls object makes of [x] in a state that comes from [c0]; the direct search gives parameters only *)
  Definition made (x : vec) (d : delivered) : Prop :=
    exists c c' d', reachable c0 c /\ get_controls_lists x c = Ok (c', d') /\
      match g_kind G with
      | KDirect => d_pulses d' = [] /\ d_timegrids d' = [] /\ d = mk_delivered [] [] (d_parameters d')
      | _ => d = d'
      end.
  Definition event_made (e : event) : Prop :=
    match e with
    | EvEval x d _ => made x d
    | EvGrad d => exists x c c', reachable c0 c /\ get_controls_lists x c = Ok (c', d)
    | EvSave f => exists x, made x (sv_controls f)
    | _ => True
    end.
  Definition whole (s : st) : Prop :=
    reachable c0 (s_controls s) /\ Forall event_made (s_trace s) /\ (forall d, s_sent s = Some d -> exists x, made x d).
  Notation kept m := (keeps whole (fun _ => whole) m).

  Lemma whole_same s t : s_controls t = s_controls s -> s_trace t = s_trace s -> s_sent t = s_sent s -> whole s -> whole t.
  Proof. intros A B C. unfold whole. now rewrite A, B, C. Qed.
  Lemma whole_event e s : event_made e -> whole s -> whole (s <|s_trace ::= cons e|>).
  Proof. intros E (A & B & C). split; [exact A|]. split; [constructor; assumption|exact C]. Qed.
  Lemma whole_clear by_ s : whole s -> whole (s <|s_running := false|> <|s_trace ::= cons (EvCleared by_)|>).
  Proof. intros H. apply whole_event; [exact I|]. now apply (whole_same s). Qed.

  Lemma whole_frame : frame (diag whole) (diagx (fun _ => whole)) G W G W.
  Proof.
    apply wide_frame_frame, wide_diag; auto; try (intros; now apply (whole_same s)). intros s H. now apply whole_clear.
  Qed.
  Lemma kept_poll : kept (poll G W).
  Proof. apply keeps_sim. apply (sim_poll whole_frame). Qed.
  Lemma kept_running : kept (get_running G W).
  Proof. apply keeps_sim. apply (sim_get_running whole_frame). Qed.
  Lemma kept_now : kept (now W).
  Proof. apply keeps_sim. apply (sim_now whole_frame). Qed.
  Lemma kept_ret {A} (a : A) : kept (ret a).
  Proof. apply keeps_ret. Qed.
  Lemma kept_raise {A} e : kept (raise (A := A) e).
  Proof. apply keeps_raise. auto. Qed.
  Lemma kept_upd f : (forall s, s_controls (f s) = s_controls s /\ s_trace (f s) = s_trace s /\ s_sent (f s) = s_sent s) -> kept (upd f).
  Proof. intros H. apply keeps_upd. intros s K. destruct (H s) as (A & B & C). exact (whole_same s (f s) A B C K). Qed.
  Lemma kept_emit e : event_made e -> kept (emit e).
  Proof. intros E. apply keeps_upd. intros s. now apply whole_event. Qed.
  Lemma kept_clear by_ : kept (clear by_).
  Proof. intros s H. now apply whole_clear. Qed.
  Hint Resolve kept_poll kept_running kept_now kept_ret kept_raise kept_clear : kept.

  Lemma kept_stop why by_ : kept (stop_because G W why by_).
  Proof.
    unfold stop_because. apply keeps_bind; [apply kept_poll|]. intros _.
    apply keeps_bind; [now apply kept_upd|]. intros _.
    apply keeps_bind; [destruct (has_dsm G); [apply keeps_sim, (sim_set_conv whole_frame)|apply kept_ret]|]. intros _. apply kept_clear.
  Qed.
  Lemma kept_budget : kept (check_budget G W).
  Proof. apply keeps_get. intros t _. destruct (_ <=? _)%Z; [apply kept_stop|apply kept_ret]. Qed.
  Lemma kept_goal : kept (check_goal G W).
  Proof. apply keeps_get. intros t _. destruct (goal G) as [g|]; [|apply kept_ret]. destruct (_ <=? _)%num; [apply kept_stop|apply kept_ret]. Qed.
  Lemma kept_time : kept (check_total_time G W).
  Proof.
    unfold check_total_time. destruct (_ <? _)%num; [|apply kept_ret]. apply keeps_bind; [apply kept_now|]. intros t.
    apply keeps_get. intros s _. destruct (s_start s) as [t0|]; [|apply kept_raise].
    apply keeps_bind; [now apply kept_emit|]. intros _. destruct (_ <=? _)%num; [apply kept_stop|apply kept_ret].
  Qed.
  Lemma kept_save b v o1 o2 i o3 : kept (update_controls b v o1 o2 i o3).
  Proof.
    intros s H. unfold ends, update_controls, bind, get. destruct (s_sent s) as [d|] eqn:E; [|exact H]. destruct b; [|exact H].
    apply whole_event; [|exact H]. exact (proj2 (proj2 H) d E).
  Qed.
  Lemma kept_send v o : kept (send_response v o).
  Proof.
    apply keeps_get. intros t _. destruct (s_status t) as [c|]; [|apply kept_ret]. destruct (c =? 0)%Z; [|apply kept_clear].
    apply keeps_bind; [apply kept_save|]. intros _. now apply kept_emit.
  Qed.
  Lemma kept_std : kept std_default.
  Proof. apply keeps_get. intros t _. destruct (s_std t); [apply kept_ret|]. apply keeps_bind; [now apply kept_upd|]. intros _. apply kept_ret. Qed.
  Lemma kept_average o : kept (get_average o).
  Proof.
    apply keeps_get. intros t _. destruct (re_step (s_re t)) as [|k].
    - apply keeps_bind; [apply kept_std|]. intros. apply kept_ret.
    - destruct o as [[m sg]|]; [apply kept_ret|]. apply keeps_bind; [apply kept_std|]. intros. apply kept_ret.
  Qed.
  Lemma kept_note v : kept (note_record v).
  Proof. apply keeps_get. intros t _. destruct (_ <? _)%num; [now apply kept_upd|apply kept_ret]. Qed.
  Lemma kept_log v : kept (log_fom G v).
  Proof. apply keeps_get. intros t _. destruct (s_status t) as [c|]; [|apply kept_ret]. destruct (c =? 0)%Z; [now apply kept_upd|apply kept_ret]. Qed.
  Lemma kept_respond : kept (respond G).
  Proof.
    unfold respond. destruct (g_kind G).
    - apply keeps_bind; [apply kept_average|]. intros [v sd]. apply keeps_bind; [destruct (g_steps G); [apply kept_ret|apply kept_note]|]. intros _.
      apply keeps_bind; [apply kept_log|]. intros _. apply keeps_get. intros t _. apply kept_send.
    - apply keeps_get. intros t _. cbv zeta. apply keeps_bind; [|intros _; apply kept_send]. destruct (g_steps G).
      + apply keeps_bind; [apply kept_average|]. intros [v sd]. apply kept_log.
      + apply keeps_bind; [apply kept_note|]. intros _. apply kept_log.
    - apply keeps_get. intros t _. cbv zeta. apply keeps_bind; [apply kept_note|]. intros _. apply keeps_bind; [apply kept_log|]. intros _. apply kept_send.
    - apply keeps_get. intros t _. cbv zeta. apply keeps_bind; [apply kept_note|]. intros _. apply keeps_bind; [apply kept_log|]. intros _. apply kept_send.
  Qed.

  (** the controls that are sent are those of [x] until the answer is there *)
  Definition sending (x : vec) (d : delivered) (s : st) : Prop := whole s /\ made x d /\ s_sent s = Some d.
  Lemma sending_frame x d : frame (diag (sending x d)) (diagx (fun _ => whole)) G W G W.
  Proof.
    apply wide_frame_frame, wide_diag.
    - intros e s H. apply H.
    - intros g s (H & K). split; [now apply (whole_same s)|exact K].
    - intros g s (H & K). split; [now apply (whole_same s)|exact K].
    - intros g s (H & K). split; [now apply (whole_same s)|exact K].
    - intros s (H & K). split; [now apply whole_clear|exact K].
  Qed.
  Lemma ends_mid {A B} (J I : st -> Prop) (X : exn -> st -> Prop) (m : M A) (f : A -> M B) s :
    ends J X (m s) -> (forall a t, J t -> ends I X (f a t)) -> ends I X ((x <- m;; f x) s).
  Proof. unfold ends, bind. destruct (m s) as [[a|e] t]; cbn; intros H K; [now apply K|exact H]. Qed.
  Lemma ends_val {A B} (I : st -> Prop) (X : exn -> st -> Prop) (m : M A) (f : A -> M B) s :
    match m s with (Ok a, t) => ends I X (f a t) | (Err e, t) => X e t end -> ends I X ((x <- m;; f x) s).
  Proof. unfold ends, bind. destruct (m s) as [[a|e] t]; cbn; intros H; exact H. Qed.
  Lemma kept_data x d s : sending x d s -> ends whole (fun _ => whole) (get_data G W x s).
  Proof.
    intros H. unfold get_data. apply (ends_mid (sending x d)).
    { exact (proj2 (keeps_sim _ _ _) (sim_poll (sending_frame x d)) s H). }
    clear. intros _ t (H & M & E). unfold bind at 1, get. rewrite E. cbv zeta. revert t H E. generalize (w_fom W). intros fom t H E.
    generalize (fom (d :: s_hist t)). intros ans. revert t H E.
    match goal with |- forall t, whole t -> _ -> ends _ _ (?m t) => enough (K : kept m) by (intros t H _; exact (K t H)) end.
    apply keeps_bind; [now apply kept_upd|]. intros _. apply keeps_bind; [apply kept_emit; exact M|]. intros _.
    destruct ans as [|a]; [apply kept_raise|]. destruct (a_fom a); [apply kept_raise|apply kept_raise|].
    apply keeps_bind; [destruct (_ =? 0)%Z; [apply kept_ret|apply kept_clear]|]. intros _. now apply kept_upd.
  Qed.
  Lemma kept_controls x s : whole s -> match get_controls G x s with (Ok d, t) => whole t /\ made x d | (Err _, t) => whole t end.
  Proof.
    intros (A & B & C). unfold get_controls, bind, get, lift. destruct (get_controls_lists x (s_controls s)) as [[c d]|e] eqn:E; [|now split].
    assert (R : reachable c0 c) by exact (reach_get _ _ _ _ _ A E).
    assert (T : whole (s <|s_controls := c|>)) by (split; [exact R|now split]). cbv beta iota delta [upd fst snd].
    unfold made. destruct (g_kind G) eqn:K; cbn; try (split; [exact T|exists (s_controls s), c, d; auto]).
    destruct (d_pulses d) eqn:P; [destruct (d_timegrids d) eqn:Q|]; cbn; try exact T. split; [exact T|].
    exists (s_controls s), c, d. rewrite P, Q. auto.
  Qed.
  Lemma kept_routine x it : kept (routine_call G W x it).
  Proof.
    unfold routine_call. apply keeps_bind; [apply kept_budget|]. intros _. apply keeps_bind; [apply kept_goal|]. intros _.
    apply keeps_bind; [apply kept_time|]. intros _. apply keeps_bind; [apply kept_running|]. intros r. destruct (negb r); [apply kept_ret|].
    apply keeps_bind; [now apply kept_upd|]. intros _. intros s H.
    apply ends_val. pose proof (kept_controls x s H) as K. destruct (get_controls G x s) as [[d|e] t]; [|exact K]. destruct K as [K M].
    apply (ends_mid (sending x d)).
    { destruct K as (A & B & C). split; [|split; [exact M|reflexivity]]. split; [exact A|]. split; [exact B|]. intros d' [= <-]. now exists x. }
    clear. intros _ t S1. apply (ends_mid (sending x d)); [exact (proj2 (keeps_sim _ _ _) (sim_get_running (sending_frame x d)) t S1)|].
    clear. intros q t S1. destruct (negb q); [exact (proj1 S1)|].
    apply (ends_mid whole); [now apply (kept_data x d)|]. intros _.
    apply keeps_bind; [apply kept_respond|]. intros _. apply keeps_get. intros u _.
    apply keeps_bind; [apply keeps_sim, (sim_add_track whole_frame)|]. intros _.
    apply keeps_bind; [apply keeps_sim, (sim_advanced whole_frame)|]. intros _. apply keeps_get. intros. apply kept_ret.
  Qed.

  Lemma whole_narrow : narrow1 G W whole (fun _ => whole).
  Proof.
    constructor; auto; try (intros; now apply (whole_same s)).
    - apply kept_poll.
    - intros f s _ H E. apply whole_event; [|exact H]. exact (proj2 (proj2 H) _ E).
    - intros x it s H _. now apply kept_routine.
    - intros x it _. apply kept_routine.
  Qed.
  Lemma kept_choose : kept (choose_basis G W).
  Proof.
    intros s (A & B & C). unfold ends, choose_basis, bind, get, lift. destruct (uses_seed G).
    - destruct (select_basis _ _ _) as [[c q]|e] eqn:E; cbn; [|now split]. split; [exact (reach_select _ _ _ _ _ _ A E)|now split].
    - destruct (select_basis _ _ _) as [[c q]|e] eqn:E; cbn; [|now split]. split; [exact (reach_select _ _ _ _ _ _ A E)|now split].
  Qed.
  Lemma kept_gradient x : kept (gradient W x).
  Proof.
    intros s (A & B & C). unfold ends, gradient, bind, get, lift. destruct (get_controls_lists x (s_controls s)) as [[c d]|e] eqn:E; [|now split].
    assert (T : whole (s <|s_controls := c|> <|s_cnt ::= set k_grad S|> <|s_trace ::= cons (EvGrad d)|>)).
    { apply whole_event; [exists x, (s_controls s), c; split; [exact A|exact E]|]. split; [exact (reach_get _ _ _ _ _ A E)|now split]. }
    cbv beta iota delta [upd emit]. destruct (w_gradient W _ d); exact T.
  Qed.
  Lemma kept_base : kept update_base.
  Proof.
    intros s (A & B & C). unfold ends, update_base, bind, get, lift. destruct (s_best_xx s) as [x|]; [|now split].
    destruct (update_base_controls x (s_controls s)) as [c|e] eqn:E; cbn; [|now split]. split; [exact (reach_update _ _ _ _ A E)|now split].
  Qed.
  Lemma whole_ops : ops (diag whole) (diagx (fun _ => whole)) G W G W.
  Proof.
    pose proof whole_narrow as C. constructor.
    - exact whole_frame.
    - intros x s t [<- H]. apply ends_both. apply kept_routine. now apply (whole_same s).
    - intros. apply keeps_sim. now apply (keeps_inner_none _ _ C).
    - intros D E x it v. apply keeps_sim. apply (keeps_inner_drift _ _ C); [exact D|]. right. now left.
    - intros K E. apply keeps_sim. apply (keeps_update_FoM _ _ C). right. now right.
    - apply keeps_sim, kept_choose.
    - intros. apply keeps_sim, kept_gradient.
    - apply keeps_sim, kept_base.
    - intros D m s t [<- H]. split; [reflexivity|]. now apply (whole_same s).
    - intros g s t [<- H]. split; [reflexivity|]. now apply (whole_same s).
  Qed.
  Lemma kept_execute : kept (execute G W).
  Proof.
    unfold execute. apply keeps_bind; [apply keeps_bind; [apply kept_now|intros; now apply kept_upd]|]. intros _.
    apply keeps_bind; [apply keeps_sim, (sim_run whole_ops)|]. intros _. unfold end_.
    apply keeps_bind.
    { apply keeps_get. intros t _. cbv zeta. destruct (g_kind G); try apply kept_ret. destruct (s_xx t); [apply kept_ret|apply kept_raise]. }
    intros f. apply keeps_bind; [now apply kept_emit|]. intros _. apply keeps_get. intros t _. now apply kept_emit.
  Qed.
End Whole.

(** whole optimisations *)
Theorem everything_made {N : Num} (G : settings) (W : world) r s : optimise G W = Ok (r, s) ->
  exists c0, new_controls (g_pulses G) (g_times G) (g_params G) = Ok c0 /\ reachable c0 (s_controls s) /\
    forall e, In e (history s) -> event_made G c0 e.
Proof.
  unfold optimise, new_state. destruct (new_controls (g_pulses G) (g_times G) (g_params G)) as [c0|e] eqn:C; [|discriminate].
  cbn [rbind]. intros H. injection H as H. exists c0. split; [reflexivity|].
  match type of H with execute G W ?s0 = _ => assert (K := kept_execute G W c0 s0) end.
  unfold ends in K. rewrite H in K. cbn [fst snd] in K.
  assert (X : whole G c0 s).
  { destruct r; (apply K; split; [apply reach_refl|split; [constructor|discriminate]]). }
  destruct X as (A & B & _). split; [exact A|]. intros e I. unfold history in I. rewrite <- in_rev in I. rewrite Forall_forall in B. now apply B.
Qed.
