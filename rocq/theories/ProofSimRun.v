(** Relational reasoning about whole runs, and its unary instance: invariants of runs. *)
From Coq Require Import String ZArith List Bool.
From RecordUpdate Require Import RecordSet.
From Verif Require Import Num Py ModelPulse ModelControls ModelLinalg ModelState ModelSearch ModelRun ProofSim.
Import ListNotations RecordSetNotations.
Open Scope list_scope.
Open Scope run_scope.

Section Ops.
  Context {N : Num}.

  Record ops (R : st -> st -> Prop) (X : exn -> st -> st -> Prop) (G1 : settings) (W1 : world) (G2 : settings) (W2 : world) : Prop := mk_ops {
    op_frame : frame R X G1 W1 G2 W2;
    op_ask : forall x s t, R s t ->
      both R X (routine_call G1 W1 x 0 (s <|s_is_record := false|>)) (routine_call G2 W2 x 0 (t <|s_is_record := false|>));
    op_inner : has_dsm G1 = true -> forall x it,
      sim R X (inner_routine_call G1 W1 x it None) (inner_routine_call G2 W2 x it None);
    op_drift : has_dsm G1 = true -> (of_Z 0 <? g_drift_min G1)%num = true -> forall x it v,
      sim R X (inner_routine_call G1 W1 x it (Some v)) (inner_routine_call G2 W2 x it (Some v));
    op_update : g_kind G1 = KdCRAB -> drift_after_si G1 = true -> sim R X (update_FoM G1 W1) (update_FoM G2 W2);
    op_choose : sim R X (choose_basis G1 W1) (choose_basis G2 W2);
    op_gradient : forall x, sim R X (gradient W1 x) (gradient W2 x);
    op_base : sim R X update_base update_base;
    op_best_xx : has_dsm G1 = true -> forall m s t, R s t -> R (s <|s_best_xx := Some m|>) (t <|s_best_xx := Some m|>);
    op_book : forall g s t, R s t -> R (s <|s_book ::= g|>) (t <|s_book ::= g|>)
  }.

  Section O.
    Context {R : st -> st -> Prop} {X : exn -> st -> st -> Prop} {G1 G2 : settings} {W1 W2 : world}.
    Context (O : ops R X G1 W1 G2 W2).
    Let F : frame R X G1 W1 G2 W2 := op_frame _ _ _ _ _ _ O.

    Lemma F_kind : g_kind G2 = g_kind G1.
    Proof. rewrite (fr_G _ _ _ _ _ _ F). reflexivity. Qed.
    Lemma F_seed : uses_seed G2 = uses_seed G1.
    Proof. rewrite (fr_G _ _ _ _ _ _ F). reflexivity. Qed.

    Lemma sim_mean : sim R X mean_value mean_value.
    Proof.
      unfold mean_value. sim_step F. rewrite (e_controls _ _ E). apply sim_lift. apply (fr_x _ _ _ _ _ _ F).
    Qed.
    Lemma sim_sigma : sim R X sigma_variation sigma_variation.
    Proof.
      unfold sigma_variation. sim_step F. rewrite (e_controls _ _ E). apply sim_lift. apply (fr_x _ _ _ _ _ _ F).
    Qed.
    Lemma sim_draw n : sim R X (draw G1 W1 n) (draw G2 W2 n).
    Proof.
      unfold draw. sim_step F. rewrite F_seed, (e_cnt _ _ E). destruct (uses_seed G1) eqn:U.
      - apply sim_bind; [apply sim_upd; intros; now apply (fr_cnt _ _ _ _ _ _ F)|]. intros _.
        rewrite (F_W F). sim_step F.
      - apply sim_bind; [apply sim_upd; intros; now apply (fr_cnt _ _ _ _ _ _ F)|]. intros _.
        rewrite (proj1 (proj2 (fr_W _ _ _ _ _ _ F)) U). sim_step F.
    Qed.

    Lemma sim_dsm_build : has_dsm G1 = true -> sim R X (dsm_build G1 W1) (dsm_build G2 W2).
    Proof.
      intros D. unfold dsm_build. apply sim_bind; [apply sim_mean|]. intros m.
      apply sim_bind; [apply sim_sigma|]. intros sg. apply sim_bind; [apply sim_draw|]. intros r.
      sim_step F. intros sx. apply sim_bind.
      { apply sim_upd. intros. now apply (op_best_xx _ _ _ _ _ _ O). }
      intros _. apply sim_bind.
      { replace (g_drift_min G2) with (g_drift_min G1) by (rewrite (fr_G _ _ _ _ _ _ F); reflexivity).
        replace (g_drift_avg G2) with (g_drift_avg G1) by (rewrite (fr_G _ _ _ _ _ _ F); reflexivity).
        apply (sim_run_dsm F); auto.
        - intros. now apply (op_inner _ _ _ _ _ _ O).
        - intros. now apply (op_drift _ _ _ _ _ _ O). }
      intros res. apply sim_upd. intros. now apply (op_book _ _ _ _ _ _ O).
    Qed.

    Lemma sim_base_pulses : sim R X update_base_pulses update_base_pulses.
    Proof.
      apply sim_bind; [apply (op_base _ _ _ _ _ _ O)|]. intros x. apply sim_upd. intros s t H.
      pose proof (fr_same _ _ _ _ _ _ F _ _ H) as E. rewrite (e_controls _ _ E).
      now apply (op_book _ _ _ _ _ _ O).
    Qed.

    Lemma sim_super k : g_kind G1 = KdCRAB -> sim R X (super_iteration G1 W1 k) (super_iteration G2 W2 k).
    Proof.
      intros K. unfold super_iteration. apply sim_bind; [apply (sim_reset F)|]. intros _.
      apply sim_bind; [apply (sim_reset_track F)|]. intros _.
      apply sim_bind; [apply sim_upd; intros; now apply (op_book _ _ _ _ _ _ O)|]. intros _.
      replace (drift_after_si G2) with (drift_after_si G1) by (rewrite (fr_G _ _ _ _ _ _ F); reflexivity).
      apply sim_bind.
      { destruct (drift_after_si G1) eqn:Ed; cbn [andb]; [|sim_step F].
        destruct (2 <=? k)%nat; [|sim_step F]. now apply (op_update _ _ _ _ _ _ O). }
      intros _. apply sim_bind; [apply (op_choose _ _ _ _ _ _ O)|]. intros _.
      apply sim_bind; [apply sim_dsm_build; unfold has_dsm; now rewrite K|]. intros _. apply sim_base_pulses.
    Qed.
    Lemma sim_dcrab ks : g_kind G1 = KdCRAB -> sim R X (dcrab_loop G1 W1 ks) (dcrab_loop G2 W2 ks).
    Proof.
      intros K. induction ks as [|k ks IH]; cbn [dcrab_loop]; [sim_step F|].
      sim_step F. intros r. destruct (negb r); [sim_step F|].
      apply sim_bind; [now apply sim_super|]. intros _. exact IH.
    Qed.

    Lemma sim_minimise S : sim R X (minimise G1 W1 S) (minimise G2 W2 S).
    Proof.
      induction S as [|x k IH]; cbn [minimise]; [sim_step F|].
      rewrite F_kind. apply sim_bind.
      { destruct (g_kind G1); try sim_step F. apply (op_gradient _ _ _ _ _ _ O). }
      intros _ s t H. rewrite !bind_upd. apply both_bind; [now apply (op_ask _ _ _ _ _ _ O)|]. intros y.
      apply sim_bind.
      { destruct (g_kind G1); try sim_step F. apply (op_gradient _ _ _ _ _ _ O). }
      intros _. apply IH.
    Qed.
    Lemma sim_random_start : sim R X (random_start G1 W1) (random_start G2 W2).
    Proof.
      unfold random_start. sim_step F. rewrite (e_controls _ _ E).
      apply sim_bind; [apply sim_draw|]. intros r. apply sim_bind; [apply sim_sigma|]. intros sg.
      apply sim_bind; [apply sim_mean|]. intros m. sim_step F.
    Qed.
    Lemma sim_ad ks : sim R X (ad_loop G1 W1 ks) (ad_loop G2 W2 ks).
    Proof.
      induction ks as [|k ks IH]; cbn [ad_loop]; [sim_step F|].
      apply sim_bind; [apply sim_upd; intros; now apply (op_book _ _ _ _ _ _ O)|]. intros _.
      apply sim_bind; [apply (op_choose _ _ _ _ _ _ O)|]. intros _.
      apply sim_bind; [apply sim_random_start|]. intros x0.
      replace (w_lbfgs W2) with (w_lbfgs W1) by (rewrite (F_W F); reflexivity).
      apply sim_bind; [apply sim_minimise|]. intros _.
      apply sim_bind; [apply (op_base _ _ _ _ _ _ O)|]. intros _. exact IH.
    Qed.
    Theorem sim_run : sim R X (run G1 W1) (run G2 W2).
    Proof.
      unfold run. rewrite F_kind.
      assert (E : super_range G2 = super_range G1)
        by (rewrite (fr_G _ _ _ _ _ _ F); reflexivity). rewrite E.
      destruct (g_kind G1) eqn:K.
      - now apply sim_dcrab.
      - apply sim_dsm_build. unfold has_dsm. now rewrite K.
      - apply sim_bind; [apply sim_random_start|]. intros x0.
        replace (w_lbfgs W2) with (w_lbfgs W1) by (rewrite (F_W F); reflexivity).
        apply sim_bind; [apply sim_minimise|]. intros _.
        apply sim_bind; [apply (op_base _ _ _ _ _ _ O)|]. intros _. sim_step F.
      - apply sim_ad.
    Qed.
  End O.
End Ops.

(** ** Invariants *)
Section Keeps.
  Context {N : Num}.
  Variables (I : st -> Prop) (X : exn -> st -> Prop).
  Hypothesis IX : forall e s, I s -> X e s.

  Lemma keeps_ret {A} (a : A) : keeps I X (ret a).
  Proof. intros s H. exact H. Qed.
  Lemma keeps_raise {A} e : keeps I X (raise (A := A) e).
  Proof. intros s H. cbn. auto. Qed.
  Lemma keeps_lift {A} (r : res A) : keeps I X (lift r).
  Proof. intros s H. destruct r; cbn; auto. Qed.
  Lemma keeps_bind {A B} (m : M A) (k : A -> M B) :
    keeps I X m -> (forall a, keeps I X (k a)) -> keeps I X (bind m k).
  Proof.
    intros Hm Hk s H. specialize (Hm s H). unfold bind. destruct (m s) as [[a|e] s']; cbn in *; auto.
    now apply Hk.
  Qed.
  Lemma ends_bind {A B} (m : M A) (k : A -> M B) s :
    ends I X (m s) -> (forall a, keeps I X (k a)) -> ends I X (bind m k s).
  Proof. intros Hm Hk. unfold ends, bind in *. destruct (m s) as [[a|e] s']; cbn in *; auto. now apply Hk. Qed.
  Lemma keeps_get {A} (k : st -> M A) : (forall t, I t -> keeps I X (k t)) -> keeps I X (bind get k).
  Proof. intros H s K. exact (H s K s K). Qed.
  Lemma keeps_upd f : (forall s, I s -> I (f s)) -> keeps I X (upd f).
  Proof. intros H s K. now apply H. Qed.
End Keeps.

Lemma py_set_length {A} (l : list A) i v l' : py_set l i v = Ok l' -> length l' = length l.
Proof.
  unfold py_set. destruct (_ || _)%bool; [discriminate|]. intros H. injection H as <-.
  generalize (Z.to_nat (if (i <? 0)%Z then (i + Z.of_nat (length l))%Z else i)). intros n. revert n.
  induction l as [|a l IH]; intros [|n]; cbn; auto.
Qed.

Section Closed.
  Context {N : Num} (G : settings) (W : world).

  (** re-evaluation or drift compensation is configured *)
  Definition adjusts : Prop :=
    g_steps G <> None \/ (of_Z 0 <? g_drift_min G)%num = true \/ drift_after_si G = true.

  Definition same_sizes (r r' : re_state) : Prop :=
    length (re_fom r) = length (re_fom r') /\ length (re_sigma r) = length (re_sigma r').

  Lemma wide_diag (I : st -> Prop) (X : exn -> st -> Prop) :
    (forall e s, I s -> X e s) -> (forall g s, I s -> I (s <|s_cnt ::= g|>)) -> (forall g s, I s -> I (s <|s_sc ::= g|>)) ->
    (forall r s, I s -> I (s <|s_reason := r|>)) ->
    (forall s, I s -> I (s <|s_running := false|> <|s_trace ::= cons (EvCleared ByAsync)|>)) ->
    wide_frame (diag I) (diagx X) G W G W.
  Proof.
    intros A B C D E. constructor.
    - intros e s t [<- H]. split; auto.
    - intros s t [<- _]. apply same_refl.
    - apply same_settings_refl.
    - apply same_world_refl.
    - intros g s t [<- H]. split; auto.
    - intros g s t [<- H]. split; auto.
    - intros g s t [<- H]. split; auto.
    - intros s t [<- H]. split; auto.
  Qed.
  (** closure conditions for an invariant of a run *)
  Record closed (I : st -> Prop) (X : exn -> st -> Prop) : Prop := mk_closed {
    cl_x : forall e s, I s -> X e s;
    cl_cnt : forall g s, I s -> I (s <|s_cnt ::= g|>);
    cl_sc : forall g s, I s -> I (s <|s_sc ::= g|>);
    cl_reason : forall r s, I s -> I (s <|s_reason := r|>);
    cl_clear : forall s, I s -> I (s <|s_running := false|> <|s_trace ::= cons (EvCleared ByAsync)|>);
    cl_re0 : forall s, I s -> I (s <|s_re ::= set re_step (fun _ => 0)|>);
    cl_re : forall r s, adjusts -> I s -> same_sizes r (s_re s) -> I (s <|s_re := r|>);
    cl_std : forall v s, adjusts -> I s -> I (s <|s_std := v|>);
    cl_book : forall g s, I s -> I (s <|s_book ::= g|>);
    cl_record : forall b s, I s -> I (s <|s_is_record := b|>);
    cl_best_xx : forall m s, has_dsm G = true -> I s -> I (s <|s_best_xx := m|>);
    cl_controls : forall c s, I s -> I (s <|s_controls := c|>);
    cl_grad : forall d s, I s -> I (s <|s_trace ::= cons (EvGrad d)|>);
    cl_best : forall b s, adjusts -> I s -> I (s <|s_best := b|>);
    cl_save : forall f s, adjusts -> I s -> I (s <|s_trace ::= cons (EvSave f)|>);
    cl_ask : forall x it s, I s -> s_is_record s = false -> ends I X (routine_call G W x it s);
    cl_routine : forall x it, adjusts -> keeps I X (routine_call G W x it)
  }.
  Record narrow (I : st -> Prop) (X : exn -> st -> Prop) : Prop := mk_narrow {
    nl_x : forall e s, I s -> X e s;
    nl_cnt : forall g s, same_polls g -> I s -> I (s <|s_cnt ::= g|>);
    nl_sc : forall g s, I s -> I (s <|s_sc ::= g|>);
    nl_poll : keeps I X (poll G W);
    nl_re0 : forall s, I s -> I (s <|s_re ::= set re_step (fun _ => 0)|>);
    nl_re : forall r s, adjusts -> I s -> same_sizes r (s_re s) -> I (s <|s_re := r|>);
    nl_std : forall v s, adjusts -> I s -> I (s <|s_std := v|>);
    nl_book : forall g s, I s -> I (s <|s_book ::= g|>);
    nl_record : forall b s, I s -> I (s <|s_is_record := b|>);
    nl_best_xx : forall m s, has_dsm G = true -> I s -> I (s <|s_best_xx := m|>);
    nl_controls : forall c s, I s -> I (s <|s_controls := c|>);
    nl_grad : forall d s, I s -> I (s <|s_trace ::= cons (EvGrad d)|>);
    nl_best : forall b s, adjusts -> I s -> I (s <|s_best := b|>);
    nl_save : forall f s, adjusts -> I s -> I (s <|s_trace ::= cons (EvSave f)|>);
    nl_ask : forall x it s, I s -> s_is_record s = false -> ends I X (routine_call G W x it s);
    nl_routine : forall x it, adjusts -> keeps I X (routine_call G W x it)
  }.
  Lemma closed_narrow I X : closed I X -> narrow I X.
  Proof. intros C. destruct C. constructor; auto. apply keeps_sim, fr_poll, wide_frame_frame, wide_diag; auto. Qed.
  Coercion closed_narrow : closed >-> narrow.

  (** for direct searches: the controls change only in the evaluation routine *)
  Record closed1 (I : st -> Prop) (X : exn -> st -> Prop) : Prop := mk_closed1 {
    c1_x : forall e s, I s -> X e s;
    c1_cnt : forall g s, I s -> I (s <|s_cnt ::= g|>);
    c1_sc : forall g s, I s -> I (s <|s_sc ::= g|>);
    c1_reason : forall r s, I s -> I (s <|s_reason := r|>);
    c1_clear : forall s, I s -> I (s <|s_running := false|> <|s_trace ::= cons (EvCleared ByAsync)|>);
    c1_re0 : forall s, I s -> I (s <|s_re ::= set re_step (fun _ => 0)|>);
    c1_re : forall r s, adjusts -> I s -> same_sizes r (s_re s) -> I (s <|s_re := r|>);
    c1_std : forall v s, adjusts -> I s -> I (s <|s_std := v|>);
    c1_record : forall b s, I s -> I (s <|s_is_record := b|>);
    c1_best_xx : forall m s, has_dsm G = true -> I s -> I (s <|s_best_xx := m|>);
    c1_best : forall b s, adjusts -> I s -> I (s <|s_best := b|>);
    c1_save : forall f s, adjusts -> I s -> I (s <|s_trace ::= cons (EvSave f)|>);
    c1_ask : forall x it s, I s -> s_is_record s = false -> ends I X (routine_call G W x it s);
    c1_routine : forall x it, adjusts -> keeps I X (routine_call G W x it)
  }.
  Record narrow1 (I : st -> Prop) (X : exn -> st -> Prop) : Prop := mk_narrow1 {
    n1_x : forall e s, I s -> X e s;
    n1_cnt : forall g s, same_polls g -> I s -> I (s <|s_cnt ::= g|>);
    n1_sc : forall g s, I s -> I (s <|s_sc ::= g|>);
    n1_poll : keeps I X (poll G W);
    n1_re0 : forall s, I s -> I (s <|s_re ::= set re_step (fun _ => 0)|>);
    n1_re : forall r s, adjusts -> I s -> same_sizes r (s_re s) -> I (s <|s_re := r|>);
    n1_std : forall v s, adjusts -> I s -> I (s <|s_std := v|>);
    n1_record : forall b s, I s -> I (s <|s_is_record := b|>);
    n1_best_xx : forall m s, has_dsm G = true -> I s -> I (s <|s_best_xx := m|>);
    n1_best : forall b s, adjusts -> I s -> I (s <|s_best := b|>);
    n1_save : forall f s, adjusts -> I s -> s_sent s = Some (sv_controls f) -> I (s <|s_trace ::= cons (EvSave f)|>);
    n1_ask : forall x it s, I s -> s_is_record s = false -> ends I X (routine_call G W x it s);
    n1_routine : forall x it, adjusts -> keeps I X (routine_call G W x it)
  }.
  Lemma closed1_narrow1 I X : closed1 I X -> narrow1 I X.
  Proof. intros C. destruct C. constructor; auto. apply keeps_sim, fr_poll, wide_frame_frame, wide_diag; auto. Qed.
  Coercion closed1_narrow1 : closed1 >-> narrow1.

  Section C1.
    Context {I : st -> Prop} {X : exn -> st -> Prop} (C : narrow1 I X).
    Let IX := n1_x _ _ C.

    Lemma frame_of_closed1 : frame (diag I) (diagx X) G W G W.
    Proof.
      constructor.
      - intros e s t [<- H]. split; auto.
      - intros s t [<- _]. apply same_refl.
      - apply same_settings_refl.
      - apply same_world_refl.
      - intros g s t K [<- H]. split; [reflexivity|]. now apply (n1_cnt _ _ C).
      - intros g s t [<- H]. split; [reflexivity|]. now apply (n1_sc _ _ C).
      - apply keeps_sim, (n1_poll _ _ C).
    Qed.

    Lemma keeps_std_default : adjusts -> keeps I X std_default.
    Proof.
      intros A. apply keeps_get. intros t _. destruct (s_std t); [now apply keeps_ret|].
      apply keeps_bind; [|intros; now apply keeps_ret]. apply keeps_upd. intros. now apply (n1_std _ _ C).
    Qed.
    Lemma keeps_average o : adjusts -> keeps I X (get_average o).
    Proof.
      intros A. apply keeps_get. intros t _. destruct (re_step (s_re t)) as [|k].
      - apply keeps_bind; [now apply keeps_std_default|intros; now apply keeps_ret].
      - destruct o as [[m sg]|]; [now apply keeps_ret|].
        apply keeps_bind; [now apply keeps_std_default|intros; now apply keeps_ret].
    Qed.
    Lemma keeps_store i v : adjusts -> keeps I X (store_test i v).
    Proof.
      intros A s H. unfold ends, store_test, bind, get, lift, upd, std_default, bind, get, ret, upd.
      destruct (py_set (re_fom (s_re s)) (Z.of_nat i) v) as [l|e] eqn:E1; [|cbn; now apply IX].
      cbn [fst snd s_std s_re set re_sigma].
      assert (L1 : length l = length (re_fom (s_re s))) by exact (py_set_length _ _ _ _ E1).
      assert (K : forall o, I ((s <|s_re := (s_re s) <|re_fom := l|>|>) <|s_std := o|>)).
      { intros o. apply (n1_std _ _ C); [exact A|]. apply (n1_re _ _ C); [exact A|exact H|]. split; [exact L1|reflexivity]. }
      assert (K2 : forall o sd, let s2 := (s <|s_re := (s_re s) <|re_fom := l|>|>) <|s_std := o|> in
                   match py_set (re_sigma (s_re s)) (Z.of_nat i) sd with
                   | Ok l2 => I (s2 <|s_re := mk_re (S (re_step (s_re s))) l l2 (re_best_sigma (s_re s))|>)
                   | Err e => X e s2
                   end).
      { intros o sd s2. destruct (py_set (re_sigma (s_re s)) (Z.of_nat i) sd) as [l2|e] eqn:E2; [|apply IX; apply K].
        apply (n1_re _ _ C); [exact A|apply K|]. split; [reflexivity|]. exact (py_set_length _ _ _ _ E2). }
      destruct s as [? ? ? ? ? ? [sd|] ? ? ? ? ? ? ? ? ? ? ? ? [? ? ? ?]]; cbn in K, K2 |- *.
      - specialize (K2 (Some sd) sd). destruct (py_set _ _ sd); exact K2.
      - specialize (K2 (Some (of_Z 1)) (of_Z 1)). destruct (py_set _ _ (of_Z 1)); exact K2.
    Qed.
    Lemma keeps_test_average : adjusts -> keeps I X test_average.
    Proof. intros A. apply keeps_get. intros t _. now apply keeps_average. Qed.
    Lemma keeps_re_evaluate x it ps ii : adjusts -> keeps I X (re_evaluate G W x it ps ii).
    Proof.
      intros A. revert ii. induction ps as [|p ps IH]; intros ii; cbn [re_evaluate]; [now apply keeps_ret|].
      apply keeps_bind; [now apply keeps_test_average|]. intros [mu sg]. apply keeps_get. intros t _.
      destruct (_ <? p)%num; [now apply keeps_ret|].
      apply keeps_bind; [now apply (n1_routine _ _ C)|]. intros y.
      apply keeps_bind; [now apply keeps_store|]. intros _. apply IH.
    Qed.
    Lemma keeps_update_controls fom sg sp it sts : adjusts -> keeps I X (update_controls true fom sg sp it sts).
    Proof.
      intros A s H. unfold ends, update_controls, bind, get. destruct (s_sent s) as [d|] eqn:E; [|exact H].
      apply (n1_save _ _ C); [exact A|exact H|exact E].
    Qed.
    Lemma keeps_inner_none x it : has_dsm G = true -> keeps I X (inner_routine_call G W x it None).
    Proof.
      intros D. cbn [inner_routine_call]. intros s0 H0. 
      rewrite bind_upd. apply ends_bind.
      { apply (n1_ask _ _ C); [|reflexivity].
        apply (n1_re0 _ _ C (s0 <|s_is_record := false|>)). now apply (n1_record _ _ C). }
      intros y.
      destruct (g_steps G) as [steps|] eqn:Es; [|now apply keeps_ret].
      assert (A : adjusts) by (left; congruence).
      apply keeps_get. intros t _. cbv zeta.
      apply keeps_bind.
      { apply keeps_upd. intros s Hs. apply (n1_re _ _ C (_ (s_re s)) s A Hs). split; apply map_length. }
      intros _. apply keeps_bind; [now apply keeps_store|]. intros _.
      apply keeps_bind; [now apply keeps_re_evaluate|]. intros [mu|]; [now apply keeps_ret|].
      apply keeps_bind; [now apply keeps_test_average|]. intros [mu sg]. apply keeps_get. intros u _.
      apply keeps_bind; [now apply keeps_lift|]. intros p.
      destruct (p <? _)%num; [|now apply keeps_ret].
      apply keeps_bind.
      { apply keeps_upd. intros s H. apply (n1_record _ _ C), (n1_best _ _ C); auto.
        apply (n1_re _ _ C ((s_re s) <|re_best_sigma := sg|>) s A H). now split. }
      intros _. destruct (s_xx u); [|now apply keeps_raise].
      apply keeps_bind; [apply keeps_upd; intros; now apply (n1_best_xx _ _ C)|]. intros _.
      apply keeps_bind; [now apply keeps_update_controls|]. intros _. now apply keeps_ret.
    Qed.
    Lemma keeps_inner_drift x it v : has_dsm G = true -> adjusts -> keeps I X (inner_routine_call G W x it (Some v)).
    Proof.
      intros D A. cbn [inner_routine_call]. apply keeps_bind.
      { apply keeps_upd. intros s H. now apply (n1_record _ _ C), (n1_best _ _ C). }
      intros _. apply keeps_get. intros u _. destruct (s_xx u); [|now apply keeps_raise].
      apply keeps_bind; [apply keeps_upd; intros; now apply (n1_best_xx _ _ C)|]. intros _.
      apply keeps_bind; [now apply keeps_update_controls|]. intros _. now apply keeps_ret.
    Qed.
    Lemma keeps_sum_routine n x acc : adjusts -> keeps I X (sum_routine G W n x acc).
    Proof.
      intros A. revert acc. induction n as [|n IH]; intros acc; cbn [sum_routine]; [now apply keeps_ret|].
      apply keeps_bind; [now apply (n1_routine _ _ C)|]. intros y. apply IH.
    Qed.
    Lemma keeps_update_FoM : adjusts -> keeps I X (update_FoM G W).
    Proof.
      intros A. apply keeps_bind.
      { apply keeps_get. intros t _. now apply keeps_lift. }
      intros x0. apply keeps_bind.
      { apply keeps_upd. intros s H. apply (n1_re0 _ _ C (s <|s_is_record := true|>)).
        now apply (n1_record _ _ C). }
      intros _. apply keeps_bind; [now apply keeps_sum_routine|]. intros tot.
      destruct (_ =? 0)%Z; [now apply keeps_raise|]. apply keeps_upd. intros. now apply (n1_best _ _ C).
    Qed.
    Lemma keeps_poll : keeps I X (poll G W).
    Proof. apply keeps_sim. apply (sim_poll frame_of_closed1). Qed.
    Lemma keeps_get_running : keeps I X (get_running G W).
    Proof. apply keeps_sim. apply (sim_get_running frame_of_closed1). Qed.
  End C1.

  (** the same without the bookkeeping *)
  Record closed0 (I : st -> Prop) (X : exn -> st -> Prop) : Prop := mk_closed0 {
    c0_x : forall e s, I s -> X e s;
    c0_cnt : forall g s, I s -> I (s <|s_cnt ::= g|>);
    c0_sc : forall g s, I s -> I (s <|s_sc ::= g|>);
    c0_reason : forall r s, I s -> I (s <|s_reason := r|>);
    c0_clear : forall s, I s -> I (s <|s_running := false|> <|s_trace ::= cons (EvCleared ByAsync)|>);
    c0_re0 : forall s, I s -> I (s <|s_re ::= set re_step (fun _ => 0)|>);
    c0_re : forall r s, adjusts -> I s -> same_sizes r (s_re s) -> I (s <|s_re := r|>);
    c0_std : forall v s, adjusts -> I s -> I (s <|s_std := v|>);
    c0_record : forall b s, I s -> I (s <|s_is_record := b|>);
    c0_best_xx : forall m s, has_dsm G = true -> I s -> I (s <|s_best_xx := m|>);
    c0_controls : forall c s, I s -> I (s <|s_controls := c|>);
    c0_grad : forall d s, I s -> I (s <|s_trace ::= cons (EvGrad d)|>);
    c0_best : forall b s, adjusts -> I s -> I (s <|s_best := b|>);
    c0_save : forall f s, adjusts -> I s -> I (s <|s_trace ::= cons (EvSave f)|>);
    c0_ask : forall x it s, I s -> s_is_record s = false -> ends I X (routine_call G W x it s);
    c0_routine : forall x it, adjusts -> keeps I X (routine_call G W x it)
  }.
  Record narrow0 (I : st -> Prop) (X : exn -> st -> Prop) : Prop := mk_narrow0 {
    n0_x : forall e s, I s -> X e s;
    n0_cnt : forall g s, same_polls g -> I s -> I (s <|s_cnt ::= g|>);
    n0_sc : forall g s, I s -> I (s <|s_sc ::= g|>);
    n0_poll : keeps I X (poll G W);
    n0_re0 : forall s, I s -> I (s <|s_re ::= set re_step (fun _ => 0)|>);
    n0_re : forall r s, adjusts -> I s -> same_sizes r (s_re s) -> I (s <|s_re := r|>);
    n0_std : forall v s, adjusts -> I s -> I (s <|s_std := v|>);
    n0_record : forall b s, I s -> I (s <|s_is_record := b|>);
    n0_best_xx : forall m s, has_dsm G = true -> I s -> I (s <|s_best_xx := m|>);
    n0_controls : forall c s, I s -> I (s <|s_controls := c|>);
    n0_grad : forall d s, I s -> I (s <|s_trace ::= cons (EvGrad d)|>);
    n0_best : forall b s, adjusts -> I s -> I (s <|s_best := b|>);
    n0_save : forall f s, adjusts -> I s -> I (s <|s_trace ::= cons (EvSave f)|>);
    n0_ask : forall x it s, I s -> s_is_record s = false -> ends I X (routine_call G W x it s);
    n0_routine : forall x it, adjusts -> keeps I X (routine_call G W x it)
  }.
  Lemma closed0_narrow0 I X : closed0 I X -> narrow0 I X.
  Proof. intros C. destruct C. constructor; auto. apply keeps_sim, fr_poll, wide_frame_frame, wide_diag; auto. Qed.
  Coercion closed0_narrow0 : closed0 >-> narrow0.

  Lemma closed0_1 I X : closed0 I X -> closed1 I X.
  Proof. intros []. now constructor. Qed.
  Lemma narrow0_1 I X : narrow0 I X -> narrow1 I X.
  Proof. intros []. constructor; auto. Qed.
  Coercion narrow0_1 : narrow0 >-> narrow1.

  Section C.
    Context {I : st -> Prop} {X : exn -> st -> Prop} (C : narrow0 I X).
    Let IX := n0_x _ _ C.
    Lemma frame_of_closed0 : frame (diag I) (diagx X) G W G W.
    Proof. exact (frame_of_closed1 C). Qed.
    Lemma keeps_choose : keeps I X (choose_basis G W).
    Proof.
      apply keeps_get. intros t _. destruct (uses_seed G).
      - apply keeps_bind; [now apply keeps_lift|]. intros [c pos]. apply keeps_upd. intros s H.
        now apply (n0_cnt _ _ C (set k_rng (fun _ => pos))), (n0_controls _ _ C).
      - apply keeps_bind; [now apply keeps_lift|]. intros [c pos]. apply keeps_upd. intros s H.
        now apply (n0_cnt _ _ C (set k_np (fun _ => pos))), (n0_controls _ _ C).
    Qed.
    Lemma keeps_gradient x : keeps I X (gradient W x).
    Proof.
      apply keeps_get. intros t _. apply keeps_bind; [now apply keeps_lift|]. intros [c d].
      apply keeps_bind.
      { apply keeps_upd. intros s H. now apply (n0_cnt _ _ C (set k_grad S)), (n0_controls _ _ C). }
      intros _. apply keeps_bind; [apply keeps_upd; intros; now apply (n0_grad _ _ C)|]. intros _.
      destruct (w_gradient W _ d); [now apply keeps_raise|now apply keeps_ret].
    Qed.
    Lemma keeps_base : keeps I X update_base.
    Proof.
      apply keeps_get. intros t _. destruct (s_best_xx t) as [x|]; [|now apply keeps_raise].
      apply keeps_bind; [now apply keeps_lift|]. intros c.
      apply keeps_bind; [apply keeps_upd; intros; now apply (n0_controls _ _ C)|]. intros _. now apply keeps_ret.
    Qed.
  End C.

  Lemma narrow_weak I X : narrow I X -> narrow0 I X.
  Proof. intros []. now constructor. Qed.
  Section C2.
    Context {I : st -> Prop} {X : exn -> st -> Prop} (C : narrow I X).
    Let W0 := narrow_weak _ _ C.
    Lemma frame_of_closed : frame (diag I) (diagx X) G W G W.
    Proof. exact (frame_of_closed0 W0). Qed.
    Lemma ops_of_closed : ops (diag I) (diagx X) G W G W.
    Proof.
      constructor.
      - apply (frame_of_closed0 W0).
      - intros x s t [<- H]. apply ends_both. apply (nl_ask _ _ C); [now apply (nl_record _ _ C)|reflexivity].
      - intros. apply keeps_sim. now apply (keeps_inner_none W0).
      - intros D E x it v. apply keeps_sim. apply (keeps_inner_drift W0); [exact D|]. right. now left.
      - intros K E. apply keeps_sim. apply (keeps_update_FoM W0). right. now right.
      - apply keeps_sim. apply (keeps_choose W0).
      - intros. apply keeps_sim. apply (keeps_gradient W0).
      - apply keeps_sim. apply (keeps_base W0).
      - intros D m s t [<- H]. split; [reflexivity|]. now apply (nl_best_xx _ _ C).
      - intros g s t [<- H]. split; [reflexivity|]. now apply (nl_book _ _ C).
    Qed.

    Theorem keeps_run : keeps I X (run G W).
    Proof. apply keeps_sim. apply (sim_run ops_of_closed). Qed.

  End C2.

  (** whole runs; [Z] describes the final state for each result *)
  Theorem keeps_optimise_n (I : st -> Prop) (X : exn -> st -> Prop) (Z : res unit -> st -> Prop) r s : narrow I X ->
    (forall s, new_state G W = Ok s -> I s) ->
    (forall t s, I s -> I (s <|s_start := Some t|>)) ->
    (forall e s, X e s -> Z (Err e) s) ->
    (forall f o s, I s -> final_results G s = (Ok f, s) ->
                   o = (if String.eqb (s_reason s) "" then None else Some (s_reason s)) ->
                   Z (Ok tt) (s <|s_trace ::= cons (EvFinal f)|> <|s_trace ::= cons (EvLogged f o)|>)) ->
    optimise G W = Ok (r, s) -> Z r s.
  Proof.
    intros C H0 Hs Hx Hz H. unfold optimise in H. destruct (new_state G W) as [s0|e] eqn:E0; [|discriminate].
    injection H as H. specialize (H0 s0 eq_refl).
    unfold execute, bind in H.
    assert (HB : keeps I X (begin W)).
    { apply keeps_bind.
      - apply keeps_sim. apply (sim_now (frame_of_closed C)).
      - intros t. apply keeps_upd. auto. }
    specialize (HB s0 H0). unfold ends in HB.
    destruct (begin W s0) as [[u|e] s1] eqn:E1; cbn [fst snd] in HB; [|injection H as <- <-; auto].
    pose proof (keeps_run C s1 HB) as HR. unfold ends in HR.
    destruct (run G W s1) as [[u'|e] s2] eqn:E2; cbn [fst snd] in HR; [|injection H as <- <-; auto].
    unfold end_ in H.
    destruct (final_results G s2) as [[f|e] s3] eqn:EF.
    - assert (s3 = s2).
      { unfold final_results, bind, get, ret, raise in EF. destruct (g_kind G); try (now injection EF as _ <-).
        destruct (s_xx s2); [now injection EF as _ <-|discriminate]. }
      subst s3. unfold bind in H. rewrite EF in H. cbn in H. injection H as <- <-. now apply (Hz f _ s2 HR EF eq_refl).
    - unfold bind in H. rewrite EF in H. injection H as <- <-.
      assert (s3 = s2).
      { unfold final_results, bind, get, ret, raise in EF. destruct (g_kind G); try discriminate.
        destruct (s_xx s2); [discriminate|now injection EF as _ <-]. }
      subst s3. apply Hx. now apply (nl_x _ _ C).
  Qed.
  Theorem keeps_optimise (I : st -> Prop) (X : exn -> st -> Prop) (Z : res unit -> st -> Prop) r s : closed I X ->
    (forall s, new_state G W = Ok s -> I s) ->
    (forall t s, I s -> I (s <|s_start := Some t|>)) ->
    (forall e s, X e s -> Z (Err e) s) ->
    (forall f o s, I s -> final_results G s = (Ok f, s) ->
                   o = (if String.eqb (s_reason s) "" then None else Some (s_reason s)) ->
                   Z (Ok tt) (s <|s_trace ::= cons (EvFinal f)|> <|s_trace ::= cons (EvLogged f o)|>)) ->
    optimise G W = Ok (r, s) -> Z r s.
  Proof. intros C. apply keeps_optimise_n. exact C. Qed.
End Closed.
