(** Relational reasoning about runs.  [sim R m1 m2]: started in related states the two computations return the
    same result (or raise the same exception) and end in related states.  With [R := fun s t => s = t /\ I s] this
    is preservation of the invariant [I]. *)
From Coq Require Import String ZArith List Bool.
From RecordUpdate Require Import RecordSet.
From Verif Require Import Num Py ModelPulse ModelControls ModelLinalg ModelState ModelSearch ModelRun.
Import ListNotations RecordSetNotations.
Open Scope list_scope.
Open Scope run_scope.

Section Sim.
  Context {N : Num}.

  Definition both {A} (R : st -> st -> Prop) (X : exn -> st -> st -> Prop) (o1 o2 : res A * st) : Prop :=
    fst o1 = fst o2 /\ match fst o1 with Ok _ => R (snd o1) (snd o2) | Err e => X e (snd o1) (snd o2) end.
  Definition sim {A} (R : st -> st -> Prop) (X : exn -> st -> st -> Prop) (m1 m2 : M A) : Prop :=
    forall s1 s2, R s1 s2 -> both R X (m1 s1) (m2 s2).
  (** preservation of an invariant; if an exception leaves the computation [X] holds *)
  Definition ends {A} (I : st -> Prop) (X : exn -> st -> Prop) (o : res A * st) : Prop :=
    match fst o with Ok _ => I (snd o) | Err e => X e (snd o) end.
  Definition keeps {A} (I : st -> Prop) (X : exn -> st -> Prop) (m : M A) : Prop := forall s, I s -> ends I X (m s).
  Definition diag (I : st -> Prop) : st -> st -> Prop := fun s t => s = t /\ I s.

  Definition diagx (X : exn -> st -> Prop) : exn -> st -> st -> Prop := fun e s t => s = t /\ X e s.

  Lemma keeps_sim {A} I X (m : M A) : keeps I X m <-> sim (diag I) (diagx X) m m.
  Proof.
    split.
    - intros H s1 s2 [<- Hs]. split; [reflexivity|]. specialize (H s1 Hs). unfold ends in H.
      destruct (fst (m s1)); split; auto.
    - intros H s Hs. destruct (H s s (conj eq_refl Hs)) as [_ K]. unfold ends. now destruct (fst (m s)); destruct K.
  Qed.
  Lemma ends_both {A} I X (o : res A * st) : ends I X o -> both (diag I) (diagx X) o o.
  Proof. unfold ends, both, diag, diagx. destruct (fst o); auto. Qed.

  (** equality of everything but the trace and the log of values *)
  Record same (s t : st) : Prop := mk_same {
    e_running : s_running s = s_running t;
    e_reason : s_reason s = s_reason t;
    e_start : s_start s = s_start t;
    e_iter : s_iter s = s_iter t;
    e_alg_iter : s_alg_iter s = s_alg_iter t;
    e_fom : s_fom s = s_fom t;
    e_std : s_std s = s_std t;
    e_status : s_status s = s_status t;
    e_xx : s_xx s = s_xx t;
    e_best : s_best s = s_best t;
    e_best_xx : s_best_xx s = s_best_xx t;
    e_is_record : s_is_record s = s_is_record t;
    e_iter_list : s_iter_list s = s_iter_list t;
    e_sent : s_sent s = s_sent t;
    e_hist : s_hist s = s_hist t;
    e_controls : s_controls s = s_controls t;
    e_sc : s_sc s = s_sc t;
    e_re : s_re s = s_re t;
    e_book : s_book s = s_book t;
    e_cnt : s_cnt s = s_cnt t
  }.
  Lemma same_refl s : same s s.
  Proof. constructor; reflexivity. Qed.

  Lemma bind_upd {B} f (k : unit -> M B) s : bind (upd f) k s = k tt (f s).
  Proof. reflexivity. Qed.

  Section R.
    Variables (R : st -> st -> Prop) (X : exn -> st -> st -> Prop).
    Hypothesis RX : forall e s t, R s t -> X e s t.
    Lemma sim_ret {A} (a : A) : sim R X (ret a) (ret a).
    Proof. intros s t H. split; auto. Qed.
    Lemma sim_raise {A} e : sim R X (raise (A := A) e) (raise e).
    Proof. intros s t H. split; [reflexivity|]. now apply RX. Qed.
    Lemma sim_lift {A} (r : res A) : sim R X (lift r) (lift r).
    Proof. intros s t H. split; [reflexivity|]. destruct r; cbn; auto. Qed.
    Lemma both_bind {A B} (m1 m2 : M A) (k1 k2 : A -> M B) s t :
      both R X (m1 s) (m2 t) -> (forall a, sim R X (k1 a) (k2 a)) -> both R X (bind m1 k1 s) (bind m2 k2 t).
    Proof.
      intros [E K] Hk. unfold bind.
      destruct (m1 s) as [[a|e] s'], (m2 t) as [[b|e'] t']; cbn in *; try discriminate.
      - injection E as <-. now apply Hk.
      - injection E as <-. split; auto.
    Qed.
    Lemma sim_bind {A B} (m1 m2 : M A) (k1 k2 : A -> M B) :
      sim R X m1 m2 -> (forall a, sim R X (k1 a) (k2 a)) -> sim R X (bind m1 k1) (bind m2 k2).
    Proof. intros Hm Hk s t H. apply both_bind; auto. Qed.
    Lemma sim_get {A} (k1 k2 : st -> M A) :
      (forall s t, R s t -> sim R X (k1 s) (k2 t)) -> sim R X (bind get k1) (bind get k2).
    Proof. intros H s t K. exact (H s t K s t K). Qed.
    Lemma sim_upd f g : (forall s t, R s t -> R (f s) (g t)) -> sim R X (upd f) (upd g).
    Proof. intros H s t K. split; [reflexivity|]. now apply H. Qed.
  End R.

  (** settings that agree except for direction and goal *)
  Definition same_settings (G1 G2 : settings) : Prop :=
    G2 = mk_settings (g_kind G1) (g_method G1) (g_max_total G1) (g_total_lim G1) (g_maximise G2) (g_goal G2)
           (g_max_si G1) (g_steps G1) (g_drift_si G1) (g_drift_min G1) (g_drift_avg G1) (g_seeded G1) (g_max_eval G1)
           (g_time_lim G1) (g_xatol G1) (g_fatol G1) (g_cbs_n G1) (g_cbs_change G1) (g_pulses G1) (g_times G1)
           (g_params G1).
  (** worlds that agree except for the figure of merit and for random numbers that are not used *)
  Definition same_world (G : settings) (W1 W2 : world) : Prop :=
    W2 = mk_world (w_fom W2) (w_clock W1) (w_async W1) (w_rng W1) (w_np W2) (w_randn W2) (w_cdf W1) (w_argsort W1)
           (w_pop W1) (w_cma W1) (w_cma_adapt W1) (w_lbfgs W1) (w_gradient W1) (w_fuel W1) (w_stuck W1) /\
    (uses_seed G = false -> w_np W2 = w_np W1) /\
    (forall p, g_method G = MCMAES p -> has_dsm G = true -> w_randn W2 = w_randn W1).
  Lemma same_settings_refl G : same_settings G G.
  Proof. destruct G; reflexivity. Qed.
  Lemma same_world_refl G W : same_world G W W.
  Proof. repeat split; auto. destruct W; reflexivity. Qed.

  (** What a relation must satisfy for the parts of a run outside the evaluation routine. *)
  Definition same_polls (g : counters -> counters) : Prop := forall c, k_poll (g c) = k_poll c.
  Record frame (R : st -> st -> Prop) (X : exn -> st -> st -> Prop) (G1 : settings) (W1 : world) (G2 : settings) (W2 : world) : Prop := mk_frame {
    fr_x : forall e s t, R s t -> X e s t;
    fr_same : forall s t, R s t -> same s t;
    fr_G : same_settings G1 G2;
    fr_W : same_world G1 W1 W2;
    fr_cnt : forall g s t, same_polls g -> R s t -> R (s <|s_cnt ::= g|>) (t <|s_cnt ::= g|>);
    fr_sc : forall g s t, R s t -> R (s <|s_sc ::= g|>) (t <|s_sc ::= g|>);
    fr_poll : sim R X (poll G1 W1) (poll G2 W2)
  }.
  (** with the effects of the other thread given one by one *)
  Record wide_frame (R : st -> st -> Prop) (X : exn -> st -> st -> Prop) (G1 : settings) (W1 : world) (G2 : settings) (W2 : world) : Prop := mk_wide_frame {
    wf_x : forall e s t, R s t -> X e s t;
    wf_same : forall s t, R s t -> same s t;
    wf_G : same_settings G1 G2;
    wf_W : same_world G1 W1 W2;
    wf_cnt : forall g s t, R s t -> R (s <|s_cnt ::= g|>) (t <|s_cnt ::= g|>);
    wf_sc : forall g s t, R s t -> R (s <|s_sc ::= g|>) (t <|s_sc ::= g|>);
    wf_reason : forall r s t, R s t -> R (s <|s_reason := r|>) (t <|s_reason := r|>);
    wf_clear : forall s t, R s t -> R (s <|s_running := false|> <|s_trace ::= cons (EvCleared ByAsync)|>)
                                     (t <|s_running := false|> <|s_trace ::= cons (EvCleared ByAsync)|>)
  }.
  Lemma wide_frame_frame R X G1 W1 G2 W2 : wide_frame R X G1 W1 G2 W2 -> frame R X G1 W1 G2 W2.
  Proof.
    intros [FX FS FG FW FC FSC FR FCL]. constructor; auto.
    assert (C : sim R X (clear ByAsync) (clear ByAsync)) by (intros s t H; split; [reflexivity|]; now apply FCL).
    assert (D : has_dsm G2 = has_dsm G1) by (rewrite FG; reflexivity).
    apply sim_get. intros s t H. rewrite (e_cnt _ _ (FS _ _ H)).
    apply sim_bind; [apply sim_upd; intros; now apply FC|]. intros _.
    rewrite (proj1 FW). cbn [w_async]. destruct (w_async W1 _).
    - apply sim_ret.
    - exact C.
    - unfold handle_user_cancellation. apply sim_bind; [apply sim_upd; intros; now apply FR|]. intros _.
      rewrite D. destruct (has_dsm G1).
      + apply sim_bind; [apply sim_upd; intros; now apply FSC|]. intros _. exact C.
      + apply sim_bind; [now apply sim_raise|]. intros _. exact C.
  Qed.
  Coercion wide_frame_frame : wide_frame >-> frame.

  Section F.
    Context {R : st -> st -> Prop} {X : exn -> st -> st -> Prop} {G1 G2 : settings} {W1 W2 : world}.
    Context (F : frame R X G1 W1 G2 W2).

    Lemma F_W : W2 = mk_world (w_fom W2) (w_clock W1) (w_async W1) (w_rng W1) (w_np W2) (w_randn W2) (w_cdf W1)
           (w_argsort W1) (w_pop W1) (w_cma W1) (w_cma_adapt W1) (w_lbfgs W1) (w_gradient W1) (w_fuel W1) (w_stuck W1).
    Proof. exact (proj1 (fr_W _ _ _ _ _ _ F)). Qed.
    Lemma F_dsm : has_dsm G2 = has_dsm G1.
    Proof. rewrite (fr_G _ _ _ _ _ _ F). reflexivity. Qed.

    Lemma sim_set_conv b : sim R X (set_conv b) (set_conv b).
    Proof. apply sim_upd. intros. now apply (fr_sc _ _ _ _ _ _ F). Qed.
    Lemma sim_set_sc_reason b : sim R X (set_sc_reason b) (set_sc_reason b).
    Proof. apply sim_upd. intros. now apply (fr_sc _ _ _ _ _ _ F). Qed.
    Lemma sim_now : sim R X (now W1) (now W2).
    Proof.
      apply sim_get. intros s t H. rewrite (e_cnt _ _ (fr_same _ _ _ _ _ _ F _ _ H)).
      apply sim_bind; [apply sim_upd; intros; now apply (fr_cnt _ _ _ _ _ _ F)|]. intros _.
      rewrite F_W. apply sim_ret.
    Qed.

    Lemma sim_poll : sim R X (poll G1 W1) (poll G2 W2).
    Proof. exact (fr_poll _ _ _ _ _ _ F). Qed.

    Lemma sim_get_running : sim R X (get_running G1 W1) (get_running G2 W2).
    Proof.
      apply sim_bind; [apply sim_poll|]. intros _. apply sim_get. intros s t H.
      rewrite (e_running _ _ (fr_same _ _ _ _ _ _ F _ _ H)). apply sim_ret.
    Qed.
    Lemma sim_is_conv : sim R X (is_conv G1 W1) (is_conv G2 W2).
    Proof.
      apply sim_bind; [apply sim_poll|]. intros _. apply sim_get. intros s t H.
      rewrite (e_sc _ _ (fr_same _ _ _ _ _ _ F _ _ H)). apply sim_ret.
    Qed.
    Lemma sim_set_check b r : sim R X (set_check G1 W1 b r) (set_check G2 W2 b r).
    Proof.
      apply sim_bind; [apply sim_poll|]. intros _. apply sim_bind; [apply sim_set_conv|]. intros _.
      apply sim_bind; [apply sim_set_sc_reason|]. intros _. apply sim_is_conv.
    Qed.
  End F.
End Sim.

Ltac sim_step F :=
  match goal with
  | |- sim _ _ (bind get _) (bind get _) =>
      let s := fresh "s" in let t := fresh "t" in let H := fresh "H" in
      apply sim_get; intros s t H;
      let S := fresh "E" in pose proof (fr_same _ _ _ _ _ _ F _ _ H) as S
  | |- sim _ _ (bind (is_conv _ _) _) _ => apply sim_bind; [apply (sim_is_conv F)|]
  | |- sim _ _ (bind (get_running _ _) _) _ => apply sim_bind; [apply (sim_get_running F)|]
  | |- sim _ _ (bind (poll _ _) _) _ => apply sim_bind; [apply (sim_poll F)|]
  | |- sim _ _ (bind (now _) _) _ => apply sim_bind; [apply (sim_now F)|]
  | |- sim _ _ (bind (set_conv _) _) _ => apply sim_bind; [apply (sim_set_conv F)|]
  | |- sim _ _ (bind (set_sc_reason _) _) _ => apply sim_bind; [apply (sim_set_sc_reason F)|]
  | |- sim _ _ (bind (set_check _ _ _ _) _) _ => apply sim_bind; [apply (sim_set_check F)|]
  | |- sim _ _ (bind (lift _) _) _ => apply sim_bind; [apply sim_lift; apply (fr_x _ _ _ _ _ _ F)|]
  | |- sim _ _ (bind (raise _) _) _ => apply sim_bind; [apply sim_raise; apply (fr_x _ _ _ _ _ _ F)|]
  | |- sim _ _ (bind (ret _) _) _ => apply sim_bind; [apply sim_ret|]
  | |- sim _ _ (ret _) (ret _) => apply sim_ret
  | |- sim _ _ (raise _) (raise _) => apply sim_raise; apply (fr_x _ _ _ _ _ _ F)
  | |- sim _ _ (is_conv _ _) _ => apply (sim_is_conv F)
  | |- sim _ _ (poll _ _) _ => apply (sim_poll F)
  | |- sim _ _ (set_conv _) _ => apply (sim_set_conv F)
  | |- sim _ _ (set_sc_reason _) _ => apply (sim_set_sc_reason F)
  | |- sim _ _ (if ?b then _ else _) (if ?b then _ else _) => destruct b
  | |- forall _, _ => intros ?
  | |- sim _ _ (match ?x with _ => _ end) (match ?x with _ => _ end) => destruct x
  | |- sim _ _ (bind (if ?b then _ else _) _) (bind (if ?b then _ else _) _) => destruct b
  | |- sim _ _ (bind (match ?b with _ => _ end) _) (bind (match ?b with _ => _ end) _) => destruct b
  end.

Section Sim2.
  Context {N : Num}.
  Section F.
    Context {R : st -> st -> Prop} {X : exn -> st -> st -> Prop} {G1 G2 : settings} {W1 W2 : world}.
    Context (F : frame R X G1 W1 G2 W2).

    Lemma sim_check_nm sim_ fsim calls :
      sim R X (check_stopping_nm G1 W1 sim_ fsim calls) (check_stopping_nm G2 W2 sim_ fsim calls).
    Proof.
      pose proof (fr_G _ _ _ _ _ _ F) as EG.
      assert (E1 : check_func_eval G2 calls = check_func_eval G1 calls) by (rewrite EG; reflexivity).
      assert (E2 : check_simplex G2 sim_ = check_simplex G1 sim_) by (rewrite EG; reflexivity).
      assert (E3 : check_f_size G2 fsim = check_f_size G1 fsim) by (rewrite EG; reflexivity).
      assert (E4 : sim R X (check_time_out G1 W1) (check_time_out G2 W2)).
      { unfold check_time_out. repeat sim_step F. rewrite EG. cbn [g_time_lim]. rewrite (e_sc _ _ E). sim_step F. }
      unfold check_stopping_nm. rewrite E1, E2, E3.
      do 100 (try sim_step F). apply sim_bind; [exact E4|]. repeat sim_step F.
    Qed.
    Lemma sim_check_cma fsim calls :
      sim R X (check_stopping_cma G1 W1 fsim calls) (check_stopping_cma G2 W2 fsim calls).
    Proof.
      pose proof (fr_G _ _ _ _ _ _ F) as EG.
      assert (E1 : check_func_eval G2 calls = check_func_eval G1 calls) by (rewrite EG; reflexivity).
      assert (E3 : check_f_size G2 fsim = check_f_size G1 fsim) by (rewrite EG; reflexivity).
      assert (E4 : sim R X (check_time_out G1 W1) (check_time_out G2 W2)).
      { unfold check_time_out. repeat sim_step F. rewrite EG. cbn [g_time_lim]. rewrite (e_sc _ _ E). sim_step F. }
      unfold check_stopping_cma. rewrite E1, E3.
      do 100 (try sim_step F). apply sim_bind; [exact E4|]. repeat sim_step F.
    Qed.

    Lemma sim_reset : sim R X (reset_start_time W1) (reset_start_time W2).
    Proof. unfold reset_start_time. repeat sim_step F. apply sim_upd. intros. now apply (fr_sc _ _ _ _ _ _ F). Qed.
    Lemma sim_reset_track : sim R X reset_track reset_track.
    Proof. apply sim_upd. intros. now apply (fr_sc _ _ _ _ _ _ F). Qed.
    Lemma sim_add_track v : sim R X (add_to_track G1 v) (add_to_track G2 v).
    Proof.
      unfold add_to_track. rewrite (F_dsm F), (fr_G _ _ _ _ _ _ F). cbn [g_cbs_n].
      repeat sim_step F. apply sim_upd. intros. now apply (fr_sc _ _ _ _ _ _ F).
    Qed.
    Lemma sim_advanced : sim R X (check_advanced G1 W1) (check_advanced G2 W2).
    Proof.
      unfold check_advanced. rewrite (F_dsm F).
      replace (g_cbs_n G2) with (g_cbs_n G1) by (rewrite (fr_G _ _ _ _ _ _ F); reflexivity).
      replace (g_cbs_change G2) with (g_cbs_change G1) by (rewrite (fr_G _ _ _ _ _ _ F); reflexivity).
      do 9 (try sim_step F). rewrite (e_sc _ _ E). repeat sim_step F.
    Qed.

    Section NM.
      Variables func1 func2 : vec -> nat -> option num -> M num.
      Hypothesis HF : forall x it, sim R X (func1 x it None) (func2 x it None).

      Lemma sim_call x it calls : sim R X (call func1 x it None calls) (call func2 x it None calls).
      Proof. apply sim_bind; [apply HF|]. repeat sim_step F. Qed.
      Ltac go := repeat first [sim_step F | (apply sim_bind; [apply sim_call|])].
      Lemma sim_eval_rows rows it calls : sim R X (eval_rows func1 rows it calls) (eval_rows func2 rows it calls).
      Proof.
        revert calls. induction rows as [|x rows IH]; intros calls; cbn [eval_rows]; go.
        apply sim_bind; [apply IH|]. go.
      Qed.
      Lemma sim_sort L : sim R X (sort_simplex W1 L) (sort_simplex W2 L).
      Proof. unfold sort_simplex. rewrite (F_W F). cbn [w_argsort]. go. Qed.
      Lemma sim_put x f calls L : sim R X (put_last x f calls L) (put_last x f calls L).
      Proof. unfold put_last. go. Qed.
      Lemma sim_shrink_rows sigma js L :
        sim R X (shrink_rows G1 W1 func1 sigma js L) (shrink_rows G2 W2 func2 sigma js L).
      Proof. revert L. induction js as [|j js IH]; intros L; cbn [shrink_rows]; go. apply IH. Qed.
      Lemma sim_shrink sigma dim calls L : sim R X (shrink G1 W1 func1 sigma dim calls L) (shrink G2 W2 func2 sigma dim calls L).
      Proof. apply sim_bind; [apply sim_shrink_rows|]. go. Qed.
      Lemma sim_move rho chi psi sigma dim L :
        sim R X (nm_move G1 W1 func1 rho chi psi sigma dim L) (nm_move G2 W2 func2 rho chi psi sigma dim L).
      Proof.
        unfold nm_move.
        repeat first [sim_step F | (apply sim_bind; [apply sim_call|]) | apply sim_put | apply sim_shrink].
      Qed.
      Lemma sim_sum_calls n x it acc calls : sim R X (sum_calls func1 n x it acc calls) (sum_calls func2 n x it acc calls).
      Proof. revert acc calls. induction n as [|n IH]; intros acc calls; cbn [sum_calls]; go. apply IH. Qed.
      Variables (dm : num) (da : Z).
      Hypothesis HD : (of_Z 0 <? dm)%num = true -> forall x it v, sim R X (func1 x it (Some v)) (func2 x it (Some v)).
      Lemma sim_drift L : sim R X (nm_drift G1 W1 func1 dm da L) (nm_drift G2 W2 func2 dm da L).
      Proof.
        unfold nm_drift. destruct (of_Z 0 <? dm)%num eqn:Ed; cbn [negb]; [|sim_step F].
        repeat first [sim_step F | (apply sim_bind; [apply sim_call|]) | (apply sim_bind; [apply sim_sum_calls|])
                     | (apply sim_bind; [apply sim_bind; [now apply HD | intros ?; apply sim_ret] |])].
      Qed.
      Lemma sim_iter rho chi psi sigma dim L :
        sim R X (nm_iter G1 W1 func1 rho chi psi sigma dim dm da L) (nm_iter G2 W2 func2 rho chi psi sigma dim dm da L).
      Proof.
        unfold nm_iter. apply sim_bind; [apply sim_move|]. intros [L'|L']; [sim_step F|].
        apply sim_bind; [apply sim_sort|]. intros L2. apply sim_bind; [apply sim_drift|]. intros L3.
        sim_step F. intros r. apply sim_bind; [repeat sim_step F|]. intros _.
        apply sim_bind; [apply sim_check_nm|]. intros _. sim_step F.
      Qed.
      Lemma sim_loop rho chi psi sigma dim fuel L :
        sim R X (nm_loop G1 W1 func1 rho chi psi sigma dim dm da fuel L) (nm_loop G2 W2 func2 rho chi psi sigma dim dm da fuel L).
      Proof.
        assert (w_stuck W2 = w_stuck W1) as KS by (rewrite (F_W F); reflexivity).
        revert L. induction fuel as [|fuel IH]; intros L; cbn [nm_loop]; [rewrite KS|]; go.
        apply sim_bind; [apply sim_iter|]. intros [L'|L']; [sim_step F|apply IH].
      Qed.
      Lemma sim_run_nm ad x0 is : sim R X (run_nm G1 W1 func1 ad x0 is dm da) (run_nm G2 W2 func2 ad x0 is dm da).
      Proof.
        unfold run_nm. do 8 (sim_step F).
        apply sim_bind; [apply sim_lift; apply (fr_x _ _ _ _ _ _ F)|]. intros [[[rho chi] psi] sigma]. cbv zeta.
        apply sim_bind; [apply sim_eval_rows|]. intros [fsim calls].
        apply sim_bind; [apply sim_sort|]. intros L.
        replace (w_fuel W2) with (w_fuel W1) by (rewrite (F_W F); reflexivity).
        apply sim_bind; [apply sim_loop|]. intros L'.
        repeat sim_step F. rewrite (e_sc _ _ E). sim_step F.
      Qed.

      Hypothesis HN : w_randn W2 = w_randn W1.
      Lemma sim_randn n : sim R X (randn W1 n) (randn W2 n).
      Proof.
        unfold randn. sim_step F. rewrite (e_cnt _ _ E), HN.
        apply sim_bind; [apply sim_upd; intros; now apply (fr_cnt _ _ _ _ _ _ F)|]. repeat sim_step F.
      Qed.
      Lemma sim_generation x0 sv n it hist :
        sim R X (generation W1 func1 x0 sv n it hist) (generation W2 func2 x0 sv n it hist).
      Proof.
        revert hist. induction n as [|n IH]; intros hist; cbn [generation]; [sim_step F|].
        apply sim_bind; [apply sim_randn|]. intros z.
        replace (w_cma W2) with (w_cma W1) by (rewrite (F_W F); reflexivity).
        apply sim_bind; [apply sim_lift; apply (fr_x _ _ _ _ _ _ F)|]. intros x. apply sim_bind; [apply HF|]. intros y.
        apply sim_bind; [apply IH|]. intros g. sim_step F.
      Qed.
      Lemma sim_cma_loop x0 sv lp fuel it hist best :
        sim R X (cma_loop G1 W1 func1 x0 sv lp fuel it hist best) (cma_loop G2 W2 func2 x0 sv lp fuel it hist best).
      Proof.
        assert (w_stuck W2 = w_stuck W1) as KS by (rewrite (F_W F); reflexivity).
        revert it hist best. induction fuel as [|fuel IH]; intros it hist best; cbn [cma_loop]; [rewrite KS; sim_step F|].
        sim_step F. intros c. destruct c; [sim_step F|].
        apply sim_bind; [apply sim_generation|]. intros g.
        replace (w_argsort W2) with (w_argsort W1) by (rewrite (F_W F); reflexivity).
        replace (w_cma_adapt W2) with (w_cma_adapt W1) by (rewrite (F_W F); reflexivity).
        do 12 (sim_step F).
        apply sim_bind; [repeat sim_step F|]. intros _.
        apply sim_bind; [apply sim_check_cma|]. intros _. apply IH.
      Qed.
      Lemma sim_run_cma p x0 sv : sim R X (run_cma G1 W1 func1 p x0 sv) (run_cma G2 W2 func2 p x0 sv).
      Proof.
        unfold run_cma. do 4 (sim_step F).
        replace (w_pop W2) with (w_pop W1) by (rewrite (F_W F); reflexivity).
        replace (w_fuel W2) with (w_fuel W1) by (rewrite (F_W F); reflexivity).
        cbv zeta. destruct (_ <? 2)%nat; [sim_step F|].
        apply sim_bind; [apply sim_cma_loop|]. intros [[best it] calls].
        sim_step F. rewrite (e_sc _ _ E). sim_step F.
      Qed.
    End NM.

    Lemma sim_run_dsm f1 f2 x0 sv is dm da : has_dsm G1 = true -> (forall x it, sim R X (f1 x it None) (f2 x it None)) ->
      ((of_Z 0 <? dm)%num = true -> forall x it v, sim R X (f1 x it (Some v)) (f2 x it (Some v))) ->
      sim R X (run_dsm G1 W1 f1 x0 sv is dm da) (run_dsm G2 W2 f2 x0 sv is dm da).
    Proof.
      intros D H HD. unfold run_dsm. replace (g_method G2) with (g_method G1) by (rewrite (fr_G _ _ _ _ _ _ F); reflexivity).
      destruct (g_method G1) eqn:E; [now apply sim_run_nm|]. apply sim_run_cma; auto.
      exact (proj2 (proj2 (fr_W _ _ _ _ _ _ F)) _ E D).
    Qed.
  End F.
End Sim2.
