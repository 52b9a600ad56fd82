(** What GRAPE and AD do after the minimiser has returned. *)
From Coq Require Import String ZArith List Bool Lia.
From RecordUpdate Require Import RecordSet.
From Verif Require Import Num NumFacts Py PyFacts ModelPulse ModelControls ModelLinalg ModelState ModelSearch ModelRun SpecControls SpecRun SpecGradient
  ProofIndex ProofTotal ProofExtra ProofSim ProofSimRun ProofRoutine ProofRespond ProofCore ProofPlain ProofAnswers ProofHistory ProofBest
  ProofSuper ProofFinal.
Import ListNotations RecordSetNotations.
Open Scope list_scope.
Open Scope bool_scope.
Open Scope run_scope.

Section Gradient.
  Context {N : Num} (NO : NumOrder N) (NS : NumSign N) (G : settings) (W : world).
  Hypothesis PR : plain_run G.
  Hypothesis HD : has_dsm G = false.

  (** the record of [s] is that of [s0], or a later evaluation improved on it *)
  Definition since (s0 s : st) : Prop :=
    exists evs, s_trace s = evs ++ s_trace s0 /\
      ((s_best_xx s = s_best_xx s0 /\ s_best s = s_best s0) \/
       exists x d a v, In (EvEval x d a) evs /\ user_value a = Some v /\ cost G v = s_best s /\ (s_best s <? s_best s0)%num = true /\
         s_best_xx s = Some x).
  Lemma since_refl s : since s s.
  Proof. exists []. split; [reflexivity|]. now left. Qed.
  Lemma since_ext s0 s t evs : s_trace t = evs ++ s_trace s -> s_best t = s_best s -> s_best_xx t = s_best_xx s -> since s0 s -> since s0 t.
  Proof.
    intros E1 E2 E3 (l & T & K). exists (evs ++ l). split; [rewrite E1, T; apply app_assoc|].
    destruct K as [[A B]|(x & d & a & v & A & B & C & D & F)]; [left; split; congruence|right].
    exists x, d, a, v. rewrite E2, E3. repeat split; auto. apply in_or_app. now right.
  Qed.

  (** a state after the minimiser returned, [s0] being the state before this super-iteration; [P] holds of the vectors the
      minimiser asks for *)
  Section Inv.
    Context (c0 : controls) (P : vec -> Prop) (s0 : st).
    Record gi (s : st) : Prop := mk_gi {
      gi_live : pbx G s;
      gi_reach : reachable c0 (s_controls s);
      gi_best : forall x, s_best_xx s = Some x -> P x;
      gi_since : since s0 s
    }.
    Let any (e : exn) (s : st) : Prop := True.
    Let CC := pbx_closed NO NS G W PR HD.

    Lemma gi_ext s t evs : pbx G t -> reachable c0 (s_controls t) -> s_trace t = evs ++ s_trace s -> s_best t = s_best s ->
      s_best_xx t = s_best_xx s -> gi s -> gi t.
    Proof.
      intros A B C D E [H1 H2 H3 H4]. constructor; auto.
      - intros x K. apply H3. congruence.
      - now apply (since_ext s0 s t evs).
    Qed.
    Lemma gi_delivers x s c : gi s -> delivers x (s_controls s) c -> reachable c0 c.
    Proof. intros H [->|[d E]]; [apply H|]. eapply reach_get; [apply H|exact E]. Qed.

    Lemma gi_routine x it s : P x -> gi s -> s_is_record s = false -> ends gi any (routine_call G W x it s).
    Proof.
      intros HP H Hr. pose proof (pbx_ask NO NS G W PR x it s (gi_live _ H) Hr) as K. unfold ends in *.
      destruct (routine_call G W x it s) as [r s'] eqn:E. cbn [fst snd] in *. destruct r as [y|e]; [|exact I].
      apply (padds_routine NS G W PR) in E; auto; [|apply H].
      remember (Ok y) as r eqn:Er.
      destruct E as [r s' evs T _ E1 E2 _ DL _ _|d s' evs T _ E1 E2 _ _ _|d v s' evs evs1 T Q Q1 U HH E1 E2 _ _]; [|discriminate|].
      - apply (gi_ext s s' evs); auto. now apply (gi_delivers x s).
      - assert (RC : reachable c0 (s_controls s')).
        { apply (gi_delivers x s); auto. destruct HH as (d' & HH & _). right. eauto. }
        destruct (cost G v <? s_best s)%num eqn:Eb.
        + constructor; auto; [intros z Ez; congruence|]. destruct (gi_since _ H) as (l & TL & SL).
          exists (evs1 ++ EvEval x d (w_fom W (d :: s_hist s)) :: evs ++ l). split; [rewrite T, TL, <- !app_assoc; cbn; now rewrite <- app_assoc|].
          right. exists x, d, (w_fom W (d :: s_hist s)), v. rewrite E1, E2. repeat split; auto; [apply in_or_app; right; now left|].
          destruct SL as [[_ <-]|(_ & _ & _ & _ & _ & _ & _ & SL & _)]; [exact Eb|]. now apply (nlt_trans _ NO _ (s_best s)).
        + apply (gi_ext s s' (evs1 ++ EvEval x d (w_fom W (d :: s_hist s)) :: evs)); auto.
          rewrite T, <- app_assoc. reflexivity.
    Qed.
    Lemma gi_controls s c (g : counters -> counters) : gi s -> reachable c0 c -> gi (s <|s_controls := c|> <|s_cnt ::= g|>).
    Proof.
      intros H R. apply (gi_ext s _ []); auto. apply (cl_cnt _ _ _ _ CC), (cl_controls _ _ _ _ CC). apply H.
    Qed.
    Lemma gi_choose : keeps gi any (choose_basis G W).
    Proof.
      intros s H. unfold ends, choose_basis, bind, get, lift. destruct (uses_seed G); destruct (select_basis _ _ _) as [[c q]|e] eqn:E; cbn; try exact I.
      - apply (gi_controls s c (set k_rng (fun _ => q))); auto. eapply reach_select; [apply H|exact E].
      - apply (gi_controls s c (set k_np (fun _ => q))); auto. eapply reach_select; [apply H|exact E].
    Qed.
    Lemma gi_gradient x : keeps gi any (gradient W x).
    Proof.
      intros s H. unfold ends, gradient, bind, get, lift. destruct (get_controls_lists x (s_controls s)) as [[c d]|e] eqn:E; cbn; [|exact I].
      destruct (w_gradient W _ d); cbn; [exact I|].
      apply (gi_ext (s <|s_controls := c|> <|s_cnt ::= set k_grad S|>) _ [EvGrad d]); auto.
      - apply (cl_grad _ _ _ _ CC), (cl_cnt _ _ _ _ CC), (cl_controls _ _ _ _ CC), H.
      - cbn. eapply reach_get; [apply H|exact E].
      - apply gi_controls; auto. eapply reach_get; [apply H|exact E].
    Qed.
    Lemma gi_start : keeps gi any (random_start G W).
    Proof.
      apply keeps_get. intros t _. apply keeps_bind.
      - intros s H. unfold ends, draw, bind, get. destruct (uses_seed G); cbn.
        + apply (gi_ext s _ []); auto; [|apply H]. apply (cl_cnt _ _ _ _ CC), H.
        + apply (gi_ext s _ []); auto; [|apply H]. apply (cl_cnt _ _ _ _ CC), H.
      - intros r. apply keeps_bind; [apply keeps_get; intros; apply keeps_lift; now intros|]. intros sg.
        apply keeps_bind; [apply keeps_get; intros; apply keeps_lift; now intros|]. intros m. apply keeps_ret.
    Qed.
    Lemma gi_minimise S : asks_only P S -> keeps gi any (minimise G W S).
    Proof.
      induction S as [|x k IH]; intros HS; [apply keeps_ret|]. destruct HS as [HP HS]. cbn [minimise].
      apply keeps_bind; [destruct (g_kind G); try apply keeps_ret; apply gi_gradient|]. intros _.
      intros s H. rewrite bind_upd. apply ends_bind.
      - apply gi_routine; auto. apply (gi_ext s _ []); auto; [|apply H]. apply (cl_record _ _ _ _ CC), H.
      - intros y. apply keeps_bind; [destruct (g_kind G); try apply keeps_ret; apply gi_gradient|]. intros _. apply IH, HS.
    Qed.
    Lemma gi_book (g : book -> book) s : gi s -> gi (s <|s_book ::= g|>).
    Proof. intros H. apply (gi_ext s _ []); auto; [|apply H]. apply (cl_book _ _ _ _ CC), H. Qed.
    Lemma gi_update : keeps gi any update_base.
    Proof.
      intros s H. unfold ends, update_base, bind, get, lift. destruct (s_best_xx s) as [x|] eqn:EX; cbn; [|exact I].
      destruct (update_base_controls x (s_controls s)) as [c|e] eqn:E; cbn; [|exact I].
      apply (gi_ext s _ []); auto; [apply (cl_controls _ _ _ _ CC), H|]. eapply reach_update; [apply H|exact E].
    Qed.
  End Inv.

  Lemma gi_same c0 (P : vec -> Prop) s : pbx G s -> reachable c0 (s_controls s) -> (forall x, s_best_xx s = Some x -> P x) -> gi c0 P s s.
  Proof. intros A B C. constructor; auto. apply since_refl. Qed.
  Lemma gi_restart c0 P s0 s : gi c0 P s0 s -> gi c0 P s s.
  Proof. intros []. now apply gi_same. Qed.

  (** the part of an AD super-iteration before the base pulse is updated *)
  Lemma gi_search c0 P s0 s k s' : (forall k x0, asks_only P (w_lbfgs W k x0)) -> gi c0 P s0 s -> ad_search G W k s = (Ok tt, s') -> gi c0 P s0 s'.
  Proof.
    intros HS H E. unfold ad_search in E. eapply (run_ok _ (fun _ _ => True)); [|exact H|exact E].
    apply keeps_bind; [intros t Ht; now apply gi_book|]. intros _. apply keeps_bind; [apply gi_choose|]. intros _.
    apply keeps_bind; [apply gi_start|]. intros x0. now apply gi_minimise.
  Qed.
  Lemma ad_loop_cons k ks s : ad_loop G W (k :: ks) s = (ad_search G W k;;; update_base;;; ad_loop G W ks) s.
  Proof.
    cbn [ad_loop]. unfold ad_search, bind. destruct (upd _ s) as [[[]|] t]; [|reflexivity].
    destruct (choose_basis G W t) as [[[]|] u]; [|reflexivity].
    destruct (random_start G W u) as [[x0|] v]; [|reflexivity].
    destruct (minimise G W _ v) as [[[]|] w]; reflexivity.
  Qed.
  Lemma ad_loop_app ks ls s : ad_loop G W (ks ++ ls) s = (ad_loop G W ks;;; ad_loop G W ls) s.
  Proof.
    revert s. induction ks as [|k ks IH]; intros s; cbn [app]; [reflexivity|]. unfold bind at 1. rewrite !ad_loop_cons. unfold bind.
    destruct (ad_search G W k s) as [[[]|] t]; [|reflexivity]. destruct (update_base t) as [[x|] y]; [|reflexivity]. apply IH.
  Qed.
  Lemma gi_ad_loop c0 P ks s s' : (forall k x0, asks_only P (w_lbfgs W k x0)) -> gi c0 P s s -> ad_loop G W ks s = (Ok tt, s') -> gi c0 P s' s'.
  Proof.
    intros HS. revert s. induction ks as [|k ks IH]; intros s H E; [injection E as <-; exact H|].
    rewrite ad_loop_cons in E. apply bind_inv in E as ([] & t & E1 & E). apply bind_inv in E as (x & u & E2 & E).
    apply (IH u); auto. apply (gi_search c0 P s s k t HS H) in E1.
    apply (gi_restart c0 P s). eapply (run_ok _ (fun _ _ => True)); [apply gi_update|exact E1|exact E2].
  Qed.
  Lemma gi_begin c0 (P : vec -> Prop) s0 s1 : new_controls (g_pulses G) (g_times G) (g_params G) = Ok c0 ->
    new_state G W = Ok s0 -> begin W s0 = (Ok tt, s1) -> gi c0 P s1 s1 /\ s_best_xx s1 = None.
  Proof.
    intros EC E0 E1. destruct (new_state_reachable G W _ _ E0 E1) as (c & EC' & C1 & PL & B1 & T1).
    assert (BX : s_best_xx s1 = None).
    { unfold new_state in E0. rewrite EC in E0. injection E0 as <-. unfold begin, bind, now in E1. cbn in E1. now injection E1 as <-. }
    split; [|exact BX]. apply gi_same.
    - split; [exact PL|]. left. split; [exact BX|exact B1].
    - rewrite EC in EC'. injection EC' as ->. rewrite C1. apply reach_refl.
    - intros x E. congruence.
  Qed.

  (** the state in which the minimiser has returned *)
  Lemma gi_minimised c0 P s : new_controls (g_pulses G) (g_times G) (g_params G) = Ok c0 ->
    (forall k x0, asks_only P (w_lbfgs W k x0)) -> minimised G W s -> gi c0 P s s.
  Proof.
    intros EC HS (s0 & s1 & E0 & E1 & K). destruct (gi_begin c0 P _ _ EC E0 E1) as [H1 _].
    destruct (g_kind G) eqn:EK; try contradiction.
    - destruct K as (x0 & s2 & E2 & E3). apply (gi_restart c0 P s1). eapply (run_ok _ (fun _ _ => True)); [apply gi_minimise, HS| |exact E3].
      eapply (run_ok _ (fun _ _ => True)); [apply gi_start|exact H1|exact E2].
    - destruct K as (k & s2 & _ & E2 & E3). apply (gi_ad_loop c0 P) in E2; auto. apply (gi_restart c0 P s2). eapply gi_search; eauto.
  Qed.
  Lemma asks_only_any S : asks_only (fun _ => True) S.
  Proof. induction S as [|x k IH]; cbn; auto. Qed.

  Lemma recorded s : pbx G s -> (exists x, s_best_xx s = Some x) <-> exists c, In c (costs G (history s)) /\ (c <? ceiling)%num = true.
  Proof.
    intros [PL BX]. assert (B := pl_best _ _ (q_pl _ _ PL)). split.
    - intros [x E]. destruct BX as [[A _]|(l & y & d & a & past & v & A & U & C & (w & U' & L & _) & _)]; [congruence|].
      exists (cost G v). split; [|congruence]. apply in_costs. rewrite A, costs_app. apply in_or_app. right. cbn. rewrite U. now left.
    - intros (c & I & L). destruct BX as [[_ A]|(l & y & d & a & past & v & _ & _ & _ & _ & F)]; [|eauto].
      exfalso. apply (in_costs G (s_trace s)) in I. pose proof (proj2 B c I) as K. rewrite A in K. unfold ceiling in *. congruence.
  Qed.

  Lemma execute_loop s0 s1 : begin W s0 = (Ok tt, s1) -> execute G W s0 = (run G W;;; end_ G) s1.
  Proof. intros E. unfold execute. unfold bind at 1. now rewrite E. Qed.
  Lemma seq_split k n : k < n -> seq 1 n = seq 1 k ++ S k :: seq (S (S k)) (n - S k).
  Proof. intros L. replace n with (k + S (n - S k)) at 1 by lia. now rewrite seq_app. Qed.
  Lemma new_state_controls s0 : new_state G W = Ok s0 -> exists c0, new_controls (g_pulses G) (g_times G) (g_params G) = Ok c0.
  Proof. unfold new_state. intros E. apply rbind_ok in E as (c & E & _). eauto. Qed.

  (** what happens next *)
  Lemma run_on s0 s1 s : new_state G W = Ok s0 -> begin W s0 = (Ok tt, s1) -> minimised G W s ->
    exists ks, run G W s1 = (update_base;;; ad_loop G W ks) s /\ (g_kind G = KGRAPE -> ks = []).
  Proof.
    intros E0 E1 (s0' & s1' & E0' & E1' & K). rewrite E0 in E0'. injection E0' as <-. rewrite E1 in E1'. injection E1' as <-.
    unfold run. destruct (g_kind G) eqn:EK; try contradiction.
    - destruct K as (x0 & s2 & E2 & E3). exists []. split; [|reflexivity]. unfold bind at 1. rewrite E2. unfold bind at 1. rewrite E3. reflexivity.
    - destruct K as (k & s2 & LK & E2 & E3). exists (seq (S (S k)) (Z.to_nat (g_max_si G) - S k)). split; [|discriminate].
      unfold super_range. rewrite (seq_split k) by exact LK. rewrite ad_loop_app. unfold bind at 1. rewrite E2. rewrite ad_loop_cons.
      unfold bind at 1. rewrite E3. reflexivity.
  Qed.

  Theorem nothing_recorded s : minimised G W s -> (forall c, In c (costs G (history s)) -> (c <? ceiling)%num = false) ->
    optimise G W = Ok (Err AttributeError, s).
  Proof.
    intros M H. destruct M as (s0 & s1 & E0 & E1 & K) eqn:EM. clear EM.
    destruct (new_state_controls s0 E0) as (c0 & EC).
    assert (M' : minimised G W s) by (exists s0, s1; auto).
    assert (GI := gi_minimised c0 (fun _ => True) s EC (fun k x0 => asks_only_any _) M').
    destruct (run_on s0 s1 s E0 E1 M') as (ks & ER & _).
    unfold optimise. rewrite E0. cbn [rbind]. rewrite (execute_loop s0 s1 E1). unfold bind at 1. rewrite ER. unfold bind at 1, update_base, bind at 1, get.
    destruct (s_best_xx s) as [x|] eqn:EX; [|reflexivity].
    exfalso. destruct (proj1 (recorded s (gi_live _ _ _ _ GI)) (ex_intro _ x EX)) as (c & I & L). apply H in I. congruence.
  Qed.

  Theorem something_recorded s n : minimised G W s -> usable (g_pulses G) (g_times G) ->
    n = list_sum (map pf_nctrl (g_pulses G)) + length (g_params G) -> n <> 0 ->
    (forall k x0, asks_only (fun x => length x = n) (w_lbfgs W k x0)) ->
    (exists c, In c (costs G (history s)) /\ (c <? ceiling)%num = true) ->
    (exists x s', update_base s = (Ok x, s') /\ s_best_xx s = Some x) /\
    (g_kind G = KGRAPE -> exists t, optimise G W = Ok (Ok tt, t)).
  Proof.
    intros M US EN NZ HS HB. destruct M as (s0 & s1 & E0 & E1 & K) eqn:EM. clear EM.
    destruct (new_state_controls s0 E0) as (c0 & EC).
    assert (M' : minimised G W s) by (exists s0, s1; auto).
    assert (GI := gi_minimised c0 (fun x => length x = n) s EC HS M').
    destruct (proj2 (recorded s (gi_live _ _ _ _ GI)) HB) as (x & EX).
    assert (LX := gi_best _ _ _ _ GI x EX). cbv beta in LX.
    destruct (index_partition _ _ _ _ _ EC (us_plain _ _ US) (gi_reach _ _ _ _ GI)) as (_ & NP & _).
    destruct (update_total _ _ _ _ _ x EC (gi_reach _ _ _ _ GI) US) as (c' & EU); [intros ->; cbn in LX; lia|lia|].
    assert (UB : update_base s = (Ok x, s <|s_controls := c'|>)).
    { unfold update_base, bind, get, lift. rewrite EX, EU. reflexivity. }
    split; [eauto|]. intros KG. destruct (run_on s0 s1 s E0 E1 M') as (ks & ER & KS). specialize (KS KG). subst ks.
    unfold optimise. rewrite E0. cbn [rbind]. rewrite (execute_loop s0 s1 E1). unfold bind at 1. rewrite ER. unfold bind at 1. rewrite UB. cbn [ad_loop].
    unfold ret at 1, end_, final_results. rewrite KG. unfold bind, get, ret, emit, upd. eauto.
  Qed.

  (** the vectors minimised before the last one stay usable, so a run that ends normally has recorded something *)
  Theorem normal_end s : (g_kind G = KGRAPE \/ g_kind G = KAD /\ (1 <= g_max_si G)%Z) -> optimise G W = Ok (Ok tt, s) ->
    exists c, In c (costs G (history s)) /\ (c <? ceiling)%num = true.
  Proof.
    intros HK E. unfold optimise in E. apply rbind_ok in E as (s0 & E0 & E). injection E as E.
    destruct (new_state_controls s0 E0) as (c0 & EC).
    unfold execute in E. apply bind_inv in E as ([] & s1 & E1 & E). apply bind_inv in E as ([] & s2 & E2 & E).
    destruct (gi_begin c0 (fun _ => True) _ _ EC E0 E1) as [H1 _].
    assert (AO : forall k x0, asks_only (fun _ : vec => True) (w_lbfgs W k x0)) by (intros; apply asks_only_any).
    assert (H2 : exists x, s_best_xx s2 = Some x /\ gi c0 (fun _ => True) s2 s2).
    { unfold run in E2. destruct HK as [KG|[KA LS]].
      - rewrite KG in E2. apply bind_inv in E2 as (x0 & t & E3 & E2). apply bind_inv in E2 as ([] & u & E4 & E2).
        apply bind_inv in E2 as (x & w & E5 & E2). injection E2 as <-.
        assert (GU : gi c0 (fun _ => True) s1 u).
        { eapply (run_ok _ (fun _ _ => True)); [apply gi_minimise, AO| |exact E4]. eapply (run_ok _ (fun _ _ => True)); [apply gi_start|exact H1|exact E3]. }
        exists x. split; [|eapply gi_restart, (run_ok _ (fun _ _ => True)); [apply gi_update|exact GU|exact E5]].
        unfold update_base, bind, get, lift in E5. destruct (s_best_xx u) eqn:EX; [|discriminate].
        destruct (update_base_controls _ _); [|discriminate]. cbn in E5. injection E5 as <- <-. exact EX.
      - rewrite KA in E2. unfold super_range in E2.
        destruct (Z.to_nat (g_max_si G)) as [|m] eqn:EM; [lia|]. replace (S m) with (m + 1) in E2 by lia. rewrite seq_app in E2.
        rewrite ad_loop_app in E2. apply bind_inv in E2 as ([] & t & E3 & E2). apply (gi_ad_loop c0 (fun _ => True)) in E3; auto.
        cbn [seq] in E2. rewrite ad_loop_cons in E2. apply bind_inv in E2 as ([] & u & E4 & E2). apply bind_inv in E2 as (x & w & E5 & E2).
        injection E2 as <-. apply (gi_search c0 (fun _ => True) t) in E4; auto.
        exists x. split; [|eapply gi_restart, (run_ok _ (fun _ _ => True)); [apply gi_update|exact E4|exact E5]].
        unfold update_base, bind, get, lift in E5. destruct (s_best_xx u) eqn:EX; [|discriminate].
        destruct (update_base_controls _ _); [|discriminate]. cbn in E5. injection E5 as <- <-. exact EX. }
    destruct H2 as (x & EX & GI). destruct (proj1 (recorded s2 (gi_live _ _ _ _ GI)) (ex_intro _ x EX)) as (c & I & L).
    exists c. split; [|exact L]. apply (in_costs G (s_trace s2)) in I. apply (in_costs G (s_trace s)).
    unfold end_ in E. apply bind_inv in E as (f & t & E3 & E). assert (t = s2).
    { unfold final_results, bind, get, ret, raise in E3. destruct (g_kind G); try (now injection E3). destruct (s_xx s2); [now injection E3|discriminate]. }
    subst t. unfold bind, emit, upd, get in E. injection E as <-. exact I.
  Qed.

  (** ** super-iterations of AD without a new record *)
  Theorem stale_update k s0 s1 s2 s3 : g_kind G = KAD -> new_state G W = Ok s0 -> begin W s0 = (Ok tt, s1) ->
    ad_loop G W (seq 1 k) s1 = (Ok tt, s2) -> ad_search G W (S k) s2 = (Ok tt, s3) ->
    exists new, history s3 = history s2 ++ new /\
      ((forall c, In c (costs G new) -> (c <? s_best s2)%num = false) -> s_best_xx s3 = s_best_xx s2 /\ s_best s3 = s_best s2).
  Proof.
    intros KA E0 E1 E2 E3. destruct (new_state_controls s0 E0) as (c0 & EC).
    assert (AO : forall k x0, asks_only (fun _ : vec => True) (w_lbfgs W k x0)) by (intros; apply asks_only_any).
    destruct (gi_begin c0 (fun _ => True) _ _ EC E0 E1) as [H1 _]. apply (gi_ad_loop c0 (fun _ => True)) in E2; auto.
    apply (gi_search c0 (fun _ => True) s2) in E3; auto. destruct (gi_since _ _ _ _ E3) as (evs & T & K).
    exists (rev evs). split; [unfold history; now rewrite T, rev_app_distr|]. intros HC.
    destruct K as [K|(x & d & a & v & I & U & C & L & _)]; [exact K|]. exfalso.
    assert (Q : (s_best s3 <? s_best s2)%num = false); [|congruence]. apply HC. apply in_costs. rewrite <- C.
    apply in_split in I as (l & r & ->). rewrite costs_app. apply in_or_app. right. cbn. rewrite U. now left.
  Qed.
  Lemma after_super k s0 s1 s2 : g_kind G = KAD -> new_state G W = Ok s0 -> begin W s0 = (Ok tt, s1) ->
    ad_loop G W (seq 1 (S k)) s1 = (Ok tt, s2) -> exists x c, s_best_xx s2 = Some x /\ update_base_controls x c = Ok (s_controls s2).
  Proof.
    intros KA E0 E1 E2. replace (S k) with (k + 1) in E2 by lia. rewrite seq_app, ad_loop_app in E2. apply bind_inv in E2 as ([] & t & _ & E2).
    cbn [seq] in E2. rewrite ad_loop_cons in E2. apply bind_inv in E2 as ([] & u & _ & E2). apply bind_inv in E2 as (x & w & E5 & E2).
    injection E2 as <-. exists x, (s_controls u). unfold update_base, bind, get, lift in E5. destruct (s_best_xx u) eqn:EX; [|discriminate].
    destruct (update_base_controls _ _) eqn:EU; [|discriminate]. cbn in E5. injection E5 as <- <-. split; [exact EX|exact EU].
  Qed.
  Theorem added_again k s0 s1 s2 s3 : g_kind G = KAD -> new_state G W = Ok s0 -> begin W s0 = (Ok tt, s1) ->
    ad_loop G W (seq 1 (S k)) s1 = (Ok tt, s2) -> ad_search G W (S (S k)) s2 = (Ok tt, s3) ->
    exists x c new, update_base_controls x c = Ok (s_controls s2) /\ history s3 = history s2 ++ new /\
      ((forall c, In c (costs G new) -> (c <? s_best s2)%num = false) ->
       forall c', update_base_controls x (s_controls s3) = Ok c' ->
         ad_loop G W (seq 1 (S (S k))) s1 = (Ok tt, s3 <|s_controls := c'|>)).
  Proof.
    intros KA E0 E1 E2 E3. destruct (after_super _ _ _ _ KA E0 E1 E2) as (x & c & EX & EU).
    destruct (stale_update _ _ _ _ _ KA E0 E1 E2 E3) as (new & T & K). exists x, c, new. split; [exact EU|]. split; [exact T|].
    intros HC c' EC. destruct (K HC) as [KX _]. replace (S (S k)) with (S k + 1) by lia. rewrite seq_app, ad_loop_app. unfold bind at 1.
    rewrite E2. replace (1 + S k) with (S (S k)) by lia. cbn [seq]. rewrite ad_loop_cons. unfold bind at 1. rewrite E3. unfold bind at 1.
    unfold update_base, bind, get, lift. rewrite KX, EX, EC. reflexivity.
  Qed.
End Gradient.
