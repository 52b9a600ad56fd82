(** Invariants of runs restated for the history of events. *)
From Coq Require Import String ZArith List Bool Lia.
From RecordUpdate Require Import RecordSet.
From Verif Require Import Num Py PyFacts ModelPulse ModelControls ModelLinalg ModelState ModelSearch ModelRun SpecRun
  ProofSim ProofSimRun ProofRoutine ProofRespond ProofCore ProofPlain ProofAnswers.
Import ListNotations RecordSetNotations.
Open Scope list_scope.
Open Scope bool_scope.
Open Scope run_scope.

Section History.
  Context {N : Num} (G : settings) (W : world).

  Lemma split_trace s tr1 e tr2 : history s = tr1 ++ e :: tr2 -> s_trace s = rev tr2 ++ e :: rev tr1.
  Proof.
    unfold history. intros H. rewrite <- (rev_involutive (s_trace s)), H, rev_app_distr. cbn. now rewrite <- app_assoc.
  Qed.
  Lemma calls_history s : calls (history s) = calls (s_trace s).
  Proof. unfold history. apply calls_rev. Qed.
  Lemma costs_app l m : costs G (l ++ m) = costs G l ++ costs G m.
  Proof. apply flat_map_app. Qed.
  Lemma in_costs tr v : In v (costs G (rev tr)) <-> In v (costs G tr).
  Proof.
    unfold costs. rewrite !in_flat_map. split; intros (e & H & K); exists e; split; auto.
    - now apply in_rev.
    - now apply -> in_rev.
  Qed.
  Lemma in_good_costs tr v : In v (good_costs G (rev tr)) <-> In v (good_costs G tr).
  Proof.
    unfold good_costs. rewrite !in_flat_map. split; intros (e & H & K); exists e; split; auto.
    - now apply in_rev.
    - now apply -> in_rev.
  Qed.
  Lemma costs_values tr : costs G tr = map (cost G) (values tr).
  Proof.
    induction tr as [|e tr IH]; [reflexivity|]. destruct e; cbn; auto.
    fold (costs G tr). fold (values tr). destruct (user_value a); cbn; now rewrite IH.
  Qed.
  Lemma is_best_ext vs ws b : (forall v, In v vs <-> In v ws) -> is_best vs b -> is_best ws b.
  Proof. intros H [A B]. split; [|intros v Hv; apply B, H, Hv]. rewrite <- H. exact A. Qed.
  Lemma improves_ext p q a : (forall v, In v (costs G p) <-> In v (costs G q)) -> improves G p a -> improves G q a.
  Proof. intros H (v & A & B & C). exists v. repeat split; auto. intros w Hw. apply C, H, Hw. Qed.
  Lemma improves_rev p a : improves G (rev p) a <-> improves G p a.
  Proof. split; apply improves_ext; intros v; [|symmetry]; apply in_costs. Qed.
  Lemma no_call_calls tr : no_call tr <-> calls tr = 0.
  Proof.
    unfold no_call, calls. split.
    - intros H. induction tr as [|e tr IH]; [reflexivity|]. cbn.
      assert (H0 : is_call e = false).
      { destruct e; try reflexivity. exfalso. apply (H x d a). now left. }
      rewrite H0. apply IH. intros x d a Ha. apply (H x d a). now right.
    - intros H x d a Ha.
      assert (K : In (EvEval x d a) (filter is_call tr)) by (apply filter_In; auto).
      destruct (filter is_call tr); [contradiction|discriminate].
  Qed.
  Lemma quiet_no_call l : Forall quiet_event l -> no_call l.
  Proof. intros H x d a Ha. rewrite Forall_forall in H. apply (H _ Ha). Qed.

  Lemma ordered_split l x d a past : ordered G (l ++ EvEval x d a :: past) ->
    in_flight past /\ timely G past /\ no_late G past.
  Proof. induction l as [|e l IH]; cbn; [tauto|]. intros [H _]. auto. Qed.
  Lemma no_stop_rev tr : no_stop (rev tr) <-> no_stop tr.
  Proof. unfold no_stop. split; intros H c Hc; apply (H c); [now apply -> in_rev|now apply in_rev]. Qed.

  (** ** budget *)
  Theorem budget r s : optimise G W = Ok (r, s) -> (Z.of_nat (calls (history s)) <= Z.max 0 (g_max_total G))%Z.
  Proof. intros H. apply core_optimise in H as [A B C _ _]. rewrite calls_history. lia. Qed.

  Theorem budget_both r s : optimise G W = Ok (r, s) -> (Z.of_nat (calls (history s)) <= Z.max 0 (g_max_total G))%Z /\
    (g_kind G <> KAD -> (Z.of_nat (fom_calls G (history s)) <= Z.max 0 (g_max_total G))%Z).
  Proof.
    intros H. apply budget in H. split; [exact H|]. intros K.
    replace (fom_calls G (history s)) with (calls (history s)); [exact H|]. unfold fom_calls, calls. f_equal.
    apply filter_ext. intros []; try reflexivity. cbn. destruct (g_kind G); congruence.
  Qed.
  Theorem counter r s : optimise G W = Ok (r, s) -> calls (history s) <= s_iter s <= S (calls (history s)).
  Proof. intros H. apply core_optimise in H as [A B _ _ _]. rewrite calls_history. lia. Qed.

  (** ** stop *)
  Theorem stop_ends r s tr1 c tr2 : optimise G W = Ok (r, s) -> history s = tr1 ++ EvCleared c :: tr2 ->
    no_call tr2 \/ (c = ByAsync /\ no_stop tr1 /\ exists x d a tr3, tr2 = EvEval x d a :: tr3 /\ no_call tr3).
  Proof.
    intros H E. apply core_optimise in H. pose proof (c_ord _ _ H) as O. clear H.
    assert (A : forall u1 x d a u2, tr2 = u1 ++ EvEval x d a :: u2 -> u1 = [] /\ c = ByAsync /\ no_stop tr1).
    { intros u1 x d a u2 E2.
      assert (E3 : history s = (tr1 ++ EvCleared c :: u1) ++ EvEval x d a :: u2)
        by (rewrite E, E2, <- app_assoc; reflexivity).
      apply split_trace in E3. rewrite E3 in O. apply ordered_split in O as [[K|(p & K & K2)] _].
      - exfalso. apply (K c). apply -> in_rev. apply in_or_app. right. now left.
      - rewrite rev_app_distr in K. destruct u1 as [|e u1 _] using rev_ind.
        + cbn in K. injection K as -> <-. rewrite no_stop_rev in K2. auto.
        + exfalso. change (EvCleared c :: u1 ++ [e]) with ((EvCleared c :: u1) ++ [e]) in K.
          rewrite rev_app_distr in K. cbn in K. injection K as _ <-. apply (K2 c).
          rewrite <- app_assoc. apply in_or_app. right. now left. }
    destruct tr2 as [|e tr3]; [left; now intros x d a []|].
    destruct (is_call e) eqn:Ee.
    - destruct e; try discriminate. destruct (A [] x d a tr3 eq_refl) as (_ & Hc & Hs). right.
      split; [exact Hc|]. split; [exact Hs|]. exists x, d, a, tr3. split; [reflexivity|].
      intros y d' a' Hy. apply in_split in Hy as (u1 & u2 & ->).
      destruct (A (EvEval x d a :: u1) y d' a' u2 eq_refl) as (K & _). discriminate.
    - left. intros y d' a' Hy. apply in_split in Hy as (u1 & u2 & K).
      destruct (A u1 y d' a' u2 K) as (-> & _). cbn in K. injection K as -> _. discriminate.
  Qed.
  Theorem flag_trace r s : optimise G W = Ok (r, s) -> s_running s = false <-> exists c, In (EvCleared c) (history s).
  Proof.
    intros H. apply core_optimise in H. pose proof (c_stop _ _ H) as S.
    assert (E : existsb clears (s_trace s) = true <-> exists c, In (EvCleared c) (history s)).
    { rewrite existsb_exists. unfold history. split.
      - intros ([] & A & B); try discriminate. exists by_. now apply -> in_rev.
      - intros (c & A). exists (EvCleared c). split; [now apply in_rev|reflexivity]. }
    rewrite <- E, S. destruct (s_running s); cbn; split; congruence.
  Qed.
  Theorem stopped_for_good s r s' : s_running s = false -> run G W s = (r, s') ->
    s_running s' = false /\ exists evs, s_trace s' = evs ++ s_trace s /\ no_call evs.
  Proof.
    intros H K. apply (stopped_run G W) in K as [A (evs & B & C)]; [|exact H]. split; [exact A|].
    exists evs. split; [exact B|now apply quiet_no_call].
  Qed.

  (** ** time limit *)
  Theorem in_time r s tr1 x d a tr2 : optimise G W = Ok (r, s) -> limited G -> history s = tr1 ++ EvEval x d a :: tr2 ->
    (forall t, In (EvElapsed t) tr1 -> (g_total_lim G <=? t)%num = false) /\
    exists tr0 t, (tr1 = tr0 ++ [EvElapsed t] \/ tr1 = tr0 ++ [EvElapsed t; EvCleared ByAsync]).
  Proof.
    intros H L E. apply core_optimise in H. pose proof (c_ord _ _ H) as O. apply split_trace in E. rewrite E in O.
    apply ordered_split in O as (_ & T & NL). split.
    - intros t Ht. destruct (g_total_lim G <=? t)%num eqn:Et; [|reflexivity]. exfalso. apply (NL t).
      + now apply -> in_rev.
      + split; assumption.
    - destruct (T L) as (t & p & Hp & _). exists (rev p), t. destruct Hp as [Hp|Hp]; [left|right];
        rewrite <- (rev_involutive tr1), Hp; cbn; rewrite <- ?app_assoc; reflexivity.
  Qed.
  Theorem no_limit r s : ~ limited G -> optimise G W = Ok (r, s) ->
    (forall t, ~ In (EvElapsed t) (history s)) /\ ~ In (EvCleared ByTime) (history s).
  Proof.
    intros L H. apply untimed_optimise in H.
    - unfold untimed in H. rewrite Forall_forall in H. unfold history. split.
      + intros t K. apply in_rev in K. apply (H _ K). exact I.
      + intros K. apply in_rev in K. apply (H _ K). exact I.
    - destruct (g_total_lim G <? of_Z 10000000000)%num eqn:E; [|reflexivity]. exfalso. apply L. exact E.
  Qed.

  (** ** failed evaluations *)
  Lemma stops_split l x d a past : stops (l ++ EvEval x d a :: past) ->
    l = [] \/ exists l' e, l = l' ++ [e] /\ user_value a <> None /\ (success a = false -> e = EvCleared ByStatus).
  Proof.
    destruct l as [|e l _] using rev_ind; [auto|]. rewrite <- app_assoc. cbn. intros H. right. exists l, e.
    split; [reflexivity|]. induction l as [|e' l IH]; cbn in H; [apply H|]. apply IH, H.
  Qed.
  Theorem failure_stops r s tr1 x d a tr2 : optimise G W = Ok (r, s) -> history s = tr1 ++ EvEval x d a :: tr2 ->
    user_value a <> None -> success a = false -> exists tr3, tr2 = EvCleared ByStatus :: tr3 /\ no_call tr3.
  Proof.
    intros H E U F. pose proof (split_trace _ _ _ _ E) as T.
    assert (K : exists tr3, tr2 = EvCleared ByStatus :: tr3).
    { apply fine_optimise in H.
      assert (S : stops (s_trace s)) by (destruct r; apply H). rewrite T in S.
      apply stops_split in S as [K|(l & e & K & _ & Ke)].
      - assert (tr2 = []) as -> by (rewrite <- (rev_involutive tr2), K; reflexivity). cbn in T.
        destruct r as [u|e]; cbn in H.
        + destruct H as [_ H]. rewrite T in H. cbn in H. destruct H as [_ H]. congruence.
        + destruct H as [_ [H|(x' & d' & a' & past & H & Hn & _)]].
          * rewrite T in H. cbn in H. destruct H as [_ H]. congruence.
          * rewrite T in H. injection H as <- <- <- _. congruence.
      - exists (rev l). rewrite <- (rev_involutive tr2), K, rev_app_distr. cbn. now rewrite (Ke F). }
    destruct K as (tr3 & K). exists tr3. split; [exact K|]. subst tr2.
    assert (E' : history s = (tr1 ++ [EvEval x d a]) ++ EvCleared ByStatus :: tr3) by (rewrite E, <- app_assoc; reflexivity).
    destruct (stop_ends r s _ _ _ H E') as [K|(K & _)]; [exact K|discriminate].
  Qed.
  Theorem no_value_raises r s tr1 x d a tr2 : optimise G W = Ok (r, s) -> history s = tr1 ++ EvEval x d a :: tr2 ->
    user_value a = None -> tr2 = [] /\ r = Err (complaint a).
  Proof.
    intros H E U. pose proof (split_trace _ _ _ _ E) as T. apply fine_optimise in H.
    assert (S : stops (s_trace s)) by (destruct r; apply H). rewrite T in S.
    apply stops_split in S as [K|(l & e & K & Kn & _)]; [|congruence].
    assert (tr2 = []) as -> by (rewrite <- (rev_involutive tr2), K; reflexivity). cbn in T.
    split; [reflexivity|]. destruct r as [u|e]; cbn in H.
    - destruct H as [_ H]. rewrite T in H. cbn in H. destruct H. congruence.
    - destruct H as [_ [H|(x' & d' & a' & past & H & Hn & ->)]].
      + rewrite T in H. cbn in H. destruct H. congruence.
      + rewrite T in H. injection H as _ _ <- _. reflexivity.
  Qed.

  (** ** goal *)
  Theorem goal_stops (s : st) x it r s' g : goal G = Some g -> (s_best s <=? g)%num = true -> routine_call G W x it s = (r, s') ->
    (exists e, r = Err e) \/ (r = Ok initial_fom /\ s_running s' = false).
  Proof.
    intros Eg Hb H. apply adds_routine in H. destruct H as [r s' evs T Q Hr Hy|d s' evs _ HG|d v evs evs1 s' _ HG].
    - destruct r as [y|e]; [right|left; eauto]. pose proof (Hy y eq_refl) as ->. auto.
    - rewrite (HG _ Eg) in Hb. discriminate.
    - rewrite (HG _ Eg) in Hb. discriminate.
  Qed.
  Theorem goal_no_call (s : st) x it r s' g : goal G = Some g -> (s_best s <=? g)%num = true ->
    routine_call G W x it s = (r, s') -> exists evs, s_trace s' = evs ++ s_trace s /\ no_call evs.
  Proof.
    intros Eg Hb H. apply adds_routine in H. destruct H as [r s' evs T Q Hr Hy|d s' evs _ HG|d v evs evs1 s' _ HG].
    - exists evs. split; [exact T|]. apply quiet_no_call, check_quiet, Q.
    - rewrite (HG _ Eg) in Hb. discriminate.
    - rewrite (HG _ Eg) in Hb. discriminate.
  Qed.
  Lemma no_dsm : g_kind G = KGRAPE \/ g_kind G = KAD -> has_dsm G = false.
  Proof. unfold has_dsm. intros [-> | ->]; reflexivity. Qed.
End History.

Section GoalSign.
  Context {N : Num} (NS : NumSign N) (G : settings) (W : world).
  Theorem goal_both (s : st) x it r s' g : g_goal G = Some g -> (s_best s <=? cost G g)%num = true ->
    routine_call G W x it s = (r, s') ->
    (exists evs, s_trace s' = evs ++ s_trace s /\ no_call evs) /\
    ((exists e, r = Err e) \/ (r = Ok initial_fom /\ s_running s' = false)).
  Proof.
    intros Eg Hb H. assert (GG : goal G = Some (cost G g)) by (unfold goal; rewrite Eg; cbn; now rewrite (factor_cost NS)).
    split; [exact (goal_no_call G W s x it r s' _ GG Hb H)|exact (goal_stops G W s x it r s' _ GG Hb H)].
  Qed.
End GoalSign.

Section PlainHistory.
  Context {N : Num} (NO : NumOrder N) (NS : NumSign N) (G : settings) (W : world).
  Hypothesis PR : plain_run G.

  Lemma unreached_split l x d a past : unreached G (l ++ EvEval x d a :: past) -> ~ reached G past.
  Proof. induction l as [|e l IH]; cbn; [tauto|]. intros [H _]. auto. Qed.
  Lemma attains_cost v g : attains G v g = (cost G v <=? factor G * g)%num.
  Proof.
    unfold attains, cost, factor. destruct (g_maximise G); [now rewrite (nmul_neg_le _ NS)|now rewrite (nmul_1 _ NS)].
  Qed.
  Theorem goal_unreached r s g tr1 x d a tr2 : optimise G W = Ok (r, s) -> g_goal G = Some g ->
    history s = tr1 ++ EvEval x d a :: tr2 ->
    (ceiling <=? cost G g)%num = false /\ forall v, In v (values tr1) -> attains G v g = false.
  Proof.
    intros H Eg E. apply (plain_pl NO NS G W PR) in H. pose proof (pl_goal _ _ H) as U.
    apply split_trace in E. rewrite E in U. apply unreached_split in U.
    assert (GG : goal G = Some (factor G * g)%num) by (unfold goal; now rewrite Eg).
    split.
    - destruct (ceiling <=? cost G g)%num eqn:K; [|reflexivity]. exfalso. apply U.
      exists (factor G * g)%num, ceiling. rewrite (factor_cost NS G g). repeat split; auto. now rewrite <- (factor_cost NS G g).
    - intros v Hv. destruct (attains G v g) eqn:K; [|reflexivity]. exfalso. apply U.
      rewrite attains_cost in K. exists (factor G * g)%num, (cost G v). repeat split; auto. right.
      apply in_costs. rewrite costs_values. now apply in_map.
  Qed.
  Theorem goal_last r s g tr1 x d a tr2 v : optimise G W = Ok (r, s) -> g_goal G = Some g ->
    history s = tr1 ++ EvEval x d a :: tr2 -> user_value a = Some v -> attains G v g = true -> no_call tr2.
  Proof.
    intros H Eg E Ev Ha y d' a' Hy. apply in_split in Hy as (u1 & u2 & ->).
    assert (E2 : history s = (tr1 ++ EvEval x d a :: u1) ++ EvEval y d' a' :: u2) by (rewrite E, <- app_assoc; reflexivity).
    destruct (goal_unreached r s g _ _ _ _ _ H Eg E2) as [_ K]. rewrite K in Ha; [discriminate|].
    unfold values. rewrite flat_map_app. apply in_or_app. right. cbn. rewrite Ev. now left.
  Qed.

  (** ** best value *)
  Theorem best_value r s : optimise G W = Ok (r, s) -> is_best (costs G (history s)) (s_best s).
  Proof.
    intros H. apply (plain_pl NO NS G W PR) in H. apply (is_best_ext (costs G (s_trace s))); [|apply H].
    intros v. symmetry. apply in_costs.
  Qed.

  (** ** log *)
  Theorem log_faithful r s : optimise G W = Ok (r, s) ->
    s_iter_list s = map fst (log 1 (history s)) /\ s_fom_list s = map snd (log 1 (history s)).
  Proof. intros H. apply (plain_pl NO NS G W PR) in H. apply H. Qed.

  Lemma log_all_good n tr : (forall tr1 x d a tr2, tr = tr1 ++ EvEval x d a :: tr2 ->
      user_value a <> None /\ success a = true \/ no_call tr2) ->
    exists k, map fst (log n tr) = seq n k.
  Proof.
    revert n. induction tr as [|e tr IH]; intros n H; [exists 0; reflexivity|].
    assert (H' : forall tr1 x d a tr2, tr = tr1 ++ EvEval x d a :: tr2 -> user_value a <> None /\ success a = true \/ no_call tr2).
    { intros tr1 x d a tr2 E. apply (H (e :: tr1) x d a tr2). now rewrite E. }
    destruct e; try exact (IH n H'). cbn.
    assert (NC : no_call tr -> map fst (log (S n) tr) = []).
    { clear. generalize (S n). induction tr as [|e tr IH]; intros m H; [reflexivity|].
      assert (H' : no_call tr) by (intros x d a K; apply (H x d a); now right).
      destruct e; try exact (IH m H'). exfalso. apply (H x d a). now left. }
    destruct (H [] x d a tr eq_refl) as [[K1 K2]|K].
    - rewrite K2. destruct (user_value a); [|congruence]. destruct (IH (S n) H') as (k & Hk). exists (S k). cbn. now rewrite Hk.
    - rewrite map_app, (NC K), app_nil_r. destruct (user_value a); [|exists 0; reflexivity].
      destruct (success a); [exists 1|exists 0]; reflexivity.
  Qed.
  Theorem log_numbers r s : optimise G W = Ok (r, s) ->
    s_iter_list s = seq 1 (length (s_iter_list s)) /\ length (s_fom_list s) = length (s_iter_list s).
  Proof.
    intros H. destruct (log_faithful r s H) as [A B].
    destruct (log_all_good 1 (history s)) as (k & Hk).
    { intros tr1 x d a tr2 E. destruct (user_value a) as [v|] eqn:Ev.
      - destruct (success a) eqn:Es; [left; split; congruence|right].
        destruct (failure_stops G W r s _ _ _ _ _ H E) as (tr3 & -> & K); [congruence|exact Es|].
        intros y d' a' [Hy|Hy]; [discriminate|]. now apply (K y d' a').
      - right. destruct (no_value_raises G W r s _ _ _ _ _ H E Ev) as [-> _]. now intros y d' a' []. }
    split.
    - rewrite A, Hk, seq_length. reflexivity.
    - rewrite A, B, !map_length. reflexivity.
  Qed.

  (** ** best-controls file *)
  Lemma replies_split l x d a past : replies G (l ++ EvEval x d a :: past) ->
    l = [] \/ exists l' e, l = l' ++ [e] /\ after G past d a e.
  Proof.
    destruct l as [|e l _] using rev_ind; [auto|]. rewrite <- app_assoc. cbn [app]. intros H. right. exists l, e.
    split; [reflexivity|]. induction l as [|e' l IH]; cbn in H; [apply H|]. apply IH, H.
  Qed.
  Lemma save_split l f past : replies G (l ++ EvSave f :: past) -> exists x d a p, past = EvEval x d a :: p.
  Proof.
    induction l as [|e l IH]; cbn [app replies]; [|intros [H _]; auto].
    intros [_ H]. destruct past as [|[] p]; try contradiction. eauto.
  Qed.
  Lemma run_end r s tr1 x d a : optimise G W = Ok (r, s) -> history s = tr1 ++ [EvEval x d a] -> user_value a = None.
  Proof.
    intros H E. apply split_trace in E. cbn in E. apply (plain_optimise NO NS G W PR) in H. destruct r as [u|e]; cbn in H.
    - destruct H as (_ & _ & K). rewrite E in K. contradiction.
    - destruct (x_val _ _ _ H) as [[K _]|(x' & d' & a' & p & K & U & _)]; rewrite E in K; [contradiction|].
      now injection K as <- <- <- _.
  Qed.
  Theorem saves_improvements r s tr1 x d a tr2 : optimise G W = Ok (r, s) -> history s = tr1 ++ EvEval x d a :: tr2 ->
    (success a = true /\ improves G tr1 a <-> exists f tr3, tr2 = EvSave f :: tr3).
  Proof.
    intros H E. pose proof (split_trace _ _ _ _ E) as T. pose proof (plain_pl NO NS G W PR r s H) as P.
    pose proof (pl_rep _ _ P) as R. rewrite T in R. apply replies_split in R as [K|(l & e & K & (A1 & A2 & _))].
    - assert (tr2 = []) as -> by (rewrite <- (rev_involutive tr2), K; reflexivity).
      pose proof (run_end r s _ _ _ _ H E) as U. split; [|intros (f & tr3 & K2); discriminate].
      intros [_ (v & Uv & _)]. congruence.
    - assert (K' : tr2 = e :: rev l) by (rewrite <- (rev_involutive tr2), K, rev_app_distr; reflexivity).
      split.
      + intros [S I]. apply improves_rev in I. destruct (A1 S I) as (f & ->). eauto.
      + intros (f & tr3 & K2). rewrite K' in K2. injection K2 as -> _. destruct (A2 f eq_refl) as (S & I & _).
        split; [exact S|]. now apply improves_rev.
  Qed.
  Theorem saved_content r s tr1 f tr2 : optimise G W = Ok (r, s) -> history s = tr1 ++ EvSave f :: tr2 ->
    exists tr0 x d a v, tr1 = tr0 ++ [EvEval x d a] /\ user_value a = Some v /\ success a = true /\
      sv_controls f = d /\ sv_fom f = cost G v /\ sv_iter f = S (calls tr0) /\ sv_status f = Some 0%Z.
  Proof.
    intros H E. pose proof (split_trace _ _ _ _ E) as T. pose proof (plain_pl NO NS G W PR r s H) as P.
    pose proof (pl_rep _ _ P) as R. rewrite T in R. pose proof R as R'.
    apply save_split in R' as (x & d & a & p & Ep). rewrite Ep in R.
    change (rev tr2 ++ EvSave f :: EvEval x d a :: p) with (rev tr2 ++ [EvSave f] ++ EvEval x d a :: p) in R.
    rewrite app_assoc in R. apply replies_split in R as [K|(l & e & K & (_ & A2 & _))].
    - destruct (rev tr2); discriminate.
    - apply app_inj_tail in K as [<- <-]. destruct (A2 f eq_refl) as (S & I & C1 & C2 & C3 & _ & C4).
      exists (rev p), x, d, a, (cost G (sv_fom f)). split; [|repeat split; auto].
      + rewrite <- (rev_involutive tr1), Ep. reflexivity.
      + now rewrite (cost_cost NS).
      + now rewrite calls_rev.
  Qed.

  Lemma disk_rev e tr : disk (rev (e :: tr)) = match e with EvSave f => Some f | _ => disk (rev tr) end.
  Proof. unfold disk. cbn [rev]. rewrite fold_left_app. destruct e; reflexivity. Qed.
  (** value of the saved file, 1e10 without a file *)
  Definition on_disk (tr : list event) : num := match disk (rev tr) with Some f => sv_fom f | None => ceiling end.
  Lemma on_disk_quiet e tr : match e with EvSave _ => False | _ => True end -> on_disk (e :: tr) = on_disk tr.
  Proof. intros H. unfold on_disk. rewrite disk_rev. destruct e; tauto. Qed.
  Definition all_good (tr : list event) : Prop := forall x d a, In (EvEval x d a) tr -> user_value a <> None /\ success a = true.

  Lemma good_costs_all tr : all_good tr -> good_costs G tr = costs G tr.
  Proof.
    intros H. induction tr as [|e tr IH]; [reflexivity|]. assert (IH' := IH (fun x d a K => H x d a (or_intror K))).
    destruct e; cbn; try exact IH'. destruct (H x d a (or_introl eq_refl)) as [_ ->].
    fold (good_costs G tr) (costs G tr). destruct (user_value a); cbn; now rewrite IH'.
  Qed.

  (** every evaluation but the newest was successful *)
  Definition chain (tr : list event) : Prop := forall l x d a past, tr = l ++ EvEval x d a :: past -> all_good past.
  Lemma chain_run r s : optimise G W = Ok (r, s) -> chain (s_trace s).
  Proof.
    intros H l x d a past E y d' a' Hy. apply in_split in Hy as (u1 & u2 & ->).
    assert (E1 : history s = rev u2 ++ EvEval y d' a' :: (rev u1 ++ EvEval x d a :: rev l)).
    { unfold history. rewrite E, rev_app_distr. cbn. rewrite rev_app_distr. cbn. rewrite <- !app_assoc. reflexivity. }
    split.
    - intros K. destruct (no_value_raises G W r s _ _ _ _ _ H E1 K) as [K2 _]. destruct (rev u1); discriminate.
    - destruct (success a') eqn:Es; [reflexivity|]. exfalso.
      destruct (user_value a') eqn:Ev.
      + destruct (failure_stops G W r s _ _ _ _ _ H E1) as (tr3 & K1 & K2); [congruence|exact Es|].
        destruct (rev u1) as [|e w]; cbn in K1; [discriminate|]. injection K1 as _ <-.
        apply (K2 x d a). apply in_or_app. right. now left.
      + destruct (no_value_raises G W r s _ _ _ _ _ H E1 Ev) as [K2 _]. destruct (rev u1); discriminate.
  Qed.

  Lemma improves_is_best x d a past : improves G past a -> success a = true -> all_good past -> forall v, user_value a = Some v ->
    is_best (good_costs G (EvEval x d a :: past)) (cost G v).
  Proof.
    intros (w & Ew & H1 & H2) Es AG v Ev. rewrite Ew in Ev. injection Ev as ->.
    change (good_costs G (EvEval x d a :: past)) with
      (match user_value a with Some v => if success a then [cost G v] else [] | None => [] end ++ good_costs G past).
    rewrite Ew, Es, (good_costs_all _ AG). split.
    - right. split; [now left|exact H1].
    - intros u [<- |Hu]; [now apply lt_irrefl|]. rewrite (nlt_le _ NO), (H2 u Hu). reflexivity.
  Qed.

  (** state of the file while the run goes on; after an improvement the file is written next *)
  Lemma disk_inv tr : replies G tr -> chain tr ->
    is_best (good_costs G tr) (on_disk tr) \/
    exists x d a past, tr = EvEval x d a :: past /\ success a = true /\ improves G past a.
  Proof.
    induction tr as [|e tr IH]; intros R C.
    - left. split; [left; reflexivity|intros v []].
    - assert (C' : chain tr) by (intros l x d a past E; apply (C (e :: l) x d a past); now rewrite E).
      destruct R as [R A]. specialize (IH R C').
      assert (NS' : match e with EvSave _ => False | _ => True end -> is_best (good_costs G tr) (on_disk tr)).
      { intros He. destruct IH as [IH|(x & d & a & p & -> & Es & Im)]; [exact IH|]. exfalso.
        destruct A as (A1 & _). destruct (A1 Es Im) as (f & ->). exact He. }
      destruct e; try (left; rewrite on_disk_quiet by exact I; now apply NS').
      + specialize (NS' I). pose proof (C [] x d a tr eq_refl) as AG. rewrite (good_costs_all _ AG) in NS'.
        destruct (user_value a) as [v|] eqn:Ev.
        2: { left. rewrite on_disk_quiet by exact I. cbn. rewrite Ev. fold (good_costs G tr). rewrite (good_costs_all _ AG).
             exact NS'. }
        destruct (success a) eqn:Es.
        2: { left. rewrite on_disk_quiet by exact I. cbn. rewrite Ev, Es. fold (good_costs G tr). rewrite (good_costs_all _ AG).
             exact NS'. }
        destruct (cost G v <? on_disk tr)%num eqn:Eb.
        * right. exists x, d, a, tr. repeat split; auto. apply (best_improves NO _ _ _ NS') in Eb.
          exists v. split; [exact Ev|exact Eb].
        * left. rewrite on_disk_quiet by exact I. cbn. rewrite Ev, Es. fold (good_costs G tr).
          rewrite (good_costs_all _ AG). pose proof (is_best_cons NO (costs G tr) (on_disk tr) (cost G v) NS') as K.
          rewrite Eb in K. exact K.
      + left. destruct tr as [|[] p]; try contradiction. destruct A as (_ & A2 & _).
        destruct (A2 f eq_refl) as (Es & Im & _ & Ev & _).
        assert (on_disk (EvSave f :: EvEval x d a :: p) = sv_fom f) as -> by (unfold on_disk; now rewrite disk_rev).
        change (good_costs G (EvSave f :: EvEval x d a :: p)) with (good_costs G (EvEval x d a :: p)).
        rewrite <- (cost_cost NS G (sv_fom f)). apply improves_is_best; auto.
        apply (C' [] x d a p eq_refl).
  Qed.
  (** the same when the run is cut off *)
  Theorem disk_prefix r s tr1 tr2 : optimise G W = Ok (r, s) -> history s = tr1 ++ tr2 ->
    let kept tr := is_best (good_costs G tr) (match disk tr1 with Some f => sv_fom f | None => ceiling end) in
    kept tr1 \/ exists tr0 x d a f tr3, tr1 = tr0 ++ [EvEval x d a] /\ tr2 = EvSave f :: tr3 /\ kept tr0.
  Proof.
    intros H E kept. pose proof (plain_pl NO NS G W PR r s H) as P. pose proof (pl_rep _ _ P) as R. pose proof (chain_run r s H) as C.
    assert (s_trace s = rev tr2 ++ rev tr1) as T by (rewrite <- rev_app_distr, <- E; unfold history; now rewrite rev_involutive).
    rewrite T in R, C. clear P.
    assert (forall l m, replies G (l ++ m) -> replies G m) as RS by (induction l as [|e l IH]; intros m K; [exact K|destruct K as [K _]; auto]).
    assert (CS : chain (rev tr1)) by (intros l x d a past K; apply (C (rev tr2 ++ l) x d a past); now rewrite K, app_assoc).
    assert (KE : forall tr, is_best (good_costs G (rev tr)) (on_disk (rev tr1)) -> kept tr).
    { intros tr K. unfold kept. unfold on_disk in K. rewrite rev_involutive in K. apply (is_best_ext _ _ _ (in_good_costs G tr)) in K. exact K. }
    destruct (disk_inv (rev tr1) (RS _ _ R) CS) as [K|(x & d & a & p & K & S & I)]; [left; now apply KE|].
    right. exists (rev p), x, d, a.
    assert (E1 : tr1 = rev p ++ [EvEval x d a]) by (rewrite <- (rev_involutive tr1), K; reflexivity).
    destruct (proj1 (saves_improvements r s (rev p) x d a tr2 H ltac:(rewrite E, E1, <- app_assoc; reflexivity))) as (f & tr3 & E2).
    { split; [exact S|]. now apply improves_rev. }
    exists f, tr3. split; [exact E1|]. split; [exact E2|]. apply KE. rewrite rev_involutive, K. rewrite on_disk_quiet by exact Logic.I.
    assert (replies G p) as Rp by (apply RS in R; rewrite K in R; exact (proj1 R)).
    assert (chain p) as Cp by (intros l x' d' a' past Q; apply (CS (EvEval x d a :: l) x' d' a' past); now rewrite K, Q).
    destruct (disk_inv p Rp Cp) as [Q|(x' & d' & a' & p' & Q & S' & I')]; [exact Q|]. exfalso.
    apply RS in R. rewrite K, Q in R. destruct R as [_ [A _]]. destruct (A S' I') as (f' & F). discriminate.
  Qed.
  Theorem disk_best r s : optimise G W = Ok (r, s) ->
    is_best (good_costs G (history s)) (match disk (history s) with Some f => sv_fom f | None => ceiling end).
  Proof.
    intros H. pose proof (plain_pl NO NS G W PR r s H) as P.
    destruct (disk_inv (s_trace s) (pl_rep _ _ P) (chain_run r s H)) as [K|(x & d & a & p & E & _ & (v & Ev & _))].
    - apply (is_best_ext (good_costs G (s_trace s))); [|exact K]. intros v. symmetry. apply in_good_costs.
    - exfalso. assert (E' : history s = rev p ++ [EvEval x d a]) by (unfold history; rewrite E; reflexivity).
      rewrite (run_end r s _ _ _ _ H E') in Ev. discriminate.
  Qed.
End PlainHistory.
