(** Base pulses and final controls of dCRAB runs in exact arithmetic. *)
From Coq Require Import String ZArith List Bool Lia Reals Lra.
From RecordUpdate Require Import RecordSet.
From Verif Require Import Num NumFacts Py PyFacts ModelPulse ModelControls ModelLinalg ModelState ModelSearch ModelRun SpecControls SpecRun
  ProofEss ProofBase ProofSI ProofMean
  ProofSim ProofSimRun ProofRoutine ProofRespond ProofCore ProofPlain ProofAnswers ProofHistory ProofBest ProofSuper.
Import ListNotations RecordSetNotations.
Open Scope list_scope.
Open Scope bool_scope.
Open Scope run_scope.

Section Final.
  Context {N : Num} (NO : NumOrder N) (NS : NumSign N) (NX : NumExact N) (G : settings) (W : world).
  Hypothesis PR : plain_run G.
  Hypothesis KD : g_kind G = KdCRAB.
  Hypothesis HF : forall f, In f (g_pulses G) -> plain_basis f /\ pf_overwrite f = false /\ regular_update f /\ zero_at_offset f /\
                    base_beside_update (names_of f).
  Hypothesis NT : no_optimised_time (g_times G).
  Hypothesis HZ : forall t, In t (g_times G) -> tf_value t <> of_Z 0.

  Lemma evaluations_reachable (c0 c c' : controls) : reachable c0 c -> evaluations c c' -> reachable c0 c'.
  Proof. intros H K. induction K as [|c c1 c2 x d K IH E]; [exact H|]. eapply reach_get; [apply IH; exact H|exact E]. Qed.

  Lemma summary_reachable c0 k s s' : reachable c0 (s_controls s) -> plive G s -> super_iteration G W k s = (Ok tt, s') ->
    reachable c0 (s_controls s').
  Proof.
    intros R P E. destruct (super_summary NO NS G W PR k s s' KD P E) as (_ & _ & rs & p & q & c & m & cD & E1 & _ & V & HH).
    assert (RD : reachable c0 cD) by (eapply evaluations_reachable; [eapply reach_select; eauto|exact V]).
    destruct HH as [[_ U]|(x & d & c1 & c2 & _ & _ & _ & _ & _ & U)]; eapply reach_update; eauto.
  Qed.

  Lemma new_state_reachable s0 s1 : new_state G W = Ok s0 -> begin W s0 = (Ok tt, s1) ->
    exists c0, new_controls (g_pulses G) (g_times G) (g_params G) = Ok c0 /\ s_controls s1 = c0 /\ plive G s1 /\
      s_best s1 = ceiling /\ s_trace s1 = [].
  Proof.
    intros E0 E1. assert (P0 := new_state_plive G W s0 E0). unfold new_state in E0. apply rbind_ok in E0 as (c & EC & E0). exists c.
    unfold begin, bind, now in E1. cbn in E1. injection E1 as <-. injection E0 as <-.
    split; [exact EC|]. split; [reflexivity|]. split; [|split; reflexivity].
    eapply plive_same; [..|exact P0]; try reflexivity.
    destruct (q_live _ _ P0) as [[A1 A2 A3 A4 A5] B1 B2]. constructor; [constructor|..]; assumption.
  Qed.

  Lemma running_keeps s r s' : plive G s -> get_running G W s = (Ok r, s') ->
    plive G s' /\ s_controls s' = s_controls s /\ s_best s' = s_best s /\ exists evs, s_trace s' = evs ++ s_trace s.
  Proof.
    intros P E. assert (A : ahead G (s_controls s) (s_best s) (s_trace s) s) by (split; [exact P|]; split; [|split]; auto; now exists []).
    exact (run_ok _ _ _ _ _ _ (proj2 (keeps_sim _ _ _) (sim_get_running (ahead_frame NO NS G W PR _ _ _))) A E).
  Qed.

  (** an invariant of whole super-iterations holds after the loop *)
  Lemma loop_invariant (I : st -> Prop) :
    (forall s s', I s -> plive G s -> plive G s' -> s_controls s' = s_controls s -> s_best s' = s_best s -> (exists evs, s_trace s' = evs ++ s_trace s) -> I s') ->
    (forall k s s', I s -> plive G s -> super_iteration G W k s = (Ok tt, s') -> I s') ->
    forall ks s s', I s -> plive G s -> dcrab_loop G W ks s = (Ok tt, s') -> I s' /\ plive G s'.
  Proof.
    intros H1 H2. induction ks as [|k ks IH]; intros s s' HI P E; cbn [dcrab_loop] in E.
    - injection E as <-. auto.
    - apply bind_inv in E as (r & s1 & E1 & E). destruct (running_keeps _ _ _ P E1) as (P1 & C1 & B1 & T1).
      assert (I1 : I s1) by eauto.
      destruct r; cbn [negb] in E; [|injection E as <-; auto].
      apply bind_inv in E as ([] & s2 & E2 & E).
      apply (IH s2 s'); eauto. exact (proj1 (super_summary NO NS G W PR k s1 s2 KD P1 E2)).
  Qed.

  Lemma loop_reachable c0 ks s s' : reachable c0 (s_controls s) -> plive G s -> dcrab_loop G W ks s = (Ok tt, s') ->
    reachable c0 (s_controls s') /\ plive G s'.
  Proof.
    apply (loop_invariant (fun s => reachable c0 (s_controls s))).
    - intros u u' H _ _ E _ _. now rewrite E.
    - intros k u u' H P E. eapply summary_reachable; eauto.
  Qed.

  Theorem no_improvement n k s0 s1 s2 s3 l : new_state G W = Ok s0 -> begin W s0 = (Ok tt, s1) ->
    dcrab_loop G W (seq 1 n) s1 = (Ok tt, s2) -> super_iteration G W k s2 = (Ok tt, s3) -> history s3 = history s2 ++ l ->
    (forall x d a v, In (EvEval x d a) l -> user_value a = Some v -> (cost G v <? s_best s2)%num = false) ->
    forall i, base_of (s_controls s3) i = base_of (s_controls s2) i.
  Proof.
    intros E0 E1 E2 E3 HL HN i. destruct (new_state_reachable _ _ E0 E1) as (c0 & EC & C1 & P1 & _ & _).
    destruct (loop_reachable c0 (seq 1 n) s1 s2) as [R2 P2]; auto; [rewrite C1; apply reach_refl|].
    destruct (super_summary NO NS G W PR k s2 s3 KD P2 E3) as (P3 & (evs & T3) & rs & p & q & c & m & cD & ES & EM & V & HH).
    assert (PB : Forall plain_basis (g_pulses G)) by (apply Forall_forall; intros f Hf; now apply HF).
    assert (RC : reachable c0 c) by (eapply reach_select; eauto).
    rewrite !base_of_bases. f_equal.
    destruct HH as [[_ U]|(x & d & c1 & c2 & (l' & a & past & v & WT & WU & WC & WI) & LT & _)].
    - rewrite (mean_keeps_bases NX _ _ _ c0 c cD m (s_controls s3) EC RC); auto.
      + eapply select_keeps_bases; eauto.
      + intros f Hf. destruct (HF f Hf) as (A & B & C & D & _). auto.
    - exfalso. assert (IN : In (EvEval x d a) (s_trace s3)) by (rewrite WT; apply in_or_app; right; now left).
      rewrite T3 in IN. apply in_app_or in IN as [IN|IN].
      + assert (EL : l = rev evs). { unfold history in HL. rewrite T3, rev_app_distr in HL. now apply app_inv_head in HL. }
        rewrite <- WC in LT. rewrite (HN x d a v) in LT; [discriminate| |exact WU]. rewrite EL. now apply -> in_rev.
      + destruct (pl_best _ _ (q_pl _ _ P2)) as [_ HB]. rewrite <- WC, HB in LT; [discriminate|].
        unfold costs. apply in_flat_map. exists (EvEval x d a). split; [exact IN|]. rewrite WU. now left.
  Qed.

  (** ** the controls handed out after the run *)
  Definition restored (d : delivered) (c : controls) : Prop :=
    forall c3, (c3 = c \/ exists rs q r, select_basis rs q c = Ok (c3, r)) ->
      exists m c4, get_mean_value c3 = Ok m /\ get_controls_lists m c3 = Ok (c4, d).
  Definition kept (c0 : controls) (s : st) : Prop :=
    reachable c0 (s_controls s) /\
    (s_best s = ceiling \/ exists x d, witness G (s_trace s) (s_best s) x d /\ restored d (s_controls s)).

  Lemma kept_step c0 k s s' : new_controls (g_pulses G) (g_times G) (g_params G) = Ok c0 -> kept c0 s -> plive G s ->
    super_iteration G W k s = (Ok tt, s') -> kept c0 s'.
  Proof.
    intros EC [R K] P E. split; [eapply summary_reachable; eauto|].
    destruct (super_summary NO NS G W PR k s s' KD P E) as (P3 & (evs & T3) & rs & p & q & c & m & cD & ES & EM & V & HH).
    assert (RC : reachable c0 c) by (eapply reach_select; eauto).
    destruct HH as [[EB U]|(x & d & c1 & c2 & WT & LT & V1 & HG & V2 & U)].
    - rewrite EB. destruct K as [K|(x & d & K1 & K2)]; [now left|right]. exists x, d. split; [rewrite T3; now apply witness_ext|].
      destruct (K2 c) as (m' & c4 & EM' & HG); [right; eauto|]. rewrite EM in EM'. injection EM' as <-.
      intros c3 H3. refine (survive NO NX _ _ _ c0 c m c4 d c4 (s_controls s') c3 EC RC HF NT HZ HG (ev_refl _) _ H3).
      rewrite <- update_base_ess, (get_controls_ess_r _ _ _ _ HG), <- (evaluations_ess _ _ V), update_base_ess. exact U.
    - right. exists x, d. split; [exact WT|]. intros c3 H3.
      refine (survive NO NX _ _ _ c0 c1 x c2 d cD (s_controls s') c3 EC _ HF NT HZ HG V2 U H3).
      eapply evaluations_reachable; eauto.
  Qed.

  Theorem dcrab_best_controls s : optimise G W = Ok (Ok tt, s) ->
    (exists x d a v, In (EvEval x d a) (history s) /\ user_value a = Some v /\ (cost G v <? ceiling)%num = true) ->
    exists tr1 x d a tr2 v, history s = tr1 ++ EvEval x d a :: tr2 /\ user_value a = Some v /\ cost G v = s_best s /\
      improves G tr1 a /\ get_best_controls s = Ok d.
  Proof.
    intros H (x & d & a & v & IN & U & LT). destruct (dcrab_stages G W _ _ KD H) as (s0 & s1 & E0 & E1 & HH).
    destruct HH as [(e & He & _)|(u & f & o & _ & EL & _ & _ & ->)]; [discriminate|].
    destruct (new_state_reachable _ _ E0 E1) as (c0 & EC & C1 & P1 & B1 & T1).
    destruct (loop_invariant (kept c0)) with (ks := super_range G) (s := s1) (s' := u) as [K P]; auto.
    - intros t t' [R K] _ _ EC' EB (evs & ET). unfold kept. rewrite EC', EB, ET. split; [exact R|].
      destruct K as [K|(y & e & K1 & K2)]; [now left|right]. exists y, e. split; [now apply witness_ext|exact K2].
    - intros. eapply kept_step; eauto.
    - split; [rewrite C1; apply reach_refl|now left].
    - assert (IN' : In (EvEval x d a) (s_trace u)).
      { unfold history in IN. apply in_rev in IN. cbn in IN. destruct IN as [IN|[IN|IN]]; [discriminate..|exact IN]. }
      destruct K as [_ [K|(y & e & (l & b & past & w & WT & WU & WC & WI) & K2)]].
      + exfalso. destruct (pl_best _ _ (q_pl _ _ P)) as [_ HB]. rewrite <- K, HB in LT; [discriminate|].
        unfold costs. apply in_flat_map. exists (EvEval x d a). split; [exact IN'|]. rewrite U. now left.
      + destruct (K2 _ (or_introl eq_refl)) as (m & c4 & EM & HG).
        exists (rev past), y, e, b, (rev l ++ [EvFinal f; EvLogged f o]), w.
        split; [|split; [exact WU|split; [exact WC|split; [now apply improves_rev|]]]].
        * unfold history. cbn [s_trace set]. change (s_trace (u <|s_trace ::= cons (EvFinal f)|> <|s_trace ::= cons (EvLogged f o)|>))
            with (EvLogged f o :: EvFinal f :: s_trace u). rewrite WT. cbn [rev]. rewrite rev_app_distr. cbn [rev]. now rewrite <- !app_assoc.
        * unfold get_best_controls.
          change (s_controls (u <|s_trace ::= cons (EvFinal f)|> <|s_trace ::= cons (EvLogged f o)|>)) with (s_controls u).
          rewrite EM. cbn [rbind]. now rewrite HG.
  Qed.
End Final.
