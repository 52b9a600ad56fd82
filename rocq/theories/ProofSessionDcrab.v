(** Sessions of dCRAB: the controls handed out. *)
From Coq Require Import String ZArith List Bool Lia.
From RecordUpdate Require Import RecordSet.
From Verif Require Import Num NumFacts Py PyFacts ModelPulse ModelControls ModelLinalg ModelState ModelSearch ModelRun ModelSession SpecControls SpecRun
  ProofEss ProofBase ProofSI ProofMean
  ProofSim ProofSimRun ProofRoutine ProofRespond ProofCore ProofPlain ProofAnswers ProofHistory ProofBest ProofSuper ProofFinal.
Import ListNotations RecordSetNotations.
Open Scope list_scope.
Open Scope bool_scope.
Open Scope run_scope.

Section Again.
  Context {N : Num} (NO : NumOrder N) (NS : NumSign N) (NX : NumExact N) (G : settings) (W : world).
  Hypothesis PR : plain_run G.
  Hypothesis KD : g_kind G = KdCRAB.
  Hypothesis HF : forall f, In f (g_pulses G) -> plain_basis f /\ pf_overwrite f = false /\ regular_update f /\ zero_at_offset f /\
                    base_beside_update (names_of f).
  Hypothesis NT : no_optimised_time (g_times G).
  Hypothesis HZ : forall t, In t (g_times G) -> tf_value t <> of_Z 0.

  Lemma kept_same c0 s t evs : s_controls t = s_controls s -> s_best t = s_best s -> s_trace t = evs ++ s_trace s -> kept G c0 s -> kept G c0 t.
  Proof.
    intros EC EB ET [R K]. unfold kept. rewrite EC, EB, ET. split; [exact R|].
    destruct K as [K|(y & e & K1 & K2)]; [now left|right]. exists y, e. split; [now apply witness_ext|exact K2].
  Qed.
  Lemma execute_kept c0 s s' : new_controls (g_pulses G) (g_times G) (g_params G) = Ok c0 -> kept G c0 s -> plive G s -> execute G W s = (Ok tt, s') -> kept G c0 s' /\ plive G s'.
  Proof.
    intros EC K P H. unfold execute, run in H. rewrite KD in H.
    apply bind_inv in H as ([] & s1 & E1 & H). apply bind_inv in H as ([] & u & E2 & H).
    assert (P1 : plive G s1 /\ kept G c0 s1).
    { unfold begin, bind, now in E1. cbn in E1. injection E1 as <-. split; [|now apply (kept_same c0 s _ [])].
      eapply plive_same; [..|exact P]; try reflexivity. destruct (q_live _ _ P) as [[A1 A2 A3 A4 A5] B1 B2]. constructor; [constructor|..]; assumption. }
    destruct (loop_invariant NO NS G W PR KD (kept G c0)) with (ks := super_range G) (s := s1) (s' := u) as [K2 P2]; try tauto.
    - intros t t' K' _ _ EC' EB (evs & ET). now apply (kept_same c0 t t' evs).
    - intros. eapply kept_step; eauto.
    - assert (Q : exists f o, s' = u <|s_trace ::= cons (EvFinal f)|> <|s_trace ::= cons (EvLogged f o)|>).
      { unfold end_, final_results in H. rewrite KD in H. cbn in H. injection H as <-. do 2 eexists. reflexivity. }
      destruct Q as (f & o & ->). split; [now apply (kept_same c0 u _ [EvLogged f o; EvFinal f])|].
      apply (plive_ext G u _ [EvLogged f o; EvFinal f]); try reflexivity; [repeat constructor| |exact P2].
      apply (live_ext G u _ [EvLogged f o; EvFinal f]); try reflexivity; [repeat constructor|cbn; now rewrite andb_true_r| |exact (q_live _ _ P2)].
      intros x [E|[E|[]]]; discriminate.
  Qed.
  Lemma session_kept c0 n : new_controls (g_pulses G) (g_times G) (g_params G) = Ok c0 -> forall s rs s', kept G c0 s -> plive G s ->
    session G W (repeat Execute n) s = (rs, s') -> Forall (eq (Ok tt)) rs -> kept G c0 s' /\ plive G s'.
  Proof.
    intros EC. induction n as [|n IH]; intros s rs s' K P E F.
    - cbn in E. injection E as <- <-. auto.
    - cbn [repeat session perform] in E. destruct (execute G W s) as [r s1] eqn:E1. destruct (session G W (repeat Execute n) s1) as [rs1 s2] eqn:E2. injection E as <- <-.
      inversion F; subst. destruct (execute_kept c0 s s1 EC K P E1) as [K1 P1]. exact (IH s1 rs1 s2 K1 P1 E2 H2).
  Qed.
  Theorem session_best_controls n rs s : program G W (repeat Execute n) = Ok (rs, s) -> Forall (eq (Ok tt)) rs ->
    (exists x d a v, In (EvEval x d a) (history s) /\ user_value a = Some v /\ (cost G v <? ceiling)%num = true) ->
    exists tr1 x d a tr2 v, history s = tr1 ++ EvEval x d a :: tr2 /\ user_value a = Some v /\ cost G v = s_best s /\
      improves G tr1 a /\ get_best_controls s = Ok d.
  Proof.
    intros H F (x & d & a & v & IN & U & LT). unfold program in H. apply rbind_ok in H as (s0 & E0 & H). injection H as H.
    pose proof (new_state_plive G W s0 E0) as P0. unfold new_state in E0. apply rbind_ok in E0 as (c0 & EC & E0).
    assert (K0 : kept G c0 s0) by (injection E0 as <-; split; [apply reach_refl|now left]).
    destruct (session_kept c0 n EC s0 rs s K0 P0 H F) as [K P].
    assert (IN' : In (EvEval x d a) (s_trace s)) by (unfold history in IN; now apply in_rev in IN).
    destruct K as [_ [K|(y & e & (l & b & past & w & WT & WU & WC & WI) & K2)]].
    - exfalso. destruct (pl_best _ _ (q_pl _ _ P)) as [_ HB]. rewrite <- K, HB in LT; [discriminate|].
      unfold costs. apply in_flat_map. exists (EvEval x d a). split; [exact IN'|]. rewrite U. now left.
    - destruct (K2 _ (or_introl eq_refl)) as (m & c4 & EM & HG). exists (rev past), y, e, b, (rev l), w.
      split; [|split; [exact WU|split; [exact WC|split; [now apply improves_rev|]]]].
      + unfold history. rewrite WT, rev_app_distr. cbn [rev]. now rewrite <- !app_assoc.
      + unfold get_best_controls. rewrite EM. cbn [rbind]. now rewrite HG.
  Qed.
End Again.
