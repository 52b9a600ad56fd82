(** Nelder-Mead searches from the start to the result. *)
From Coq Require Import String ZArith List Bool Lia Permutation Sorted.
From RecordUpdate Require Import RecordSet.
From Verif Require Import Num NumFacts Py PyFacts ModelPulse ModelControls ModelLinalg ModelState ModelSearch ModelRun
  SpecRun SpecSearch ProofSim ProofNM.
Import ListNotations RecordSetNotations.
Open Scope list_scope.
Open Scope run_scope.

Section Search.
  Context {N : Num} (NO : NumOrder N) (G : settings) (W : world).
  Hypothesis SO : sorts W.
  Variables (func : vec -> nat -> option num -> M num) (adaptive : bool) (x0 : vec) (sim : option (list vec))
    (drift_min : num) (drift_avg : Z).
  Hypothesis PS : proper_start x0 sim.
  Let start := match sim with Some sim => sim | None => default_simplex x0 end.

  Lemma start_rows : length start = S (length x0).
  Proof.
    unfold start, proper_start in *. destruct sim; [apply PS|]. unfold default_simplex. cbn.
    now rewrite map_length, seq_length.
  Qed.
  Lemma start_columns x : In x start -> length x = length x0.
  Proof.
    unfold start, proper_start in *. destruct sim; [apply PS|]. unfold default_simplex. cbn. intros [<-|I].
    - apply zeros_length.
    - apply in_map_iff in I as (k & <- & _). now rewrite set_nth_length.
  Qed.

  Notation bd := (boundary G W func adaptive x0 sim drift_min drift_avg).

  Lemma boundary_sane (P : num -> Prop) s0 L s :
    (forall x it s y s', func x it None s = (Ok y, s') -> P y) -> (no_drift drift_min \/ forall y, P y) -> bd s0 L s ->
    sane (length x0) P L /\ (no_drift drift_min -> (forall y, P y -> nisnan y = false) -> increasing (n_fsim L)).
  Proof.
    intros FP DP B. induction B as [t s1 fsim calls s2 L s3 E0 E1 E2|L s s1 rho chi psi sigma L' s2 B IH E1 E2 E3].
    - destruct (start_sane W SO func (length x0) P FP start _ _ _ _ _ _ _ _ start_rows start_columns E1 E2) as [A A'].
      split; auto.
    - destruct IH as [A A']. now apply (iter_sane G W SO func rho chi psi sigma (length x0) drift_min drift_avg P FP DP L s1 L' s2).
  Qed.

  (** a run is its loop heads *)
  Lemma run_nm_ok s0 r s' : run_nm G W func adaptive x0 sim drift_min drift_avg s0 = (Ok r, s') ->
    exists L s1 L' s2 rho chi psi sigma, bd s0 L s1 /\ nm_parameters adaptive (length x0) = Ok (rho, chi, psi, sigma) /\
      nm_loop G W func rho chi psi sigma (length x0) drift_min drift_avg (w_fuel W) L s1 = (Ok L', s2) /\
      s' = s2 /\ py_nth (n_sim L') 0 = Ok (r_x r) /\ py_nth (n_fsim L') 0 = Ok (r_fval r) /\ r_calls r = n_calls L' /\
      r_nit r = (Z.of_nat (n_it L') - 1)%Z /\ r_reason r = sc_reason (s_sc s2).
  Proof.
    intros H. unfold run_nm in H.
    apply bind_ok in H as ([] & sa & Ea & H). apply bind_ok in H as ([] & sb & Eb & H).
    apply bind_ok in H as (t0 & sc & Ec & H). apply bind_ok in H as (t & sd & Ed & H).
    apply bind_ok in H as ([[[rho chi] psi] sigma] & se & Ee & H). apply lift_ok in Ee as [Ee ->]. cbv zeta in H.
    apply bind_ok in H as ([fsim calls] & sf & Ef & H). apply bind_ok in H as (L & sg & Eg & H).
    apply bind_ok in H as (L' & sh & Eh & H).
    apply bind_ok in H as (x & si & Ei & H). apply lift_ok in Ei as [Ei ->].
    apply bind_ok in H as (fv & si & Ej & H). apply lift_ok in Ej as [Ej ->].
    apply bind_ok in H as (sx & si & Ek & H). injection Ek as <- <-. injection H as <- <-. cbn.
    exists L, sg, L', sh, rho, chi, psi, sigma. repeat split; try assumption.
    eapply at_start with (t := t) (s1 := sd); [|unfold start in *; destruct sim; exact Ef|unfold start in *; destruct sim; exact Eg].
    unfold bind at 1. rewrite Ea. unfold bind at 1. rewrite Eb. unfold bind at 1. rewrite Ec. exact Ed.
  Qed.

  (** ** undisturbed searches *)
  Section Undisturbed.
    Variables (Q : st -> Prop) (log : st -> list (vec * num)) (s0 : st).
    Hypothesis Qsc : forall f s, Q (s <|s_sc ::= f|>) <-> Q s.
    Hypothesis Qcnt : forall f s, Q (s <|s_cnt ::= f|>) <-> Q s.
    Hypothesis Lsc : forall f s, log (s <|s_sc ::= f|>) = log s.
    Hypothesis Lcnt : forall f s, log (s <|s_cnt ::= f|>) = log s.
    Hypothesis Qpoll : forall s s', poll G W s = (Ok tt, s') -> Q s' ->
      Q s /\ sc_conv (s_sc s') = sc_conv (s_sc s) /\ log s' = log s.
    Hypothesis Qfunc : forall x it s y s', func x it None s = (Ok y, s') -> Q s' ->
      Q s /\ sc_conv (s_sc s') = sc_conv (s_sc s) /\ log s' = log s ++ [(x, y)].
    Hypothesis Qnum : forall s new, Q s -> log s = log s0 ++ new -> nan_free (map snd new).
    Hypothesis ND : no_drift drift_min.

    Lemma start_log s t : (poll G W;;; set_conv false;;; now W;;; now W) s0 = (Ok t, s) -> Q s -> log s = log s0.
    Proof.
      intros H K. apply (quiet_bind Q log (poll G W) (fun _ => set_conv false;;; now W;;; now W)) in H; auto.
      - now apply H.
      - apply (quiet_poll G W Q log Qpoll).
      - intros _. unfold set_conv, now. repeat first
          [ apply (quiet_bind Q log) | apply quiet_ret | apply quiet_get | apply (quiet_sc Q log Qsc Lsc)
          | apply (quiet_cnt Q log Qcnt Lcnt) | intros ? ].
    Qed.

    Lemma boundary_head L s : bd s0 L s -> Q s -> head (length x0) log (log s0) L s.
    Proof.
      intros B. induction B as [t s1 fsim calls s2 L s3 E0 E1 E2|L s s1 rho chi psi sigma L' s2 B IH E1 E2 E3]; intros K.
      - pose proof (anti_sort W Q _ _ _ _ E2 K) as K2. pose proof (anti_eval func Q log Qfunc _ _ _ _ _ _ E1 K2) as K1.
        eapply (start_head NO W SO func (length x0) Q log (log s0)); [..|exact E1|exact E2|exact K]; try eassumption.
        + now apply (start_log s1 t).
        + apply start_rows.
        + apply start_columns.
      - pose proof (anti_iter G W func rho chi psi sigma (length x0) drift_min drift_avg Q log Qsc Qcnt Qpoll Qfunc ND _ _ _ _ E3 K) as K1.
        pose proof (anti_is_conv G W Q log Qpoll _ _ _ E1 K1) as K0.
        destruct (is_conv_same G W Q log Qpoll _ _ _ E1 K1) as (Ec & Ca & L1).
        specialize (IH K0). destruct IH as [CV IN].
        assert (head (length x0) log (log s0) L s1) as HD by (split; [now apply (cov_ext _ _ _ _ s)|assumption]).
        assert (calm s1) as C1 by (unfold calm; congruence).
        destruct (iter_head NO G W SO func rho chi psi sigma (length x0) drift_min drift_avg Q log (log s0) Qsc Qcnt Lsc Lcnt Qpoll Qfunc Qnum ND
                    L s1 _ s2 HD C1 E3 K) as (L2 & [= <-] & HD2).
        exact HD2.
    Qed.

    Lemma run_result r s' : run_nm G W func adaptive x0 sim drift_min drift_avg s0 = (Ok r, s') -> Q s' ->
      exists new, log s' = log s0 ++ new /\ r_calls r = length new /\ In (r_x r, r_fval r) new /\
                  forall p, In p new -> (r_fval r <=? snd p)%num = true.
    Proof.
      intros H K. destruct (run_nm_ok s0 r s' H) as (L & s1 & L' & s2 & rho & chi & psi & sigma & B & E1 & E2 & -> & E3 & E4 & E5 & _).
      pose proof (anti_loop G W func rho chi psi sigma (length x0) drift_min drift_avg Q log Qsc Qcnt Qpoll Qfunc ND _ _ _ _ _ E2 K) as K1.
      pose proof (boundary_head L s1 B K1) as HD.
      pose proof (loop_head NO G W SO func rho chi psi sigma (length x0) drift_min drift_avg Q log (log s0) Qsc Qcnt Lsc Lcnt Qpoll Qfunc Qnum ND
                    _ _ _ _ _ HD E2 K) as HD'.
      rewrite E5. now apply (head_result NO (length x0) Q log (log s0) L' s2).
    Qed.
  End Undisturbed.

  (** ** any function whose calls can be observed *)
  Section Observed.
    Variables (log : st -> list (vec * num)) (s0 : st).
    Hypothesis OB : observes func log.
    Hypothesis LF : leaves_flag func.
    Hypothesis NSI : no_sigint W.
    Hypothesis ND : no_drift drift_min.
    Let Q (s : st) : Prop := forall new, log s = log s0 ++ new -> nan_free (map snd new).

    Lemma ob_Q s s' : log s' = log s -> Q s' <-> Q s.
    Proof. intros E. unfold Q. now rewrite E. Qed.
    Lemma ob_Qpoll s s' : poll G W s = (Ok tt, s') -> Q s' -> Q s /\ sc_conv (s_sc s') = sc_conv (s_sc s) /\ log s' = log s.
    Proof.
      intros H K. assert (sc_conv (s_sc s') = sc_conv (s_sc s) /\ log s' = log s) as [A B].
      { unfold poll in H. apply bind_ok in H as (t & s1 & E & H). injection E as <- <-.
        rewrite bind_upd in H. destruct (w_async W _) eqn:EA.
        - injection H as <-. split; [reflexivity|apply (ob_cnt _ _ OB)].
        - pose proof (f_equal snd H) as H'. cbn [snd] in H'. rewrite <- H'. split; [reflexivity|].
          rewrite (ob_stop _ _ OB). apply (ob_cnt _ _ OB).
        - now apply NSI in EA. }
      split; [now apply (ob_Q s s')|now split].
    Qed.
    Lemma ob_Qfunc x it s y s' : func x it None s = (Ok y, s') -> Q s' ->
      Q s /\ sc_conv (s_sc s') = sc_conv (s_sc s) /\ log s' = log s ++ [(x, y)].
    Proof.
      intros H K. pose proof (ob_call _ _ OB _ _ _ _ _ _ H) as E. split; [|split; [exact (LF _ _ _ _ _ _ H)|assumption]].
      intros new F z Z. apply (K (new ++ [(x, y)])); [now rewrite E, F, app_assoc|].
      rewrite map_app. apply in_or_app. now left.
    Qed.
    Lemma observed_boundary L s : bd s0 L s -> (forall new, log s = log s0 ++ new -> nan_free (map snd new)) ->
      head (length x0) log (log s0) L s.
    Proof.
      intros B K. apply (boundary_head Q log s0); auto; try (intros; apply ob_Q); try (intros; apply OB); auto.
      - apply ob_Qpoll.
      - apply ob_Qfunc.
    Qed.
    Lemma observed_result r s' : run_nm G W func adaptive x0 sim drift_min drift_avg s0 = (Ok r, s') ->
      (forall new, log s' = log s0 ++ new -> nan_free (map snd new)) ->
      exists new, log s' = log s0 ++ new /\ r_calls r = length new /\ In (r_x r, r_fval r) new /\
                  forall p, In p new -> (r_fval r <=? snd p)%num = true.
    Proof.
      intros H K. apply (run_result Q log s0); auto; try (intros; apply ob_Q); try (intros; apply OB); auto.
      - apply ob_Qpoll.
      - apply ob_Qfunc.
    Qed.
  End Observed.
End Search.
