(** Relations between the states before and after parts of a run, from the steps that touch the stopping criteria. *)
From Coq Require Import String ZArith List Bool Lia.
From RecordUpdate Require Import RecordSet.
From Verif Require Import Num NumFacts Py PyFacts ModelPulse ModelControls ModelLinalg ModelState ModelSearch ModelRun
  SpecRun SpecSearch SpecStop ProofSim ProofNM.
Import ListNotations RecordSetNotations.
Open Scope list_scope.
Open Scope run_scope.

(** the reasons a direct search can have *)
Definition search_reasons : list string :=
  ["Global Stopping Criterion reached."; "Exceeded number of allowed function evaluations per direct search.";
   "Convergence of the simplex."; "Convergence of the FoM (fatol)."; "Convergence of the FoM.";
   "Optimization time for direct search exceeded limit."; "Change-based stopping criterion reached.";
   "User stopped the optimization or higher order stopping criterion has been reached"]%string.

Section Walk.
  Context {N : Num} (G : settings) (W : world).
  Definition is_eval (e : event) : bool := match e with EvEval _ _ _ => true | _ => false end.
  Definition evals (s : st) : list event := filter is_eval (s_trace s).
  Variable R : st -> st -> Prop.
  Hypothesis Rrefl : forall s, R s s.
  Hypothesis Rtrans : forall s1 s2 s3, R s1 s2 -> R s2 s3 -> R s1 s3.
  Hypothesis Rconv : forall b s, R s (s <|s_sc ::= set sc_conv (fun _ => b)|>).
  Hypothesis Rreason : forall r s, In r search_reasons -> R s (s <|s_sc ::= set sc_reason (fun _ => r)|>).
  Hypothesis Rother : forall s s', s_sc s' = s_sc s -> evals s' = evals s -> b_term (s_book s') = b_term (s_book s) -> R s s'.

  Definition walk {A} (m : M A) : Prop := forall s a s', m s = (Ok a, s') -> R s s'.
  Lemma walk_bind {A B} (m : M A) (k : A -> M B) : walk m -> (forall a, walk (k a)) -> walk (bind m k).
  Proof. intros Hm Hk s b s' H. apply bind_ok in H as (a & s1 & E & H). eapply Rtrans; [eapply Hm|eapply Hk]; eauto. Qed.
  Lemma walk_ret {A} (a : A) : walk (ret a).
  Proof. intros s b s' H. injection H as <- <-. apply Rrefl. Qed.
  Lemma walk_lift {A} (r : res A) : walk (lift r).
  Proof. intros s b s' H. apply lift_ok in H as [_ ->]. apply Rrefl. Qed.
  Lemma walk_raise {A} e : walk (raise (A := A) e).
  Proof. intros s b s' H. discriminate. Qed.
  Lemma walk_get : walk get.
  Proof. intros s b s' H. injection H as <- <-. apply Rrefl. Qed.
  Lemma walk_upd f : (forall s, s_sc (f s) = s_sc s /\ evals (f s) = evals s /\ b_term (s_book (f s)) = b_term (s_book s)) -> walk (upd f).
  Proof. intros F s u s' H. injection H as <- <-. destruct (F s) as (A & B & C). now apply Rother. Qed.
  Lemma walk_conv b : walk (set_conv b).
  Proof. intros s u s' H. injection H as <- <-. apply Rconv. Qed.
  Lemma walk_reason r : In r search_reasons -> walk (set_sc_reason r).
  Proof. intros I s u s' H. injection H as <- <-. now apply Rreason. Qed.
  Lemma walk_clear b : walk (clear b).
  Proof. intros s u s' H. pose proof (f_equal snd H) as H'. cbn in H'. rewrite <- H'. now apply Rother. Qed.
  Ltac known := cbn; repeat first [left; reflexivity | right].
  Ltac wk := repeat first
    [ solve [auto] | apply walk_ret | apply walk_lift | apply walk_raise | apply walk_get | apply walk_clear | apply walk_conv
    | (apply walk_reason; solve [known]) | (apply walk_upd; intros ?; now repeat split) | apply walk_bind
    | match goal with
      | |- forall _, _ => intro
      | |- walk (if ?c then _ else _) => destruct c
      | |- walk (match ?c with _ => _ end) => destruct c
      | |- walk (let _ := _ in _) => cbv zeta
      end ].
  Lemma walk_emit e : is_eval e = false -> walk (emit e).
  Proof. intros E. unfold emit. apply walk_upd. intros s. unfold evals. cbn. now rewrite E. Qed.
  Lemma walk_poll : walk (poll G W).
  Proof. unfold poll, handle_user_cancellation, set_reason. wk. Qed.
  Lemma walk_is_conv : walk (is_conv G W). Proof. pose proof walk_poll. unfold is_conv. wk. Qed.
  Lemma walk_running : walk (get_running G W). Proof. pose proof walk_poll. unfold get_running. wk. Qed.
  Lemma walk_now : walk (now W). Proof. unfold now. wk. Qed.
  Lemma walk_set_check b r : In r search_reasons -> walk (set_check G W b r).
  Proof.
    intros I. pose proof walk_poll. pose proof walk_is_conv. unfold set_check. apply walk_bind; [assumption|]. intros _.
    apply walk_bind; [apply walk_conv|]. intros _. apply walk_bind; [now apply walk_reason|]. auto.
  Qed.
  Lemma walk_check_nm sim fsim calls : walk (check_stopping_nm G W sim fsim calls).
  Proof.
    pose proof walk_poll as P1. pose proof walk_is_conv as P2. pose proof walk_now as P3.
    unfold check_stopping_nm. apply walk_bind; [assumption|]. intros [|]; [wk|].
    apply walk_bind; [apply walk_set_check; known|]. intros [|]; [wk|].
    intros s a s' H. apply bind_ok in H as ([b r] & s1 & E & H). apply lift_ok in E as [E ->].
    assert (In r search_reasons) as K.
    { unfold check_simplex in E. apply rbind_ok in E as (? & _ & E). apply rbind_ok in E as (? & _ & E). injection E as _ <-. known. }
    revert s a s' H. cbn [fst snd]. change (walk (c <- set_check G W b r;; if c then ret tt else
      c <- set_check G W (fst (check_f_size G fsim)) (snd (check_f_size G fsim));; if c then ret tt else
      r <- check_time_out G W;; poll G W;;; set_conv (fst r);;;
      c <- is_conv G W;; if c then poll G W;;; set_sc_reason (snd r) else ret tt)).
    apply walk_bind; [now apply walk_set_check|]. intros [|]; [wk|].
    apply walk_bind; [apply walk_set_check; unfold check_f_size; destruct (_ <=? _)%num; known|]. intros [|]; [wk|].
    intros s a s' H. apply bind_ok in H as ([b' r'] & s1 & E' & H). unfold check_time_out in E'.
    apply bind_ok in E' as (t & s2 & E2 & E'). apply bind_ok in E' as (s3 & s4 & E3 & E'). injection E3 as <- <-. injection E' as _ Er <-.
    apply walk_now in E2. eapply Rtrans; [exact E2|]. revert H. cbn [fst snd].
    assert (In r' search_reasons) as K' by (rewrite <- Er; known). clear Er E2.
    revert s2 a s'. change (walk (poll G W;;; set_conv b';;; c <- is_conv G W;; if c then poll G W;;; set_sc_reason r' else ret tt)).
    pose proof (walk_reason r' K'). wk.
  Qed.
  Lemma walk_check_cma fsim calls : walk (check_stopping_cma G W fsim calls).
  Proof.
    pose proof walk_poll as P1. pose proof walk_is_conv as P2. pose proof walk_now as P3.
    unfold check_stopping_cma. apply walk_bind; [assumption|]. intros [|]; [wk|].
    apply walk_bind; [apply walk_set_check; known|]. intros [|]; [wk|].
    apply walk_bind; [apply walk_set_check; unfold check_f_size; destruct (_ <=? _)%num; known|]. intros [|]; [wk|].
    intros s a s' H. apply bind_ok in H as ([b' r'] & s1 & E' & H). unfold check_time_out in E'.
    apply bind_ok in E' as (t & s2 & E2 & E'). apply bind_ok in E' as (s3 & s4 & E3 & E'). injection E3 as <- <-. injection E' as _ Er <-.
    apply walk_now in E2. eapply Rtrans; [exact E2|]. revert H. cbn [fst snd].
    assert (In r' search_reasons) as K' by (rewrite <- Er; known). clear Er E2.
    revert s2 a s'. change (walk (c <- set_check G W b' r';; ret tt)).
    pose proof (walk_set_check b' r' K'). wk.
  Qed.

  Section Func.
    Variable func : vec -> nat -> option num -> M num.
    Hypothesis F : forall x it v, walk (func x it v).
    Lemma walk_call x it v calls : walk (call func x it v calls). Proof. unfold call. wk. Qed.
    Lemma walk_eval rows it calls : walk (eval_rows func rows it calls).
    Proof. revert calls. induction rows; intros calls; cbn [eval_rows]; pose proof walk_call; wk. Qed.
    Lemma walk_sort L : walk (sort_simplex W L). Proof. unfold sort_simplex. wk. Qed.
    Lemma walk_put x f calls L : walk (put_last x f calls L). Proof. unfold put_last. wk. Qed.
    Lemma walk_rows sigma js L : walk (shrink_rows G W func sigma js L).
    Proof. revert L. induction js; intros L; cbn [shrink_rows]; pose proof walk_call; pose proof walk_is_conv; wk. Qed.
    Lemma walk_shrink sigma dim calls L : walk (shrink G W func sigma dim calls L).
    Proof. unfold shrink. pose proof walk_rows. wk. Qed.
    Lemma walk_move rho chi psi sigma dim L : walk (nm_move G W func rho chi psi sigma dim L).
    Proof. unfold nm_move. pose proof walk_call. pose proof walk_is_conv. pose proof walk_put. pose proof walk_shrink. wk. Qed.
    Lemma walk_sum n x it acc calls : walk (sum_calls func n x it acc calls).
    Proof. revert acc calls. induction n; intros acc calls; cbn [sum_calls]; pose proof walk_call; wk. Qed.
    Lemma walk_drift drift_min drift_avg L : walk (nm_drift G W func drift_min drift_avg L).
    Proof. unfold nm_drift. pose proof walk_call. pose proof walk_is_conv. pose proof walk_now. pose proof walk_sum. wk. Qed.
    Lemma walk_iter rho chi psi sigma dim drift_min drift_avg L : walk (nm_iter G W func rho chi psi sigma dim drift_min drift_avg L).
    Proof.
      unfold nm_iter. pose proof walk_move. pose proof walk_sort. pose proof walk_drift. pose proof walk_running. pose proof walk_poll.
      pose proof walk_check_nm. wk.
    Qed.
    Lemma walk_loop rho chi psi sigma dim drift_min drift_avg fuel L : walk (nm_loop G W func rho chi psi sigma dim drift_min drift_avg fuel L).
    Proof. revert L. induction fuel; intros L; cbn [nm_loop]; pose proof walk_is_conv; pose proof walk_iter; wk. Qed.
    Lemma walk_nm adaptive x0 sim drift_min drift_avg : walk (run_nm G W func adaptive x0 sim drift_min drift_avg).
    Proof. unfold run_nm. pose proof walk_poll. pose proof walk_now. pose proof walk_eval. pose proof walk_sort. pose proof walk_loop. wk. Qed.
    Lemma walk_randn n : walk (randn W n). Proof. unfold randn. wk. Qed.
    Lemma walk_generation x0 sg n it hist : walk (generation W func x0 sg n it hist).
    Proof. revert hist. induction n; intros hist; cbn [generation]; pose proof walk_randn; wk. Qed.
    Lemma walk_cma_loop x0 sg pop fuel it hist best : walk (cma_loop G W func x0 sg pop fuel it hist best).
    Proof.
      revert it hist best. induction fuel; intros it hist best; cbn [cma_loop]; pose proof walk_is_conv; pose proof walk_generation;
        pose proof walk_running; pose proof walk_poll; pose proof walk_check_cma; wk.
    Qed.
    Lemma walk_cma pop x0 sg : walk (run_cma G W func pop x0 sg).
    Proof. unfold run_cma. pose proof walk_poll. pose proof walk_cma_loop. wk. Qed.
    Lemma walk_dsm x0 sg sim drift_min drift_avg : walk (run_dsm G W func x0 sg sim drift_min drift_avg).
    Proof. unfold run_dsm. pose proof walk_nm. pose proof walk_cma. wk. Qed.
  End Func.

  Lemma walk_update b v o1 o2 i o3 : walk (update_controls b v o1 o2 i o3).
  Proof. unfold update_controls. pose proof (walk_emit). wk. Qed.
  Lemma walk_average o : walk (get_average o). Proof. unfold get_average, std_default. wk. Qed.
  Lemma walk_store i v : walk (store_test i v). Proof. unfold store_test, std_default. wk. Qed.
  Section Routine.
    Hypothesis Rroutine : forall x it, walk (routine_call G W x it).
    Lemma walk_re x it ps ii : walk (re_evaluate G W x it ps ii).
    Proof. revert ii. induction ps; intros ii; cbn [re_evaluate]; unfold test_average; pose proof walk_average; pose proof walk_store; wk. Qed.
    Lemma walk_inner x it v : walk (inner_routine_call G W x it v).
    Proof.
      unfold inner_routine_call, test_average. pose proof walk_update. pose proof walk_average. pose proof walk_store. pose proof walk_re. wk.
    Qed.
    Lemma walk_choose : walk (choose_basis G W). Proof. unfold choose_basis. wk. Qed.
    Lemma walk_draw n : walk (draw G W n). Proof. unfold draw. wk. Qed.
    Lemma walk_mean : walk mean_value. Proof. unfold mean_value. wk. Qed.
    Lemma walk_sigma : walk sigma_variation. Proof. unfold sigma_variation. wk. Qed.
    Lemma walk_sum_routine n x acc : walk (sum_routine G W n x acc).
    Proof. revert acc. induction n; intros acc; cbn [sum_routine]; wk. Qed.
    Lemma walk_update_FoM : walk (update_FoM G W).
    Proof. unfold update_FoM. pose proof walk_mean. pose proof walk_sum_routine. wk. Qed.
    Lemma walk_update_base : walk update_base. Proof. unfold update_base. wk. Qed.
    Lemma walk_base_pulses : walk update_base_pulses. Proof. unfold update_base_pulses. pose proof walk_update_base. wk. Qed.
    (** the search of one super-iteration; its reason is stored at the end *)
    Lemma walk_build s s' : dsm_build G W s = (Ok tt, s') ->
      exists s1 res, R s s1 /\ s' = s1 <|s_book ::= set b_term (fun _ => r_reason res)|> /\ r_reason res = sc_reason (s_sc s1).
    Proof.
      intros H. unfold dsm_build in H. apply bind_ok in H as (m & s1 & E1 & H). apply walk_mean in E1.
      apply bind_ok in H as (sg & s2 & E2 & H). apply walk_sigma in E2.
      apply bind_ok in H as (r & s3 & E3 & H). apply walk_draw in E3.
      apply bind_ok in H as (sx & s4 & E4 & H). apply lift_ok in E4 as [_ ->].
      apply bind_ok in H as ([] & s5 & E5 & H). injection E5 as <-.
      apply bind_ok in H as (res & s6 & E6 & H). injection H as <-.
      exists s6, res. split; [|split; [reflexivity|]].
      - eapply Rtrans; [exact E1|]. eapply Rtrans; [exact E2|]. eapply Rtrans; [exact E3|].
        eapply Rtrans; [|exact (walk_dsm _ walk_inner _ _ _ _ _ _ _ _ E6)]. now apply Rother.
      - unfold run_dsm in E6. destruct (g_method G).
        + unfold run_nm in E6. repeat match type of E6 with (bind _ _) _ = _ => apply bind_ok in E6 as (? & ? & ?E & E6) end.
          repeat match type of E6 with context [let _ := ?x in _] => destruct x end.
          all: repeat match type of E6 with (bind _ _) _ = _ => apply bind_ok in E6 as (? & ? & ?E & E6) | (let '(_, _) := ?x in _) _ = _ => destruct x end.
          all: match goal with H : get _ = (Ok _, _) |- _ => injection H as <- <- end; now injection E6 as <- <-.
        + unfold run_cma in E6. apply bind_ok in E6 as ([] & t1 & _ & E6). apply bind_ok in E6 as ([] & t2 & _ & E6). cbv zeta in E6.
          destruct (_ <? 2)%nat; [discriminate|]. apply bind_ok in E6 as ([[best it] calls] & t3 & _ & E6).
          apply bind_ok in E6 as (t & t4 & E & E6). injection E as <- <-. now injection E6 as <- <-.
    Qed.
  End Routine.
End Walk.
