(** The loops of a run end: by the budget of one search or by that of the whole run. *)
From Coq Require Import String ZArith List Bool Lia.
From RecordUpdate Require Import RecordSet.
From Verif Require Import Num NumFacts Py PyFacts ModelPulse ModelControls ModelLinalg ModelState ModelSearch ModelRun
  SpecRun SpecSearch SpecStop ProofSim ProofNM ProofSearch ProofNMBound ProofSearchCount ProofCma.
Import ListNotations RecordSetNotations.
Open Scope list_scope.
Open Scope run_scope.

Section Ends.
  Context {N : Num} (G : settings) (W : world).

  (** a run that is still going was going before, and the number of evaluations does not go back *)
  Definition onward {A} (m : M A) : Prop := forall s a s', m s = (Ok a, s') -> s_running s' = true -> s_running s = true /\ s_iter s <= s_iter s'.
  Lemma onward_bind {A B} (m : M A) (k : A -> M B) : onward m -> (forall a, onward (k a)) -> onward (bind m k).
  Proof.
    intros Hm Hk s b s' H q. apply bind_ok in H as (a & s1 & E & H). destruct (Hk _ _ _ _ H q) as (A1 & A2). destruct (Hm _ _ _ E A1) as (B1 & B2).
    split; [assumption|lia].
  Qed.
  Lemma onward_ret {A} (a : A) : onward (ret a). Proof. intros s b s' H. injection H as <- <-. now split. Qed.
  Lemma onward_lift {A} (r : res A) : onward (lift r). Proof. intros s b s' H. apply lift_ok in H as [_ ->]. now split. Qed.
  Lemma onward_raise {A} e : onward (raise (A := A) e). Proof. intros s b s' H. discriminate. Qed.
  Lemma onward_get : onward get. Proof. intros s b s' H. injection H as <- <-. now split. Qed.
  Lemma onward_upd f : (forall s, s_running (f s) = s_running s /\ s_iter s <= s_iter (f s)) -> onward (upd f).
  Proof. intros F s u s' H q. injection H as <- <-. destruct (F s) as [A B]. split; [congruence|assumption]. Qed.
  Lemma onward_clear b : onward (clear b).
  Proof. intros s u s' H q. pose proof (f_equal snd H) as H'. cbn in H'. rewrite <- H' in q. discriminate. Qed.
  Lemma onward_emit e : onward (emit e). Proof. unfold emit. now apply onward_upd. Qed.
  Ltac ow := repeat first
    [ solve [auto] | apply onward_ret | apply onward_lift | apply onward_raise | apply onward_get | apply onward_clear | apply onward_emit
    | (apply onward_upd; intros ?; split; [reflexivity|cbn; lia]) | apply onward_bind
    | match goal with
      | |- forall _, _ => intro
      | |- onward (if ?c then _ else _) => destruct c
      | |- onward (match ?c with _ => _ end) => destruct c
      | |- onward (let _ := _ in _) => cbv zeta
      end ].
  Lemma onward_poll : onward (poll G W).
  Proof.
    unfold poll. apply onward_bind; [ow|]. intros t. apply onward_bind; [ow|]. intros _. destruct (w_async W _); [ow|ow|].
    intros s u s' H q. unfold handle_user_cancellation in H. apply bind_ok in H as ([] & s1 & _ & H).
    apply bind_ok in H as ([] & s2 & _ & H). pose proof (f_equal snd H) as H'. cbn in H'. rewrite <- H' in q. discriminate.
  Qed.
  Lemma onward_is_conv : onward (is_conv G W). Proof. unfold is_conv. pose proof onward_poll. ow. Qed.
  Lemma onward_running : onward (get_running G W). Proof. unfold get_running. pose proof onward_poll. ow. Qed.
  Lemma onward_now : onward (now W). Proof. unfold now. ow. Qed.
  Lemma onward_set_check b r : onward (set_check G W b r).
  Proof. pose proof onward_poll. pose proof onward_is_conv. unfold set_check, set_conv, set_sc_reason. ow. Qed.
  Lemma onward_check_nm sim fsim calls : onward (check_stopping_nm G W sim fsim calls).
  Proof.
    pose proof onward_poll. pose proof onward_is_conv. pose proof onward_set_check. pose proof onward_now.
    unfold check_stopping_nm, check_time_out, set_conv, set_sc_reason. ow.
  Qed.
  Lemma onward_check_cma fsim calls : onward (check_stopping_cma G W fsim calls).
  Proof.
    pose proof onward_poll. pose proof onward_is_conv. pose proof onward_set_check. pose proof onward_now.
    unfold check_stopping_cma, check_time_out. ow.
  Qed.
  Lemma onward_stop r b : onward (stop_because G W r b).
  Proof.
    intros s u s' H q. unfold stop_because in H. apply bind_ok in H as (? & s1 & _ & H). apply bind_ok in H as (? & s2 & _ & H).
    apply bind_ok in H as (? & s3 & _ & H). pose proof (f_equal snd H) as H'. cbn in H'. rewrite <- H' in q. discriminate.
  Qed.
  Lemma onward_checks : onward (check_goal G W) /\ onward (check_total_time G W).
  Proof. pose proof onward_stop. pose proof onward_now. unfold check_goal, check_total_time. split; ow. Qed.
  Lemma onward_controls x : onward (get_controls G x). Proof. unfold get_controls. ow. Qed.
  Lemma onward_data x : onward (get_data G W x). Proof. unfold get_data. pose proof onward_poll. ow. Qed.
  Lemma onward_update b v o1 o2 i o3 : onward (update_controls b v o1 o2 i o3). Proof. unfold update_controls. ow. Qed.
  Lemma onward_average o : onward (get_average o). Proof. unfold get_average, std_default. ow. Qed.
  Lemma onward_respond : onward (respond G).
  Proof. unfold respond, note_record, log_fom, send_response. pose proof onward_update. pose proof onward_average. ow. Qed.
  Lemma onward_track v : onward (add_to_track G v). Proof. unfold add_to_track. ow. Qed.
  Lemma onward_advanced : onward (check_advanced G W).
  Proof. unfold check_advanced, set_sc_reason, set_conv. pose proof onward_poll. ow. Qed.
  Lemma onward_store i v : onward (store_test i v). Proof. unfold store_test, std_default. ow. Qed.

  (** an evaluation while the run goes on: counted, and within the budget *)
  Lemma routine_counts x it s y s' : routine_call G W x it s = (Ok y, s') -> s_running s' = true ->
    s_running s = true /\ s_iter s < s_iter s' /\ (Z.of_nat (s_iter s) < g_max_total G)%Z.
  Proof.
    intros H q. unfold routine_call in H. destruct onward_checks as [C1 C2].
    apply bind_ok in H as ([] & s1 & E1 & H). apply bind_ok in H as ([] & s2 & E2 & H). apply bind_ok in H as ([] & s3 & E3 & H).
    apply bind_ok in H as (r & s4 & E4 & H).
    assert (r = s_running s4) as R.
    { unfold get_running in E4. apply bind_ok in E4 as ([] & t & _ & E4). now injection E4 as <- <-. }
    destruct r; cbn [negb] in H; [|injection H as <- <-; congruence].
    assert (s_running s4 = true /\ S (s_iter s4) <= s_iter s') as [R4 I4].
    { split; [now symmetry|]. revert H. rewrite bind_upd. intros H.
      assert (forall x s y s', (d <- get_controls G x;; upd (fun s => s <|s_sent := Some d|>);;; r <- get_running G W;;
        if negb r then ret initial_fom else get_data G W x;;; respond G;;; s <- get;; add_to_track G (s_fom s);;;
        check_advanced G W;;; s <- get;; ret (s_fom s)) s = (Ok y, s') -> s_running s' = true -> s_running s = true /\ s_iter s <= s_iter s') as K.
      { clear. intros x s. revert s. change (onward (d <- get_controls G x;; upd (fun s => s <|s_sent := Some d|>);;; r <- get_running G W;;
          if negb r then ret initial_fom else get_data G W x;;; respond G;;; s <- get;; add_to_track G (s_fom s);;;
          check_advanced G W;;; s <- get;; ret (s_fom s))).
        pose proof onward_controls. pose proof onward_running. pose proof onward_data. pose proof onward_respond.
        pose proof onward_track. pose proof onward_advanced. ow. }
      apply K in H as [_ H]; assumption. }
    destruct (onward_running _ _ _ E4 R4) as [R3 I3]. destruct (C2 _ _ _ E3 R3) as [R2 I2]. destruct (C1 _ _ _ E2 R2) as [R1 I1].
    unfold check_budget in E1. apply bind_ok in E1 as (t & t' & E & E1). injection E as <- <-.
    destruct (Z.leb_spec (g_max_total G) (Z.of_nat (s_iter s))) as [B|B].
    - exfalso. unfold stop_because in E1. apply bind_ok in E1 as (? & t1 & _ & E1). apply bind_ok in E1 as (? & t2 & _ & E1).
      apply bind_ok in E1 as (? & t3 & _ & E1). pose proof (f_equal snd E1) as H'. cbn in H'. rewrite <- H' in R1. discriminate.
    - injection E1 as <-. split; [assumption|]. lia.
  Qed.
  Lemma onward_routine x it : onward (routine_call G W x it).
  Proof. intros s y s' H q. apply routine_counts in H as (A & B & _); [|assumption]. split; [assumption|lia]. Qed.
  Lemma onward_re x it ps ii : onward (re_evaluate G W x it ps ii).
  Proof. pose proof onward_routine. pose proof onward_store. pose proof onward_average. revert ii. induction ps; intros ii; cbn [re_evaluate]; unfold test_average; ow. Qed.
  Lemma onward_inner x it v : onward (inner_routine_call G W x it v).
  Proof.
    unfold inner_routine_call, test_average. pose proof onward_routine. pose proof onward_update. pose proof onward_average.
    pose proof onward_store. pose proof onward_re. ow.
  Qed.
  Lemma inner_counts x it s y s' : inner_routine_call G W x it None s = (Ok y, s') -> s_running s' = true ->
    s_running s = true /\ s_iter s < s_iter s' /\ (Z.of_nat (s_iter s) < g_max_total G)%Z.
  Proof.
    intros H q. cbn [inner_routine_call] in H. rewrite bind_upd in H. apply bind_ok in H as (fom & s1 & E & H).
    assert (s_running s1 = true /\ s_iter s1 <= s_iter s') as [R1 I1].
    { clear E. revert s1 y s' H q. match goal with |- forall s1 y s', ?m s1 = _ -> _ => change (onward m) end.
      unfold test_average. pose proof onward_routine. pose proof onward_update. pose proof onward_average.
      pose proof onward_store. pose proof onward_re. ow. }
    apply routine_counts in E as (A & B & C); [|assumption]. cbn in A, B, C. split; [assumption|]. lia.
  Qed.

  (** ** a search over such a function *)
  Section Func.
    Variable func : vec -> nat -> option num -> M num.
    Hypothesis FO : forall x it v, onward (func x it v).
    Hypothesis FC : forall x it s y s', func x it None s = (Ok y, s') -> s_running s' = true ->
      s_iter s < s_iter s' /\ (Z.of_nat (s_iter s) < g_max_total G)%Z.
    Definition counted {A} (m : M A) : Prop := forall s a s', m s = (Ok a, s') -> s_running s' = true ->
      s_running s = true /\ s_iter s < s_iter s' /\ (Z.of_nat (s_iter s) < g_max_total G)%Z.
    Lemma counted_bind {A B} (m : M A) (k : A -> M B) : counted m -> (forall a, onward (k a)) -> counted (bind m k).
    Proof.
      intros Hm Hk s b s' H q. apply bind_ok in H as (a & s1 & E & H). destruct (Hk _ _ _ _ H q) as (A1 & A2).
      destruct (Hm _ _ _ E A1) as (B1 & B2 & B3). split; [assumption|lia].
    Qed.
    Lemma counted_then {A B} (m : M A) (k : A -> M B) : onward m -> (forall a, counted (k a)) -> counted (bind m k).
    Proof.
      intros Hm Hk s b s' H q. apply bind_ok in H as (a & s1 & E & H). destruct (Hk _ _ _ _ H q) as (A1 & A2 & A3).
      destruct (Hm _ _ _ E A1) as (B1 & B2). split; [assumption|lia].
    Qed.
    Lemma counted_func x it : counted (func x it None).
    Proof. intros s y s' H q. split; [exact (proj1 (FO _ _ _ _ _ _ H q))|exact (FC _ _ _ _ _ H q)]. Qed.
    Lemma onward_call x it v calls : onward (call func x it v calls). Proof. unfold call. ow. Qed.
    Lemma counted_call x it calls : counted (call func x it None calls).
    Proof. unfold call. apply counted_bind; [apply counted_func|]. ow. Qed.
    Lemma onward_sort L : onward (sort_simplex W L). Proof. unfold sort_simplex. ow. Qed.
    Lemma onward_put x f calls L : onward (put_last x f calls L). Proof. unfold put_last. ow. Qed.
    Lemma onward_rows sigma js L : onward (shrink_rows G W func sigma js L).
    Proof. revert L. induction js; intros L; cbn [shrink_rows]; pose proof onward_call; pose proof onward_is_conv; ow. Qed.
    Lemma onward_shrink sigma dim calls L : onward (shrink G W func sigma dim calls L).
    Proof. unfold shrink. pose proof onward_rows. ow. Qed.
    Lemma onward_sum n x it acc calls : onward (sum_calls func n x it acc calls).
    Proof. revert acc calls. induction n; intros acc calls; cbn [sum_calls]; pose proof onward_call; ow. Qed.
    Lemma onward_drift drift_min drift_avg L : onward (nm_drift G W func drift_min drift_avg L).
    Proof. unfold nm_drift. pose proof onward_call. pose proof onward_is_conv. pose proof onward_now. pose proof onward_sum. ow. Qed.
    Lemma counted_move rho chi psi sigma dim L : counted (nm_move G W func rho chi psi sigma dim L).
    Proof.
      unfold nm_move. cbv zeta. repeat first [apply counted_bind; [apply counted_call|] | apply counted_then; [solve [ow]|intro]].
      pose proof onward_call. pose proof onward_is_conv. pose proof onward_put. pose proof onward_shrink. ow.
    Qed.
    Lemma onward_randn n : onward (randn W n). Proof. unfold randn. ow. Qed.
    Lemma onward_generation x0 sg n it hist : onward (generation W func x0 sg n it hist).
    Proof. revert hist. induction n; intros hist; cbn [generation]; pose proof onward_randn; ow. Qed.
    Lemma counted_generation x0 sg n it hist : counted (generation W func x0 sg (S n) it hist).
    Proof.
      cbn [generation]. apply counted_then; [apply onward_randn|]. intros z. apply counted_then; [ow|]. intros x. cbv zeta.
      apply counted_bind; [apply counted_func|]. pose proof onward_generation. ow.
    Qed.

    (** rounds needed from a state *)
    Definition rounds (s : st) : nat :=
      if sc_conv (s_sc s) then 1 else if s_running s then Z.to_nat (g_max_total G) - s_iter s + 3 else 2.
    (** the end of a round, after the part that counts *)
    Lemma last_part {A} (m : M A) (check : M unit) s s1 a s' :
      (sc_conv (s_sc s) = false) -> onward check ->
      (forall t t', check t = (Ok tt, t') -> sc_conv (s_sc t) = true -> sc_conv (s_sc t') = true) ->
      counted m -> m s = (Ok a, s1) ->
      (r <- get_running G W;; (if r then ret tt else poll G W;;; set_conv true;;;
        set_sc_reason "User stopped the optimization or higher order stopping criterion has been reached");;; check) s1 = (Ok tt, s') ->
      rounds s' < rounds s.
    Proof.
      intros C OC KC CM E H. apply bind_ok in H as (r & s2 & E2 & H).
      assert (r = s_running s2) as R.
      { unfold get_running in E2. apply bind_ok in E2 as ([] & t & _ & E2). now injection E2 as <- <-. }
      apply bind_ok in H as ([] & s3 & E3 & H). unfold rounds. rewrite C.
      destruct r.
      - destruct (onward_running _ _ _ E2 (eq_sym R)) as [R1 I1]. destruct (CM _ _ _ E R1) as (R0 & I0 & B0). rewrite R0.
        injection E3 as <-.
        destruct (sc_conv (s_sc s')); [lia|]. destruct (s_running s') eqn:Q; [|lia].
        destruct (OC _ _ _ H Q) as [_ I2]. lia.
      - apply bind_ok in E3 as ([] & t1 & _ & E3). apply bind_ok in E3 as ([] & t2 & E4 & E3).
        rewrite (KC _ _ H); [destruct (s_running s); lia|]. injection E3 as <-. now injection E4 as <-.
    Qed.
    Lemma check_nm_keeps sim fsim calls t t' : check_stopping_nm G W sim fsim calls t = (Ok tt, t') -> sc_conv (s_sc t) = true -> sc_conv (s_sc t') = true.
    Proof.
      intros H C. unfold check_stopping_nm in H. apply bind_ok in H as (c & t1 & E & H). apply is_conv_read in E as [E F].
      rewrite (F C) in *. injection H as <-. exact E.
    Qed.
    Lemma check_cma_keeps fsim calls t t' : check_stopping_cma G W fsim calls t = (Ok tt, t') -> sc_conv (s_sc t) = true -> sc_conv (s_sc t') = true.
    Proof.
      intros H C. unfold check_stopping_cma in H. apply bind_ok in H as (c & t1 & E & H). apply is_conv_read in E as [E F].
      rewrite (F C) in *. injection H as <-. exact E.
    Qed.
    (** the flags read by is_conv at the top of a round *)
    Lemma top_rounds s s1 : is_conv G W s = (Ok false, s1) -> sc_conv (s_sc s1) = false /\ rounds s1 <= rounds s /\ 2 <= rounds s.
    Proof.
      intros H. pose proof H as H'. apply is_conv_read in H as [C F]. split; [assumption|]. unfold rounds. rewrite C.
      destruct (sc_conv (s_sc s)); [specialize (F eq_refl); discriminate|].
      destruct (s_running s1) eqn:R; [destruct (onward_is_conv _ _ _ H' R) as [-> I]; lia|]. destruct (s_running s); lia.
    Qed.
    Lemma iter_rounds rho chi psi sigma dim drift_min drift_avg L L' s s' : sc_conv (s_sc s) = false ->
      nm_iter G W func rho chi psi sigma dim drift_min drift_avg L s = (Ok (Goes L'), s') -> rounds s' < rounds s.
    Proof.
      intros C H. unfold nm_iter in H. apply bind_ok in H as (o & s1 & E1 & H). destruct o as [L1|L1]; [discriminate|].
      apply bind_ok in H as (L2 & s2 & E2 & H). apply bind_ok in H as (L3 & s3 & E3 & H).
      apply bind_ok in H as (r & s4 & E4 & H). apply bind_ok in H as ([] & s5 & E5 & H). apply bind_ok in H as ([] & s6 & E6 & H).
      injection H as _ <-.
      refine (last_part (o <- nm_move G W func rho chi psi sigma dim L;; match o with Broke L => ret L | Goes L => L <- sort_simplex W L;; nm_drift G W func drift_min drift_avg L end)
        (check_stopping_nm G W (n_sim L3) (n_fsim L3) (n_calls L3)) s s3 L3 s6 C (onward_check_nm _ _ _) (check_nm_keeps _ _ _) _ _ _).
      - apply counted_bind; [apply counted_move|]. pose proof onward_sort. pose proof onward_drift. ow.
      - unfold bind at 1. rewrite E1. unfold bind. now rewrite E2.
      - unfold bind at 1. rewrite E4. unfold bind at 1. now rewrite E5.
    Qed.
    Lemma loop_fuel_total rho chi psi sigma dim drift_min drift_avg e fuel fuel' L s : rounds s <= fuel -> rounds s <= fuel' ->
      nm_loop G (W <|w_stuck := e|>) func rho chi psi sigma dim drift_min drift_avg fuel L s =
      nm_loop G W func rho chi psi sigma dim drift_min drift_avg fuel' L s.
    Proof.
      assert (forall s, 1 <= rounds s) as P by (intros t; unfold rounds; destruct (sc_conv _), (s_running t); lia).
      revert fuel' L s. induction fuel as [|fuel IH]; intros [|fuel'] L s B B'; try (specialize (P s); lia). cbn [nm_loop].
      change (is_conv G (W <|w_stuck := e|>)) with (is_conv G W).
      change (nm_iter G (W <|w_stuck := e|>)) with (nm_iter G W).
      unfold bind at 1 3. destruct (is_conv G W s) as [[c|x] s1] eqn:E1; [|reflexivity].
      destruct c; [reflexivity|]. apply top_rounds in E1 as (C & R1 & R2).
      unfold bind. destruct (nm_iter _ _ _ _ _ _ _ _ _ _ L s1) as [[o|x] s2] eqn:E2; [|reflexivity].
      destruct o as [L1|L1]; [reflexivity|]. apply iter_rounds in E2; [|assumption]. apply IH; lia.
    Qed.
    Lemma cma_fuel_total x0 sigma_v e l_pop fuel fuel' it hist best s : 1 <= l_pop -> rounds s <= fuel -> rounds s <= fuel' ->
      cma_loop G (W <|w_stuck := e|>) func x0 sigma_v l_pop fuel it hist best s =
      cma_loop G W func x0 sigma_v l_pop fuel' it hist best s.
    Proof.
      assert (forall s, 1 <= rounds s) as P by (intros t; unfold rounds; destruct (sc_conv _), (s_running t); lia).
      intros LP. destruct l_pop as [|l_pop]; [lia|]. revert fuel' it hist best s.
      induction fuel as [|fuel IH]; intros [|fuel'] it hist best s B B'; try (specialize (P s); lia). cbn [cma_loop].
      assert (forall A B (m : M A) (k k' : A -> M B) s, (forall a t, m s = (Ok a, t) -> k a t = k' a t) -> bind m k s = bind m k' s) as BE.
      { clear. intros A B m k k' s K. unfold bind. destruct (m s) as [[v|x] t]; [now apply K|reflexivity]. }
      change (is_conv G (W <|w_stuck := e|>)) with (is_conv G W).
      change (generation (W <|w_stuck := e|>)) with (generation W).
      change (get_running G (W <|w_stuck := e|>)) with (get_running G W).
      change (poll G (W <|w_stuck := e|>)) with (poll G W).
      change (check_stopping_cma G (W <|w_stuck := e|>)) with (check_stopping_cma G W).
      apply BE. intros c s1 E1. destruct c; [reflexivity|]. apply top_rounds in E1 as (C & R1 & R2). cbv zeta.
      apply BE. intros g s2 E2.
      apply BE. intros fsim s3 E3. apply lift_ok in E3 as [_ ->]. apply BE. intros u s4 E4. apply lift_ok in E4 as [_ ->].
      apply BE. intros i0 s5 E5. apply lift_ok in E5 as [_ ->]. apply BE. intros x s6 E6. apply lift_ok in E6 as [_ ->].
      apply BE. intros f0 s7 E7. apply lift_ok in E7 as [_ ->]. apply BE. intros r s8 E8. apply BE. intros [] s9 E9. apply BE. intros [] s10 E10.
      assert (rounds s10 < rounds s1) as K.
      { refine (last_part (generation W func x0 sigma_v (S l_pop) it hist) (check_stopping_cma G W fsim (length (hist ++ g)))
          s1 s2 g s10 C (onward_check_cma _ _) (check_cma_keeps _ _) _ E2 _); [apply counted_generation|].
        unfold bind at 1. rewrite E8. unfold bind at 1. now rewrite E9. }
      apply IH; lia.
    Qed.

    (** ** either budget is enough *)
    Definition enough : nat := Z.to_nat (Z.min (g_max_eval G) (g_max_total G)) + 3.
    Lemma rounds_start s : s_iter s >= 0 -> rounds s <= Z.to_nat (g_max_total G) + 3.
    Proof. intros _. unfold rounds. destruct (sc_conv _), (s_running s); lia. Qed.
    Lemma dsm_fuel x0 sg simplex drift_min drift_avg fuel e s : enough <= w_fuel W -> enough <= fuel ->
      run_dsm G (W <|w_fuel := fuel|> <|w_stuck := e|>) func x0 sg simplex drift_min drift_avg s =
      run_dsm G W func x0 sg simplex drift_min drift_avg s.
    Proof.
      intros B B'. unfold enough in *.
      destruct (Z_le_gt_dec (g_max_eval G) (g_max_total G)) as [LE|GT].
      - rewrite Z.min_l in * by assumption. unfold run_dsm. destruct (g_method G).
        + apply (run_fuel G W); lia.
        + apply (run_cma_fuel G W); lia.
      - rewrite Z.min_r in * by lia.
        assert (forall A B (m : M A) (k k' : A -> M B) s, (forall a t, k a t = k' a t) -> bind m k s = bind m k' s) as BE.
        { clear. intros A B m k k' s K. unfold bind. now destruct (m s) as [[v|x] t]. }
        unfold run_dsm. destruct (g_method G).
        + unfold run_nm.
          change (poll G (W <|w_fuel := fuel|> <|w_stuck := e|>)) with (poll G W).
          change (now (W <|w_fuel := fuel|> <|w_stuck := e|>)) with (now W).
          change (sort_simplex (W <|w_fuel := fuel|> <|w_stuck := e|>)) with (sort_simplex W).
          change (w_fuel (W <|w_fuel := fuel|> <|w_stuck := e|>)) with fuel.
          apply BE. intros [] s1. apply BE. intros [] s2. cbv zeta. apply BE. intros t0 s3. apply BE. intros t s4.
          apply BE. intros [[[rho chi] psi] sigma] s5. apply BE. intros [fsim calls] s6. apply BE. intros L s7.
          change (nm_loop G (W <|w_fuel := fuel|> <|w_stuck := e|>)) with (nm_loop G (W <|w_stuck := e|>)).
          unfold bind at 1 4. rewrite loop_fuel_total with (fuel' := w_fuel W); [reflexivity|pose proof (rounds_start s7); lia..].
        + unfold run_cma.
          change (poll G (W <|w_fuel := fuel|> <|w_stuck := e|>)) with (poll G W).
          change (w_pop (W <|w_fuel := fuel|> <|w_stuck := e|>)) with (w_pop W).
          change (w_fuel (W <|w_fuel := fuel|> <|w_stuck := e|>)) with fuel.
          apply BE. intros [] s1. apply BE. intros [] s2. cbv zeta.
          destruct (_ <? 2)%nat eqn:P; [reflexivity|]. apply Nat.ltb_ge in P.
          change (cma_loop G (W <|w_fuel := fuel|> <|w_stuck := e|>)) with (cma_loop G (W <|w_stuck := e|>)).
          unfold bind at 1. rewrite cma_fuel_total with (fuel' := w_fuel W); [reflexivity|lia|pose proof (rounds_start s2); lia..].
    Qed.
  End Func.

  Lemma build_fuel fuel e s : enough <= w_fuel W -> enough <= fuel ->
    dsm_build G (W <|w_fuel := fuel|> <|w_stuck := e|>) s = dsm_build G W s.
  Proof.
    intros B B'. unfold dsm_build.
    change (inner_routine_call G (W <|w_fuel := fuel|> <|w_stuck := e|>)) with (inner_routine_call G W).
    change (draw G (W <|w_fuel := fuel|> <|w_stuck := e|>)) with (draw G W).
    assert (forall A B (m : M A) (k k' : A -> M B) s, (forall a t, k a t = k' a t) -> bind m k s = bind m k' s) as BE.
    { clear. intros A B m k k' s K. unfold bind. now destruct (m s) as [[v|x] t]. }
    do 5 (apply BE; intros ? ?). unfold bind.
    rewrite (dsm_fuel (inner_routine_call G W) onward_inner (fun x it s y s' H q => proj2 (inner_counts x it s y s' H q))) by assumption.
    reflexivity.
  Qed.
  Theorem execute_fuel fuel e s : enough <= w_fuel W -> enough <= fuel ->
    execute G (W <|w_fuel := fuel|> <|w_stuck := e|>) s = execute G W s.
  Proof.
    intros B B'. unfold execute.
    assert (forall A B (m : M A) (k k' : A -> M B) s, (forall a t, k a t = k' a t) -> bind m k s = bind m k' s) as BE.
    { clear. intros A B m k k' s K. unfold bind. now destruct (m s) as [[v|x] t]. }
    change (begin (W <|w_fuel := fuel|> <|w_stuck := e|>)) with (begin W).
    apply BE. intros [] s1.
    assert (forall t, run G (W <|w_fuel := fuel|> <|w_stuck := e|>) t = run G W t) as R.
    { clear s s1. intros s. unfold run. destruct (g_kind G).
      - generalize (super_range G). intros ks. revert s. induction ks as [|k ks IH]; intros s; [reflexivity|]. cbn [dcrab_loop].
        change (get_running G (W <|w_fuel := fuel|> <|w_stuck := e|>)) with (get_running G W).
        apply BE. intros r s1. destruct (negb r); [reflexivity|].
        assert (forall t, super_iteration G (W <|w_fuel := fuel|> <|w_stuck := e|>) k t = super_iteration G W k t) as SI.
        { intros t. unfold super_iteration.
          change (reset_start_time (W <|w_fuel := fuel|> <|w_stuck := e|>)) with (reset_start_time W).
          change (update_FoM G (W <|w_fuel := fuel|> <|w_stuck := e|>)) with (update_FoM G W).
          change (choose_basis G (W <|w_fuel := fuel|> <|w_stuck := e|>)) with (choose_basis G W).
          do 5 (apply BE; intros ? ?). unfold bind. now rewrite build_fuel. }
        unfold bind. rewrite SI. destruct (super_iteration G W k s1) as [[[]|x] s2]; [apply IH|reflexivity].
      - now apply build_fuel.
      - reflexivity.
      - change (ad_loop G (W <|w_fuel := fuel|> <|w_stuck := e|>)) with (ad_loop G W). reflexivity. }
    unfold bind. now rewrite R.
  Qed.
End Ends.
