(** Number of calls of a Nelder-Mead search, and its termination. *)
From Coq Require Import String ZArith List Bool Lia Permutation Sorted.
From RecordUpdate Require Import RecordSet.
From Verif Require Import Num NumFacts Py PyFacts ModelPulse ModelControls ModelLinalg ModelState ModelSearch ModelRun
  SpecRun SpecSearch ProofSim ProofNM ProofSearch.
Import ListNotations RecordSetNotations.
Open Scope list_scope.
Open Scope run_scope.

Section Bound.
  Context {N : Num} (G : settings) (W : world).

  (** the flag [is_converged] is never lowered by somebody else *)
  Lemma poll_conv s r s' : poll G W s = (r, s') -> sc_conv (s_sc s) = true -> sc_conv (s_sc s') = true.
  Proof.
    unfold poll. intros H C. unfold bind at 1, get in H. cbv beta iota in H. rewrite bind_upd in H.
    destruct (w_async W _).
    - injection H as <- <-. exact C.
    - pose proof (f_equal snd H) as H'. cbn in H'. rewrite <- H'. exact C.
    - unfold handle_user_cancellation in H. destruct (has_dsm G); pose proof (f_equal snd H) as H'; cbn in H'; rewrite <- H'.
      + reflexivity.
      + exact C.
  Qed.
  Lemma is_conv_read s c s' : is_conv G W s = (Ok c, s') -> sc_conv (s_sc s') = c /\ (sc_conv (s_sc s) = true -> c = true).
  Proof.
    unfold is_conv. intros H. apply bind_ok in H as ([] & s1 & E & H). injection H as <- <-.
    split; [reflexivity|]. now apply poll_conv with (1 := E).
  Qed.
  Lemma set_check_true b r s c s' : b = true -> set_check G W b r s = (Ok c, s') -> c = true /\ sc_conv (s_sc s') = true.
  Proof.
    intros -> H. unfold set_check in H. apply bind_ok in H as ([] & s1 & E1 & H). apply bind_ok in H as ([] & s2 & E2 & H).
    apply bind_ok in H as ([] & s3 & E3 & H). apply is_conv_read in H as [H1 H2].
    assert (sc_conv (s_sc s3) = true) as K by (injection E3 as <-; injection E2 as <-; reflexivity).
    specialize (H2 K). now subst c.
  Qed.
  Lemma check_nm_budget sim fsim calls s s' : check_stopping_nm G W sim fsim calls s = (Ok tt, s') ->
    (g_max_eval G <= Z.of_nat calls)%Z -> sc_conv (s_sc s') = true.
  Proof.
    intros H B. unfold check_stopping_nm in H.
    apply bind_ok in H as (c & s1 & E1 & H). apply is_conv_read in E1 as [E1 _].
    destruct c; [injection H as <-; assumption|].
    apply bind_ok in H as (c & s2 & E2 & H). apply set_check_true in E2 as [-> E2]; [injection H as <-; assumption|].
    cbn. now apply Z.leb_le.
  Qed.
  Lemma check_cma_budget fsim calls s s' : check_stopping_cma G W fsim calls s = (Ok tt, s') ->
    (g_max_eval G <= Z.of_nat calls)%Z -> sc_conv (s_sc s') = true.
  Proof.
    intros H B. unfold check_stopping_cma in H.
    apply bind_ok in H as (c & s1 & E1 & H). apply is_conv_read in E1 as [E1 _].
    destruct c; [injection H as <-; assumption|].
    apply bind_ok in H as (c & s2 & E2 & H). apply set_check_true in E2 as [-> E2]; [injection H as <-; assumption|].
    cbn. now apply Z.leb_le.
  Qed.

  Section Func.
    Variable func : vec -> nat -> option num -> M num.
    Variables (rho chi psi sigma : num) (dim : nat) (drift_min : num) (drift_avg : Z).

    (** ** counting *)
    (** [count] grows by [j] to [k] in a call and is not changed otherwise *)
    Variables (count : st -> nat) (j k : nat).
    Hypothesis Csc : forall f s, count (s <|s_sc ::= f|>) = count s.
    Hypothesis Ccnt : forall f s, count (s <|s_cnt ::= f|>) = count s.
    Hypothesis Cpoll : forall s s', poll G W s = (Ok tt, s') -> count s' = count s.
    Hypothesis Cfunc : forall x it v s y s', func x it v s = (Ok y, s') -> count s + j <= count s' <= count s + k.

    Definition still {A} (m : M A) : Prop := forall s a s', m s = (Ok a, s') -> count s' = count s.
    Lemma still_bind {A B} (m : M A) (f : A -> M B) : still m -> (forall a, still (f a)) -> still (bind m f).
    Proof. intros Hm Hk s b s' H. apply bind_ok in H as (a & s1 & E & H). rewrite (Hk _ _ _ _ H). now apply (Hm _ a). Qed.
    Lemma still_ret {A} (a : A) : still (ret a). Proof. intros s b s' H. now injection H as <- <-. Qed.
    Lemma still_lift {A} (r : res A) : still (lift r). Proof. intros s b s' H. now apply lift_ok in H as [_ ->]. Qed.
    Lemma still_get : still get. Proof. intros s b s' H. now injection H as <- <-. Qed.
    Lemma still_sc f : still (upd (fun s => s <|s_sc ::= f|>)). Proof. intros s b s' H. injection H as <- <-. apply Csc. Qed.
    Lemma still_cnt f : still (upd (fun s => s <|s_cnt ::= f|>)). Proof. intros s b s' H. injection H as <- <-. apply Ccnt. Qed.
    Lemma still_poll : still (poll G W). Proof. intros s [] s' H. now apply Cpoll. Qed.
    Ltac sl := repeat first
      [ solve [auto] | apply still_ret | apply still_lift | apply still_get | apply still_poll | apply still_sc | apply still_cnt
      | apply still_bind
      | match goal with
        | |- forall _, _ => intro
        | |- still (if ?c then _ else _) => destruct c
        end ].
    Lemma still_is_conv : still (is_conv G W). Proof. unfold is_conv. sl. Qed.
    Lemma still_running : still (get_running G W). Proof. unfold get_running. sl. Qed.
    Lemma still_now : still (now W). Proof. unfold now. sl. Qed.
    Lemma still_check sim fsim calls : still (check_stopping_nm G W sim fsim calls).
    Proof. pose proof still_is_conv. pose proof still_now. unfold check_stopping_nm, set_check, check_time_out, set_conv, set_sc_reason. sl. Qed.
    Lemma still_check_cma fsim calls : still (check_stopping_cma G W fsim calls).
    Proof. pose proof still_is_conv. pose proof still_now. unfold check_stopping_cma, set_check, check_time_out, set_conv, set_sc_reason. sl. Qed.

    (** between [s] and [s'] the counter of the search went from [c] to [c'], at least [a] and at most [b] steps *)
    Definition spent (a b c c' : nat) (s s' : st) : Prop :=
      c + a <= c' /\ c' <= c + b /\ count s' + k * c <= count s + k * c' /\ count s + j * c' <= count s' + j * c.
    Lemma spent_trans a b a' b' c1 c2 c3 s1 s2 s3 : spent a b c1 c2 s1 s2 -> spent a' b' c2 c3 s2 s3 ->
      spent (a + a') (b + b') c1 c3 s1 s3.
    Proof. unfold spent. intros (A1 & A2 & A3 & A4) (B1 & B2 & B3 & B4). repeat split; lia. Qed.
    Lemma spent_weak a b a' b' c c' s s' : spent a b c c' s s' -> a' <= a -> b <= b' -> spent a' b' c c' s s'.
    Proof. unfold spent. intros (A1 & A2 & A3 & A4) L1 L2. repeat split; lia. Qed.
    Lemma spent_none c s s' : count s' = count s -> spent 0 0 c c s s'.
    Proof. unfold spent. intros E. repeat split; lia. Qed.
    Lemma spent_then a b c c' s s' s'' : spent a b c c' s s' -> count s'' = count s' -> spent a b c c' s s''.
    Proof. unfold spent. intros (A1 & A2 & A3 & A4) E. repeat split; lia. Qed.
    Lemma spent_call x it v c s r s' : call func x it v c s = (Ok r, s') -> spent 1 1 c (snd r) s s'.
    Proof. intros H. apply call_ok in H as [H ->]. apply Cfunc in H. unfold spent. repeat split; lia. Qed.

    Lemma rows_calls js L s L' s' : shrink_rows G W func sigma js L s = (Ok L', s') ->
      spent 0 (length js) (n_calls L) (n_calls L') s s' /\ n_it L' = n_it L.
    Proof.
      revert L s. induction js as [|i js IH]; intros L s H; cbn [shrink_rows] in H; cbv zeta in H.
      - injection H as <- <-. split; [now apply spent_none|reflexivity].
      - apply bind_ok in H as (x0 & s1 & E & H). apply lift_ok in E as [_ ->].
        apply bind_ok in H as (xj & s1 & E & H). apply lift_ok in E as [_ ->].
        apply bind_ok in H as (sim & s1 & E & H). apply lift_ok in E as [_ ->].
        apply bind_ok in H as (c & s1 & E1 & H). apply still_is_conv in E1.
        destruct c.
        + injection H as <- <-. split; [|reflexivity]. eapply spent_weak; [now apply spent_none|lia|lia].
        + apply bind_ok in H as ([y calls] & s2 & E2 & H). apply spent_call in E2. cbn [n_calls snd] in E2.
          apply bind_ok in H as (fsim & s3 & E & H). apply lift_ok in E as [_ ->].
          apply IH in H as [H1 H2]. cbn in H1, H2. split; [|assumption]. eapply spent_weak; [eapply spent_trans; [|exact H1]|lia|].
          * eapply (spent_trans 0 0 1 1); [apply spent_none; exact E1|exact E2].
          * cbn. lia.
    Qed.
    Lemma shrink_calls calls L s o s' : shrink G W func sigma dim calls L s = (Ok o, s') ->
      exists L', o = Goes L' /\ spent 0 dim calls (n_calls L') s s' /\ n_it L' = n_it L.
    Proof.
      intros H. unfold shrink in H. apply bind_ok in H as (L' & s1 & E & H). injection H as <- <-.
      apply rows_calls in E as [E1 E2]. rewrite seq_length in E1. eauto.
    Qed.
    Lemma put_calls x f calls L s o s' : put_last x f calls L s = (Ok o, s') ->
      exists L', o = Goes L' /\ n_calls L' = calls /\ n_it L' = n_it L /\ s' = s.
    Proof.
      intros H. unfold put_last in H.
      apply bind_ok in H as (? & s1 & E & H). apply lift_ok in E as [_ ->].
      apply bind_ok in H as (? & s1 & E & H). apply lift_ok in E as [_ ->].
      injection H as <- <-. eexists. repeat split.
    Qed.
    Definition left_over (o : outcome) : nm := match o with Goes L | Broke L => L end.
    Lemma move_calls L s o s' : nm_move G W func rho chi psi sigma dim L s = (Ok o, s') ->
      spent 1 (dim + 2) (n_calls L) (n_calls (left_over o)) s s' /\ n_it (left_over o) = n_it L.
    Proof.
      intros H. unfold nm_move in H.
      apply bind_ok in H as (last & s1 & E & H). apply lift_ok in E as [_ ->].
      apply bind_ok in H as ([fxr calls] & s1 & E1 & H). apply spent_call in E1. cbn [snd] in E1.
      apply bind_ok in H as (f0 & s2 & E & H). apply lift_ok in E as [_ ->].
      assert (forall x f o s', put_last x f calls L s1 = (Ok o, s') ->
                spent 1 (dim + 2) (n_calls L) (n_calls (left_over o)) s s' /\ n_it (left_over o) = n_it L) as P1.
      { intros x f o1 t P. apply put_calls in P as (L' & -> & P1 & P2 & ->). cbn. rewrite P1. split; [|assumption].
        eapply spent_weak; [exact E1|lia|lia]. }
      assert (forall c s2, is_conv G W s1 = (Ok c, s2) ->
                spent 1 (dim + 2) (n_calls L) (n_calls (left_over (Broke (with_calls calls L)))) s s2) as P2.
      { intros c t P. apply still_is_conv in P. cbn. eapply spent_weak; [eapply spent_then; [exact E1|exact P]|lia|lia]. }
      assert (forall c s2 x it r s3, is_conv G W s1 = (Ok c, s2) -> call func x it None calls s2 = (Ok r, s3) ->
                spent 2 2 (n_calls L) (snd r) s s3) as P3.
      { intros c t x it r u P P'. apply still_is_conv in P. apply spent_call in P'.
        eapply (spent_trans 1 1 1 1); [eapply spent_then; [exact E1|exact P]|exact P']. }
      assert (forall c s2 x it r s3 x' f o s', is_conv G W s1 = (Ok c, s2) -> call func x it None calls s2 = (Ok r, s3) ->
                put_last x' f (snd r) L s3 = (Ok o, s') ->
                spent 1 (dim + 2) (n_calls L) (n_calls (left_over o)) s s' /\ n_it (left_over o) = n_it L) as P4.
      { intros c t x it r u x' f o1 t1 A B P. pose proof (P3 _ _ _ _ _ _ A B) as K.
        apply put_calls in P as (L' & -> & P1' & P2' & ->). cbn. rewrite P1'. split; [|assumption].
        eapply spent_weak; [exact K|lia|lia]. }
      assert (forall c s2 x it r s3 o s', is_conv G W s1 = (Ok c, s2) -> call func x it None calls s2 = (Ok r, s3) ->
                shrink G W func sigma dim (snd r) L s3 = (Ok o, s') ->
                spent 1 (dim + 2) (n_calls L) (n_calls (left_over o)) s s' /\ n_it (left_over o) = n_it L) as P5.
      { intros c t x it r u o1 t1 A B P. pose proof (P3 _ _ _ _ _ _ A B) as K.
        apply shrink_calls in P as (L' & -> & P1' & P2'). cbn. split; [|assumption].
        eapply spent_weak; [eapply spent_trans; [exact K|exact P1']|lia|lia]. }
      destruct (fxr <? f0)%num.
      - apply bind_ok in H as (c & s2 & E2 & H). destruct c; [injection H as <- <-; split; [now apply (P2 true)|reflexivity]|].
        apply bind_ok in H as ([fxe calls'] & s3 & E3 & H).
        destruct (fxe <? fxr)%num; (eapply P4; [exact E2|exact E3|exact H]).
      - apply bind_ok in H as (f2 & s2 & E & H). apply lift_ok in E as [_ ->].
        destruct (fxr <? f2)%num; [now apply P1 in H|].
        apply bind_ok in H as (fl & s2 & E & H). apply lift_ok in E as [_ ->].
        destruct (fxr <? fl)%num.
        + apply bind_ok in H as (c & s2 & E2 & H). destruct c; [injection H as <- <-; split; [now apply (P2 true)|reflexivity]|].
          apply bind_ok in H as ([fxc calls'] & s3 & E3 & H).
          destruct (fxc <=? fxr)%num; [eapply P4; [exact E2|exact E3|exact H]|eapply P5; [exact E2|exact E3|exact H]].
        + apply bind_ok in H as (c & s2 & E2 & H). destruct c; [injection H as <- <-; split; [now apply (P2 true)|reflexivity]|].
          apply bind_ok in H as ([fxc calls'] & s3 & E3 & H).
          destruct (fxc <? fl)%num; [eapply P4; [exact E2|exact E3|exact H]|eapply P5; [exact E2|exact E3|exact H]].
    Qed.
    Lemma sort_calls L s L' s' : sort_simplex W L s = (Ok L', s') -> s' = s /\ n_calls L' = n_calls L /\ n_it L' = n_it L.
    Proof.
      intros H. unfold sort_simplex in H.
      apply bind_ok in H as (? & s1 & E & H). apply lift_ok in E as [_ ->].
      apply bind_ok in H as (? & s1 & E & H). apply lift_ok in E as [_ ->].
      injection H as <- <-. repeat split.
    Qed.
    Lemma sum_spent n x it acc c s r s' : sum_calls func n x it acc c s = (Ok r, s') -> spent n n c (snd r) s s'.
    Proof.
      revert acc c s. induction n as [|n IH]; intros acc c s H; cbn [sum_calls] in H.
      - injection H as <- <-. now apply spent_none.
      - apply bind_ok in H as ([y c1] & s1 & E & H). apply spent_call in E. cbn [snd] in E. apply IH in H.
        exact (spent_trans 1 1 n n _ _ _ _ _ _ E H).
    Qed.
    (** calls of a drift compensation *)
    Definition extra : nat := if (of_Z 0 <? drift_min)%num then Z.to_nat drift_avg + 1 else 0.
    Lemma drift_calls L s L' s' : nm_drift G W func drift_min drift_avg L s = (Ok L', s') ->
      spent 0 extra (n_calls L) (n_calls L') s s' /\ n_it L' = n_it L.
    Proof.
      intros H. unfold nm_drift in H. unfold extra. destruct (of_Z 0 <? drift_min)%num; cbn [negb] in H.
      2: { injection H as <- <-. split; [now apply spent_none|reflexivity]. }
      apply bind_ok in H as (c & s1 & E1 & H). apply still_is_conv in E1.
      destruct c; [injection H as <- <-; split; [eapply spent_weak; [now apply spent_none|lia|lia]|reflexivity]|].
      apply bind_ok in H as (t & s2 & E2 & H). apply still_now in E2.
      destruct (negb _); [injection H as <- <-; split; [eapply spent_weak; [apply spent_none; congruence|lia|lia]|reflexivity]|].
      apply bind_ok in H as (prev & s3 & E & H). apply lift_ok in E as [_ ->].
      apply bind_ok in H as (x & s3 & E & H). apply lift_ok in E as [_ ->].
      apply bind_ok in H as ([total calls] & s3 & E3 & H). apply sum_spent in E3. cbn [snd] in E3.
      destruct (drift_avg =? 0)%Z; [discriminate|].
      apply bind_ok in H as (t' & s4 & E4 & H). apply still_now in E4.
      apply bind_ok in H as ([y calls'] & s5 & E5 & H). apply spent_call in E5. cbn [snd] in E5.
      injection H as <- <-. cbn. split; [|reflexivity].
      eapply spent_weak; [eapply (spent_trans 0 0); [apply spent_none; rewrite E2; exact E1|]; eapply spent_trans; [eapply spent_then; [exact E3|exact E4]|exact E5]|lia|lia].
    Qed.

    Lemma iter_calls L s o s' : nm_iter G W func rho chi psi sigma dim drift_min drift_avg L s = (Ok o, s') ->
      spent 1 (dim + 2 + extra) (n_calls L) (n_calls (left_over o)) s s' /\
      match o with
      | Goes L' => n_it L' = S (n_it L) /\ ((g_max_eval G <= Z.of_nat (n_calls L'))%Z -> sc_conv (s_sc s') = true)
      | Broke L' => n_it L' = n_it L
      end.
    Proof.
      intros H. unfold nm_iter in H. apply bind_ok in H as (o1 & s1 & E1 & H). apply move_calls in E1 as [E1 I1].
      destruct o1 as [L1|L1]; cbn [left_over] in E1, I1.
      - injection H as <- <-. cbn. split; [|assumption]. eapply spent_weak; [exact E1|lia|lia].
      - apply bind_ok in H as (L2 & s2 & E2 & H). apply sort_calls in E2 as (-> & E2 & I2).
        apply bind_ok in H as (L3 & s3 & E3 & H). apply drift_calls in E3 as [E3 I3]. rewrite E2 in E3.
        apply bind_ok in H as (r & s4 & E4 & H). apply still_running in E4.
        apply bind_ok in H as (u & s5 & E5 & H).
        assert (count s5 = count s4) as K5.
        { destruct r; [now injection E5 as <- <-|].
          apply bind_ok in E5 as ([] & sa & Ea & E5). apply Cpoll in Ea. apply bind_ok in E5 as ([] & sb & Eb & E5).
          injection Eb as <-. injection E5 as <- <-. now rewrite !Csc. }
        apply bind_ok in H as ([] & s6 & E6 & H). injection H as <- <-.
        pose proof E6 as E6'. apply still_check in E6. cbn [left_over n_calls n_sim n_fsim] in *. split.
        + eapply spent_weak; [eapply spent_trans; [exact E1|eapply spent_then; [exact E3|congruence]]|lia|lia].
        + split; [cbn; congruence|]. intros B. exact (check_nm_budget _ _ _ _ _ E6' B).
    Qed.

    (** calls at the end of the loop *)
    Lemma loop_calls fuel L s L' s' : nm_loop G W func rho chi psi sigma dim drift_min drift_avg fuel L s = (Ok L', s') ->
      (Z.of_nat (n_calls L') <= Z.max (Z.of_nat (n_calls L)) (g_max_eval G - 1) + Z.of_nat (dim + 2 + extra))%Z /\
      n_calls L <= n_calls L' /\ (count s' + k * n_calls L <= count s + k * n_calls L' /\
         count s + j * n_calls L' <= count s' + j * n_calls L) /\
      (sc_conv (s_sc s) = true -> L' = L).
    Proof.
      assert (forall fuel L s L' s', (sc_conv (s_sc s) = true \/ (Z.of_nat (n_calls L) < g_max_eval G)%Z) ->
        nm_loop G W func rho chi psi sigma dim drift_min drift_avg fuel L s = (Ok L', s') ->
        (Z.of_nat (n_calls L') <= Z.max (Z.of_nat (n_calls L)) (g_max_eval G - 1 + Z.of_nat (dim + 2 + extra)))%Z /\
        n_calls L <= n_calls L' /\ (count s' + k * n_calls L <= count s + k * n_calls L' /\
         count s + j * n_calls L' <= count s' + j * n_calls L) /\
        (sc_conv (s_sc s) = true -> L' = L)) as A.
      { clear fuel L s L' s'. induction fuel as [|fuel IH]; intros L s L' s' D H; [discriminate|]. cbn [nm_loop] in H.
        apply bind_ok in H as (c & s1 & E1 & H). pose proof (still_is_conv _ _ _ E1) as K1.
        apply is_conv_read in E1 as [E1 F1].
        destruct c; [injection H as <- <-; repeat split; lia|].
        assert (sc_conv (s_sc s) = true -> L' = L) as Z by (intros Z; specialize (F1 Z); discriminate).
        destruct D as [D|D]; [specialize (F1 D); discriminate|].
        apply bind_ok in H as (o & s2 & E2 & H). apply iter_calls in E2 as [(C1 & C2 & C3 & C4) E3]. destruct o as [L1|L1]; cbn [left_over] in *.
        - injection H as <- <-. repeat split; lia || exact Z.
        - destruct E3 as [_ E3]. apply IH in H as (H1 & H2 & H3 & H4).
          + repeat split; [|lia..|exact Z].
            destruct (sc_conv (s_sc s2)) eqn:EC; [rewrite (H4 eq_refl); lia|].
            assert (Z.of_nat (n_calls L1) < g_max_eval G)%Z by (destruct (Z_lt_le_dec (Z.of_nat (n_calls L1)) (g_max_eval G)); [assumption|specialize (E3 l); discriminate]).
            lia.
          + destruct (Z_lt_le_dec (Z.of_nat (n_calls L1)) (g_max_eval G)); auto. }
      destruct fuel as [|fuel]; [discriminate|]. intros H. cbn [nm_loop] in H.
      apply bind_ok in H as (c & s1 & E1 & H). pose proof (still_is_conv _ _ _ E1) as K1.
      apply is_conv_read in E1 as [E1 F1].
      destruct c; [injection H as <- <-; repeat split; lia|].
      assert (sc_conv (s_sc s) = true -> L' = L) as Z by (intros Z; specialize (F1 Z); discriminate).
      apply bind_ok in H as (o & s2 & E2 & H). apply iter_calls in E2 as [(C1 & C2 & C3 & C4) E3]. destruct o as [L1|L1]; cbn [left_over] in *.
      - injection H as <- <-. repeat split; lia || exact Z.
      - destruct E3 as [_ E3]. apply A in H as (H1 & H2 & H3 & H4).
        + repeat split; [|lia..|exact Z].
          destruct (sc_conv (s_sc s2)) eqn:EC; [rewrite (H4 eq_refl); lia|].
          assert (Z.of_nat (n_calls L1) < g_max_eval G)%Z by (destruct (Z_lt_le_dec (Z.of_nat (n_calls L1)) (g_max_eval G)); [assumption|specialize (E3 l); discriminate]).
          lia.
        + destruct (Z_lt_le_dec (Z.of_nat (n_calls L1)) (g_max_eval G)); auto.
    Qed.

    Lemma eval_calls rows it c s r s' : eval_rows func rows it c s = (Ok r, s') ->
      spent (length rows) (length rows) c (snd r) s s'.
    Proof.
      revert c s r s'. induction rows as [|x rows IH]; intros c s r s' H; cbn [eval_rows] in H.
      - injection H as <- <-. now apply spent_none.
      - apply bind_ok in H as ([y c1] & s1 & E1 & H). apply spent_call in E1. cbn [snd] in E1.
        apply bind_ok in H as ([ys c2] & s2 & E2 & H). apply IH in E2. injection H as <- <-. cbn [snd] in *.
        exact (spent_trans 1 1 _ _ _ _ _ _ _ _ E1 E2).
    Qed.

    (** ** termination: neither the rounds granted nor what happens without them make a difference *)
    Lemma loop_fuel e fuel fuel' L s : Z.to_nat (g_max_eval G) + 2 <= fuel -> Z.to_nat (g_max_eval G) + 2 <= fuel' ->
      nm_loop G (W <|w_stuck := e|>) func rho chi psi sigma dim drift_min drift_avg fuel L s =
      nm_loop G W func rho chi psi sigma dim drift_min drift_avg fuel' L s.
    Proof.
      assert (forall fuel fuel' L s, (sc_conv (s_sc s) = true \/ (Z.of_nat (n_calls L) < g_max_eval G)%Z) ->
        Z.to_nat (g_max_eval G) - n_calls L + 1 <= fuel -> Z.to_nat (g_max_eval G) - n_calls L + 1 <= fuel' ->
        nm_loop G (W <|w_stuck := e|>) func rho chi psi sigma dim drift_min drift_avg fuel L s =
        nm_loop G W func rho chi psi sigma dim drift_min drift_avg fuel' L s) as A.
      { clear fuel fuel' L s. induction fuel as [|fuel IH]; intros [|fuel'] L s D B B'; [lia..|]. cbn [nm_loop].
        change (is_conv G (W <|w_stuck := e|>)) with (is_conv G W).
        change (nm_iter G (W <|w_stuck := e|>)) with (nm_iter G W).
        unfold bind at 1 3. destruct (is_conv G W s) as [[c|x] s1] eqn:E1; [|reflexivity].
        apply is_conv_read in E1 as [E1 F1]. destruct c; [reflexivity|].
        destruct D as [D|D]; [specialize (F1 D); discriminate|].
        unfold bind. destruct (nm_iter _ _ _ _ _ _ _ _ _ _ L s1) as [[o|x] s2] eqn:E2; [|reflexivity].
        apply iter_calls in E2 as [(C1 & C2 & C3 & C4) E3]. destruct o as [L1|L1]; [reflexivity|]. destruct E3 as [_ E3]. cbn [left_over] in *.
        apply IH; [|lia..].
        destruct (Z_lt_le_dec (Z.of_nat (n_calls L1)) (g_max_eval G)); auto. }
      destruct fuel as [|fuel], fuel' as [|fuel']; [lia..|]. intros B B'. cbn [nm_loop].
      change (is_conv G (W <|w_stuck := e|>)) with (is_conv G W).
      change (nm_iter G (W <|w_stuck := e|>)) with (nm_iter G W).
      unfold bind at 1 3. destruct (is_conv G W s) as [[c|x] s1] eqn:E1; [|reflexivity].
      destruct c; [reflexivity|].
      unfold bind. destruct (nm_iter _ _ _ _ _ _ _ _ _ _ L s1) as [[o|x] s2] eqn:E2; [|reflexivity].
      apply iter_calls in E2 as [(C1 & C2 & C3 & C4) E3]. destruct o as [L1|L1]; [reflexivity|]. destruct E3 as [_ E3]. cbn [left_over] in *.
      apply A; [|lia..].
      destruct (Z_lt_le_dec (Z.of_nat (n_calls L1)) (g_max_eval G)); auto.
    Qed.
  End Func.
End Bound.
