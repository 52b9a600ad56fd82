(** Super-iterations of dCRAB: bookkeeping, base pulses and final controls. *)
From Coq Require Import String ZArith List Bool Lia Reals Lra.
From RecordUpdate Require Import RecordSet.
From Verif Require Import Num NumFacts Py PyFacts ModelPulse ModelControls ModelLinalg ModelState ModelSearch ModelRun SpecControls SpecRun
  ProofSim ProofSimRun ProofRoutine ProofRespond ProofCore ProofPlain ProofAnswers ProofHistory ProofBest.
Import ListNotations RecordSetNotations.
Open Scope list_scope.
Open Scope bool_scope.
Open Scope run_scope.

(** statements with a postcondition that depends on the result *)
Section Hoare.
  Context {N : Num}.
  Implicit Types (P I : st -> Prop) (X : exn -> st -> Prop).
  Definition hoare {A} (P : st -> Prop) (m : M A) (Q : A -> st -> Prop) (X : exn -> st -> Prop) : Prop :=
    forall s, P s -> match m s with (Ok a, s') => Q a s' | (Err e, s') => X e s' end.
  Lemma hoare_bind {A B} P (m : M A) (k : A -> M B) Q R X :
    hoare P m Q X -> (forall a, hoare (Q a) (k a) R X) -> hoare P (bind m k) R X.
  Proof.
    intros Hm Hk s H. specialize (Hm s H). unfold bind. destruct (m s) as [[a|e] s']; auto. now apply Hk.
  Qed.
  Lemma hoare_keeps {A} I X (m : M A) : keeps I X m -> hoare I m (fun _ => I) X.
  Proof. intros H s K. specialize (H s K). unfold ends in H. destruct (m s) as [[a|e] s']; exact H. Qed.
  Lemma hoare_get {A} (P : st -> Prop) (k : st -> M A) Q X : (forall t : st, P t -> hoare (fun s => s = t /\ P s) (k t) Q X) -> hoare P (bind get k) Q X.
  Proof. intros H s K. exact (H s K s (conj eq_refl K)). Qed.
  Lemma hoare_upd P f (Q : unit -> st -> Prop) X : (forall s, P s -> Q tt (f s)) -> hoare P (upd f) Q X.
  Proof. intros H s K. now apply H. Qed.
  Lemma hoare_ret {A} P (a : A) (Q : A -> st -> Prop) X : (forall s, P s -> Q a s) -> hoare P (ret a) Q X.
  Proof. intros H s K. now apply H. Qed.
  Lemma hoare_raise {A} P e (Q : A -> st -> Prop) X : (forall s, P s -> X e s) -> hoare P (raise e) Q X.
  Proof. intros H s K. now apply H. Qed.
  Lemma hoare_lift {A} P (r : res A) (Q : A -> st -> Prop) X : (forall a s, r = Ok a -> P s -> Q a s) -> (forall e s, r = Err e -> P s -> X e s) ->
    hoare P (lift r) Q X.
  Proof. intros H K s HP. unfold lift. destruct r; auto. Qed.
  Lemma hoare_weak {A} P P' (m : M A) (Q Q' : A -> st -> Prop) X (X' : exn -> st -> Prop) : (forall s, P' s -> P s) -> (forall a s, Q a s -> Q' a s) ->
    (forall e s, X e s -> X' e s) -> hoare P m Q X -> hoare P' m Q' X'.
  Proof. intros HP HQ HX H s K. specialize (H s (HP _ K)). destruct (m s) as [[a|e] s']; auto. Qed.
  Lemma hoare_exn {A} P (m : M A) (Q : A -> st -> Prop) X (X' : exn -> st -> Prop) : hoare P m Q X -> (forall e s, X e s -> X' e s) -> hoare P m Q X'.
  Proof. intros H HX s K. specialize (H s K). destruct (m s) as [[a|e] s']; auto. Qed.
End Hoare.

Section Book.
  Context {N : Num} (G : settings) (W : world).

  Lemma routine_book x it s r s' : routine_call G W x it s = (r, s') -> s_book s' = s_book s.
  Proof.
    intros E. apply routine_cases in E.
    assert (K : forall u v evs, pre u v evs -> s_book v = s_book u).
    { intros u v evs P. now rewrite (f_equal s_book (p_calm _ _ _ P)). }
    destruct E as [s1 evs P1 R|e s1 evs P1|e s1 evs c P1 MS _|s1 evs c d s3 evs3 P1 MS _ P3 R3
                  |e s1 evs c d s3 P1 MS _ P3|e s1 evs c d s3 s4 P1 MS _ P3 P4 HB
                  |a v s1 evs c d s3 s4 s7 s8 evs8 P1 MS _ P3 P4 EA EV ER P8 A8].
    - apply (K _ _ _ P1).
    - apply (K _ _ _ P1).
    - cbn. apply (K _ _ _ P1).
    - rewrite (K _ _ _ P3). cbn. apply (K _ _ _ P1).
    - rewrite (K _ _ _ P3). cbn. apply (K _ _ _ P1).
    - apply polled_pre in P4 as (ev4 & P4 & _). cbn. rewrite (K _ _ _ P4), (K _ _ _ P3). cbn. apply (K _ _ _ P1).
    - apply polled_pre in P4 as (ev4 & P4 & _). rewrite (K _ _ _ P8).
      assert (SA : s_status (answered G v a (asked x d (Dict a) s4)) = Some (status_of a))
        by (unfold answered; destruct (_ =? 0)%Z; reflexivity).
      destruct (respond_resp G _ _ _ SA ER) as (evs7 & R7 & _).
      rewrite (f_equal s_book (rp_same _ _ _ R7)). cbn.
      transitivity (s_book s4); [unfold answered; destruct (_ =? 0)%Z; reflexivity|].
      rewrite (K _ _ _ P4), (K _ _ _ P3). cbn. apply (K _ _ _ P1).
  Qed.

  Definition booked (B : book) (s : st) : Prop := s_book s = B.
  Lemma book_closed B : closed0 G W (booked B) (fun _ => booked B).
  Proof.
    constructor; unfold booked; auto.
    - intros x it s H _. unfold ends. destruct (routine_call G W x it s) as [r s'] eqn:E.
      apply routine_book in E. destruct r; cbn; now rewrite E.
    - intros x it _ s H. unfold ends. destruct (routine_call G W x it s) as [r s'] eqn:E.
      apply routine_book in E. destruct r; cbn; now rewrite E.
  Qed.

  (** the bookkeeping after a search *)
  Definition termed (B : book) (s : st) : Prop := exists t, s_book s = B <|b_term := t|>.
  Lemma dsm_book B : has_dsm G = true -> hoare (booked B) (dsm_build G W) (fun _ => termed B) (fun _ => booked B).
  Proof.
    intros D. pose proof (book_closed B) as C. pose proof (frame_of_closed0 _ _ C) as F.
    assert (IX : forall (e : exn) s, booked B s -> booked B s) by auto.
    unfold dsm_build.
    eapply hoare_bind; [apply hoare_keeps; apply keeps_get; intros; now apply keeps_lift|]. intros m.
    eapply hoare_bind; [apply hoare_keeps; apply keeps_get; intros; now apply keeps_lift|]. intros sg.
    eapply hoare_bind.
    { apply hoare_keeps. apply keeps_get. intros. destruct (uses_seed G);
      (apply keeps_bind; [apply keeps_upd; auto|intros; now apply keeps_ret]). }
    intros r. eapply hoare_bind; [apply hoare_keeps; now apply keeps_lift|]. intros sx.
    eapply hoare_bind; [apply hoare_keeps; apply keeps_upd; auto|]. intros ?.
    eapply hoare_bind.
    { apply hoare_keeps. apply keeps_sim. apply (sim_run_dsm F); auto.
      - intros. apply keeps_sim. now apply (keeps_inner_none _ _ C).
      - intros. apply keeps_sim. apply (keeps_inner_drift _ _ C); auto. right. now left. }
    intros res. apply hoare_upd. intros s H. exists (r_reason res). unfold booked in H. cbn. now rewrite H.
  Qed.

  Definition counted (n p q : nat) (s : st) : Prop :=
    b_super_it (s_book s) = n /\ length (b_params (s_book s)) = p /\ length (b_supers (s_book s)) = q.
  Lemma super_book k n : g_kind G = KdCRAB ->
    hoare (counted n n n) (super_iteration G W k) (fun _ => counted k (S n) (S n)) (fun _ s => counted n n n s \/ counted k n n s).
  Proof.
    intros K s Hs. set (B := s_book s). destruct Hs as (H1 & H2 & H3).
    assert (D : has_dsm G = true) by (unfold has_dsm; now rewrite K).
    assert (HH : hoare (booked B) (super_iteration G W k)
       (fun _ u => exists t x p, s_book u = mk_book k (b_params B ++ [x]) (b_supers B ++ [p]) t)
       (fun _ u => s_book u = B \/ exists t, s_book u = mk_book k (b_params B) (b_supers B) t)).
    { unfold super_iteration. set (B' := B <|b_super_it := k|>).
      assert (EB : forall t, B' <|b_term := t|> = mk_book k (b_params B) (b_supers B) t) by reflexivity.
      assert (EB0 : B' = mk_book k (b_params B) (b_supers B) (b_term B)) by reflexivity.
      pose proof (book_closed B) as C. pose proof (frame_of_closed0 _ _ C) as F.
      pose proof (book_closed B') as C'.
      eapply hoare_bind.
      { eapply hoare_exn; [apply hoare_keeps; apply keeps_sim; apply (sim_reset F)|]. intros e u H. left. exact H. }
      intros ?. eapply hoare_bind.
      { eapply hoare_exn; [apply hoare_keeps; apply keeps_sim; apply (sim_reset_track F)|]. intros e u H. left. exact H. }
      intros ?. eapply hoare_bind; [apply (hoare_upd _ _ (fun _ => booked B')); intros u H; unfold booked in *; cbn; now rewrite H|].
      intros ?. eapply hoare_bind.
      { eapply hoare_exn.
        { apply hoare_keeps. instantiate (1 := fun _ => booked B'). destruct (drift_after_si G) eqn:Ed; cbn [andb]; [|now apply keeps_ret].
             destruct (2 <=? k)%nat; [|now apply keeps_ret]. apply (keeps_update_FoM _ _ C'). right. now right. }
        intros e u H. right. exists (b_term B). exact H. }
      intros ?. eapply hoare_bind.
      { eapply hoare_exn; [apply hoare_keeps; apply (keeps_choose _ _ C')|]. intros e u H. right. exists (b_term B). exact H. }
      intros ?. eapply hoare_bind.
      { eapply hoare_exn; [apply (dsm_book B' D)|]. intros e u H. right. exists (b_term B). exact H. }
      intros _ u (t & Hu). rewrite EB in Hu. unfold update_base_pulses, update_base.
      unfold bind at 1, bind at 1, get. destruct (s_best_xx u) as [x|]; [|right; exists t; exact Hu].
      unfold bind, lift, upd, ret. destruct (update_base_controls x (s_controls u)) as [c|]; [|right; exists t; exact Hu].
      exists t, x, (get_random_super_parameter c). cbn. now rewrite Hu. }
    specialize (HH s eq_refl). destruct (super_iteration G W k s) as [[[]|e] s']; unfold counted.
    - destruct HH as (t & x & p & HH). rewrite HH. cbn. rewrite !app_length. cbn. subst B. repeat split; lia.
    - destruct HH as [HH|(t & HH)]; rewrite HH; auto.
  Qed.

  Lemma running_book n : hoare (counted n n n) (get_running G W) (fun _ => counted n n n) (fun _ => counted n n n).
  Proof.
    intros s H. pose proof (keeps_get_running _ _ (book_closed (s_book s)) s eq_refl) as K.
    destruct (get_running G W s) as [[r|e] s']; unfold counted in *; red in K; cbn in K; red in K; now rewrite K.
  Qed.

  Lemma loop_book m : forall n, g_kind G = KdCRAB ->
    hoare (counted n n n) (dcrab_loop G W (seq (S n) m)) (fun _ s => exists k, (k <= n + m)%nat /\ counted k k k s)
      (fun _ s => exists k, (k <= n + m)%nat /\ (counted k k k s \/ (S k <= n + m)%nat /\ counted (S k) k k s)).
  Proof.
    induction m as [|m IH]; intros n K; cbn [seq dcrab_loop].
    - apply hoare_ret. intros s H. exists n. split; [lia|exact H].
    - eapply hoare_bind.
      { eapply hoare_exn.
        - apply running_book.
        - intros e s H. exists n. split; [lia|now left]. }
      intros r. cbv beta. destruct r; cbn [negb]; [|apply hoare_ret; intros s H; exists n; split; [lia|exact H]].
      eapply hoare_bind.
      { eapply hoare_exn; [apply super_book; exact K|]. intros e s [H|H]; exists n; (split; [lia|]); [now left|right].
        split; [lia|exact H]. }
      intros []. eapply hoare_weak; [| | |apply (IH (S n) K)].
      + auto.
      + intros _ s (k & L & H). exists k. split; [lia|exact H].
      + intros _ s (k & L & H). exists k. split; [lia|]. destruct H as [H|[L2 H]]; [now left|right]. split; [lia|exact H].
  Qed.

  (** the stages of a dCRAB run *)
  Lemma dcrab_stages r s : g_kind G = KdCRAB -> optimise G W = Ok (r, s) ->
    exists s0 s1, new_state G W = Ok s0 /\ begin W s0 = (Ok tt, s1) /\
      ((exists e, r = Err e /\ dcrab_loop G W (super_range G) s1 = (Err e, s)) \/
       (exists u f o, r = Ok tt /\ dcrab_loop G W (super_range G) s1 = (Ok tt, u) /\
          f_super f = Some (b_supers (s_book u)) /\ f_params f = Some (b_params (s_book u)) /\
          s = u <|s_trace ::= cons (EvFinal f)|> <|s_trace ::= cons (EvLogged f o)|>)).
  Proof.
    intros K H. unfold optimise in H. destruct (new_state G W) as [s0|e] eqn:E0; [|discriminate].
    exists s0. destruct (begin W s0) as [[[]|e] s1] eqn:E1; [|discriminate]. exists s1. split; [reflexivity|]. split; [reflexivity|].
    injection H as H. unfold execute, run in H. rewrite K in H. unfold bind at 1 in H. rewrite E1 in H.
    unfold bind at 1 in H. destruct (dcrab_loop G W (super_range G) s1) as [[[]|e] u] eqn:E2.
    - right. unfold end_, final_results in H. rewrite K in H. cbn in H. injection H as <- <-.
      eexists u, _, _. split; [reflexivity|]. split; [reflexivity|]. split; [|split; [|reflexivity]]; reflexivity.
    - left. injection H as <- <-. exists e. auto.
  Qed.

  Lemma begin_book s s1 : begin W s = (Ok tt, s1) -> s_book s1 = s_book s.
  Proof. unfold begin, bind, now. cbn. intros H. now injection H as <-. Qed.

  Theorem super_counts r s : g_kind G = KdCRAB -> optimise G W = Ok (r, s) ->
    let k := length (b_params (s_book s)) in
    length (b_supers (s_book s)) = k /\ (Z.of_nat (b_super_it (s_book s)) <= Z.max 0 (g_max_si G))%Z /\
    match r with
    | Ok _ => b_super_it (s_book s) = k /\
        exists f, In (EvFinal f) (history s) /\ f_params f = Some (b_params (s_book s)) /\ f_super f = Some (b_supers (s_book s))
    | Err _ => b_super_it (s_book s) = k \/ b_super_it (s_book s) = S k
    end.
  Proof.
    intros K H. destruct (dcrab_stages r s K H) as (s0 & s1 & E0 & E1 & HH).
    assert (C : counted 0 0 0 s1).
    { unfold counted. rewrite (begin_book _ _ E1). unfold new_state in E0. apply rbind_ok in E0 as (c & _ & E0).
      injection E0 as <-. cbn. auto. }
    pose proof (loop_book (Z.to_nat (g_max_si G)) 0 K s1 C) as L. fold (super_range G) in L.
    destruct HH as [(e & -> & HH)|(u & f & o & -> & HH & F1 & F2 & ->)]; rewrite HH in L.
    - destruct L as (k & Lk & [(A & B & D)|(Lk2 & A & B & D)]); cbn zeta; rewrite A, B, D; repeat split; auto; lia.
    - destruct L as (k & Lk & A & B & D). cbn [s_book set]. cbn zeta.
      change (s_book (u <|s_trace ::= cons (EvFinal f)|> <|s_trace ::= cons (EvLogged f o)|>)) with (s_book u).
      rewrite A, B, D. repeat split; auto; try lia. exists f. repeat split; auto.
      unfold history. apply in_rev. rewrite rev_involutive. cbn. auto.
  Qed.
End Book.

(** ** One super-iteration of a plain run *)
Section Phase.
  Context {N : Num} (NO : NumOrder N) (NS : NumSign N) (G : settings) (W : world).
  Hypothesis PR : plain_run G.
  Let CC := plain_closed NO NS G W PR.
  Let NA := no_adjust G PR.

  Lemma lt_trans a b c : (a <? b)%num = true -> (b <? c)%num = true -> (a <? c)%num = true.
  Proof.
    rewrite !(nlt_le _ NO), !andb_true_iff, !negb_true_iff. intros [A1 A2] [B1 B2]. split; [now apply (nle_trans _ NO _ b)|].
    destruct (nleb c a) eqn:E; [|reflexivity]. rewrite (nle_trans _ NO _ _ _ E A1) in B2. discriminate.
  Qed.
  Lemma lt_irrefl (a : num) : (a <? a)%num = false.
  Proof. rewrite (nlt_le _ NO). destruct (nleb a a); reflexivity. Qed.

  (** [x] was evaluated as [d], with best value [b] *)
  Definition witness (tr : list event) (b : num) (x : vec) (d : delivered) : Prop :=
    exists l a past v, tr = l ++ EvEval x d a :: past /\ user_value a = Some v /\ cost G v = b /\ improves G past a.
  Lemma witness_ext tr evs b x d : witness tr b x d -> witness (evs ++ tr) b x d.
  Proof. intros (l & a & past & v & -> & H). exists (evs ++ l), a, past, v. split; [apply app_assoc|exact H]. Qed.

  (** *** before the search *)
  Definition ahead (c : controls) (b : num) (tr : list event) (s : st) : Prop :=
    plive G s /\ s_controls s = c /\ s_best s = b /\ exists evs, s_trace s = evs ++ tr.
  Lemma ahead_ext c b tr s t evs : s_trace t = evs ++ s_trace s -> s_best t = s_best s -> s_controls t = s_controls s ->
    plive G t -> ahead c b tr s -> ahead c b tr t.
  Proof.
    intros E1 E2 E3 P (_ & A & B & ev & E). split; [exact P|]. split; [congruence|]. split; [congruence|]. exists (evs ++ ev). now rewrite E1, E, app_assoc.
  Qed.
  Lemma ahead_frame c b tr : wide_frame (diag (ahead c b tr)) (diagx (fun _ => ahead c b tr)) G W G W.
  Proof.
    constructor.
    - intros e s t [<- H]. now split.
    - intros s t [<- _]. apply same_refl.
    - apply same_settings_refl.
    - apply same_world_refl.
    - intros g s t [<- H]. split; [reflexivity|]. apply (ahead_ext c b tr s _ []); auto. apply (cl_cnt _ _ _ _ CC), H.
    - intros g s t [<- H]. split; [reflexivity|]. apply (ahead_ext c b tr s _ []); auto. apply (cl_sc _ _ _ _ CC), H.
    - intros g s t [<- H]. split; [reflexivity|]. apply (ahead_ext c b tr s _ []); auto. apply (cl_reason _ _ _ _ CC), H.
    - intros s t [<- H]. split; [reflexivity|]. apply (ahead_ext c b tr s _ [EvCleared ByAsync]); auto. apply (cl_clear _ _ _ _ CC), H.
  Qed.

  (** *** during the search *)
  Definition searching (c0 : controls) (b0 : num) (m : vec) (tr : list event) (s : st) : Prop :=
    plive G s /\ evaluations c0 (s_controls s) /\ (exists evs, s_trace s = evs ++ tr) /\
    ((s_best s = b0 /\ s_best_xx s = Some m) \/
     exists x d c1 c2, witness (s_trace s) (s_best s) x d /\ s_best_xx s = Some x /\ (s_best s <? b0)%num = true /\
       evaluations c0 c1 /\ get_controls_lists x c1 = Ok (c2, d) /\ evaluations c2 (s_controls s)).
  Lemma searching_ext c0 b0 m tr s t evs : s_trace t = evs ++ s_trace s -> s_best t = s_best s -> s_best_xx t = s_best_xx s ->
    s_controls t = s_controls s -> plive G t -> searching c0 b0 m tr s -> searching c0 b0 m tr t.
  Proof.
    intros E1 E2 E3 E4 P (_ & A & (ev & E) & H). unfold searching. rewrite E1, E2, E3, E4. split; [exact P|]. split; [exact A|]. split.
    - exists (evs ++ ev). now rewrite E, app_assoc.
    - destruct H as [H|(x & d & c1 & c2 & H1 & H2)]; [now left|right]. exists x, d, c1, c2. split; [now apply witness_ext|exact H2].
  Qed.
  Lemma searching_frame c0 b0 m tr : wide_frame (diag (searching c0 b0 m tr)) (diagx (fun _ _ => True)) G W G W.
  Proof.
    constructor.
    - intros e s t [<- H]. now split.
    - intros s t [<- _]. apply same_refl.
    - apply same_settings_refl.
    - apply same_world_refl.
    - intros g s t [<- H]. split; [reflexivity|]. apply (searching_ext c0 b0 m tr s _ []); auto. apply (cl_cnt _ _ _ _ CC), H.
    - intros g s t [<- H]. split; [reflexivity|]. apply (searching_ext c0 b0 m tr s _ []); auto. apply (cl_sc _ _ _ _ CC), H.
    - intros g s t [<- H]. split; [reflexivity|]. apply (searching_ext c0 b0 m tr s _ []); auto. apply (cl_reason _ _ _ _ CC), H.
    - intros s t [<- H]. split; [reflexivity|]. apply (searching_ext c0 b0 m tr s _ [EvCleared ByAsync]); auto. apply (cl_clear _ _ _ _ CC), H.
  Qed.
  Lemma evaluations_trans (a b c : controls) : evaluations a b -> evaluations b c -> evaluations a c.
  Proof. intros H K. induction K as [|c c1 c2 x d K IH E]; [exact H|]. eapply ev_step; [apply IH; exact H|exact E]. Qed.
  Lemma evaluations_delivers x c0 (c c' : controls) : evaluations c0 c -> delivers x c c' -> evaluations c0 c'.
  Proof. intros H [->|(d & K)]; [exact H|]. eapply ev_step; eauto. Qed.

  Lemma searching_ask c0 b0 m tr x it s : g_kind G = KdCRAB -> searching c0 b0 m tr s -> s_is_record s = false ->
    ends (searching c0 b0 m tr) (fun _ _ => True) (routine_call G W x it s).
  Proof.
    intros KD (P & EV & (ev & ET) & B) Hr. pose proof (plain_ask NO NS G W PR x it s P Hr) as K. unfold ends in *.
    destruct (routine_call G W x it s) as [r s'] eqn:E. cbn [fst snd] in *. destruct r as [y|e]; [|exact I].
    assert (Q : forall evs, s_trace s' = evs ++ s_trace s -> s_best s' = s_best s -> s_best_xx s' = s_best_xx s ->
                  evaluations (s_controls s) (s_controls s') -> searching c0 b0 m tr s').
    { intros evs T E1 E2 E3. unfold searching. rewrite T, E1, E2. split; [exact K|]. split; [|split].
      - eapply evaluations_trans; eauto.
      - exists (evs ++ ev). now rewrite ET, app_assoc.
      - destruct B as [B|(x' & d & c1 & c2 & H1 & H2 & H3 & H4 & H5 & H6)]; [now left|right]. exists x', d, c1, c2.
        repeat split; auto; [now apply witness_ext|]. eapply evaluations_trans; eauto. }
    apply padds_routine in E; auto; [|apply P].
    inversion E as [r s1 evs T _ E1 E2 _ DL _ _|d s1 evs T _ E1 E2 _ _ _|d v s1 evs evs1 T Q0 Q1 U HH E1 E2 _ _]; subst.
    - apply (Q evs); auto. apply (evaluations_delivers x _ (s_controls s)); [apply ev_refl|exact DL].
    - unfold hands in HH. rewrite KD in HH. destruct HH as (d' & HG & ->).
      assert (ES : evaluations (s_controls s) (s_controls s')) by (eapply ev_step; [apply ev_refl|exact HG]).
      destruct (cost G v <? s_best s)%num eqn:Eb.
      + unfold searching. split; [exact K|]. split; [|split].
        * eapply evaluations_trans; eauto.
        * exists (evs1 ++ EvEval x d' (w_fom W (d' :: s_hist s)) :: evs ++ ev). rewrite T, ET, <- !app_assoc. cbn. now rewrite <- !app_assoc.
        * right. exists x, d', (s_controls s), (s_controls s'). rewrite E1. repeat split; auto.
          -- exists evs1, (w_fom W (d' :: s_hist s)), (evs ++ s_trace s), v. repeat split; auto.
             apply improves_quiet; [now apply check_quiet|]. apply (best_improves NO _ _ _ (pl_best _ _ (q_pl _ _ P))) in Eb.
             exists v. auto.
          -- destruct B as [[<- _]|(x' & d & c1 & c2 & _ & _ & H3 & _)]; [exact Eb|]. now apply (lt_trans _ (s_best s)).
          -- apply ev_refl.
      + apply (Q (evs1 ++ EvEval x d' (w_fom W (d' :: s_hist s)) :: evs)); auto. rewrite T, <- app_assoc. reflexivity.
  Qed.

  Lemma run_ok {A} I X (m : M A) s a s' : keeps I X m -> I s -> m s = (Ok a, s') -> I s'.
  Proof. intros K H E. specialize (K s H). unfold ends in K. rewrite E in K. exact K. Qed.
  Lemma bind_inv {A B} (m : M A) (k : A -> M B) s b s' : bind m k s = (Ok b, s') ->
    exists a s1, m s = (Ok a, s1) /\ k a s1 = (Ok b, s').
  Proof. unfold bind. destruct (m s) as [[a|e] s1]; [eauto|discriminate]. Qed.

  (** a super-iteration that returns: a new basis, evaluations, and the acceptance of a vector that either gave a new
      best value or is the start vector *)
  Lemma super_summary k s s' : g_kind G = KdCRAB -> plive G s -> super_iteration G W k s = (Ok tt, s') ->
    plive G s' /\ (exists evs, s_trace s' = evs ++ s_trace s) /\
    exists rs p q c m cD, select_basis rs p (s_controls s) = Ok (c, q) /\ get_mean_value c = Ok m /\ evaluations c cD /\
      ((s_best s' = s_best s /\ update_base_controls m cD = Ok (s_controls s')) \/
       exists x d c1 c2, witness (s_trace s') (s_best s') x d /\ (s_best s' <? s_best s)%num = true /\
         evaluations c c1 /\ get_controls_lists x c1 = Ok (c2, d) /\ evaluations c2 cD /\
         update_base_controls x cD = Ok (s_controls s')).
  Proof.
    intros KD P H. assert (D : has_dsm G = true) by (unfold has_dsm; now rewrite KD).
    unfold super_iteration in H.
    pose proof (ahead_frame (s_controls s) (s_best s) (s_trace s)) as F.
    assert (A0 : ahead (s_controls s) (s_best s) (s_trace s) s) by (split; [exact P|]; split; [|split]; auto; now exists []).
    apply bind_inv in H as ([] & s1 & E1 & H).
    assert (A1 : ahead (s_controls s) (s_best s) (s_trace s) s1).
    { eapply run_ok; [apply keeps_sim; apply (sim_reset F)|exact A0|exact E1]. }
    apply bind_inv in H as ([] & s2 & E2 & H).
    assert (A2 : ahead (s_controls s) (s_best s) (s_trace s) s2).
    { eapply run_ok; [apply keeps_sim; apply (sim_reset_track F)|exact A1|exact E2]. }
    apply bind_inv in H as ([] & s3 & E3 & H). injection E3 as E3.
    assert (A3 : ahead (s_controls s) (s_best s) (s_trace s) s3).
    { subst s3. apply (ahead_ext _ _ _ s2 _ []); auto. apply (cl_book _ _ _ _ CC), A2. }
    assert (ND : drift_after_si G = false).
    { destruct (drift_after_si G) eqn:Ed; [|reflexivity]. exfalso. apply NA. right. now right. }
    rewrite ND in H. cbn [andb] in H. apply bind_inv in H as ([] & s3' & E3' & H). injection E3' as <-.
    apply bind_inv in H as ([] & s4 & E4 & H).
    assert (A4 : exists rs p q, select_basis rs p (s_controls s) = Ok (s_controls s4, q) /\
                   ahead (s_controls s4) (s_best s) (s_trace s) s4).
    { unfold choose_basis in E4. unfold bind at 1, get in E4. rewrite (proj1 (proj2 A3)) in E4.
      destruct (uses_seed G); apply bind_inv in E4 as ([c q] & s4' & E4 & E5); unfold lift in E4; injection E4 as E4 <-;
        injection E5 as <-; do 3 eexists; (split; [exact E4|]); cbn [s_controls set];
        (split; [|split; [reflexivity|split; [apply A3|apply A3]]]);
        [apply (cl_cnt _ _ _ _ CC (set k_rng (fun _ => q)))|apply (cl_cnt _ _ _ _ CC (set k_np (fun _ => q)))];
        apply (cl_controls _ _ _ _ CC), A3. }
    destruct A4 as (rs & p & q & ES & A4). apply bind_inv in H as ([] & s5 & E5 & H).
    set (c := s_controls s4) in *.
    unfold dsm_build in E5. apply bind_inv in E5 as (m & s6 & E6 & E5).
    unfold mean_value, bind, get, lift in E6. fold c in E6. injection E6 as EM <-.
    apply bind_inv in E5 as (sg & s6 & E6 & E5). unfold sigma_variation, bind, get, lift in E6. injection E6 as ESG <-.
    apply bind_inv in E5 as (r & s6 & E6 & E5).
    assert (A6 : ahead c (s_best s) (s_trace s) s6).
    { unfold draw, bind, get, upd, ret in E6. destruct (uses_seed G); injection E6 as E6a E6b; subst s6; apply (ahead_ext _ _ _ s4 _ []); auto; apply (cl_cnt _ _ _ _ CC), A4. }
    apply bind_inv in E5 as (sx & s6' & E6' & E5). unfold lift in E6'. injection E6' as ESX <-.
    apply bind_inv in E5 as ([] & s7 & E7 & E5). injection E7 as E7.
    assert (S7 : searching c (s_best s) m (s_trace s) s7).
    { clear - E7 A6 CC D. subst s7. split; [apply (cl_best_xx _ _ _ _ CC); [exact D|apply A6]|]. cbn [s_controls set].
      split; [change (evaluations c (s_controls s6)); rewrite (proj1 (proj2 A6)); apply ev_refl|].
      split; [apply A6|]. left. split; [apply A6|reflexivity]. }
    apply bind_inv in E5 as (res & s8 & E8 & E5). injection E5 as E5.
    assert (S8 : searching c (s_best s) m (s_trace s) s8).
    { eapply run_ok; [|exact S7|exact E8]. apply keeps_sim. apply (sim_run_dsm (searching_frame c (s_best s) m (s_trace s))); auto.
      - intros xx it. apply keeps_sim. intros u Hu. cbn [inner_routine_call]. rewrite bind_upd. rewrite (proj1 PR).
        apply ends_bind.
        + apply searching_ask; [exact KD| |reflexivity]. apply (searching_ext _ _ _ _ u _ []); auto.
          apply (cl_re0 _ _ _ _ CC (u <|s_is_record := false|>)). apply (cl_record _ _ _ _ CC), Hu.
        + intros y. apply keeps_ret.
      - intros E. pose proof (proj2 (proj2 PR)) as E'. congruence. }
    assert (S5 : searching c (s_best s) m (s_trace s) s5).
    { subst s5. apply (searching_ext _ _ _ _ s8 _ []); auto. apply (cl_book _ _ _ _ CC), S8. }
    clear E5 E8 S8 res s8. unfold update_base_pulses in H. apply bind_inv in H as (x & s9 & E9 & H). injection H as <-.
    unfold update_base in E9. unfold bind at 1, get in E9.
    destruct (s_best_xx s5) as [x'|] eqn:EX; [|discriminate]. apply bind_inv in E9 as (c9 & s9' & E9 & E10).
    unfold lift in E9. injection E9 as E9 <-. injection E10 as <- <-.
    destruct S5 as (P5 & V5 & T5 & B5).
    split; [|split].
    - apply (cl_book _ _ _ _ CC), (cl_controls _ _ _ _ CC), P5.
    - exact T5.
    - exists rs, p, q, c, m, (s_controls s5). split; [exact ES|]. split; [exact EM|]. split; [exact V5|].
      rewrite EX in B5. destruct B5 as [[B5 E]|(x & d & c1 & c2 & B1 & B2 & B3 & B4 & B5 & B6)].
      + left. injection E as ->. split; [exact B5|exact E9].
      + right. injection B2 as ->. exists x, d, c1, c2. repeat (split; [assumption|]). exact E9.
  Qed.
End Phase.
