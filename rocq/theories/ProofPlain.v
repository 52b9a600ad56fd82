(** Invariants of runs without re-evaluation and drift compensation: best value, files, log, goal. *)
From Coq Require Import String ZArith List Bool Lia.
From RecordUpdate Require Import RecordSet.
From Verif Require Import Num NumFacts Py PyFacts ModelPulse ModelControls ModelLinalg ModelState ModelSearch ModelRun SpecRun
  ProofSim ProofSimRun ProofRoutine ProofRespond ProofCore.
Import ListNotations RecordSetNotations.
Open Scope list_scope.
Open Scope bool_scope.
Open Scope run_scope.

Section Lists.
  Context {N : Num} (NO : NumOrder N) (NS : NumSign N).
  Variable G : settings.

  Lemma factor_cost v : (factor G * v)%num = cost G v.
  Proof. unfold factor, cost. destruct (g_maximise G); [reflexivity|]. apply (nmul_1 _ NS). Qed.
  Lemma cost_cost v : cost G (cost G v) = v.
  Proof. unfold cost. destruct (g_maximise G); [apply (nmul_neg_neg _ NS)|reflexivity]. Qed.

  Lemma lt_trans a b c : (a <? b)%num = true -> (b <? c)%num = true -> (a <? c)%num = true.
  Proof.
    rewrite !(nlt_le _ NO). intros H K. apply andb_true_iff in H as [H1 H2]. apply andb_true_iff in K as [K1 K2].
    rewrite (nle_trans _ NO a b c H1 K1). cbn. apply negb_true_iff. apply negb_true_iff in H2, K2.
    destruct (c <=? a)%num eqn:E; [|reflexivity]. rewrite (nle_trans _ NO c a b E H1) in K2. discriminate.
  Qed.
  Lemma lt_le_trans a b c : (a <? b)%num = true -> (b <=? c)%num = true -> (a <? c)%num = true.
  Proof.
    rewrite !(nlt_le _ NO). intros H K. apply andb_true_iff in H as [H1 H2].
    rewrite (nle_trans _ NO a b c H1 K). cbn. apply negb_true_iff. apply negb_true_iff in H2.
    destruct (c <=? a)%num eqn:E; [|reflexivity]. rewrite (nle_trans _ NO b c a K E) in H2. discriminate.
  Qed.
  Lemma le_lt_trans a b c : (a <=? b)%num = true -> (b <? c)%num = true -> (a <? c)%num = true.
  Proof.
    rewrite !(nlt_le _ NO). intros H K. apply andb_true_iff in K as [K1 K2].
    rewrite (nle_trans _ NO a b c H K1). cbn. apply negb_true_iff. apply negb_true_iff in K2.
    destruct (c <=? a)%num eqn:E; [|reflexivity]. rewrite (nle_trans _ NO c a b E H) in K2. discriminate.
  Qed.
  Lemma lt_irrefl a : (a <? a)%num = false.
  Proof. rewrite (nlt_le _ NO). now destruct (a <=? a)%num. Qed.
  Lemma lt_not_le a b : (a <? b)%num = true -> (b <=? a)%num = false.
  Proof. rewrite (nlt_le _ NO). intros H. apply andb_true_iff in H as [_ H]. now apply negb_true_iff in H. Qed.
  Lemma lt_is_le a b : (a <? b)%num = true -> (a <=? b)%num = true.
  Proof. rewrite (nlt_le _ NO). intros H. now apply andb_true_iff in H as [H _]. Qed.
  Lemma le_cases a b : (a <=? b)%num = true -> forall c, (c <=? c)%num = true -> (c <=? a)%num = false -> (a <? c)%num = true.
  Proof.
    intros H c Hc K. assert (nisnan a = false).
    { destruct (nisnan a) eqn:E; [|reflexivity]. rewrite (nle_nan_l _ NO a b E) in H. discriminate. }
    assert (nisnan c = false).
    { destruct (nisnan c) eqn:E; [|reflexivity]. rewrite (nle_nan_l _ NO c c E) in Hc. discriminate. }
    rewrite (nlt_le _ NO), K. destruct (nle_total _ NO a c); auto; [now rewrite H2|congruence].
  Qed.

  Lemma best_improves vs b u : is_best vs b ->
    ((u <? b)%num = true <-> (u <? ceiling)%num = true /\ forall w, In w vs -> (w <=? u)%num = false).
  Proof.
    intros [Hb Hm]. split.
    - intros H. split.
      + destruct Hb as [-> |[_ Hb]]; [exact H|]. now apply (lt_trans u b).
      + intros w Hw. destruct (w <=? u)%num eqn:E; [|reflexivity].
        pose proof (le_lt_trans w u b E H) as K. rewrite (Hm w Hw) in K. discriminate.
    - intros [H K]. destruct Hb as [-> |[Hi Hb]]; [exact H|].
      specialize (K b Hi). apply lt_is_le in H. apply (le_cases u _ H b); [|exact K].
      apply lt_is_le in Hb. destruct (nisnan b) eqn:E; [rewrite (nle_nan_l _ NO _ _ E) in Hb; discriminate|].
      destruct (nle_total _ NO b b E E); assumption.
  Qed.
  Lemma is_best_cons vs b u : is_best vs b -> is_best (u :: vs) (if (u <? b)%num then u else b).
  Proof.
    intros H. destruct (u <? b)%num eqn:E.
    - destruct (proj1 (best_improves vs b u H) E) as [K1 K2]. split.
      + right. split; [now left|exact K1].
      + intros v [<-|Hv]; [apply lt_irrefl|]. specialize (K2 v Hv).
        destruct (v <? u)%num eqn:L; [|reflexivity]. apply lt_is_le in L. congruence.
    - destruct H as [Hb Hm]. split.
      + destruct Hb as [Hb|[Hi Hb]]; [now left|right; split; [now right|exact Hb]].
      + intros v [<-|Hv]; [exact E|now apply Hm].
  Qed.

  (** ** event lists *)
  Lemma costs_quiet l tr : Forall quiet_event l -> costs G (l ++ tr) = costs G tr.
  Proof. induction 1 as [|e l He _ IH]; [reflexivity|]. destruct e; cbn in *; tauto. Qed.
  Lemma log_app n l1 l2 : log n (l1 ++ l2) = log n l1 ++ log (n + calls l1) l2.
  Proof.
    revert n. induction l1 as [|e l1 IH]; intros n; cbn [app log]; [now rewrite Nat.add_0_r|].
    destruct e; try (rewrite IH; reflexivity).
    rewrite IH, app_assoc. f_equal. f_equal. unfold calls. cbn. lia.
  Qed.
  Lemma calls_rev l : calls (rev l) = calls l.
  Proof.
    unfold calls. induction l as [|e l IH]; [reflexivity|]. cbn [rev]. rewrite filter_app, app_length, IH. cbn.
    destruct (is_call e); cbn; lia.
  Qed.
  Lemma log_quiet n l : Forall quiet_event l -> log n l = [].
  Proof. induction 1 as [|e l He _ IH]; [reflexivity|]. destruct e; cbn in *; tauto. Qed.
  Lemma log_rev_quiet l tr : Forall quiet_event l -> log 1 (rev (l ++ tr)) = log 1 (rev tr).
  Proof.
    intros H. rewrite rev_app_distr, log_app, (log_quiet _ (rev l)), app_nil_r; [reflexivity|].
    rewrite Forall_forall in *. intros e He. apply H. now apply in_rev.
  Qed.
  Lemma log_rev_call x d a tr : log 1 (rev (EvEval x d a :: tr)) =
    log 1 (rev tr) ++ match user_value a with Some v => if success a then [(S (calls tr), v)] else [] | None => [] end.
  Proof. cbn [rev]. rewrite log_app, calls_rev. cbn. now rewrite app_nil_r. Qed.

  (** what follows an evaluation *)
  Definition after (p : list event) (d : delivered) (a : answer) (e : event) : Prop :=
    (success a = true -> improves G p a -> exists f, e = EvSave f) /\
    (forall f, e = EvSave f -> success a = true /\ improves G p a /\ sv_controls f = d /\
        user_value a = Some (cost G (sv_fom f)) /\ sv_iter f = S (calls p) /\ sv_sigma f = None /\ sv_status f = Some 0%Z) /\
    (user_value a <> None -> success a = false -> e = EvCleared ByStatus).
  Definition not_save (e : event) : Prop := match e with EvSave _ => False | _ => True end.
  Definition headed (tr : list event) : Prop := match tr with EvEval _ _ _ :: _ => False | _ => True end.
  Fixpoint replies (tr : list event) : Prop :=
    match tr with
    | [] => True
    | e :: past => replies past /\ match past with EvEval _ d a :: p => after p d a e | _ => not_save e end
    end.
  Definition reached (past : list event) : Prop :=
    exists g w, goal G = Some g /\ (w = ceiling \/ In w (costs G past)) /\ (w <=? g)%num = true.
  Fixpoint unreached (tr : list event) : Prop :=
    match tr with
    | [] => True
    | e :: past => unreached past /\ match e with EvEval _ _ _ => ~ reached past | _ => True end
    end.
  Definition valued (e : event) : Prop := match e with EvEval _ _ a => user_value a <> None | _ => True end.

  Lemma replies_cons e tr : headed tr -> not_save e -> replies tr -> replies (e :: tr).
  Proof. intros H K R. split; [exact R|]. destruct tr as [|[]]; cbn in *; tauto. Qed.
  Definition dull (e : event) : Prop := quiet_event e /\ not_save e.
  Lemma replies_app l tr : Forall dull l -> headed tr -> replies tr -> replies (l ++ tr) /\ headed (l ++ tr).
  Proof.
    intros H Hh R. induction H as [|e l [He Hn] _ [IH1 IH2]]; [auto|]. split.
    - now apply replies_cons.
    - destruct e; cbn in *; tauto.
  Qed.
  Lemma unreached_app l tr : Forall quiet_event l -> (unreached (l ++ tr) <-> unreached tr).
  Proof. induction 1 as [|e l He _ IH]; [reflexivity|]. cbn. destruct e; cbn in *; tauto. Qed.
  Lemma valued_app l tr : Forall quiet_event l -> (Forall valued (l ++ tr) <-> Forall valued tr).
  Proof.
    intros H. rewrite Forall_app. split; [tauto|]. intros K. split; [|exact K].
    revert H. apply Forall_impl. intros []; cbn; tauto.
  Qed.
  Lemma check_dull l : Forall check_event l -> Forall dull l.
  Proof. apply Forall_impl. intros []; cbn; unfold dull; cbn; tauto. Qed.
  Lemma dull_quiet l : Forall dull l -> Forall quiet_event l.
  Proof. apply Forall_impl. intros e [H _]. exact H. Qed.
End Lists.

Section Plain.
  Context {N : Num} (NO : NumOrder N) (NS : NumSign N).
  Variables (G : settings) (W : world).
  Hypothesis PR : plain_run G.

  Lemma no_adjust : ~ adjusts G.
  Proof.
    destruct PR as (A & B & C). intros [H|[H|H]].
    - congruence.
    - congruence.
    - unfold drift_after_si in H. rewrite B, C in H. discriminate.
  Qed.

  Record pl (s : st) : Prop := mk_pl {
    pl_step : re_step (s_re s) = 0;
    pl_best : is_best (costs G (s_trace s)) (s_best s);
    pl_log : s_iter_list s = map fst (log 1 (rev (s_trace s))) /\ s_fom_list s = map snd (log 1 (rev (s_trace s)));
    pl_rep : replies G (s_trace s);
    pl_goal : unreached G (s_trace s)
  }.
  Record plive (s : st) : Prop := mk_plive {
    q_live : live G s;
    q_pl : pl s;
    q_head : headed (s_trace s);
    q_val : Forall valued (s_trace s)
  }.
  Record pend (e : exn) (s : st) : Prop := mk_pend {
    x_core : core G s;
    x_pl : pl s;
    x_val : (headed (s_trace s) /\ Forall valued (s_trace s)) \/
            exists x d a past, s_trace s = EvEval x d a :: past /\ user_value a = None /\ e = complaint a /\ Forall valued past
  }.
  Lemma plive_pend e s : plive s -> pend e s.
  Proof. intros [L P H V]. constructor; auto. apply L. Qed.

  Lemma pl_ext s t evs : s_trace t = evs ++ s_trace s -> Forall dull evs -> headed (s_trace s) ->
    re_step (s_re t) = re_step (s_re s) -> s_best t = s_best s -> s_iter_list t = s_iter_list s ->
    s_fom_list t = s_fom_list s -> pl s -> pl t.
  Proof.
    intros E D H E1 E2 E3 E4 [A B [C1 C2] F K]. pose proof (dull_quiet _ D) as Q.
    constructor; rewrite ?E, ?E1, ?E2, ?E3, ?E4, ?(costs_quiet _ _ _ Q), ?(log_rev_quiet _ _ Q); auto.
    - now apply replies_app.
    - now apply unreached_app.
  Qed.
  Lemma plive_ext s t evs : s_trace t = evs ++ s_trace s -> Forall dull evs -> live G t ->
    re_step (s_re t) = re_step (s_re s) -> s_best t = s_best s -> s_iter_list t = s_iter_list s ->
    s_fom_list t = s_fom_list s -> plive s -> plive t.
  Proof.
    intros E D L E1 E2 E3 E4 [Ls P H V]. constructor; auto.
    - now apply (pl_ext s t evs).
    - rewrite E. now apply (replies_app G evs (s_trace s) D H), (pl_rep _ P).
    - rewrite E. apply valued_app; [now apply dull_quiet|exact V].
  Qed.
  Lemma pl_pre s t evs : pre s t evs -> headed (s_trace s) -> pl s -> pl t.
  Proof.
    intros P H. apply (pl_ext s t evs); auto.
    - apply P.
    - apply check_dull, P.
    - exact (f_equal (fun u => re_step (s_re u)) (p_calm _ _ _ P)).
    - exact (f_equal s_best (p_calm _ _ _ P)).
    - exact (f_equal s_iter_list (p_calm _ _ _ P)).
    - exact (f_equal s_fom_list (p_calm _ _ _ P)).
  Qed.
  Lemma headed_pre s t evs : pre s t evs -> headed (s_trace s) -> headed (s_trace t).
  Proof.
    intros P H. rewrite (p_trace _ _ _ P). pose proof (p_evs _ _ _ P) as K.
    destruct K as [|e l He _]; [exact H|]. destruct e; cbn in *; tauto.
  Qed.
  Lemma valued_pre s t evs : pre s t evs -> Forall valued (s_trace s) -> Forall valued (s_trace t).
  Proof. intros P H. rewrite (p_trace _ _ _ P). apply valued_app; [|exact H]. apply check_quiet, P. Qed.

  Theorem plain_ask x it s : plive s -> s_is_record s = false -> ends plive pend (routine_call G W x it s).
  Proof.
    intros L Hrec.
    pose proof (core_routine G W x it s (q_live _ L)) as HC. unfold ends in *.
    destruct (routine_call G W x it s) as [r s'] eqn:E. cbn [fst snd] in *.
    apply routine_cases in E. destruct L as [Lv P H V].
    assert (ST : forall s1 evs c, pre s s1 evs -> pl (started x it s1 <|s_controls := c|>) /\
                   headed (s_trace s1) /\ Forall valued (s_trace s1)).
    { intros s1 evs c P1. split; [|split; [now apply (headed_pre _ _ _ P1)|now apply (valued_pre _ _ _ P1)]].
      destruct (pl_pre _ _ _ P1 H P) as [A B C F K]. now constructor. }
    assert (ST2 : forall s1 evs c d s3 evs3, pre s s1 evs -> pre (handed c d (started x it s1)) s3 evs3 ->
                   pl s3 /\ headed (s_trace s3) /\ Forall valued (s_trace s3)).
    { intros s1 evs c d s3 evs3 P1 P3. destruct (ST s1 evs c P1) as (A & B & C).
      split; [|split; [now apply (headed_pre _ _ _ P3)|now apply (valued_pre _ _ _ P3)]].
      apply (pl_pre _ _ _ P3); [exact B|]. destruct A as [A1 A2 A3 A4 A5]. now constructor. }
    assert (ST4 : forall s1 evs c d s3 s4, pre s s1 evs -> pre (handed c d (started x it s1)) s3 [] -> polled s3 s4 ->
                   pl s4 /\ headed (s_trace s4) /\ Forall valued (s_trace s4) /\
                   s_best s4 = s_best s /\ s_is_record s4 = false /\ s_sent s4 = Some d /\ s_xx s4 = Some x /\
                   s_iter s4 = S (s_iter s) /\ calls (s_trace s4) = calls (s_trace s) /\
                   costs G (s_trace s4) = costs G (s_trace s)).
    { intros s1 evs c d s3 s4 P1 P3 P4. apply polled_pre in P4 as (ev4 & P4 & _).
      destruct (ST2 s1 evs c d s3 [] P1 P3) as (A & B & C).
      split; [now apply (pl_pre _ _ _ P4)|]. split; [now apply (headed_pre _ _ _ P4)|].
      split; [now apply (valued_pre _ _ _ P4)|].
      pose proof (p_calm _ _ _ P4) as C4. pose proof (p_calm _ _ _ P3) as C3. pose proof (p_calm _ _ _ P1) as C1.
      split. { rewrite (f_equal s_best C4). cbn. rewrite (f_equal s_best C3). cbn. now rewrite (f_equal s_best C1). }
      split. { rewrite (f_equal s_is_record C4). cbn. rewrite (f_equal s_is_record C3). cbn. now rewrite (f_equal s_is_record C1). }
      split. { rewrite (f_equal s_sent C4). cbn. now rewrite (f_equal s_sent C3). }
      split. { rewrite (f_equal s_xx C4). cbn. now rewrite (f_equal s_xx C3). }
      split. { rewrite (f_equal s_iter C4). cbn. rewrite (f_equal s_iter C3). cbn. now rewrite (f_equal s_iter C1). }
      assert (T : s_trace s4 = ev4 ++ evs ++ s_trace s).
      { rewrite (p_trace _ _ _ P4), (p_trace _ _ _ P3). cbn. now rewrite (p_trace _ _ _ P1). }
      rewrite T. pose proof (check_quiet _ (p_evs _ _ _ P4)) as Q4. pose proof (check_quiet _ (p_evs _ _ _ P1)) as Q1.
      rewrite !calls_app, !costs_quiet by assumption. auto. }
    (* the goal was not reached when the evaluation started *)
    assert (GO : forall evs, may_start G s evs -> ~ reached G (s_trace s)).
    { intros evs MS (g & w & Eg & Hw & Hle). pose proof (ms_goal _ _ _ MS g Eg) as K.
      destruct (pl_best _ P) as [Hb Hm].
      assert (HN : nisnan (s_best s) = false).
      { destruct Hb as [-> |[_ Hb]]; [apply (nceiling_num _ NS)|].
        apply lt_is_le in Hb; [|exact NO]. destruct (nisnan (s_best s)) eqn:En; [|reflexivity].
        rewrite (nle_nan_l _ NO _ _ En) in Hb. discriminate. }
      assert (Hbw : (s_best s <=? w)%num = true).
      { destruct (s_best s <=? w)%num eqn:E1; [reflexivity|].
        pose proof (le_cases NO w g Hle (s_best s) (nle_refl _ NO _ HN) E1) as L1.
        destruct Hw as [-> |Hw].
        - destruct Hb as [Hb|[_ Hb]].
          + rewrite Hb, (lt_irrefl NO) in L1. discriminate.
          + apply lt_is_le in Hb; [|exact NO]. congruence.
        - rewrite (Hm w Hw) in L1. discriminate. }
      rewrite (nle_trans _ NO _ _ _ Hbw Hle) in K. discriminate. }
    assert (RC : forall evs s4, pl s4 -> costs G (s_trace s4) = costs G (s_trace s) -> may_start G s evs ->
              ~ reached G (s_trace s4)).
    { intros evs s4 _ E4 MS (g & w & Eg & Hw & Hle). apply (GO evs MS). exists g, w. now rewrite <- E4. }
    destruct E as [s1 evs P1 R|e s1 evs P1|e s1 evs c P1 MS _|s1 evs c d s3 evs3 P1 MS _ P3 R3
                  |e s1 evs c d s3 P1 MS _ P3|e s1 evs c d s3 s4 P1 MS _ P3 P4 HB
                  |a v s1 evs c d s3 s4 s7 s8 evs8 P1 MS _ P3 P4 EA EV ER P8 A8].
    - constructor; auto; [now apply (pl_pre _ _ _ P1)|now apply (headed_pre _ _ _ P1)|now apply (valued_pre _ _ _ P1)].
    - constructor; auto; [now apply (pl_pre _ _ _ P1)|]. left.
      split; [now apply (headed_pre _ _ _ P1)|now apply (valued_pre _ _ _ P1)].
    - destruct (ST s1 evs c P1) as (A & B & C). constructor; auto.
    - destruct (ST2 s1 evs c d s3 evs3 P1 P3) as (A & B & C). now constructor.
    - destruct (ST2 s1 evs c d s3 [] P1 P3) as (A & B & C). constructor; auto.
    - destruct (ST4 s1 evs c d s3 s4 P1 P3 P4) as (A & B & C & Eb & Er & Es & Ex & Ei & Ecl & Eco).
      set (ans := w_fom W (d :: s_hist s)) in *.
      assert (HV : user_value ans = None /\ e = complaint ans).
      { destruct HB as [(-> & ->)|[(a & -> & Ea & ->)|(a & -> & Ea & ->)]]; cbn; rewrite ?Ea; auto. }
      destruct HV as [HV1 HV2].
      constructor; auto.
      + destruct A as [A1 A2 A3 A4 A5]. constructor; cbn [asked set s_re s_trace s_best s_iter_list s_fom_list].
        * exact A1.
        * cbn. rewrite HV1. exact A2.
        * unfold asked. cbn [set s_iter_list s_fom_list s_trace].
          change (s_iter_list (asked x d ans s4)) with (s_iter_list s4).
          change (s_fom_list (asked x d ans s4)) with (s_fom_list s4).
          change (s_trace (asked x d ans s4)) with (EvEval x d ans :: s_trace s4).
          rewrite log_rev_call, HV1, app_nil_r. exact A3.
        * apply replies_cons; cbn; auto.
        * split; [exact A5|]. now apply (RC evs).
      + right. exists x, d, ans, (s_trace s4). auto.
    - destruct (ST4 s1 evs c d s3 s4 P1 P3 P4) as (A & B & C & Eb & Er & Es & Ex & Ei & Ecl & Eco).
      set (s6 := answered G v a (asked x d (Dict a) s4)) in *.
      assert (E6 : s_best s6 = s_best s /\ s_is_record s6 = false /\ s_sent s6 = Some d /\ re_step (s_re s6) = 0 /\
                   s_fom s6 = cost G v /\ s_status s6 = Some (status_of a) /\ s_iter s6 = S (calls (s_trace s)) /\
                   s_iter_list s6 = s_iter_list s4 /\ s_fom_list s6 = s_fom_list s4).
      { assert (K0 : s_iter s = calls (s_trace s)) by (apply Lv, MS).
        rewrite <- Eb, <- Er, <- Es, <- (pl_step _ A), <- (factor_cost NS G v), <- K0, <- Ei.
        unfold s6, answered. destruct (_ =? 0)%Z; cbn; auto 10. }
      destruct E6 as (B1 & B2 & B3 & B4 & B5 & B6 & B7 & B8 & B9).
      rewrite (respond_plain G d (status_of a) s6 (proj1 PR) B4 B3 B6 B2) in ER. injection ER as <-.
      assert (UV : user_value (Dict a) = Some v) by (cbn; now rewrite EV).
      assert (SU : success (Dict a) = good (status_of a)).
      { cbn. unfold good, status_of. destruct (a_status a); reflexivity. }
      set (s7 := plain G d (status_of a) s6) in *.
      assert (IM : better s6 = true <-> improves G (s_trace s4) (Dict a)).
      { unfold better. rewrite B1, B5, <- (factor_cost NS G v).
        rewrite (best_improves NO _ _ (factor G * v)%num (pl_best _ P)). rewrite (factor_cost NS G v).
        unfold improves. rewrite UV, Eco. split.
        - intros [K1 K2]. exists v. auto.
        - intros (v' & K0 & K1 & K2). injection K0 as <-. auto. }
      (* the trace after the answer *)
      assert (T7 : exists l, s_trace s7 = l ++ EvEval x d (Dict a) :: s_trace s4 /\ Forall quiet_event l /\
                   replies G (l ++ EvEval x d (Dict a) :: s_trace s4) /\ headed (l ++ EvEval x d (Dict a) :: s_trace s4)).
      { assert (RE : replies G (EvEval x d (Dict a) :: s_trace s4)).
        { apply replies_cons; cbn; auto. apply A. }
        unfold s7. rewrite plain_trace, B7, B5.
        destruct (good (status_of a)) eqn:Eg.
        - assert (T6 : s_trace s6 = EvEval x d (Dict a) :: s_trace s4).
          { unfold s6, answered. unfold good in Eg. rewrite Eg. reflexivity. }
          destruct (better s6) eqn:Ebt.
          + eexists [EvPlot _ _; EvSave _]. split; [rewrite T6; reflexivity|].
            split; [repeat constructor|]. split; [|exact I]. split; [split; [exact RE|]|exact I].
            split; [intros _ _; eauto|]. split.
            * intros f Ef. injection Ef as <-. cbn [sv_controls sv_fom sv_iter sv_sigma sv_status].
              rewrite SU, UV, (cost_cost NS). repeat split; auto.
              -- now apply IM.
              -- apply Z.eqb_eq in Eg. now rewrite Eg.
            * intros _ K. congruence.
          + eexists [EvPlot _ _]. split; [rewrite T6; reflexivity|].
            split; [repeat constructor|]. split; [|exact I]. split; [exact RE|].
            split; [intros _ K; apply IM in K; congruence|]. split; [discriminate|]. intros _ K. congruence.
        - assert (T6 : s_trace s6 = EvCleared ByStatus :: EvEval x d (Dict a) :: s_trace s4).
          { unfold s6, answered. unfold good in Eg. rewrite Eg. reflexivity. }
          exists [EvCleared ByStatus; EvCleared ByStatus]. split; [rewrite T6; reflexivity|].
          split; [repeat constructor|]. split; [|exact I]. split; [split; [exact RE|]|exact I].
          split; [congruence|]. split; [discriminate|]. auto. }
      destruct T7 as (l & T7 & Ql & Rl & Hl).
      assert (P7 : pl s7).
      { destruct A as [A1 A2 [A3 A3'] A4 A5]. constructor.
        - exact B4.
        - rewrite T7, (costs_quiet _ _ _ Ql).
          change (costs G (EvEval x d (Dict a) :: s_trace s4)) with
            ((match user_value (Dict a) with Some v => [cost G v] | None => [] end) ++ costs G (s_trace s4)).
          rewrite UV, Eco. unfold s7. rewrite plain_best. unfold better. rewrite B1, B5.
          apply (is_best_cons NO). apply P.
        - rewrite T7, (log_rev_quiet _ _ Ql), log_rev_call, UV, SU. unfold s7. rewrite plain_foms, plain_iters.
          rewrite B5, B7, B8, B9. destruct (good (status_of a)); cbn.
          + rewrite !map_app, A3, A3'. cbn. rewrite (factor_cost NS), (cost_cost NS), Ecl. auto.
          + rewrite app_nil_r. auto.
        - now rewrite T7.
        - rewrite T7. apply unreached_app; [exact Ql|]. split; [exact A5|]. now apply (RC evs). }
      assert (H7 : headed (s_trace s7)) by now rewrite T7.
      constructor; auto.
      + now apply (pl_pre _ _ _ P8).
      + now apply (headed_pre _ _ _ P8).
      + apply (valued_pre _ _ _ P8). rewrite T7. apply valued_app; [exact Ql|]. constructor; [|exact C].
        cbn [valued]. congruence.
  Qed.

  Lemma plive_quiet s t e : s_trace t = e :: s_trace s -> dull e -> live G t ->
    re_step (s_re t) = re_step (s_re s) -> s_best t = s_best s -> s_iter_list t = s_iter_list s ->
    s_fom_list t = s_fom_list s -> plive s -> plive t.
  Proof. intros. apply (plive_ext s t [e]); auto. Qed.
  Lemma plive_same s t : s_trace t = s_trace s -> live G t -> re_step (s_re t) = re_step (s_re s) -> s_best t = s_best s ->
    s_iter_list t = s_iter_list s -> s_fom_list t = s_fom_list s -> plive s -> plive t.
  Proof. intros. apply (plive_ext s t []); auto. Qed.

  Lemma plain_closed : closed G W plive pend.
  Proof.
    pose proof (core_closed G W) as CC. pose proof no_adjust as NA.
    constructor.
    - apply plive_pend.
    - intros g s H. apply (plive_same s); auto. apply (cl_cnt _ _ _ _ CC), H.
    - intros g s H. apply (plive_same s); auto. apply (cl_sc _ _ _ _ CC), H.
    - intros g s H. apply (plive_same s); auto. apply (cl_reason _ _ _ _ CC), H.
    - intros s H. apply (plive_quiet s _ (EvCleared ByAsync)); auto; [split; exact I|]. apply (cl_clear _ _ _ _ CC), H.
    - intros s H. apply (plive_same s); auto; [apply (cl_re0 _ _ _ _ CC), H|]. cbn. symmetry. apply H.
    - intros g s A. now apply NA in A.
    - intros g s A. now apply NA in A.
    - intros g s H. apply (plive_same s); auto. apply (cl_book _ _ _ _ CC), H.
    - intros g s H. apply (plive_same s); auto. apply (cl_record _ _ _ _ CC), H.
    - intros g s D H. apply (plive_same s); auto. apply (cl_best_xx _ _ _ _ CC), H. exact D.
    - intros g s H. apply (plive_same s); auto. apply (cl_controls _ _ _ _ CC), H.
    - intros d s H. apply (plive_quiet s _ (EvGrad d)); auto; [split; exact I|]. apply (cl_grad _ _ _ _ CC), H.
    - intros g s A. now apply NA in A.
    - intros g s A. now apply NA in A.
    - intros x it s H K. now apply plain_ask.
    - intros x it A. now apply NA in A.
  Qed.

  Lemma new_state_plive s : new_state G W = Ok s -> plive s.
  Proof.
    intros H. pose proof (new_state_live G W s H) as L. unfold new_state in H.
    apply rbind_ok in H as (c & _ & H). injection H as <-.
    constructor; auto; [|exact I|constructor]. constructor; cbn; auto. split; [now left|intros v []].
  Qed.

  (** facts about the final state of a run *)
  Definition pfinal (r : res unit) (s : st) : Prop :=
    match r with
    | Ok _ => pl s /\ Forall valued (s_trace s) /\ headed (s_trace s)
    | Err e => pend e s
    end.

  Theorem plain_optimise r s : optimise G W = Ok (r, s) -> pfinal r s.
  Proof.
    apply (keeps_optimise G W plive pend pfinal r s); auto.
    - apply plain_closed.
    - apply new_state_plive.
    - intros t u H. apply (plive_same u); auto. destruct (q_live _ H) as [[A B C D E] F K].
      constructor; [constructor|..]; assumption.
    - intros f o u H _ _. destruct H as [L P H V].
      assert (D : Forall dull [EvLogged f o; EvFinal f]) by (repeat constructor).
      split; [|split].
      + apply (pl_ext u _ [EvLogged f o; EvFinal f]); auto.
      + now apply (valued_app [EvLogged f o; EvFinal f] (s_trace u) (dull_quiet _ D)).
      + exact I.
  Qed.
  Corollary plain_pl r s : optimise G W = Ok (r, s) -> pl s.
  Proof. intros H. apply plain_optimise in H. destruct r; [apply H|apply (x_pl _ _ H)]. Qed.
End Plain.
