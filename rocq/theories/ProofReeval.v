(** Re-evaluation of candidates and drift compensation. *)
From Coq Require Import Reals Lra Classical_Prop String ZArith List Bool Lia.
From Flocq Require Raux.
From RecordUpdate Require Import RecordSet.
From Verif Require Import Num NumFacts Py PyFacts ModelPulse ModelControls ModelLinalg ModelState ModelSearch ModelRun SpecRun
  ProofSim ProofSimRun ProofRoutine ProofRespond ProofCore ProofHistory ProofPlain ProofSuper.
Import ListNotations RecordSetNotations.
Open Scope list_scope.
Open Scope bool_scope.
Open Scope run_scope.

Section Sums.
  Context {N : Num} (NX : NumExact N).

  Lemma nadd_0_l a : (of_Z 0 + a)%num = a.
  Proof. now rewrite (nadd_comm _ NX), (nadd_0 _ NX). Qed.
  Lemma fold_total l : forall a, fold_left nadd l a = (a + total l)%num.
  Proof.
    induction l as [|b l IH]; intros a; cbn; [now rewrite (nadd_0 _ NX)|].
    now rewrite IH, (nadd_assoc _ NX).
  Qed.
  Lemma nsum_total l : nsum l = total l.
  Proof. unfold nsum. now rewrite fold_total, nadd_0_l. Qed.
  Lemma nmean_average l : nmean l = average l.
  Proof. unfold nmean, average. now rewrite nsum_total. Qed.
  Lemma total_app l m : total (l ++ m) = (total l + total m)%num.
  Proof.
    induction l as [|a l IH]; [cbn; now rewrite nadd_0_l|].
    change (total ((a :: l) ++ m)) with (a + total (l ++ m))%num. rewrite IH. cbn. now rewrite (nadd_assoc _ NX).
  Qed.
  Lemma total_zeros n : total (zeros n) = of_Z 0.
  Proof. induction n as [|n IH]; [reflexivity|]. change (total (zeros (S n))) with (of_Z 0 + total (zeros n))%num. now rewrite IH, (nadd_0 _ NX). Qed.
  Lemma total_padded l n : nsum (l ++ zeros n) = total l.
  Proof. now rewrite nsum_total, total_app, total_zeros, (nadd_0 _ NX). Qed.
  Lemma wiped l : map (fun y => (of_Z 0 * y)%num) l = zeros (length l).
  Proof. induction l as [|a l IH]; [reflexivity|]. cbn. rewrite (nmul_0 _ NX). unfold zeros in IH. now rewrite IH. Qed.
End Sums.

Lemma set_next {A} (l : list A) (z v : A) n : set_nth (l ++ repeat z (S n)) (length l) v = (l ++ [v]) ++ repeat z n.
Proof. induction l as [|a l IH]; [reflexivity|]. cbn. f_equal. exact IH. Qed.

Lemma py_nth_last {A} (l : list A) a : py_nth (l ++ [a]) (-1) = Ok a.
Proof.
  unfold py_nth. change (-1 <? 0)%Z with true. cbv iota zeta. rewrite app_length. change (length [a]) with 1.
  replace (-1 + Z.of_nat (length l + 1))%Z with (Z.of_nat (length l)) by lia.
  assert (E1 : (Z.of_nat (length l) <? 0)%Z = false) by (apply Z.ltb_ge; lia).
  assert (E2 : (Z.of_nat (length l + 1) <=? Z.of_nat (length l))%Z = false) by (apply Z.leb_gt; lia).
  rewrite E1, E2, Nat2Z.id, nth_error_app2, Nat.sub_diag by lia. reflexivity.
Qed.

Section Reply.
  Context {N : Num} (G : settings).

  (** value logged for an evaluation, given the values [l] obtained before for the same candidate *)
  Definition logged_average (l : list num) (v : num) : num :=
    match length l with
    | O => v
    | S k => ((nmean l * of_Z (Z.of_nat k) + v) / of_Z (Z.of_nat (S k)))%num
    end.
  Definition tests_so_far (s : st) : list num := firstn (re_step (s_re s)) (re_fom (s_re s)).

  Definition sent_value (s : st) : num :=
    match g_kind G with KdCRAB => logged_average (tests_so_far s) (s_fom s) | _ => s_fom s end.
  Definition replied (d : delivered) (c : Z) (s : st) : st :=
    s <|s_std := match s_std s with Some v => Some v | None => Some (of_Z 1) end|>
      <|s_fom_list := if good c then s_fom_list s ++ [(factor G * logged_average (tests_so_far s) (s_fom s))%num] else s_fom_list s|>
      <|s_iter_list := if good c then s_iter_list s ++ [s_iter s] else s_iter_list s|>
      <|s_running := if good c then s_running s else false|>
      <|s_trace := if good c
                   then EvPlot (s_iter s) (sent_value s) ::
                        (if s_is_record s then [EvSave (mk_saved d (sent_value s) None (super_of G s) (s_iter s) (Some c))] else [])
                        ++ s_trace s
                   else EvCleared ByStatus :: s_trace s|>.

  Lemma replied_trace d c s : s_trace (replied d c s) =
    if good c
    then EvPlot (s_iter s) (sent_value s) ::
         (if s_is_record s then [EvSave (mk_saved d (sent_value s) None (super_of G s) (s_iter s) (Some c))] else []) ++ s_trace s
    else EvCleared ByStatus :: s_trace s.
  Proof. reflexivity. Qed.
  Lemma replied_foms d c s : s_fom_list (replied d c s) =
    if good c then s_fom_list s ++ [(factor G * logged_average (tests_so_far s) (s_fom s))%num] else s_fom_list s.
  Proof. reflexivity. Qed.

  Lemma average_now s : re_step (s_re s) <= length (re_fom (s_re s)) -> exists sd,
    get_average None s = (Ok (logged_average (tests_so_far s) (s_fom s), sd),
                          s <|s_std := match s_std s with Some v => Some v | None => Some (of_Z 1) end|>).
  Proof.
    intros L. unfold get_average. rewrite bind_get. cbv beta zeta.
    assert (L2 : length (tests_so_far s) = re_step (s_re s)) by (unfold tests_so_far; rewrite firstn_length; lia).
    assert (K : exists sd, std_default s = (Ok sd, s <|s_std := match s_std s with Some v => Some v | None => Some (of_Z 1) end|>)).
    { unfold std_default. rewrite bind_get. cbv beta. destruct s as [? ? ? ? ? ? sd]. cbn. destruct sd; eexists; reflexivity. }
    destruct K as (sd & K). unfold logged_average. rewrite L2. unfold tests_so_far.
    destruct (re_step (s_re s)) as [|k]; rewrite (bind_ok _ _ _ _ _ K); eexists; reflexivity.
  Qed.

  Lemma respond_again ps d c s : has_dsm G = true -> g_steps G = Some ps -> re_step (s_re s) <= length (re_fom (s_re s)) ->
    s_sent s = Some d -> s_status s = Some c -> respond G s = (Ok tt, replied d c s).
  Proof.
    intros D Es L Ed Ec. unfold respond. rewrite Es. destruct (average_now s L) as (sd & A).
    unfold replied, sent_value. set (v := logged_average (tests_so_far s) (s_fom s)) in *. clearbody v.
    unfold super_of. destruct (g_kind G) eqn:EK; try (unfold has_dsm in D; rewrite EK in D; discriminate).
    - rewrite (bind_ok _ _ _ _ _ A). clear A. cbv beta iota.
      destruct s. cbn in Ed, Ec. subst. unfold good.
      lazy -[Z.eqb factor app re_step num nltb nleb of_Z nmul];
      destruct (Z.eqb c 0) eqn:Ec; lazy -[Z.eqb factor app re_step num nltb nleb of_Z nmul]; rewrite ?Ec;
      [destruct s_is_record|]; reflexivity.
    - rewrite bind_get. cbv beta zeta.
      assert (A2 : (' (avg, _) <- get_average None;; log_fom G avg) s = log_fom G v (s <|s_std := match s_std s with Some v => Some v | None => Some (of_Z 1) end|>))
        by now rewrite (bind_ok _ _ _ _ _ A).
      unfold bind at 1. rewrite A2. clear A A2.
      destruct s. cbn in Ed, Ec. subst. unfold good.
      lazy -[Z.eqb factor app re_step num nltb nleb of_Z nmul];
      destruct (Z.eqb c 0) eqn:Ec; lazy -[Z.eqb factor app re_step num nltb nleb of_Z nmul]; rewrite ?Ec;
      [destruct s_is_record|]; reflexivity.
  Qed.
End Reply.

Section Again.
  Context {N : Num} (NS : NumSign N) (G : settings) (W : world) (ps0 : list num).
  Hypothesis D : has_dsm G = true.
  Hypothesis ES : g_steps G = Some ps0.


  (** one evaluation, or none because the run is stopped *)
  Inductive one (x : vec) (s s' : st) (new : list event) : num -> Prop :=
  | one_refused : no_call new -> s_running s' = false -> s_fom_list s' = s_fom_list s ->
      (s_iter s' = s_iter s \/ s_iter s' = S (s_iter s)) ->
      ((s_xx s' = s_xx s /\ s_sent s' = s_sent s) \/ (s_xx s' = Some x /\ exists d, s_sent s' = Some d)) -> saves new = [] -> one x s s' new ceiling
  | one_value d a v l1 l2 : new = l1 ++ EvEval x d a :: l2 -> no_call l1 -> no_call l2 -> s_running s = true ->
      user_value a = Some v -> s_xx s' = Some x -> s_iter s' = S (s_iter s) -> s_std s' = Some (spread a) -> s_sent s' = Some d ->
      s_fom_list s' = s_fom_list s ++ (if success a then [cost G (logged_average (tests_so_far s) (cost G v))] else []) ->
      (s_is_record s = false -> saves new = []) ->
      one x s s' new (cost G v).
  Record kept (s s' : st) : Prop := mk_kept {
    ke_best : s_best s' = s_best s;
    ke_best_xx : s_best_xx s' = s_best_xx s;
    ke_record : s_is_record s' = s_is_record s;
    ke_re : s_re s' = s_re s;
    ke_run : s_running s' = true -> s_running s = true
  }.

  Lemma saves_quiet l : Forall check_event l -> saves l = [].
  Proof. induction 1 as [|e l He _ IH]; [reflexivity|]. destruct e; cbn in *; tauto. Qed.
  Lemma saves_app l m : saves (l ++ m) = saves l ++ saves m.
  Proof. apply flat_map_app. Qed.
  Lemma no_call_2 l l' : no_call (l ++ l') <-> no_call l /\ no_call l'.
  Proof.
    unfold no_call. split.
    - intros H. split; intros x d a K; apply (H x d a), in_or_app; auto.
    - intros [H K] x d a J. apply in_app_or in J as [J|J]; [eapply H|eapply K]; eauto.
  Qed.
  Lemma check_no_call l : Forall check_event l -> no_call l.
  Proof. intros H x d a K. rewrite Forall_forall in H. exact (H _ K). Qed.

  Lemma routine_again x it s y s' : re_step (s_re s) <= length (re_fom (s_re s)) -> routine_call G W x it s = (Ok y, s') ->
    exists new, s_trace s' = new ++ s_trace s /\ kept s s' /\ one x s s' new y.
  Proof.
    intros L H. apply routine_cases in H.
    inversion H as [s1 evs P R1| |  |s1 evs c d s3 evs3 P1 MS HH P3 R3 EV3| |
                   |a v s1 evs c d s3 s4 s7 s8 evs8 P1 MS HH P3 P4 EA EV ER P8 A8]; subst.
    - pose proof (p_calm _ _ _ P) as C. exists evs. split; [apply P|]. split.
      + constructor; try (rewrite C; reflexivity). congruence.
      + apply one_refused; auto; [exact (check_no_call _ (p_evs _ _ _ P))|exact (f_equal s_fom_list C)|left; exact (f_equal s_iter C)|left; split; [exact (f_equal s_xx C)|exact (f_equal s_sent C)]|].
        apply saves_quiet, P.
    - pose proof (p_calm _ _ _ P1) as C1. pose proof (p_calm _ _ _ P3) as C3.
      exists ([EvCleared ByAsync] ++ evs). split; [|split].
      + rewrite (p_trace _ _ _ P3). cbn. now rewrite (p_trace _ _ _ P1).
      + constructor; try (rewrite C3; cbn; rewrite C1; reflexivity). congruence.
      + apply one_refused; auto.
        * apply (proj2 (no_call_2 [_] evs)). split; [intros ? ? ? [K|[]]; discriminate|exact (check_no_call _ (p_evs _ _ _ P1))].
        * rewrite (f_equal s_fom_list C3). cbn. exact (f_equal s_fom_list C1).
        * right. rewrite (f_equal s_iter C3). cbn. f_equal. exact (f_equal s_iter C1).
        * right. rewrite (f_equal s_xx C3), (f_equal s_sent C3). cbn. eauto.
        * cbn. apply saves_quiet, P1.
    - apply polled_pre in P4 as (ev4 & P4 & Hev4).
      pose proof (p_calm _ _ _ P1) as C1. pose proof (p_calm _ _ _ P3) as C3. pose proof (p_calm _ _ _ P4) as C4.
      pose proof (p_calm _ _ _ P8) as C8.
      set (s6 := answered G v a (asked x d (Dict a) s4)) in *.
      assert (F4 : forall A (g : st -> A), (forall s b r l q k, g (s <|s_running := b|> <|s_reason := r|> <|s_trace := l|> <|s_sc := q|> <|s_cnt := k|>) = g s) ->
                     g s4 = g (handed c d (started x it s1))).
      { intros A g Hg. rewrite C4, Hg, C3, Hg. reflexivity. }
      assert (F8 : forall A (g : st -> A), (forall s b r l q k, g (s <|s_running := b|> <|s_reason := r|> <|s_trace := l|> <|s_sc := q|> <|s_cnt := k|>) = g s) ->
                     g s' = g s7).
      { intros A g Hg. rewrite C8, Hg. reflexivity. }
      assert (F1 : forall A (g : st -> A), (forall s b r l q k, g (s <|s_running := b|> <|s_reason := r|> <|s_trace := l|> <|s_sc := q|> <|s_cnt := k|>) = g s) ->
                     g s1 = g s).
      { intros A g Hg. rewrite C1, Hg. reflexivity. }
      assert (S6 : s_status s6 = Some (status_of a)) by (unfold s6, answered; destruct (_ =? 0)%Z; reflexivity).
      assert (D6 : s_sent s6 = Some d).
      { unfold s6, answered. transitivity (s_sent s4); [destruct (_ =? 0)%Z; reflexivity|]. rewrite (F4 _ s_sent); reflexivity. }
      assert (E6 : s_re s6 = s_re s).
      { unfold s6, answered. transitivity (s_re s4); [destruct (_ =? 0)%Z; reflexivity|]. rewrite (F4 _ s_re) by reflexivity. apply (F1 _ s_re). reflexivity. }
      rewrite (respond_again G ps0 d (status_of a) s6 D ES) in ER by (auto; rewrite E6; exact L). injection ER as <-.
      assert (T6 : exists l, Forall check_event l /\ s_trace s6 = l ++ EvEval x d (Dict a) :: s_trace s4 /\ (status_of a = 0%Z -> l = [])).
      { unfold s6, answered. destruct (_ =? 0)%Z eqn:EZ; [exists []|exists [EvCleared ByStatus]]; repeat split; repeat constructor.
        intros K. rewrite K in EZ. discriminate. }
      destruct T6 as (l6 & Q6 & T6 & Z6).
      assert (T7 : exists l, no_call l /\ s_trace (replied G d (status_of a) s6) = l ++ s_trace s6 /\ (s_is_record s = false -> saves l = [])).
      { rewrite replied_trace. assert (IR : s_is_record s6 = s_is_record s).
        { unfold s6, answered. transitivity (s_is_record s4); [destruct (_ =? 0)%Z; reflexivity|].
          rewrite (F4 _ s_is_record) by reflexivity. apply (F1 _ s_is_record). reflexivity. }
        rewrite IR. destruct (good (status_of a)); [|exists [EvCleared ByStatus]; split; [intros ? ? ? [K|[]]; discriminate|split; reflexivity]].
        destruct (s_is_record s).
        - match goal with |- context [?e1 :: [?e2] ++ s_trace s6] => exists [e1; e2] end.
          split; [intros ? ? ? [K|[K|[]]]; discriminate|]. split; [reflexivity|discriminate].
        - match goal with |- context [?e1 :: [] ++ s_trace s6] => exists [e1] end.
          split; [intros ? ? ? [K|[]]; discriminate|]. split; [reflexivity|reflexivity]. }
      destruct T7 as (l7 & Q7 & T7 & V7).
      exists ((evs8 ++ l7 ++ l6) ++ EvEval x d (Dict a) :: ev4 ++ [] ++ evs). split; [|split].
      + rewrite (p_trace _ _ _ P8), T7, T6, (p_trace _ _ _ P4), (p_trace _ _ _ P3). cbn. rewrite (p_trace _ _ _ P1).
        now rewrite <- !app_assoc, <- app_comm_cons, <- !app_assoc.
      + constructor.
        * rewrite (F8 _ s_best) by reflexivity. change (s_best s6 = s_best s). unfold s6, answered.
          transitivity (s_best s4); [destruct (_ =? 0)%Z; reflexivity|]. rewrite (F4 _ s_best) by reflexivity. apply (F1 _ s_best). reflexivity.
        * rewrite (F8 _ s_best_xx) by reflexivity. change (s_best_xx s6 = s_best_xx s). unfold s6, answered.
          transitivity (s_best_xx s4); [destruct (_ =? 0)%Z; reflexivity|]. rewrite (F4 _ s_best_xx) by reflexivity. apply (F1 _ s_best_xx). reflexivity.
        * rewrite (F8 _ s_is_record) by reflexivity. change (s_is_record s6 = s_is_record s). unfold s6, answered.
          transitivity (s_is_record s4); [destruct (_ =? 0)%Z; reflexivity|]. rewrite (F4 _ s_is_record) by reflexivity. apply (F1 _ s_is_record). reflexivity.
        * rewrite (F8 _ s_re) by reflexivity. exact E6.
        * intros _. apply MS.
      + assert (UV : user_value (Dict a) = Some v) by (cbn; now rewrite EV).
        assert (FO : s_fom s' = cost G v).
        { rewrite (F8 _ s_fom) by reflexivity. change (s_fom s6 = cost G v). unfold s6, answered.
          transitivity (factor G * v)%num; [destruct (_ =? 0)%Z; reflexivity|apply (factor_cost NS)]. }
        rewrite FO. eapply (one_value x s s' _ d (Dict a) v); [reflexivity|..]; auto.
        * rewrite no_call_2, no_call_2. split; [exact (check_no_call _ (p_evs _ _ _ P8))|]. split; [exact Q7|exact (check_no_call _ Q6)].
        * cbn [app]. apply no_call_2. split; [exact (check_no_call _ (p_evs _ _ _ P4))|exact (check_no_call _ (p_evs _ _ _ P1))].
        * apply MS.
        * rewrite (F8 _ s_xx) by reflexivity. change (s_xx s6 = Some x). unfold s6, answered.
          transitivity (s_xx s4); [destruct (_ =? 0)%Z; reflexivity|]. rewrite (F4 _ s_xx) by reflexivity. reflexivity.
        * rewrite (F8 _ s_iter) by reflexivity. change (s_iter s6 = S (s_iter s)). unfold s6, answered.
          transitivity (s_iter s4); [destruct (_ =? 0)%Z; reflexivity|]. rewrite (F4 _ s_iter) by reflexivity. cbn. f_equal. exact (f_equal s_iter C1).
        * rewrite (F8 _ s_std) by reflexivity. unfold replied, s6, answered, spread. destruct (_ =? 0)%Z; cbn; destruct (a_std a); reflexivity.
        * rewrite (F8 _ s_sent) by reflexivity. exact D6.
        * rewrite (F8 _ s_fom_list) by reflexivity. rewrite replied_foms.
          assert (FL : s_fom_list s6 = s_fom_list s).
          { unfold s6, answered. transitivity (s_fom_list s4); [destruct (_ =? 0)%Z; reflexivity|].
            rewrite (F4 _ s_fom_list) by reflexivity. apply (F1 _ s_fom_list). reflexivity. }
          assert (TS : tests_so_far s6 = tests_so_far s) by (unfold tests_so_far; now rewrite E6).
          assert (F6 : s_fom s6 = cost G v) by (rewrite <- (factor_cost NS); unfold s6, answered; destruct (_ =? 0)%Z; reflexivity).
          rewrite FL, TS, F6, (factor_cost NS). unfold good, status_of, success. destruct (a_status a) as [cc|]; [|reflexivity].
          destruct (cc =? 0)%Z; [reflexivity|now rewrite app_nil_r].
        * intros IR. rewrite !saves_app. cbn [saves flat_map app]. fold (saves (ev4 ++ evs)). rewrite saves_app.
          rewrite (saves_quiet evs8), (saves_quiet l6), (saves_quiet ev4), (saves_quiet evs), (V7 IR); auto; [apply P1|apply P4|apply P8].
  Qed.

  Context (NX : NumExact N).

  Lemma logged_reading l v : logged_average l v = reading l v.
  Proof. unfold logged_average, reading. destruct (length l); [reflexivity|]. now rewrite (nmean_average NX). Qed.
  Lemma readings_app e l v : readings G e (l ++ [v]) = readings G e l ++ [cost G (reading (e ++ l) v)].
  Proof.
    revert e. induction l as [|a l IH]; intros e; cbn; [now rewrite app_nil_r|].
    rewrite IH. now rewrite <- app_assoc.
  Qed.


  (** since [s0], the candidate [x] got the values [vs], of which the last [k] are due to the stop of the run *)
  Record testing0 (x : vec) (s0 s : st) (new : list event) (vs ss rest : list num) (k : nat) : Prop := mk_testing0 {
    tg_trace : s_trace s = new ++ s_trace s0;
    tg_best : s_best s = s_best s0;
    tg_best_xx : s_best_xx s = s_best_xx s0;
    tg_record : s_is_record s = false;
    tg_sigma : re_best_sigma (s_re s) = re_best_sigma (s_re s0);
    tg_len : length ss = length vs;
    tg_vs : vs = costs G (rev new) ++ repeat ceiling k;
    tg_stop : k <> 0 -> s_running s = false;
    tg_ss : ss = spreads (rev new) ++ rest;
    tg_same : forall x' d a, In (EvEval x' d a) new -> x' = x;
    tg_calls : calls new = length (costs G (rev new));
    tg_called : calls new <> 0 -> s_xx s = Some x /\ exists d, s_sent s = Some d;
    tg_sent : calls new <> 0 -> k = 0 -> exists l1 d a l2, new = l1 ++ EvEval x d a :: l2 /\ no_call l1 /\ s_sent s = Some d;
    tg_saves : saves new = [];
    tg_log : all_success new -> s_fom_list s = s_fom_list s0 ++ readings G [] (costs G (rev new));
    tg_first : k = 0 -> s_iter s = s_iter s0 + calls new
  }.
  (** the arrays of the algorithm hold these values *)
  Record testing (x : vec) (s0 s : st) (new : list event) (vs ss rest : list num) (k m : nat) : Prop := mk_testing {
    tg_0 : testing0 x s0 s new vs ss rest k;
    tg_fom : re_fom (s_re s) = vs ++ zeros m;
    tg_std : re_sigma (s_re s) = ss ++ zeros m;
    tg_step : re_step (s_re s) = length vs
  }.

  Lemma calls_app_gen (l m : list event) : calls (l ++ m) = calls l + calls m.
  Proof. unfold calls. now rewrite filter_app, app_length. Qed.
  Lemma no_call_calls l : no_call l -> calls l = 0.
  Proof.
    intros H. unfold calls. induction l as [|e l IH]; [reflexivity|]. cbn. destruct e; cbn;
      try (apply IH; intros x' d' a' K; exact (H x' d' a' (or_intror K))).
    exfalso. eapply H. now left.
  Qed.
  Lemma no_call_costs l : no_call l -> costs G (rev l) = [].
  Proof.
    intros H. induction l as [|e l IH]; [reflexivity|]. cbn [rev]. rewrite costs_app, IH by (intros x' d' a' K; exact (H x' d' a' (or_intror K))).
    destruct e; cbn; try reflexivity. exfalso. eapply H. now left.
  Qed.
  Lemma spreads_app l m : spreads (l ++ m) = spreads l ++ spreads m.
  Proof. apply flat_map_app. Qed.
  Lemma no_call_spreads l : no_call l -> spreads (rev l) = [].
  Proof.
    intros H. induction l as [|e l IH]; [reflexivity|]. cbn [rev]. rewrite spreads_app, IH by (intros x' d' a' K; exact (H x' d' a' (or_intror K))).
    destruct e; cbn; try reflexivity. exfalso. eapply H. now left.
  Qed.
  Lemma all_success_app l m : all_success (l ++ m) -> all_success l /\ all_success m.
  Proof. intros H. split; intros x d a K; apply (H x d a), in_or_app; auto. Qed.

  Lemma store_cases i y s : i < length (re_fom (s_re s)) -> i < length (re_sigma (s_re s)) ->
    exists sd, (forall v, s_std s = Some v -> sd = v) /\
    store_test i y s = (Ok tt, s <|s_std := Some sd|> <|s_re := mk_re (S (re_step (s_re s))) (set_nth (re_fom (s_re s)) i y)
                                     (set_nth (re_sigma (s_re s)) i sd) (re_best_sigma (s_re s))|>).
  Proof.
    intros L1 L2. destruct s as [? ? ? ? ? ? sd ? ? ? ? ? ? ? ? ? ? ? ? [? ? ? ?]]. cbn in L1, L2. destruct sd as [sd|].
    - exists sd. split; [intros v K; injection K as <-; reflexivity|].
      unfold store_test, bind, get, lift, upd, std_default, bind, get, ret. cbn.
      rewrite !py_set_nonneg by assumption. reflexivity.
    - exists (of_Z 1). split; [discriminate|].
      unfold store_test, bind, get, lift, upd, std_default, bind, get, ret. cbn.
      rewrite !py_set_nonneg by assumption. reflexivity.
  Qed.

  (** adding one value; the arrays are read before the call and written afterwards *)
  Lemma testing_add x it s0 s new vs ss rest k m y s1 r :
    testing0 x s0 s new vs ss rest k -> tests_so_far s = vs -> re_step (s_re s) <= length (re_fom (s_re s)) ->
    routine_call G W x it s = (Ok y, s1) ->
    (s_re s1 = s_re s -> re_fom r = vs ++ zeros (S m) /\ re_sigma r = ss ++ zeros (S m) /\ re_step r = length vs /\
                         re_best_sigma r = re_best_sigma (s_re s)) ->
    exists s2 new' ss' rest' k', store_test (length vs) y (s1 <|s_re := r|>) = (Ok tt, s2) /\ testing x s0 s2 new' (vs ++ [y]) ss' rest' k' m /\
      firstn (length vs) ss' = ss /\ (exists l, new' = l ++ new) /\
      (s_running s = false -> calls new' = calls new /\ s_running s2 = false).
  Proof.
    intros T TS LT E HR.
    destruct (routine_again x it s y s1 LT E) as (l & TR & [KB KX KR KE KRUN] & O1).
    destruct (HR KE) as (HF & HS & HST & HB). clear HR.
    destruct T as [T1 T2 T3 T4 T5 T9 T10 T11 T12 T13 T14 T15 T15' T16 T17 T18].
    destruct (store_cases (length vs) y (s1 <|s_re := r|>)) as (sd & SD & ST).
    { change (length vs < length (re_fom r)). rewrite HF, app_length. unfold zeros. rewrite repeat_length. lia. }
    { change (length vs < length (re_sigma r)). rewrite HS, app_length, T9. unfold zeros. rewrite repeat_length. lia. }
    change (s_re (s1 <|s_re := r|>)) with r in ST. rewrite HF, HS, HST, HB in ST.
    unfold zeros in ST. rewrite set_next in ST.
    replace (set_nth (ss ++ repeat (of_Z 0) (S m)) (length vs) sd) with ((ss ++ [sd]) ++ repeat (of_Z 0) m) in ST
      by (rewrite <- T9; symmetry; apply set_next).
    assert (FN : firstn (length vs) (ss ++ [sd]) = ss) by (rewrite <- T9, firstn_app, Nat.sub_diag, firstn_all; cbn; apply app_nil_r).
    destruct O1 as [NC R1 FL IT XS SV|d a v l1 l2 EN N1 N2 R0 UV X1 I1 S1 D1 FL SV].
    - eexists. exists (l ++ new), (ss ++ [sd]), (rest ++ [sd]), (S k). split; [exact ST|]. split; [|split; [exact FN|split; [eauto|intros _; split; [|exact R1]; now rewrite calls_app_gen, (no_call_calls _ NC)]]].
      pose proof (no_call_calls _ NC) as C0. pose proof (no_call_costs _ NC) as C1. pose proof (no_call_spreads _ NC) as C2.
      split; [|reflexivity|reflexivity|cbn; rewrite app_length; cbn; lia].
      constructor; cbn.
      + now rewrite TR, T1, app_assoc.
      + congruence.
      + congruence.
      + congruence.
      + exact T5.
      + rewrite !app_length. cbn. lia.
      + rewrite rev_app_distr, costs_app, C1, app_nil_r. rewrite T10 at 1. rewrite <- app_assoc. f_equal. symmetry. exact (repeat_cons k ceiling).
      + intros _. exact R1.
      + rewrite rev_app_distr, spreads_app, C2, app_nil_r. rewrite T12 at 1. now rewrite <- app_assoc.
      + intros x' d a K. apply in_app_or in K as [K|K]; [exfalso; exact (NC _ _ _ K)|eauto].
      + now rewrite calls_app_gen, C0, rev_app_distr, costs_app, C1, app_nil_r.
      + rewrite calls_app_gen, C0. cbn. intros K. specialize (T15 K). destruct XS as [[-> ->]|XS]; [exact T15|exact XS].
      + discriminate.
      + now rewrite saves_app, SV.
      + intros K. apply all_success_app in K as [_ K]. now rewrite FL, rev_app_distr, costs_app, C1, app_nil_r, T17.
      + discriminate.
    - assert (k = 0) as -> by (destruct k; [reflexivity|]; rewrite T11 in R0; [discriminate|lia]).
      cbn [repeat] in T10. rewrite app_nil_r in T10.
      assert (sd = spread a) as -> by (apply SD; exact S1).
      subst l. destruct rest as [|r0 rest].
      2: { exfalso. assert (length (spreads (rev new)) = length (costs G (rev new))).
           { clear. induction (rev new) as [|e l IH]; [reflexivity|]. unfold spreads, costs in *. cbn. destruct e; cbn; try exact IH.
             destruct (user_value a); cbn; [f_equal|]; exact IH. }
           assert (LL : length ss = length (spreads (rev new) ++ r0 :: rest)) by now rewrite <- T12.
           rewrite app_length in LL. cbn in LL. assert (length vs = length (costs G (rev new))) by now rewrite <- T10. lia. }
      rewrite app_nil_r in T12.
      eexists. exists ((l1 ++ EvEval x d a :: l2) ++ new), (ss ++ [spread a]), [], 0. split; [exact ST|].
      assert (C0 : calls ((l1 ++ EvEval x d a :: l2) ++ new) = S (calls new)).
      { rewrite !calls_app_gen. change (calls (EvEval x d a :: l2)) with (S (calls l2)). rewrite (no_call_calls _ N1), (no_call_calls _ N2). reflexivity. }
      assert (C1 : costs G (rev ((l1 ++ EvEval x d a :: l2) ++ new)) = vs ++ [cost G v]).
      { rewrite rev_app_distr, rev_app_distr, !costs_app. cbn [rev]. rewrite costs_app, (no_call_costs _ N1), (no_call_costs _ N2), <- T10.
        cbn. rewrite UV. cbn. reflexivity. }
      split; [|split; [exact FN|split; [eauto|congruence]]].
      split; [|reflexivity|reflexivity|cbn; rewrite app_length; cbn; lia].
      constructor; cbn.
      + rewrite TR, T1. now rewrite <- !app_assoc.
      + congruence.
      + congruence.
      + congruence.
      + exact T5.
      + rewrite !app_length. cbn. lia.
      + now rewrite C1, app_nil_r.
      + congruence.
      + rewrite rev_app_distr, rev_app_distr, !spreads_app. cbn [rev]. rewrite spreads_app, (no_call_spreads _ N1), (no_call_spreads _ N2), <- T12.
        cbn. rewrite UV. cbn. now rewrite app_nil_r.
      + intros x' d' a' K. apply in_app_or in K as [K|K]; [|eauto].
        apply in_app_or in K as [K|[K|K]]; [exfalso; exact (N1 _ _ _ K)|injection K as <- _ _; reflexivity|exfalso; exact (N2 _ _ _ K)].
      + rewrite C0, C1, app_length. cbn. rewrite T14, <- T10. lia.
      + intros _. split; [exact X1|eauto].
      + intros _ _. exists l1, d, a, (l2 ++ new). rewrite <- app_assoc. auto.
      + rewrite saves_app, T16, app_nil_r. now apply SV.
      + intros K. apply all_success_app in K as [K1 K]. rewrite FL, (T17 K), C1, readings_app, <- T10, <- app_assoc.
        rewrite (K1 x d a) by (apply in_or_app; right; now left). rewrite logged_reading. repeat f_equal.
        exact TS.
      + intros _. rewrite I1, C0, T18; [lia|reflexivity].
  Qed.

  Lemma testing_step x it s0 s new vs ss rest k m y s1 :
    testing x s0 s new vs ss rest k (S m) -> routine_call G W x it s = (Ok y, s1) ->
    exists s2 new' ss' rest' k', store_test (length vs) y s1 = (Ok tt, s2) /\ testing x s0 s2 new' (vs ++ [y]) ss' rest' k' m /\
      firstn (length vs) ss' = ss /\ (exists l, new' = l ++ new) /\
      (s_running s = false -> calls new' = calls new /\ s_running s2 = false).
  Proof.
    intros [T F1 F2 F3] E. destruct (testing_add x it s0 s new vs ss rest k m y s1 (s_re s1) T) as (s2 & R); auto.
    - unfold tests_so_far. now rewrite F3, F1, firstn_app, Nat.sub_diag, firstn_all, app_nil_r.
    - rewrite F3, F1, app_length. lia.
    - intros ->. auto.
    - exists s2. replace (s1 <|s_re := s_re s1|>) with s1 in R by (destruct s1; reflexivity). exact R.
  Qed.

  Lemma test_average_now x s0 s new vs ss rest k m : testing x s0 s new vs ss rest k m -> vs <> [] ->
    test_average s = (Ok (average vs, average ss), s).
  Proof.
    intros T NV. unfold test_average. rewrite bind_get. cbv beta. unfold get_average. rewrite bind_get. cbv beta zeta.
    rewrite (tg_fom _ _ _ _ _ _ _ _ _ T), (tg_std _ _ _ _ _ _ _ _ _ T), (tg_step _ _ _ _ _ _ _ _ _ T), !(total_padded NX), !(nmul_1_r _ NX).
    unfold average. rewrite (tg_len _ _ _ _ _ _ _ _ (tg_0 _ _ _ _ _ _ _ _ _ T)). destruct vs; [contradiction|reflexivity].
  Qed.
  Lemma probability_now b sb vs ss : probability W (average vs) (average ss) b sb = confidence W b sb vs ss.
  Proof. reflexivity. Qed.

  Lemma store_full i y s s' : length (re_fom (s_re s)) <= i -> store_test i y s <> (Ok tt, s').
  Proof.
    intros L. unfold store_test. rewrite bind_get. cbv beta. unfold bind, lift, py_set.
    assert (E : (Z.of_nat i <? 0)%Z = false) by (apply Z.ltb_ge; lia). rewrite E, E.
    assert (E2 : (Z.of_nat (length (re_fom (s_re s))) <=? Z.of_nat i)%Z = true) by (apply Z.leb_le; lia). rewrite E2. cbn. discriminate.
  Qed.

  Lemma re_cases x it s0 ps : forall s ii new vs ss rest k m o s',
    testing x s0 s new vs ss rest k m -> length vs = S ii -> re_evaluate G W x it ps ii s = (Ok o, s') ->
    exists l vs2 ss2 rest' k' m', testing x s0 s' (l ++ new) (vs ++ vs2) (ss ++ ss2) rest' k' m' /\
      length vs2 + m' = m /\ length ss2 = length vs2 /\ (s_running s = false -> calls (l ++ new) = calls new) /\
      (forall j p, j < length vs2 -> nth_error ps j = Some p ->
         (confidence W (s_best s0) (re_best_sigma (s_re s0)) (vs ++ firstn j vs2) (ss ++ firstn j ss2) <? p)%num = false) /\
      match o with
      | None => length vs2 = length ps
      | Some mu => mu = average (vs ++ vs2) /\ exists p, nth_error ps (length vs2) = Some p /\
          (confidence W (s_best s0) (re_best_sigma (s_re s0)) (vs ++ vs2) (ss ++ ss2) <? p)%num = true
      end.
  Proof.
    induction ps as [|p ps IH]; intros s ii new vs ss rest k m o s' T L H.
    - cbn in H. injection H as <- <-. exists [], [], [], rest, k, m. rewrite !app_nil_r. cbn. split; [exact T|]. repeat (split; [reflexivity|]). split; [intros j p K; lia|reflexivity].
    - cbn [re_evaluate] in H. assert (NV : vs <> []) by (destruct vs; [discriminate|congruence]).
      rewrite (bind_ok _ _ _ _ _ (test_average_now _ _ _ _ _ _ _ _ _ T NV)), bind_get in H. cbv beta iota in H.
      rewrite probability_now, (tg_best _ _ _ _ _ _ _ _ (tg_0 _ _ _ _ _ _ _ _ _ T)), (tg_sigma _ _ _ _ _ _ _ _ (tg_0 _ _ _ _ _ _ _ _ _ T)) in H.
      destruct (confidence W (s_best s0) (re_best_sigma (s_re s0)) vs ss <? p)%num eqn:EP.
      + injection H as <- <-. exists [], [], [], rest, k, m. rewrite !app_nil_r. cbn. split; [exact T|]. repeat (split; [reflexivity|]). split; [intros j q K; lia|]. split; [reflexivity|]. exists p. auto.
      + apply bind_inv in H as (y & s1 & E1 & H). apply bind_inv in H as ([] & s2 & E2 & H). rewrite <- L in E2.
        destruct m as [|m].
        { exfalso. destruct (routine_again x it s y s1) as (_ & _ & [_ _ _ KE _] & _); [|exact E1|].
          - rewrite (tg_step _ _ _ _ _ _ _ _ _ T), (tg_fom _ _ _ _ _ _ _ _ _ T), app_length. lia.
          - revert E2. apply store_full. rewrite KE, (tg_fom _ _ _ _ _ _ _ _ _ T), app_length. cbn. lia. }
        destruct (testing_step x it s0 s new vs ss rest k m y s1 T E1) as (s2' & new' & ss' & rest' & k' & E2' & T' & FN & (l & ->) & RC).
        rewrite E2 in E2'. injection E2' as <-.
        destruct (IH s2 (S ii) _ _ _ _ _ _ o s' T') as (l' & vs2 & ss2 & rest2 & k2 & m2 & T2 & LM & LS & RC2 & HP & HO).
        { rewrite app_length. cbn. lia. }
        { exact H. }
        assert (exists sd, ss' = ss ++ [sd]) as (sd & ->).
        { pose proof (tg_len _ _ _ _ _ _ _ _ (tg_0 _ _ _ _ _ _ _ _ _ T')) as LL. rewrite app_length in LL. cbn in LL.
          rewrite <- (firstn_skipn (length vs) ss'), FN. assert (LK : length (skipn (length vs) ss') = 1) by (rewrite skipn_length; lia).
          destruct (skipn (length vs) ss') as [|sd [|? ?]]; try discriminate. eauto. }
        exists (l' ++ l), (y :: vs2), (sd :: ss2), rest2, k2, m2.
        rewrite <- !app_assoc in T2. cbn [app] in T2. rewrite <- !app_assoc. split; [exact T2|]. cbn [length].
        split; [lia|]. split; [lia|]. split; [intros R0; destruct (RC R0) as [RC1 RC3]; rewrite <- RC1; exact (RC2 RC3)|]. split.
        * intros [|j] q Hj Hq; cbn in Hq |- *.
          -- injection Hq as <-. now rewrite !app_nil_r.
          -- specialize (HP j q ltac:(lia) Hq). now rewrite <- (app_assoc vs), <- (app_assoc ss) in HP.
        * destruct o as [mu|].
          -- destruct HO as (-> & q & Hq & HC). rewrite <- (app_assoc vs), <- (app_assoc ss) in HC. rewrite <- (app_assoc vs).
             split; [reflexivity|]. exists q. split; [exact Hq|exact HC].
          -- lia.
  Qed.

  Definition half : num := (of_Z 1 / of_Z 2)%num.

  Lemma calls_rev l : calls (rev l) = calls l.
  Proof.
    induction l as [|e l IH]; [reflexivity|]. cbn [rev]. rewrite calls_app_gen, IH.
    change (calls (e :: l)) with (calls ([e] ++ l)). rewrite calls_app_gen. lia.
  Qed.
  Lemma saves_rev l f : saves l = [f] -> saves (rev l) = [f].
  Proof.
    assert (E : forall l, saves (rev l) = rev (saves l)).
    { clear. induction l as [|e l IH]; [reflexivity|]. cbn [rev]. rewrite saves_app, IH. destruct e; cbn; now rewrite ?app_nil_r. }
    intros H. now rewrite E, H.
  Qed.

  Lemma store_iter i y s s' : store_test i y s = (Ok tt, s') -> s_iter s' = s_iter s.
  Proof.
    intros H. unfold store_test in H. rewrite bind_get in H. cbv beta in H. apply bind_inv in H as (q & s1 & E & H). injection E as _ <-.
    rewrite bind_upd in H. cbv beta in H. apply bind_inv in H as (sd & s2 & E2 & H). rewrite bind_get in H. cbv beta in H.
    apply bind_inv in H as (q2 & s3 & E & H). injection E as _ <-. rewrite bind_upd in H. cbv beta in H. injection H as <-. cbn.
    unfold std_default in E2. rewrite bind_get in E2. cbv beta in E2. destruct (s_std _); injection E2 as _ <-; reflexivity.
  Qed.

  (** one candidate *)
  Theorem session x it s y s' : ready ps0 s -> inner_routine_call G W x it None s = (Ok y, s') ->
    exists new vs ss rest k ps, let b := s_best s in let sb := re_best_sigma (s_re s) in
      history s' = history s ++ new /\
      vs = costs G new ++ repeat ceiling k /\ (k <> 0 -> s_running s' = false) /\ ss = spreads new ++ rest /\
      (forall x' d a, In (EvEval x' d a) new -> x' = x) /\ calls new = length (costs G new) /\
      (ps = ps0 \/ ps = [half]) /\ (calls new <> 0 -> ps = if Nat.eqb (s_iter s) 0 then [half] else ps0) /\
      tested W ps b sb vs ss /\ y = average vs /\
      (accepted W ps b sb vs ss ->
         s_best s' = y /\ s_best_xx s' = s_xx s' /\ re_best_sigma (s_re s') = average ss /\
         (calls new <> 0 -> s_xx s' = Some x /\ exists f, saves new = [f] /\ sv_fom f = y /\ sv_sigma f = Some (average ss) /\
            (k = 0 -> exists tr1 d a tr2, new = tr1 ++ EvEval x d a :: tr2 /\ no_call tr2 /\ sv_controls f = d))) /\
      (~ accepted W ps b sb vs ss ->
         s_best s' = s_best s /\ s_best_xx s' = s_best_xx s /\ re_best_sigma (s_re s') = sb /\ saves new = []) /\
      (all_success new -> s_fom_list s' = s_fom_list s ++ readings G [] (costs G new)) /\
      ready ps0 s'.
  Proof.
    intros [RF RS] H. unfold inner_routine_call in H. rewrite bind_upd in H. cbv beta in H.
    set (s0 := set s_re _ _) in H. apply bind_inv in H as (y0 & s1 & E1 & H). rewrite ES, bind_get in H. cbv beta zeta in H.
    rewrite bind_upd in H. cbv beta in H.
    set (r := (s_re s1) <|re_fom ::= map (fun y => (of_Z 0 * y)%num)|> <|re_sigma ::= map (fun y => (of_Z 0 * y)%num)|>).
    change (set s_re _ s1) with (s1 <|s_re := r|>) in H.
    assert (T0 : testing0 x s0 s0 [] [] [] [] 0).
    { constructor; cbn; auto; try lia; try (intros; exfalso; auto; fail). intros _. now rewrite app_nil_r. }
    apply bind_inv in H as ([] & s2 & E2 & H).
    destruct (testing_add x it s0 s0 [] [] [] [] 0 (length ps0) y0 s1 r T0) as (s2' & l & ss & rest & k & E2' & T2 & _ & _ & _).
    { reflexivity. } { cbn. lia. } { exact E1. }
    { intros KE. unfold r. rewrite KE. cbn. rewrite !(wiped NX), RF, RS. auto. }
    change (length (@nil num)) with 0 in E2'. rewrite E2 in E2'. injection E2' as <-. cbn [app] in T2.
    set (ps := if Nat.eqb (s_iter s1) 1 then [(of_Z 1 / of_Z 2)%num] else ps0) in H.
    apply bind_inv in H as (o & s3 & E3 & H).
    destruct (re_cases x it s0 ps s2 0 l [y0] ss rest k (length ps0) o s3 T2 eq_refl E3)
      as (l' & vs2 & ss2 & rest' & k' & m' & T3 & LM & LS & RC & HP & HO).
    assert (LSS : length ss = 1) by exact (tg_len _ _ _ _ _ _ _ _ (tg_0 _ _ _ _ _ _ _ _ _ T2)).
    assert (PS : ps = ps0 \/ ps = [half]) by (unfold ps; destruct (_ =? 1)%nat; auto).
    assert (PS2 : calls (l' ++ l) <> 0 -> ps = if Nat.eqb (s_iter s) 0 then [half] else ps0).
    { intros HC. pose proof (tg_0 _ _ _ _ _ _ _ _ _ T2) as Z2. pose proof (tg_vs _ _ _ _ _ _ _ _ Z2) as V2.
      pose proof (tg_calls _ _ _ _ _ _ _ _ Z2) as C2. destruct k as [|k].
      - cbn [repeat] in V2. rewrite app_nil_r in V2. rewrite <- V2 in C2. cbn in C2.
        pose proof (tg_first _ _ _ _ _ _ _ _ Z2 eq_refl) as I2. rewrite C2, (store_iter _ _ _ _ E2) in I2.
        change (s_iter s1 = s_iter s + 1) in I2. unfold ps. rewrite I2. destruct (s_iter s); [reflexivity|].
        replace (S n + 1) with (S (S n)) by lia. reflexivity.
      - exfalso. apply HC. rewrite RC by (apply (tg_stop _ _ _ _ _ _ _ _ Z2); lia). rewrite C2.
        destruct (costs G (rev l)) as [|c [|? ?]]; [reflexivity|discriminate|discriminate]. }
    pose proof (tg_0 _ _ _ _ _ _ _ _ _ T3) as Z3.
    assert (TE : tested W ps (s_best s) (re_best_sigma (s_re s)) ([y0] ++ vs2) (ss ++ ss2)).
    { constructor.
      - discriminate.
      - rewrite !app_length. cbn. lia.
      - cbn. assert (length vs2 <= length ps); [|lia]. destruct o as [mu|]; [|lia]. destruct HO as (_ & p & Hp & _).
        assert (length vs2 < length ps) by (apply nth_error_Some; congruence). lia.
      - intros j p Hj Hp. specialize (HP j p ltac:(cbn in Hj; lia) Hp).
        change (firstn (S j) ([y0] ++ vs2)) with ([y0] ++ firstn j vs2).
        replace (firstn (S j) (ss ++ ss2)) with (ss ++ firstn j ss2); [exact HP|].
        destruct ss as [|a [|? ?]]; try discriminate. reflexivity.
      - intros j p Hj Hp. cbn in Hj. injection Hj as Hj. destruct o as [mu|].
        + destruct HO as (_ & q & Hq & HC). rewrite Hj in Hq. replace p with q by congruence. exact HC.
        + assert (j < length ps) by (apply nth_error_Some; congruence). lia. }
    assert (RE : forall t, re_fom (s_re t) = re_fom (s_re s3) -> re_sigma (s_re t) = re_sigma (s_re s3) -> ready ps0 t).
    { intros t F1 F2. unfold ready. rewrite F1, F2, (tg_fom _ _ _ _ _ _ _ _ _ T3), (tg_std _ _ _ _ _ _ _ _ _ T3), !app_length.
      unfold zeros. rewrite repeat_length. cbn [length]. split; lia. }
    assert (CH : forall evs, no_call evs -> costs G (rev (evs ++ l' ++ l)) = costs G (rev (l' ++ l))).
    { intros evs NC. now rewrite (rev_app_distr evs), costs_app, (no_call_costs _ NC), app_nil_r. }
    assert (CS : forall evs, no_call evs -> spreads (rev (evs ++ l' ++ l)) = spreads (rev (l' ++ l))).
    { intros evs NC. now rewrite (rev_app_distr evs), spreads_app, (no_call_spreads _ NC), app_nil_r. }
    (* the common part, for a final state that differs from s3 by events without evaluations *)
    assert (CO : forall t evs (P : Prop), s_trace t = evs ++ s_trace s3 -> no_call evs -> s_running t = s_running s3 ->
       s_fom_list t = s_fom_list s3 -> re_fom (s_re t) = re_fom (s_re s3) -> re_sigma (s_re t) = re_sigma (s_re s3) ->
       let new := rev (evs ++ l' ++ l) in
       ((forall x' d a, In (EvEval x' d a) new -> x' = x) -> calls new = calls (l' ++ l) -> P) ->
       history t = history s ++ new /\
       [y0] ++ vs2 = costs G new ++ repeat ceiling k' /\ (k' <> 0 -> s_running t = false) /\ ss ++ ss2 = spreads new ++ rest' /\
       (forall x' d a, In (EvEval x' d a) new -> x' = x) /\ calls new = length (costs G new) /\
       (ps = ps0 \/ ps = [half]) /\ (calls new <> 0 -> ps = if Nat.eqb (s_iter s) 0 then [half] else ps0) /\
       (all_success new -> s_fom_list t = s_fom_list s ++ readings G [] (costs G new)) /\ ready ps0 t /\ P).
    { intros t evs P TT NC RR FF F1 F2 new HPP. unfold new in *.
      assert (CA : calls (rev (evs ++ l' ++ l)) = calls (l' ++ l)) by (rewrite calls_rev, calls_app_gen, (no_call_calls _ NC); reflexivity).
      assert (SX : forall x' d a, In (EvEval x' d a) (rev (evs ++ l' ++ l)) -> x' = x).
      { intros x' d a K. apply in_rev in K. apply in_app_or in K as [K|K]; [exfalso; exact (NC _ _ _ K)|].
        exact (tg_same _ _ _ _ _ _ _ _ Z3 _ _ _ K). }
      split; [|split; [|split; [|split; [|split; [|split; [|split; [|split; [|split; [|split]]]]]]]]].
      - unfold history. rewrite TT, (tg_trace _ _ _ _ _ _ _ _ Z3), !rev_app_distr, <- !app_assoc. reflexivity.
      - rewrite (CH _ NC). exact (tg_vs _ _ _ _ _ _ _ _ Z3).
      - rewrite RR. exact (tg_stop _ _ _ _ _ _ _ _ Z3).
      - rewrite (CS _ NC). exact (tg_ss _ _ _ _ _ _ _ _ Z3).
      - exact SX.
      - rewrite CA, (CH _ NC). exact (tg_calls _ _ _ _ _ _ _ _ Z3).
      - exact PS.
      - rewrite CA. exact PS2.
      - intros K. rewrite FF, (CH _ NC). apply (tg_log _ _ _ _ _ _ _ _ Z3).
        intros x' d a J. apply (K x' d a). rewrite <- in_rev. apply in_or_app. auto.
      - now apply RE.
      - now apply HPP. }
    (* kept *)
    assert (KE : forall t, t = s3 -> y = average ([y0] ++ vs2) -> ~ accepted W ps (s_best s) (re_best_sigma (s_re s)) ([y0] ++ vs2) (ss ++ ss2) -> s' = t ->
       exists new vs ss rest k ps, let b := s_best s in let sb := re_best_sigma (s_re s) in
      history s' = history s ++ new /\
      vs = costs G new ++ repeat ceiling k /\ (k <> 0 -> s_running s' = false) /\ ss = spreads new ++ rest /\
      (forall x' d a, In (EvEval x' d a) new -> x' = x) /\ calls new = length (costs G new) /\
      (ps = ps0 \/ ps = [half]) /\ (calls new <> 0 -> ps = if Nat.eqb (s_iter s) 0 then [half] else ps0) /\
      tested W ps b sb vs ss /\ y = average vs /\
      (accepted W ps b sb vs ss ->
         s_best s' = y /\ s_best_xx s' = s_xx s' /\ re_best_sigma (s_re s') = average ss /\
         (calls new <> 0 -> s_xx s' = Some x /\ exists f, saves new = [f] /\ sv_fom f = y /\ sv_sigma f = Some (average ss) /\
            (k = 0 -> exists tr1 d a tr2, new = tr1 ++ EvEval x d a :: tr2 /\ no_call tr2 /\ sv_controls f = d))) /\
      (~ accepted W ps b sb vs ss ->
         s_best s' = s_best s /\ s_best_xx s' = s_best_xx s /\ re_best_sigma (s_re s') = sb /\ saves new = []) /\
      (all_success new -> s_fom_list s' = s_fom_list s ++ readings G [] (costs G new)) /\
      ready ps0 s').
    { intros t -> EY NA ->. exists (rev (l' ++ l)), ([y0] ++ vs2), (ss ++ ss2), rest', k', ps. cbv zeta.
      destruct (CO s3 [] True) as (A1 & A2 & A3 & A4 & A5 & A6 & A7 & A8 & A9 & A10 & _); auto.
      { intros ? ? ? []. }
      cbn [app] in A1, A2, A4, A5, A6, A8, A9.
      repeat (split; [assumption|]). split; [intros K; contradiction|]. split; [|split; assumption].
      intros _. rewrite (tg_best _ _ _ _ _ _ _ _ Z3), (tg_best_xx _ _ _ _ _ _ _ _ Z3), (tg_sigma _ _ _ _ _ _ _ _ Z3).
      repeat split. destruct (saves (rev (l' ++ l))) eqn:EV; [reflexivity|].
      exfalso. assert (K : In (EvSave s4) (rev (l' ++ l))).
      { assert (K : In s4 (saves (rev (l' ++ l)))) by (rewrite EV; now left). unfold saves in K. apply in_flat_map in K as (e & K1 & K2).
        destruct e; cbn in K2; try contradiction. destruct K2 as [->|[]]. exact K1. }
      apply in_rev in K. pose proof (tg_saves _ _ _ _ _ _ _ _ Z3) as SV.
      assert (J : In s4 (saves (l' ++ l))) by (unfold saves; apply in_flat_map; eexists; split; [exact K|now left]). rewrite SV in J. exact J. }
    destruct o as [mu|].
    { injection H as <- <-. destruct HO as (-> & p & Hp & HC). apply (KE s3); auto.
      intros [LA _]. assert (length vs2 < length ps) by (apply nth_error_Some; congruence). cbn in LA. lia. }
    rewrite (bind_ok _ _ _ _ _ (test_average_now _ _ _ _ _ _ _ _ _ T3 ltac:(discriminate))), bind_get in H. cbv beta iota in H.
    rewrite probability_now, (tg_best _ _ _ _ _ _ _ _ Z3), (tg_sigma _ _ _ _ _ _ _ _ Z3) in H.
    change (s_best s0) with (s_best s) in H. change (re_best_sigma (s_re s0)) with (re_best_sigma (s_re s)) in H.
    apply bind_inv in H as (p & s4 & EP & H). unfold lift in EP. injection EP as EP <-.
    assert (EL : exists qs, ps = qs ++ [p]).
    { clear - EP. destruct (exists_last (l := ps)) as (qs & q & E); [intros E; rewrite E in EP; discriminate|].
      exists qs. rewrite E, py_nth_last in EP. injection EP as <-. exact E. }
    destruct EL as (qs & EL).
    destruct (p <? confidence W (s_best s) (re_best_sigma (s_re s)) ([y0] ++ vs2) (ss ++ ss2))%num eqn:EA.
    2: { injection H as <- <-. apply (KE s3); auto. intros (_ & qs' & p' & E' & HA). rewrite EL in E'.
         apply app_inj_tail in E' as [_ ->]. congruence. }
    assert (AC : accepted W ps (s_best s) (re_best_sigma (s_re s)) ([y0] ++ vs2) (ss ++ ss2)).
    { split; [cbn [app length]; now rewrite HO|]. exists qs, p. auto. }
    rewrite bind_upd in H. cbv beta in H.
    destruct (s_xx s3) as [xx|] eqn:EX; [|discriminate H]. rewrite bind_upd in H. cbv beta in H.
    set (s5 := set s_best_xx _ _) in H.
    assert (F5 : exists evs t, s' = t /\ y = average ([y0] ++ vs2) /\ s_trace t = evs ++ s_trace s3 /\ no_call evs /\ s_running t = s_running s3 /\
       s_fom_list t = s_fom_list s3 /\ re_fom (s_re t) = re_fom (s_re s3) /\ re_sigma (s_re t) = re_sigma (s_re s3) /\
       s_best t = average ([y0] ++ vs2) /\ s_best_xx t = Some xx /\ s_xx t = Some xx /\ re_best_sigma (s_re t) = average (ss ++ ss2) /\
       (forall d, s_sent s3 = Some d -> exists f, evs = [EvSave f] /\ sv_fom f = average ([y0] ++ vs2) /\
                                             sv_sigma f = Some (average (ss ++ ss2)) /\ sv_controls f = d)).
    { apply bind_inv in H as ([] & s6 & E6 & H). injection H as <- <-. unfold update_controls in E6. rewrite bind_get in E6. cbv beta in E6.
      change (s_sent s5) with (s_sent s3) in E6. destruct (s_sent s3) as [d|].
      - injection E6 as <-. eexists [_], _. split; [reflexivity|]. split; [reflexivity|]. split; [reflexivity|].
        split; [intros ? ? ? [K|[]]; discriminate|]. repeat (split; [reflexivity|]). split; [exact EX|]. split; [reflexivity|].
        intros d' K. injection K as <-. eexists. repeat split.
      - injection E6 as <-. exists [], s5. split; [reflexivity|]. split; [reflexivity|]. split; [reflexivity|].
        split; [intros ? ? ? []|]. repeat (split; [reflexivity|]). split; [exact EX|]. split; [reflexivity|]. discriminate. }
    clear H s5. destruct F5 as (evs & t & -> & -> & TT & NC & RR & FF & F1 & F2 & B5 & X5 & X6 & SG5 & SV5).
    exists (rev (evs ++ l' ++ l)), ([y0] ++ vs2), (ss ++ ss2), rest', k', ps. cbv zeta.
    destruct (CO t evs True TT NC RR FF F1 F2) as (A1 & A2 & A3 & A4 & A5 & A6 & A7 & A8 & A9 & A10 & _); [auto|].
    repeat (split; [assumption|]). split; [reflexivity|]. split; [|split; [intros K; contradiction|split; assumption]].
    intros _. split; [exact B5|]. split; [congruence|]. split; [exact SG5|]. intros CN.
    assert (CA : calls (l' ++ l) <> 0) by (rewrite calls_rev, calls_app_gen, (no_call_calls _ NC) in CN; exact CN).
    destruct (tg_called _ _ _ _ _ _ _ _ Z3 CA) as (CX & d & CD).
    split; [congruence|]. destruct (SV5 d CD) as (f & -> & V1 & V2 & V3). exists f.
    split; [apply saves_rev; change (saves ([EvSave f] ++ l' ++ l) = [f]); rewrite saves_app, (tg_saves _ _ _ _ _ _ _ _ Z3); reflexivity|].
    split; [exact V1|]. split; [exact V2|]. intros K0.
    destruct (tg_sent _ _ _ _ _ _ _ _ Z3 CA K0) as (l1 & d' & a & l2 & EN & N1 & DS).
    exists (rev l2), d', a, (rev l1 ++ [EvSave f]). cbn [app rev]. rewrite EN, rev_app_distr. cbn [rev]. rewrite <- !app_assoc. cbn [app].
    split; [reflexivity|]. split; [|congruence].
    apply no_call_2. split; [intros x' d2 a2 K; apply in_rev in K; exact (N1 _ _ _ K)|intros ? ? ? [K|[]]; discriminate].
  Qed.
End Again.

(** ** the arrays of tested values keep their size *)
Section Ready.
  Context {N : Num} (G : settings) (W : world).

  Lemma routine_re x it s r s' : routine_call G W x it s = (r, s') -> s_re s' = s_re s.
  Proof.
    intros H. apply routine_cases in H.
    assert (C : forall s t evs, pre s t evs -> s_re t = s_re s) by (intros u t evs P; exact (f_equal s_re (p_calm _ _ _ P))).
    assert (C2 : forall s t, polled s t -> s_re t = s_re s) by (intros u t [P|P]; exact (C _ _ _ P)).
    inversion H as [s1 evs P R1|e s1 evs P|e s1 evs c P MS HC|s1 evs c d s3 evs3 P1 MS HH P3 R3 EV3|e s1 evs c d s3 P MS HH P3|e s1 evs c d s3 s4 P1 MS HH P3 P4 HE
                   |a v s1 evs c d s3 s4 s7 s8 evs8 P1 MS HH P3 P4 EA EV ER P8 A8]; subst.
    - exact (C _ _ _ P).
    - exact (C _ _ _ P).
    - exact (C _ _ _ P).
    - rewrite (C _ _ _ P3). exact (C _ _ _ P1).
    - rewrite (C _ _ _ P3). exact (C _ _ _ P).
    - change (s_re s4 = s_re s). rewrite (C2 _ _ P4), (C _ _ _ P3). exact (C _ _ _ P1).
    - assert (SA : s_status (answered G v a (asked x d (Dict a) s4)) = Some (status_of a)) by (unfold answered; destruct (_ =? 0)%Z; reflexivity).
      destruct (respond_resp G _ _ _ SA ER) as (evs7 & R7 & _).
      rewrite (C _ _ _ P8), (f_equal s_re (rp_same _ _ _ R7)). cbn. transitivity (s_re s4); [unfold answered; destruct (_ =? 0)%Z; reflexivity|].
      rewrite (C2 _ _ P4), (C _ _ _ P3). exact (C _ _ _ P1).
  Qed.

  Lemma always_ready ps r s : g_steps G = Some ps -> optimise G W = Ok (r, s) -> ready ps s.
  Proof.
    intros ES. apply (keeps_optimise G W (ready ps) (fun _ => ready ps) (fun _ => ready ps)); auto.
    - constructor; auto.
      + intros r0 s0 _ [A B] [E F]. split; cbn; congruence.
      + intros x it s0 [A B] _. unfold ends. destruct (routine_call G W x it s0) as [r0 s1] eqn:E. apply routine_re in E.
        cbn. destruct r0; unfold ready; rewrite E; auto.
      + intros x it _ s0 [A B]. unfold ends. destruct (routine_call G W x it s0) as [r0 s1] eqn:E. apply routine_re in E.
        cbn. destruct r0; unfold ready; rewrite E; auto.
    - intros s0 H. unfold new_state in H. rewrite ES in H. destruct (new_controls _ _ _); [|discriminate]. cbn in H. injection H as <-.
      unfold ready, zeros. cbn. now rewrite repeat_length.
  Qed.
End Ready.

(** ** drift compensation *)
Section Drift.
  Context {N : Num} (NS : NumSign N) (NX : NumExact N) (G : settings) (W : world).

  Inductive got (x : vec) (s s' : st) (new : list event) : num -> Prop :=
  | got_none : no_call new -> s_running s' = false -> got x s s' new ceiling
  | got_value d a v l1 l2 : new = l1 ++ EvEval x d a :: l2 -> no_call l1 -> no_call l2 -> user_value a = Some v -> s_running s = true ->
      got x s s' new (cost G v).

  Lemma routine_value x it s y s' : routine_call G W x it s = (Ok y, s') ->
    exists new, s_trace s' = new ++ s_trace s /\ got x s s' new y.
  Proof.
    intros H. apply routine_cases in H.
    inversion H as [s1 evs P R1| |  |s1 evs c d s3 evs3 P1 MS HH P3 R3 EV3| |
                   |a v s1 evs c d s3 s4 s7 s8 evs8 P1 MS HH P3 P4 EA EV ER P8 A8]; subst.
    - exists evs. split; [apply P|]. apply got_none; auto. exact (check_no_call _ (p_evs _ _ _ P)).
    - exists ([EvCleared ByAsync] ++ evs). split; [rewrite (p_trace _ _ _ P3); cbn; now rewrite (p_trace _ _ _ P1)|].
      apply got_none; auto. apply (proj2 (no_call_2 [_] evs)).
      split; [intros ? ? ? [K|[]]; discriminate|exact (check_no_call _ (p_evs _ _ _ P1))].
    - assert (SA : s_status (answered G v a (asked x d (Dict a) s4)) = Some (status_of a)) by (unfold answered; destruct (_ =? 0)%Z; reflexivity).
      destruct (respond_resp G _ _ _ SA ER) as (evs7 & R7 & _). apply polled_pre in P4 as (ev4 & P4 & _).
      assert (T6 : exists l, Forall check_event l /\ s_trace (answered G v a (asked x d (Dict a) s4)) = l ++ EvEval x d (Dict a) :: s_trace s4).
      { unfold answered. destruct (_ =? 0)%Z; [exists []|exists [EvCleared ByStatus]]; split; repeat constructor. }
      destruct T6 as (l6 & Q6 & T6).
      exists ((evs8 ++ evs7 ++ l6) ++ EvEval x d (Dict a) :: ev4 ++ evs).
      split.
      + rewrite (p_trace _ _ _ P8), (rp_trace _ _ _ R7), T6, (p_trace _ _ _ P4), (p_trace _ _ _ P3). cbn. rewrite (p_trace _ _ _ P1).
        now rewrite <- !app_assoc, <- app_comm_cons, <- !app_assoc.
      + replace (s_fom s') with (cost G v).
        2: { rewrite (f_equal s_fom (p_calm _ _ _ P8)). cbn. rewrite (f_equal s_fom (rp_same _ _ _ R7)). cbn. rewrite <- (factor_cost NS). reflexivity. }
        eapply (got_value x s s' _ d (Dict a) v); [reflexivity|..]; auto.
        * rewrite no_call_2, no_call_2. split; [exact (check_no_call _ (p_evs _ _ _ P8))|]. split; [|exact (check_no_call _ Q6)].
          intros x' d' a' K. pose proof (rp_evs _ _ _ R7) as F. rewrite Forall_forall in F. exact (F _ K).
        * apply no_call_2. split; [exact (check_no_call _ (p_evs _ _ _ P4))|exact (check_no_call _ (p_evs _ _ _ P1))].
        * cbn. now rewrite EV.
        * apply MS.
  Qed.

  (** several evaluations of one point *)
  Record collected (x : vec) (s s' : st) (new : list event) (vs : list num) (k : nat) : Prop := mk_collected {
    co_trace : s_trace s' = new ++ s_trace s;
    co_vs : vs = costs G (rev new) ++ repeat ceiling k;
    co_stop : k <> 0 -> s_running s' = false;
    co_same : forall x' d a, In (EvEval x' d a) new -> x' = x;
    co_calls : calls new = length (costs G (rev new))
  }.
  Lemma collected_refl x s : collected x s s [] [] 0.
  Proof. constructor; auto; try congruence. intros ? ? ? []. Qed.
  Lemma collected_add x s s1 s2 new vs k l y : collected x s s1 new vs k -> s_trace s2 = l ++ s_trace s1 -> got x s1 s2 l y ->
    exists k', collected x s s2 (l ++ new) (vs ++ [y]) k'.
  Proof.
    intros [A B C E F] TR [NC R|d a v l1 l2 EN N1 N2 UV R].
    - exists (S k). constructor; auto.
      + now rewrite TR, A, app_assoc.
      + rewrite rev_app_distr, costs_app, (no_call_costs G _ NC), app_nil_r, B, <- app_assoc. f_equal. symmetry. exact (repeat_cons k ceiling).
      + intros x' d a K. apply in_app_or in K as [K|K]; [exfalso; exact (NC _ _ _ K)|eauto].
      + now rewrite calls_app_gen, (no_call_calls _ NC), rev_app_distr, costs_app, (no_call_costs G _ NC), app_nil_r.
    - assert (k = 0) as -> by (destruct k; [reflexivity|]; rewrite C in R; [discriminate|lia]). exists 0. subst l.
      assert (C1 : costs G (rev ((l1 ++ EvEval x d a :: l2) ++ new)) = vs ++ [cost G v]).
      { rewrite rev_app_distr, rev_app_distr, !costs_app. cbn [rev]. rewrite costs_app, (no_call_costs G _ N1), (no_call_costs G _ N2), B.
        cbn. rewrite UV. cbn. now rewrite app_nil_r. }
      constructor.
      + now rewrite TR, A, app_assoc.
      + now rewrite C1, app_nil_r.
      + congruence.
      + intros x' d' a' K. apply in_app_or in K as [K|K]; [|eauto].
        apply in_app_or in K as [K|[K|K]]; [exfalso; exact (N1 _ _ _ K)|injection K as <- _ _; reflexivity|exfalso; exact (N2 _ _ _ K)].
      + rewrite C1, app_length, !calls_app_gen. change (calls (EvEval x d a :: l2)) with (S (calls l2)).
        rewrite (no_call_calls _ N1), (no_call_calls _ N2), F, B. cbn. rewrite app_nil_r. lia.
  Qed.

  Lemma sum_routine_cases x s0 n : forall acc s new vs k r s', collected x s0 s new vs k ->
    sum_routine G W n x acc s = (Ok r, s') ->
    exists new' vs' k', collected x s0 s' new' (vs ++ vs') k' /\ length vs' = n /\ r = (acc + total vs')%num.
  Proof.
    induction n as [|n IH]; intros acc s new vs k r s' C H; cbn [sum_routine] in H.
    - injection H as <- <-. exists new, [], k. rewrite app_nil_r. cbn. rewrite (nadd_0 _ NX). auto.
    - apply bind_inv in H as (y & s1 & E1 & H). destruct (routine_value _ _ _ _ _ E1) as (l & TR & GT).
      destruct (collected_add _ _ _ _ _ _ _ _ _ C TR GT) as (k1 & C1).
      destruct (IH _ _ _ _ _ _ _ C1 H) as (new' & vs' & k' & C2 & L & ->).
      exists new', (y :: vs'), k'. rewrite <- app_assoc in C2. split; [exact C2|]. split; [cbn; lia|].
      cbn. now rewrite (nadd_assoc _ NX).
  Qed.

  Theorem update_FoM_average s s' : update_FoM G W s = (Ok tt, s') -> (0 < g_drift_avg G)%Z ->
    exists x0 new k, get_mean_value (s_controls s) = Ok x0 /\ history s' = history s ++ new /\
      (forall x d a, In (EvEval x d a) new -> x = x0) /\ calls new = length (costs G new) /\
      length (costs G new ++ repeat ceiling k) = Z.to_nat (g_drift_avg G) /\ (k <> 0 -> s_running s' = false) /\
      s_best s' = average (costs G new ++ repeat ceiling k).
  Proof.
    intros H HZ. unfold update_FoM in H. apply bind_inv in H as (x0 & s1 & E1 & H).
    unfold mean_value in E1. rewrite bind_get in E1. cbv beta in E1. injection E1 as E1 <-.
    rewrite bind_upd in H. cbv beta in H. set (s2 := set s_re _ _) in H.
    apply bind_inv in H as (tot & s3 & E3 & H). destruct (_ =? 0)%Z; [discriminate|]. injection H as <-.
    destruct (sum_routine_cases x0 s2 _ _ _ _ _ _ _ _ (collected_refl x0 s2) E3) as (new & vs & k & C & L & ->).
    cbn [app] in C. exists x0, (rev new), k. split; [exact E1|]. split; [|split; [|split; [|split; [|split]]]].
    - unfold history. change (s_trace (set s_best _ s3)) with (s_trace s3). rewrite (co_trace _ _ _ _ _ _ C). apply rev_app_distr.
    - intros x d a K. apply in_rev in K. exact (co_same _ _ _ _ _ _ C _ _ _ K).
    - rewrite calls_rev. exact (co_calls _ _ _ _ _ _ C).
    - rewrite <- (co_vs _ _ _ _ _ _ C). exact L.
    - exact (co_stop _ _ _ _ _ _ C).
    - rewrite <- (co_vs _ _ _ _ _ _ C). unfold average. rewrite L. rewrite (nadd_0_l NX). cbn. do 2 f_equal. lia.
  Qed.

  (** Nelder-Mead: all values of the simplex are shifted by the same amount *)
  Section Simplex.
    Variables (drift_min : num) (drift_avg : Z).

    Lemma sum_calls_any func x it n : forall acc calls s r s',
      sum_calls func n x it acc calls s = (Ok r, s') -> exists vs, length vs = n /\ fst r = (acc + total vs)%num.
    Proof.
      induction n as [|n IH]; intros acc cs s r s' H; cbn [sum_calls] in H.
      - injection H as <- <-. exists []. cbn. now rewrite (nadd_0 _ NX).
      - apply bind_inv in H as ([y c1] & s1 & E1 & H). destruct (IH _ _ _ _ _ H) as (vs & L & ->).
        exists (y :: vs). cbn. split; [lia|]. now rewrite (nadd_assoc _ NX).
    Qed.

    Lemma shifted (l : list num) f0 prev : py_nth l 0 = Ok prev ->
      match l with [] => [] | _ :: fs => f0 :: map (fun f => (f + (f0 - prev))%num) fs end = map (fun f => (f + (f0 - prev))%num) l.
    Proof.
      destruct l as [|a l]; [discriminate|]. unfold py_nth. cbn [length]. change (0 <? 0)%Z with false. cbn [orb].
      assert (E : (Z.of_nat (S (length l)) <=? 0)%Z = false) by (apply Z.leb_gt; lia). cbv zeta iota. rewrite E. cbn.
      intros H. injection H as <-. now rewrite (nadd_sub _ NX).
    Qed.

    Theorem drift_shifts func L s L' s' : nm_drift G W func drift_min drift_avg L s = (Ok L', s') ->
      n_sim L' = n_sim L /\ exists delta, n_fsim L' = map (fun f => (f + delta)%num) (n_fsim L).
    Proof.
      assert (Z0 : exists delta, n_fsim L = map (fun f => (f + delta)%num) (n_fsim L)).
      { exists (of_Z 0). clear -NX. induction (n_fsim L) as [|a l IH]; [reflexivity|]. cbn. now rewrite (nadd_0 _ NX), <- IH. }
      unfold nm_drift. destruct (negb _); [intros H; injection H as <- <-; auto|]. intros H.
      apply bind_inv in H as (c & s1 & E1 & H). destruct c; [injection H as <- <-; auto|].
      apply bind_inv in H as (t & s2 & E2 & H). destruct (negb _); [injection H as <- <-; auto|].
      apply bind_inv in H as (prev & s3 & E3 & H). injection E3 as E3 <-. apply bind_inv in H as (x0 & s4 & E4 & H). injection E4 as E4 <-.
      apply bind_inv in H as ([tot cs] & s5 & E5 & H). destruct (_ =? 0)%Z; [discriminate H|].
      apply bind_inv in H as (t2 & s6 & E6 & H). apply bind_inv in H as ([y cs2] & s7 & E7 & H). injection H as <- <-. cbn [n_sim n_fsim].
      split; [reflexivity|]. exists (tot / of_Z drift_avg - prev)%num. now apply shifted.
    Qed.

    Hypothesis ES : g_steps G = None.
    Lemma sum_calls_cases x it s0 n : forall acc cs s new vs k r s', collected x s0 s new vs k ->
      sum_calls (inner_routine_call G W) n x it acc cs s = (Ok r, s') ->
      exists new' vs' k', collected x s0 s' new' (vs ++ vs') k' /\ length vs' = n /\ fst r = (acc + total vs')%num.
    Proof.
      induction n as [|n IH]; intros acc cs s new vs k r s' C H; cbn [sum_calls] in H.
      - injection H as <- <-. exists new, [], k. rewrite app_nil_r. cbn. rewrite (nadd_0 _ NX). auto.
      - apply bind_inv in H as ([y c1] & s1 & E1 & H). unfold call in E1. apply bind_inv in E1 as (y' & s1' & E1 & E1').
        injection E1' as <- _ <-. cbn [inner_routine_call] in E1. rewrite bind_upd in E1. cbv beta in E1.
        apply bind_inv in E1 as (y2 & s2 & E1 & E2). rewrite ES in E2. injection E2 as <- <-.
        destruct (routine_value _ _ _ _ _ E1) as (l & TR & GT).
        assert (C' : collected x s0 (s <|s_is_record := false|> <|s_re ::= set re_step (fun _ => 0)|>) new vs k) by (destruct C; now constructor).
        destruct (collected_add _ _ _ _ _ _ _ _ _ C' TR GT) as (k1 & C1).
        destruct (IH _ _ _ _ _ _ _ _ C1 H) as (new' & vs' & k' & C2 & L & ->).
        exists new', (y2 :: vs'), k'. rewrite <- app_assoc in C2. split; [exact C2|]. split; [cbn; lia|].
        cbn. now rewrite (nadd_assoc _ NX).
    Qed.

    (** the shift is the difference between the mean of new evaluations of the best vertex and its old value *)
    Hypothesis D : has_dsm G = true.
    Lemma is_conv_pre s c s1 : is_conv G W s = (Ok c, s1) -> exists evs, pre s s1 evs.
    Proof.
      unfold is_conv. intros H. apply bind_inv in H as ([] & s2 & E & H). injection H as _ <-.
      destruct (poll_dsm _ _ _ _ _ D E) as (_ & evs & P & _). eauto.
    Qed.
    Lemma now_pre s t s1 : now W s = (Ok t, s1) -> pre s s1 [].
    Proof. unfold now. rewrite bind_get, bind_upd. intros H. injection H as _ <-. constructor; try easy. cbn. now rewrite andb_true_r. Qed.
    Theorem drift_values L s L' s' : nm_drift G W (inner_routine_call G W) drift_min drift_avg L s = (Ok L', s') -> (0 < drift_avg)%Z ->
      exists new, history s' = history s ++ new /\
      ((L' = L /\ no_call new /\ s_best s' = s_best s) \/
       exists x0 prev k, hd_error (n_sim L) = Some x0 /\ hd_error (n_fsim L) = Some prev /\
        (forall x d a, In (EvEval x d a) new -> x = x0) /\ calls new = length (costs G new) /\
        length (costs G new ++ repeat ceiling k) = Z.to_nat drift_avg /\ (k <> 0 -> s_running s' = false) /\
        s_best s' = average (costs G new ++ repeat ceiling k) /\
        n_fsim L' = map (fun v => (v + (average (costs G new ++ repeat ceiling k) - prev))%num) (n_fsim L)).
    Proof.
      intros H HZ. unfold nm_drift in H.
      assert (Z0 : forall s1 evs, pre s s1 evs -> (Ok L, s1) = (Ok L', s') -> exists new, history s' = history s ++ new /\ L' = L /\ no_call new /\ s_best s' = s_best s).
      { intros s1 evs P K. injection K as <- <-. exists (rev evs). unfold history. rewrite (p_trace _ _ _ P), rev_app_distr.
        split; [reflexivity|]. split; [reflexivity|]. split; [|exact (f_equal s_best (p_calm _ _ _ P))].
        intros x d a K. apply in_rev in K. exact (check_no_call _ (p_evs _ _ _ P) _ _ _ K). }
      destruct (negb _); [destruct (Z0 _ _ (pre_refl _) H) as (new & A & B); eauto|].
      apply bind_inv in H as (c & s1 & E1 & H). destruct (is_conv_pre _ _ _ E1) as (ev1 & P1).
      destruct c; [destruct (Z0 _ _ P1 H) as (new & A & B); eauto|].
      apply bind_inv in H as (t & s2 & E2 & H). pose proof (pre_trans _ _ _ _ _ P1 (now_pre _ _ _ E2)) as P2. cbn [app] in P2.
      destruct (negb _); [destruct (Z0 _ _ P2 H) as (new & A & B); eauto|]. clear Z0.
      apply bind_inv in H as (prev & s3 & E3 & H). injection E3 as E3 <-. apply bind_inv in H as (x0 & s4 & E4 & H). injection E4 as E4 <-.
      apply bind_inv in H as ([tot cs] & s5 & E5 & H). destruct (_ =? 0)%Z eqn:EZ; [discriminate H|]. cbv zeta in H.
      destruct (sum_calls_cases x0 (n_it L) _ _ _ _ _ _ _ _ _ _ (collected_refl x0 _) E5) as (new & vs & k & C & LV & ET). cbn [fst] in ET.
      apply bind_inv in H as (t2 & s6 & E6 & H). pose proof (now_pre _ _ _ E6) as P6.
      apply bind_inv in H as ([y cs2] & s7 & E7 & H). injection H as <- <-. cbn [n_sim n_fsim app] in *.
      assert (EA : (tot / of_Z drift_avg)%num = average vs).
      { unfold average. rewrite LV, ET, (nadd_0_l NX). do 2 f_equal. lia. }
      assert (HD : forall A (l : list A) a, py_nth l 0 = Ok a -> hd_error l = Some a).
      { intros A [|b l] a; unfold py_nth; cbn [length]; [discriminate|]. change (0 <? 0)%Z with false. cbn [orb].
        assert (E : (Z.of_nat (S (length l)) <=? 0)%Z = false) by (apply Z.leb_gt; lia). cbv zeta iota. rewrite E. cbn. intros K. now injection K as <-. }
      unfold call in E7. apply bind_inv in E7 as (y' & s8 & E7 & E8). injection E8 as _ _ <-.
      cbn [inner_routine_call] in E7. rewrite bind_upd, bind_get in E7. cbv beta in E7.
      assert (F7 : exists f, s_trace s8 = f ++ s_trace s5 /\ no_call f /\ s_best s8 = (tot / of_Z drift_avg)%num /\ s_running s8 = s_running s5).
      { pose proof (p_run _ _ _ P6) as R6. cbn in R6. rewrite andb_true_r in R6. pose proof (p_trace _ _ _ P6) as T6. cbn [app] in T6.
        match type of E7 with match s_xx ?t with _ => _ end _ = _ => destruct (s_xx t) end; [|discriminate E7].
        rewrite bind_upd in E7. cbv beta in E7. apply bind_inv in E7 as ([] & s9 & E9 & E7). injection E7 as <- <-.
        unfold update_controls in E9. rewrite bind_get in E9. cbv beta in E9.
        match type of E9 with match s_sent ?t with _ => _ end _ = _ => destruct (s_sent t) end.
        - injection E9 as <-. eexists [_]. split; [now rewrite <- T6|]. split; [intros ? ? ? [K|[]]; discriminate|]. split; [reflexivity|exact R6].
        - injection E9 as <-. exists []. split; [exact T6|]. split; [intros ? ? ? []|]. split; [reflexivity|exact R6]. }
      destruct F7 as (f & TF & NF & BF & RF).
      assert (N1 : no_call ev1) by exact (check_no_call _ (p_evs _ _ _ P1)).
      assert (EC : costs G (rev (f ++ new ++ ev1)) = costs G (rev new)).
      { rewrite !rev_app_distr, !costs_app, (no_call_costs G _ NF), (no_call_costs G _ N1), app_nil_r. reflexivity. }
      exists (rev (f ++ new ++ ev1)).
      split. { unfold history. rewrite TF, (co_trace _ _ _ _ _ _ C), (p_trace _ _ _ P2), <- rev_app_distr. now rewrite !app_assoc. }
      right. exists x0, prev, k. split; [now apply HD|]. split; [now apply HD|]. rewrite EC, <- (co_vs _ _ _ _ _ _ C).
      split; [|split; [|split; [|split; [|split]]]].
      - intros x d a K. apply in_rev, in_app_or in K as [K|K]; [exfalso; exact (NF _ _ _ K)|].
        apply in_app_or in K as [K|K]; [exact (co_same _ _ _ _ _ _ C _ _ _ K)|exfalso; exact (N1 _ _ _ K)].
      - rewrite calls_rev, !calls_app_gen, (no_call_calls _ NF), (no_call_calls _ N1), (co_calls _ _ _ _ _ _ C). lia.
      - exact LV.
      - rewrite RF. exact (co_stop _ _ _ _ _ _ C).
      - now rewrite BF.
      - rewrite <- EA. now apply shifted.
    Qed.
  End Simplex.
End Drift.

Lemma no_average {N : Num} (G : settings) (W : world) s r s' : g_drift_avg G = 0%Z -> update_FoM G W s = (r, s') -> r <> Ok tt.
Proof.
  intros Z H. unfold update_FoM in H. rewrite Z in H. intros ->. apply bind_inv in H as (x0 & s1 & _ & H).
  apply bind_inv in H as ([] & s2 & _ & H). apply bind_inv in H as (t & s3 & _ & H). discriminate H.
Qed.

(** ** Over the reals *)
Section Real.
  Open Scope R_scope.
  Lemma total_R_app (l m : list R) : total (N := Rnum) (l ++ m) = total (N := Rnum) l + total (N := Rnum) m.
  Proof. exact (total_app Rnum_exact l m). Qed.
  Lemma reading_formula (l : list R) (v : R) : l <> [] -> let k := INR (length l) in
    reading (N := Rnum) l v = (k - 1) / k * average (N := Rnum) l + v / k.
  Proof.
    intros HL k. unfold reading. subst k. change (@length (@num Rnum) l) with (@length R l). destruct (length l) as [|n] eqn:E; [destruct l; [congruence|discriminate]|].
    cbn [ndiv nadd nmul of_Z Rnum]. rewrite <- !INR_IZR_INZ, S_INR. pose proof (pos_INR n). change (@eq (@num Rnum)) with (@eq R). field. lra.
  Qed.
  Lemma reading_mean (l : list R) (v : R) : l <> [] ->
    (reading (N := Rnum) l v = average (N := Rnum) (l ++ [v]) <-> v = average (N := Rnum) l).
  Proof.
    intros HL. rewrite (reading_formula l v HL). unfold average. change (@app (@num Rnum)) with (@app R). change (@length (@num Rnum)) with (@length R). rewrite total_R_app, app_length.
    cbn [length total fold_right ndiv nadd nmul of_Z Rnum]. rewrite <- !INR_IZR_INZ, plus_INR. cbn [INR]. change (@eq (@num Rnum)) with (@eq R).
    assert (K : 1 <= INR (length l)) by (destruct l; [congruence|]; cbn [length]; rewrite S_INR; pose proof (pos_INR (length l)); lra).
    set (k := INR (length l)) in *. set (t := total (N := Rnum) l).
    change (fold_right Rplus 0 l) with t. rewrite Rplus_0_r. split; intros H.
    - apply (f_equal (fun z => z * (k * (k * (k + 1))))) in H.
      assert (H' : ((k - 1) * t + v * k) * (k + 1) = (t + v) * k * k).
      { transitivity (((k - 1) / k * (t / k) + v / k) * (k * (k * (k + 1)))); [field; lra|]. rewrite H. field. lra. }
      apply (Rmult_eq_reg_r k); [|lra]. unfold Rdiv. rewrite Rmult_assoc, Rinv_l by lra. nra.
    - rewrite H. field. lra.
  Qed.
  Lemma record_smaller (G : settings (N := Rnum)) (W : world) (D : has_dsm G = true) steps (E : g_steps G = Some steps) x it s y s' :
    ready steps s -> (forall qs p, steps = qs ++ [p] -> 1 / 2 <= p) -> (forall u, u <= 0 -> w_cdf W u <= 1 / 2) ->
    inner_routine_call G W x it None s = (Ok y, s') ->
    s_best s' = s_best s \/ (s_best s' = y /\ y < s_best s).
  Proof.
    intros R P C H. destruct (session Rnum_sign G W steps D E Rnum_exact x it s y s' R H)
      as (new & vs & ss & rest & k & ps & _ & _ & _ & _ & _ & _ & PS & _ & T & EY & A & B & _).
    destruct (Classical_Prop.classic (accepted W ps (s_best s) (re_best_sigma (s_re s)) vs ss)) as [AC|NA]; [|left; now apply B].
    right. destruct (A AC) as (A1 & _). split; [exact A1|]. destruct AC as (_ & qs & p & EP & K).
    assert (HP : 1 / 2 <= p).
    { destruct PS as [-> | ->]; [exact (P qs p EP)|]. destruct qs as [|q qs]; [|destruct qs; discriminate]. injection EP as <-. unfold half. cbn. lra. }
    subst y. unfold confidence in K. cbv zeta in K. set (q := nsqrt _) in K.
    set (q' := if (nabs q <? of_Z 1 / of_Z 100000000000000)%num then of_Z 1 else q) in K.
    assert (Q : 0 < q').
    { unfold q'. destruct (nabs q <? _)%num eqn:F; [cbn; lra|]. change (Raux.Rlt_bool (Rabs q) (1 / 100000000000000) = false) in F. destruct (Raux.Rlt_bool_spec (Rabs q) (1 / 100000000000000)) as [|F']; [discriminate|].
      assert (0 <= q) by (unfold q; cbn; apply sqrt_pos). rewrite Rabs_pos_eq in F' by assumption. lra. }
    change (Raux.Rlt_bool p (w_cdf W ((s_best s - average (N := Rnum) vs) / q')) = true) in K.
    destruct (Raux.Rlt_bool_spec p (w_cdf W ((s_best s - average (N := Rnum) vs) / q'))) as [K'|]; [|discriminate]. clear K.
    destruct (Rlt_le_dec (average (N := Rnum) vs) (s_best s)) as [|L]; [assumption|]. exfalso.
    set (u := (s_best s - average (N := Rnum) vs) / q') in K'.
    assert (u <= 0). { unfold u. apply (Rmult_le_reg_r q'); [assumption|]. unfold Rdiv. rewrite Rmult_assoc, Rinv_l by lra. lra. }
    exact (Rlt_irrefl _ (Rle_lt_trans _ _ _ (Rle_trans _ _ _ (C u ltac:(assumption)) HP) K')).
  Qed.
End Real.
