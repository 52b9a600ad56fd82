(** * C76 What the entries of the dictionary promise holds for everything that the run gives out.
    [construct F E d = (true, Good su)]: the optimiser is constructed from the dictionary [d]; [optimise (su_settings su) W = Ok (r, s)]: its
    execution in the world [W] (answers of the user, clock, random numbers, interruptions), ended by returning or by an exception [r]. *)
From Coq Require Import String ZArith List Bool Lia Reals Lra QArith Qcanon.
From Flocq Require Import Core.
From RecordUpdate Require Import RecordSet.
From Verif Require Import Num NumFacts NumQ Py PyFacts ModelPulse ModelBases ModelControls ModelLinalg ModelState ModelSearch ModelRun SpecControls SpecRun ModelImport SpecImport ModelJson
  ProofBases ProofIndex ProofBase ProofControls ProofCtl ProofSI ExampleControls ExampleRun ModelConfig SpecConfig SpecWhole ProofConfig ProofConfigControls ProofConfigAll ProofWhole PropControls PropRun PropConfig.
Import ListNotations RecordSetNotations.
Open Scope string_scope.
Open Scope list_scope.
Open Scope nat_scope.

Section C76.
  Context {N : Num} (F : funs N) (E : env).
  Notation V := (value num).
  Notation D := (list (key * V)).
  Implicit Types d : D.

  (** ** readings are unique *)
  Lemma is_number_fun (v : V) a b : is_number v a -> is_number v b -> a = b.
  Proof. intros H1 H2. destruct H1; inversion H2; reflexivity. Qed.
  Lemma is_list_fun (v : V) l m : is_list v l -> is_list v m -> l = m.
  Proof. intros [->| ->] [H|H]; congruence. Qed.
  Lemma is_names_fun (v : V) l m : is_names v l -> is_names v m -> l = m.
  Proof.
    intros (a & A & HA) (b & B & HB). rewrite (is_list_fun _ _ _ A B) in HA. clear A B. revert m HB. induction HA as [|x y a0 l0 X HA IH]; intros m HB; inversion HB; subst; [reflexivity|].
    unfold is_text in *. f_equal; [congruence|auto].
  Qed.
  Lemma or_none_names_fun (v : V) o p : or_none is_names v o -> or_none is_names v p -> o = p.
  Proof. intros A B. destruct A; inversion B; subst; try congruence. f_equal. eapply is_names_fun; eassumption. Qed.
  Lemma Forall2_item {A B} (R : A -> B -> Prop) l m i a : Forall2 R l m -> nth_error l i = Some a -> exists b, nth_error m i = Some b /\ R a b.
  Proof. intros H. revert i. induction H as [|x y l m X H IH]; intros [|i] Q; try discriminate; cbn in *; [injection Q as <-; eauto|auto]. Qed.
  Lemma Forall2_item_r {A B} (R : A -> B -> Prop) l m i b : Forall2 R l m -> nth_error m i = Some b -> exists a, nth_error l i = Some a /\ R a b.
  Proof. intros H. revert i. induction H as [|x y l m X H IH]; intros [|i] Q; try discriminate; cbn in *; [injection Q as <-; eauto|auto]. Qed.
  Lemma Forall2_size {A B} (R : A -> B -> Prop) l m : Forall2 R l m -> length l = length m.
  Proof. induction 1; cbn; congruence. Qed.

  (** ** the controls of a constructed optimiser *)
  Lemma said d su : construct F E d = (true, Good su) -> says_controls F E (VDict d) (su_settings su).
  Proof. intros H. apply construct_says in H as [_ (A & _ & _ & _ & _ & _ & _ & H & _)]. exact H. Qed.
  Lemma said_pulse d su i v : construct F E d = (true, Good su) -> item_of (VDict d) "pulses" i v ->
    exists f, nth_error (g_pulses (su_settings su)) i = Some f /\ says_pulse F E v f.
  Proof.
    intros H (P & l & A & B & C). destruct (said _ _ H) as ((P' & l' & A' & B' & C' & _) & _). rewrite A in A'. injection A' as <-.
    rewrite (is_list_fun _ _ _ B' B) in C'. exact (Forall2_item _ _ _ _ _ C' C).
  Qed.
  Lemma said_parameter d su i v : construct F E d = (true, Good su) -> item_of (VDict d) "parameters" i v ->
    exists f, nth_error (g_params (su_settings su)) i = Some f /\ says_parameter v f.
  Proof.
    intros H (P & l & A & B & C). destruct (said _ _ H) as (_ & (P' & l' & A' & B' & C') & _). rewrite A in A'. injection A' as <-.
    rewrite (is_list_fun _ _ _ B' B) in C'. exact (Forall2_item _ _ _ _ _ C' C).
  Qed.
  Lemma said_duration d su name v : construct F E d = (true, Good su) -> duration_of (VDict d) name v ->
    exists f, lookup_time (g_times (su_settings su)) name = Some f /\ says_time v f.
  Proof.
    intros H (P & l1 & l2 & A & B & C & Q). destruct (said _ _ H) as (_ & _ & (P' & l' & A' & B' & C')). rewrite A in A'. injection A' as <-.
    rewrite (is_list_fun _ _ _ B' B) in C'. apply Forall2_app_inv_l in C' as (m1 & m2' & _ & C' & ->). inversion C' as [|? f ? m2 X Y]; subst.
    exists f. split; [|exact X]. unfold lookup_time. rewrite rev_app_distr. cbn [rev]. rewrite <- app_assoc.
    assert (T : tf_name f = name) by (destruct X as (_ & _ & X & _); rewrite C in X; injection X; auto).
    assert (K : forall g, In g (rev m2) -> String.eqb name (tf_name g) = false).
    { intros g I. rewrite <- in_rev in I. apply In_nth_error in I as (j & I). destruct (Forall2_item_r _ _ _ _ _ Y I) as (w & J & Z).
      apply String.eqb_neq. intros ->. apply (Q w (nth_error_In _ _ J)). apply Z. }
    clear -T K. induction (rev m2) as [|g l IH]; cbn.
    - now rewrite T, String.eqb_refl.
    - rewrite (K g) by now left. apply IH. intros h I. apply K. now right.
  Qed.
  Lemma said_shipped d su : construct F E d = (true, Good su) -> List.Forall (fun f => exists b s u, f = ModelBases.shipped F b s u) (g_pulses (su_settings su)).
  Proof.
    intros H. destruct (said _ _ H) as ((P & l & _ & _ & C & _) & _). clear -C. induction C as [|v f l m X C IH]; constructor; [|exact IH].
    destruct X as (B & b & s & u & _ & _ & _ & _ & _ & X & _). eauto.
  Qed.
  Lemma said_plain d su : construct F E d = (true, Good su) -> List.Forall plain_basis (g_pulses (su_settings su)).
  Proof. intros H. eapply Forall_impl; [|apply (said_shipped _ _ H)]. intros f (b & s & u & ->). apply shipped_plain. Qed.

  (** ** Everything given out is what the controls object makes of a vector, in a state that it can come to from its construction: what is
      proved of the controls (C01-C13) holds of the pulses and parameters in every call and every file of a run *)
  Theorem C76_from_controls d su W r s e dl : construct F E d = (true, Good su) -> optimise (su_settings su) W = Ok (r, s) ->
    In e (history s) -> gives e dl ->
    exists c0 c x c', new_controls (g_pulses (su_settings su)) (g_times (su_settings su)) (g_params (su_settings su)) = Ok c0 /\
      reachable c0 c /\ get_controls_lists x c = Ok (c', dl) /\ forall y a, e = EvEval y dl a -> y = x.
  Proof.
    intros _ R I K. destruct (everything_made _ _ _ _ R) as (c0 & C & _ & M). specialize (M e I).
    assert (X : forall x, made (su_settings su) c0 x dl -> exists c c', reachable c0 c /\ get_controls_lists x c = Ok (c', dl)).
    { intros x (c & c' & d' & A & B & Q). exists c, c'. split; [exact A|]. destruct (g_kind (su_settings su)); subst; try exact B.
      destruct Q as (Q1 & Q2 & ->). rewrite B. destruct d'; cbn in *; subst. reflexivity. }
    destruct K as [x dl a|dl|f]; cbn in M.
    - destruct (X x M) as (c & c' & A & B). exists c0, c, x, c'. repeat (split; [assumption|]). intros y b [= -> _]. reflexivity.
    - destruct M as (x & c & c' & A & B). exists c0, c, x, c'. repeat (split; [assumption|]). discriminate.
    - destruct M as (x & M). destruct (X x M) as (c & c' & A & B). exists c0, c, x, c'. repeat (split; [assumption|]). discriminate.
  Qed.

  (** ** As many pulses, time grids and parameters as the dictionary lists *)
  Lemma counts pl tl rl c0 c x c' dl : new_controls pl tl rl = Ok c0 -> List.Forall plain_basis pl -> reachable c0 c -> get_controls_lists x c = Ok (c', dl) ->
    length (d_pulses dl) = length pl /\ length (d_timegrids dl) = length pl /\ length (d_parameters dl) = length rl.
  Proof.
    intros HC PB R HG. destruct (pulse_lists _ _ _ _ _ HC PB R) as (E1 & _ & _ & E4).
    assert (L1 : length (c_pulses c) = length pl) by (apply (f_equal (@length _)) in E1; now rewrite !map_length in E1).
    assert (L2 : length (c_params c) = length rl) by (apply (f_equal (@length _)) in E4; now rewrite !map_length in E4).
    unfold get_controls_lists in HG. apply rbind_ok in HG as (ts & _ & HG). apply rbind_ok in HG as (ps & P & HG). apply rbind_ok in HG as (rs & Q & HG). injection HG as _ <-.
    cbn [d_pulses d_timegrids d_parameters]. rewrite !map_length. rewrite (rmap_length _ _ _ P), (rmap_length _ _ _ Q). auto.
  Qed.
  Theorem C76_counts d su W r s e dl : construct F E d = (true, Good su) -> optimise (su_settings su) W = Ok (r, s) ->
    In e (history s) -> gives e dl ->
    (forall n, items (VDict d) "pulses" n -> length (d_pulses dl) = n /\ length (d_timegrids dl) = n) /\
    (forall n, items (VDict d) "parameters" n -> length (d_parameters dl) = n).
  Proof.
    intros H R I K. destruct (C76_from_controls _ _ _ _ _ _ _ H R I K) as (c0 & c & x & c' & C & A & B & _).
    destruct (counts _ _ _ _ _ _ _ _ C (said_plain _ _ H) A B) as (L1 & L2 & L3). destruct (said _ _ H) as ((P1 & l1 & A1 & B1 & C1 & _) & (P2 & l2 & A2 & B2 & C2) & _).
    split; intros n (P & l & Q1 & Q2 & <-).
    - rewrite Q1 in A1. injection A1 as ->. rewrite (is_list_fun _ _ _ Q2 B1), (Forall2_size _ _ _ C1). auto.
    - rewrite Q1 in A2. injection A2 as ->. rewrite (is_list_fun _ _ _ Q2 B2), (Forall2_size _ _ _ C2). auto.
  Qed.
  (** The direct search is constructed from a dictionary with pulses, but never asks the user for anything. *)
  Theorem C76_direct_search_with_pulses d su W r s n : construct F E d = (true, Good su) -> optimise (su_settings su) W = Ok (r, s) ->
    g_kind (su_settings su) = KDirect -> items (VDict d) "pulses" n -> n <> 0 -> forall x dl a, ~ In (EvEval x dl a) (history s).
  Proof.
    intros H R K J Z x dl a I. destruct (C76_counts _ _ _ _ _ _ _ H R I (to_the_merit x dl a)) as [Q _]. destruct (Q n J) as [Q1 _].
    destruct (everything_made _ _ _ _ R) as (c0 & _ & _ & M). destruct (M _ I) as (c & c' & d' & _ & _ & T). rewrite K in T. destruct T as (_ & _ & ->). cbn in Q1. congruence.
  Qed.

  (** ** Amplitudes *)
  Theorem C76_amplitudes (O : NumOrder N) d su W r s e dl i v a l u o :
    construct F E d = (true, Good su) -> optimise (su_settings su) W = Ok (r, s) -> In e (history s) -> gives e dl ->
    item_of (VDict d) "pulses" i v -> nth_error (d_pulses dl) i = Some a ->
    is_number (setting v ["lower_limit"] (float 0)) l -> is_number (setting v ["upper_limit"] (float 1)) u -> nisnan l = false -> nisnan u = false ->
    setting v ["shrink_ampl_lim"] (VBool false) = VBool false ->
    or_none is_names (setting v ["shaping_options"] VNone) o -> ends_with_limit o ->
    forall y, In y (samples a) -> nisnan y = true \/ between l u y.
  Proof.
    intros H R I K J P Hl Hu Nl Nu Hs Ho Ends. destruct (C76_from_controls _ _ _ _ _ _ _ H R I K) as (c0 & c & x & c' & C & A & B & _).
    destruct (said_pulse _ _ _ _ H J) as (f & Ef & (Bs & b & bs & cs & _ & _ & _ & _ & _ & -> & _ & _ & _ & _ & _ & _ & X1 & X2 & _ & X3 & _ & X4 & _)).
    rewrite (is_number_fun _ _ _ Hl X1) in *. rewrite (is_number_fun _ _ _ Hu X2) in *. rewrite Hs in X3. injection X3 as X3. rewrite (or_none_names_fun _ _ _ Ho X4) in Ends.
    refine (C01_samples_within_limits N O _ _ _ _ _ _ _ _ _ _ _ C A B Ef P _ _ _ _ _); auto. apply shipped_plain.
  Qed.

  (** ** Parameters *)
  Theorem C76_parameters (O : NumOrder N) d su W r s e dl i v y l u :
    construct F E d = (true, Good su) -> optimise (su_settings su) W = Ok (r, s) -> In e (history s) -> gives e dl ->
    item_of (VDict d) "parameters" i v -> nth_error (d_parameters dl) i = Some y ->
    is_number (setting v ["lower_limit"] (frac 1 10)) l -> is_number (setting v ["upper_limit"] (frac 11 10)) u -> nleb l u = true ->
    nisnan y = true \/ (nleb l y = true /\ nleb y u = true).
  Proof.
    intros H R I K J P Hl Hu Le. destruct (C76_from_controls _ _ _ _ _ _ _ H R I K) as (c0 & c & x & c' & C & A & B & _).
    destruct (said_parameter _ _ _ _ H J) as (f & Ef & (_ & _ & _ & _ & X1 & X2 & _)).
    rewrite (is_number_fun _ _ _ Hl X1) in *. rewrite (is_number_fun _ _ _ Hu X2) in *.
    destruct (C07_parameter_limits N O _ _ _ _ _ _ _ _ _ _ _ C (said_plain _ _ H) A B Ef P) as (z & _ & _ & Q1 & _ & Q2).
    { eapply Forall_impl; [|apply (said_shipped _ _ H)]. intros g (b & bs & cs & ->). cbn. apply repeat_length. }
    destruct (nisnan z) eqn:Z.
    - left. rewrite Q2; auto. destruct (nisnan (rf_lower f)) eqn:Y; [|reflexivity]. rewrite (nle_nan_l N O _ _ Y) in Le. discriminate.
    - right. destruct (Q1 Le eq_refl) as (Q3 & Q4 & _). auto.
  Qed.

  (** ** Goal, best value, total time and budget, by the entries in "algorithm_settings" *)
  Lemma setting_two (A : V) k j w : is_dict A -> setting A [k; j] w = setting (setting A [k] (VDict [])) [j] w.
  Proof. intros (a & ->). unfold setting. rewrite entry_cons, entry_one. destruct (find a k); reflexivity. Qed.
  Lemma said_main d su A : construct F E d = (true, Good su) -> algorithm_entries (VDict d) A -> is_dict A /\ says_main A (su_settings su).
  Proof. intros H Q. apply construct_says in H as [_ (A' & X & Y & _ & _ & _ & Z & _)]. unfold algorithm_entries in Q. rewrite Q in X. injection X as <-. auto. Qed.
  Lemma said_direction d su A : construct F E d = (true, Good su) -> algorithm_entries (VDict d) A -> (maximises A -> g_maximise (su_settings su) = true) /\ (~ maximises A -> g_maximise (su_settings su) = false).
  Proof.
    intros H Q. destruct (said_main _ _ _ H Q) as (_ & _ & _ & X & _). unfold maximises, is_text, setting in *. split; intros M.
    - rewrite M in X. destruct (g_maximise (su_settings su)); [reflexivity|discriminate].
    - destruct (g_maximise (su_settings su)); [|reflexivity]. exfalso. destruct (entry A ["optimization_direction"]); [|discriminate]. subst. now apply M.
  Qed.
  Lemma said_plainly (O : NumOrder N) d su A : construct F E d = (true, Good su) -> algorithm_entries (VDict d) A -> plainly A -> plain_run (su_settings su).
  Proof.
    intros H Q (P1 & P2 & m & P3 & P4). apply construct_says in H as [_ (A' & X & Y & _ & _ & _ & _ & _ & _ & _ & Z)]. unfold algorithm_entries in Q. rewrite Q in X. injection X as <-.
    cbn [plan_of p_settings] in Z. rewrite (setting_two _ _ _ _ Y) in P2. rewrite (setting_two _ _ _ _ Y) in P3. unfold plain_run.
    assert (K : no_search (su_settings su) -> g_steps (su_settings su) = None /\ g_drift_si (su_settings su) = false /\ (of_Z 0 <? g_drift_min (su_settings su))%num = false).
    { intros (_ & A1 & A2 & A3 & _). rewrite A3, (nlt_le N O). repeat split; auto. destruct (nleb _ _); reflexivity. }
    assert (T : says_steps A (su_settings su) -> g_steps (su_settings su) = None) by (unfold says_steps; now rewrite P1).
    destruct (g_kind (su_settings su)).
    - destruct Z as (_ & (C & <- & _ & Z1 & Z2 & _) & Z3 & _). split; [auto|]. rewrite P2 in Z1. injection Z1 as Z1. rewrite (is_number_fun _ _ _ P3 Z2) in P4. auto.
    - destruct Z as (_ & (C & <- & _ & Z1 & Z2 & _) & Z3 & _). split; [auto|]. rewrite (is_number_fun _ _ _ P3 Z2) in P4. auto.
    - apply K, Z.
    - apply K, Z.
  Qed.
  (** No evaluation is made after a value at least as good as the goal, in the direction of the dictionary. *)
  Theorem C76_goal (O : NumOrder N) (S : NumSign N) d su W r s A v g tr1 x dl a tr2 :
    construct F E d = (true, Good su) -> optimise (su_settings su) W = Ok (r, s) -> algorithm_entries (VDict d) A -> plainly A ->
    entry A ["FoM_goal"] = Some v -> is_number v g -> history s = tr1 ++ EvEval x dl a :: tr2 ->
    forall y, In y (values tr1) -> (maximises A -> (g <=? y)%num = false) /\ (~ maximises A -> (y <=? g)%num = false).
  Proof.
    intros H R Q P Hv Hg T y I. destruct (said_main _ _ _ H Q) as (_ & _ & _ & _ & X). unfold setting in X. rewrite Hv in X.
    assert (Z : g_goal (su_settings su) = Some g).
    { inversion X as [Y|w b Y1 Y2]; subst; [inversion Hg|]. f_equal. eapply is_number_fun; eassumption. }
    destruct (C18_goal_not_reached_before N O S _ _ _ _ _ _ _ _ _ _ (said_plainly O _ _ _ H Q P) R Z T) as [_ K]. specialize (K y I).
    destruct (said_direction _ _ _ H Q) as [M1 M2]. unfold attains in K. split; intros M; [rewrite (M1 M) in K|rewrite (M2 M) in K]; exact K.
  Qed.
  (** The reported value is one that the user returned, or 1e10 with the sign of the direction if none was better than that; no value that the
      user returned is better. *)
  Theorem C76_best (O : NumOrder N) (S : NumSign N) d su W r s A f :
    construct F E d = (true, Good su) -> optimise (su_settings su) W = Ok (r, s) -> algorithm_entries (VDict d) A -> plainly A ->
    In (EvFinal f) (history s) ->
    (maximises A -> (In (f_fom f) (values (history s)) \/ f_fom f = (of_Z (-1) * of_Z 10000000000)%num) /\
       forall y, In y (values (history s)) -> (f_fom f <? y)%num = false) /\
    (~ maximises A -> (In (f_fom f) (values (history s)) \/ f_fom f = of_Z 10000000000) /\
       forall y, In y (values (history s)) -> (y <? f_fom f)%num = false).
  Proof.
    intros H R Q P I. pose proof (said_plainly O _ _ _ H Q P) as PR. destruct (C20_best_value N O S _ _ _ _ PR R) as [B1 B2].
    pose proof (C20_reported_value N S _ _ _ _ _ R I) as Fo. destruct (said_direction _ _ _ H Q) as [M1 M2].
    assert (CV : forall tr, costs (su_settings su) tr = map (cost (su_settings su)) (values tr)).
    { intros tr. unfold costs, values. induction tr as [|e tr IH]; [reflexivity|]. cbn. rewrite map_app, IH. destruct e as [? ? an| | | | | | |]; try reflexivity. destruct (user_value an); reflexivity. }
    rewrite CV in *. unfold cost in *. split; intros M.
    - rewrite (M1 M) in *. rewrite Fo. split.
      + destruct B1 as [->|[B1 _]]; [right; reflexivity|]. left. apply in_map_iff in B1 as (y & <- & B1). rewrite (nmul_neg_neg N S). exact B1.
      + intros y J. specialize (B2 _ (in_map _ _ _ J)). rewrite (nlt_le N O) in *. rewrite <- (nmul_neg_neg N S y). rewrite !(nmul_neg_le N S). exact B2.
    - rewrite (M2 M) in *. rewrite map_id in *. rewrite Fo. split; [|exact B2]. destruct B1 as [->|[B1 _]]; [right; reflexivity|left; exact B1].
  Qed.
  (** Every evaluation directly follows a look at the clock, and no clock reading before it is at or beyond the limit (in minutes). *)
  Theorem C76_total_time d su W r s A v l tr1 x dl a tr2 :
    construct F E d = (true, Good su) -> optimise (su_settings su) W = Ok (r, s) -> algorithm_entries (VDict d) A ->
    entry A ["total_time_lim"] = Some v -> is_number v l -> (l <? of_Z 10000000000)%num = true -> history s = tr1 ++ EvEval x dl a :: tr2 ->
    (forall t, In (EvElapsed t) tr1 -> (l <=? t)%num = false) /\
    exists tr0 t, (tr1 = tr0 ++ [EvElapsed t] \/ tr1 = tr0 ++ [EvElapsed t; EvCleared ByAsync]).
  Proof.
    intros H R Q Hv Hl L T. destruct (said_main _ _ _ H Q) as (_ & _ & X & _). unfold setting in X. rewrite Hv in X. rewrite (is_number_fun _ _ _ Hl X) in *.
    exact (C19_calls_in_time N _ _ _ _ _ _ _ _ _ R L T).
  Qed.
  (** No more evaluations than "max_eval_total" says. *)
  Theorem C76_budget d su W r s A n :
    construct F E d = (true, Good su) -> optimise (su_settings su) W = Ok (r, s) -> algorithm_entries (VDict d) A -> entry A ["max_eval_total"] = Some (VInt n) ->
    (Z.of_nat (calls (history s)) <= Z.max 0 n)%Z.
  Proof.
    intros H R Q Hn. destruct (said_main _ _ _ H Q) as (_ & X & _). unfold setting in X. rewrite Hn in X. injection X as ->. exact (proj1 (C16_total_evaluation_budget N _ _ _ _ R)).
  Qed.
End C76.

(** ** In exact arithmetic: amplitudes also when shrinking, time grids and durations *)
Section C76R.
  Context (F : funs Rnum) (E : env (N := Rnum)).
  Notation V := (value (@num Rnum)).

  Theorem C76_amplitudes_exact (d : list (key * V)) su W r s e dl i v a l u o :
    construct F E d = (true, Good su) -> optimise (su_settings su) W = Ok (r, s) -> In e (history s) -> gives e dl ->
    item_of (VDict d) "pulses" i v -> nth_error (d_pulses dl) i = Some a ->
    is_number (setting v ["lower_limit"] (float 0)) l -> is_number (setting v ["upper_limit"] (float 1)) u ->
    or_none is_names (setting v ["shaping_options"] VNone) o -> ends_with_limit o ->
    forall y, In y (samples a) -> (Rmin l u <= y <= Rmax l u)%R.
  Proof.
    intros H R I K J P Hl Hu Ho Ends y Y. destruct (C76_from_controls F E _ _ _ _ _ _ _ H R I K) as (c0 & c & x & c' & C & A & B & _).
    destruct (said_pulse F E _ _ _ _ H J) as (f & Ef & (Bs & b & bs & cs & _ & _ & _ & _ & _ & X0 & _ & _ & _ & _ & _ & _ & X1 & X2 & _ & X3 & _ & X4 & _)).
    rewrite (is_number_fun _ _ _ Hl X1) in *. rewrite (is_number_fun _ _ _ Hu X2) in *. rewrite (or_none_names_fun _ _ _ Ho X4) in Ends.
    assert (X : exists pre post, SpecControls.names_of f = pre ++ "limit_pulse" :: post /\ forall s, In s post -> ~ In s known_options).
    { subst f. unfold SpecControls.names_of. cbn [pf_options ModelBases.shipped]. destruct (cs_options cs) as [names|]; [exact Ends|]. exists ["add_initial_guess"; "add_base_pulse"; "add_new_update_pulse"; "scale_pulse"], []. split; [reflexivity|intros ? []]. }
    destruct X as (pre & post & X & Po). destruct (cs_shrink cs) eqn:Sh.
    - assert (S : pf_shrink f = true) by (subst f; exact Sh).
      destruct (C02_shrink _ _ _ _ _ _ _ _ _ _ _ _ _ C A B Ef ltac:(subst f; apply shipped_plain) ltac:(subst f; apply shipped_ignores_options) S X Po P) as (us & cu & du & _ & _ & Q & _).
      subst f. exact (Q y Y).
    - assert (S : pf_shrink f = false) by (subst f; exact Sh).
      destruct (C01_samples_within_limits Rnum Rnum_order _ _ _ _ _ _ _ _ _ _ _ C A B Ef P ltac:(subst f; apply shipped_plain) S ltac:(subst f; exact Ends) eq_refl eq_refl y Y) as [Z|Z]; [discriminate|].
      subst f. cbn [pf_lower pf_upper ModelBases.shipped] in Z. unfold between in Z. change (@nleb Rnum) with Rle_bool in Z.
      unfold Rmin, Rmax. destruct (Rle_dec (cs_lower cs) (cs_upper cs)), (Rle_bool_spec (cs_lower cs) y), (Rle_bool_spec y (cs_upper cs)), (Rle_bool_spec (cs_upper cs) y), (Rle_bool_spec y (cs_lower cs));
        try lra; destruct Z as [[Z1 Z2]|[Z1 Z2]]; discriminate.
  Qed.

  (** The time grid of a pulse has "bins_number" points, equally spaced from 0 to the duration with the name "time_name" of the pulse: its
      "initial_value", or between its limits if it is optimised. *)
  Theorem C76_time_grids (d : list (key * V)) su W r s e dl i v g n name t t0 lo hi :
    construct F E d = (true, Good su) -> optimise (su_settings su) W = Ok (r, s) -> In e (history s) -> gives e dl ->
    item_of (VDict d) "pulses" i v -> nth_error (d_timegrids dl) i = Some g ->
    setting v ["bins_number"] (VInt 101) = VInt n -> setting v ["time_name"] (VStr "time") = VStr name -> duration_of (VDict d) name t ->
    is_number (setting t ["initial_value"] (float 1)) t0 -> is_number (setting t ["lower_limit"] (float 0)) lo -> is_number (setting t ["upper_limit"] (float 1)) hi ->
    exists T, equally_spaced T (Z.to_nat n) g /\
      (setting t ["is_optimization"] (VBool false) = VBool false -> T = t0) /\
      (setting t ["is_optimization"] (VBool false) = VBool true -> (lo < hi)%R -> (lo <= t0 <= hi)%R -> (lo <= T <= hi)%R).
  Proof.
    intros H R I K J P Hn Ht Du H0 Hl Hu. destruct (C76_from_controls F E _ _ _ _ _ _ _ H R I K) as (c0 & c & x & c' & C & A & B & _).
    destruct (said_pulse F E _ _ _ _ H J) as (f & Ef & (Bs & b & bs & cs & _ & _ & _ & _ & _ & X0 & _ & _ & _ & _ & X1 & X2 & _)).
    destruct (said_duration F E _ _ _ _ H Du) as (w & Lw & (_ & _ & _ & Y1 & _ & Y2 & Y3 & Y4 & _)).
    rewrite Hn in X1. injection X1 as ->. rewrite Ht in X2. injection X2 as ->. rewrite Nat2Z.id.
    destruct (C05_time_grid _ _ _ _ _ _ _ _ _ _ _ C A B Ef ltac:(subst f; apply shipped_plain) P) as (T & TT & _ & Eq & _). subst f. cbn [pf_bins pf_time_name ModelBases.shipped] in *.
    exists T. split; [exact Eq|].
    destruct (C08_duration_limits _ _ _ _ _ _ _ C (reach_get _ _ _ _ _ A B) TT) as (w' & Lw' & Q1 & Q2). rewrite Lw in Lw'. injection Lw' as <-.
    rewrite (is_number_fun _ _ _ H0 Y1) in *. rewrite (is_number_fun _ _ _ Hl Y3) in *. rewrite (is_number_fun _ _ _ Hu Y4) in *.
    split; intros Z; rewrite Z in Y2; injection Y2 as Y2; auto.
  Qed.
End C76R.

(** ** Dictionaries and runs *)
Section Cases.
  Context {N : Num}.
  Notation V := (value num).
  Definition wh_env : env :=
    {| e_guess := fun _ => Outside; e_scaling := fun _ => Outside; e_exists := fun _ => false; e_load_guess := fun _ _ => Outside; e_load_scaling := fun _ _ => Outside;
       e_cwd := "/home"; e_normpath := fun p => p; e_jax := true; e_elsewhere := fun _ _ => Fails; e_fom_methods := Good tt; e_folder_free := true |}.
  Definition wh_steps : list (key * V) := ["bins_number" :-> VInt 2; "basis" :-> VDict ["basis_name" :-> VStr "PiecewiseBasis"]].
  Definition wh_waves : list (key * V) :=
    ["bins_number" :-> VInt 5; "basis" :-> VDict ["basis_name" :-> VStr "Fourier"; "random_super_parameter_distribution" :-> VDict ["distribution_name" :-> VStr "Uniform"]]].
  Definition wh_pulse (more : list (key * V)) : V :=
    VDict (["pulse_name" :-> VStr "y"; "time_name" :-> VStr "t"; "lower_limit" :-> VInt (-1); "upper_limit" :-> VInt 3] ++ more).
  Definition wh_time (n : Z) : V := VDict ["time_name" :-> VStr "t"; "initial_value" :-> VInt n].
  Definition wh_parameter : V := VDict ["parameter_name" :-> VStr "p"; "upper_limit" :-> VInt 2].
  (** two durations with the same name: the last one counts *)
  Definition wh_dict (alg : list (key * V)) (pulse : V) : list (key * V) :=
    ["algorithm_settings" :-> VDict alg; "pulses" :-> VList [pulse]; "parameters" :-> VTuple [wh_parameter]; "times" :-> VList [wh_time 5; wh_time 7]].
  Definition wh_grape (more : list (key * V)) : list (key * V) := ("algorithm_name" :-> VStr "GRAPE") :: more.
  (** the minimiser asks for the vectors [xs]; the user answers with the parameter, [e]: the gradient raises *)
  Definition wh_world (e : option exn) (xs : list (list Z)) : world :=
    ex_world [] <|w_lbfgs := fun _ _ => fold_right (fun x k => Ask (map of_Z x) (fun _ => k)) Done xs|> <|w_gradient := fun _ _ => e|>.
End Cases.

(** reals: the gradient is asked for at the vector (1, 2, 3) and raises *)
Lemma first_gradient {N : Num} G W c0 c' m sg x k d e : g_kind G = KGRAPE -> new_controls (g_pulses G) (g_times G) (g_params G) = Ok c0 ->
  get_sigma_variation c0 = Ok sg -> get_mean_value c0 = Ok m -> get_controls_lists x c0 = Ok (c', d) ->
  (forall x0, w_lbfgs W 1 x0 = Ask x k) -> w_gradient W 0 d = Some e ->
  exists s, optimise G W = Ok (Err e, s) /\ history s = [EvGrad d].
Proof.
  intros K C S M D L GR. unfold optimise, new_state. rewrite C. cbn [rbind]. unfold execute, begin, run. rewrite K. eexists. split.
  { f_equal. unfold bind at 1 2, now. cbn [upd get bind]. unfold random_start, draw, ModelRun.sigma_variation, ModelRun.mean_value, uses_seed. rewrite K.
    unfold bind, get, upd, lift. cbn. rewrite S, M. cbn. rewrite L. cbn. rewrite K. unfold gradient, bind, get, upd, lift. cbn. rewrite D. cbn. rewrite GR. reflexivity. }
  reflexivity.
Qed.
Definition exact_run (shrink : bool) : Prop :=
  exists su r s dl a g, construct (N := Rnum) ex_funs wh_env (wh_dict (wh_grape []) (wh_pulse (wh_waves ++ ["shrink_ampl_lim" :-> VBool shrink]))) = (true, Good su) /\
  optimise (su_settings su) (wh_world (Some UserError) [[1; 2; 3]%Z]) = Ok (r, s) /\ In (EvGrad dl) (history s) /\
  nth_error (d_pulses dl) 0 = Some (Ar a) /\ length a = 5 /\ nth_error (d_timegrids dl) 0 = Some g.
Lemma exact_run_is shrink : exact_run shrink.
Proof.
  unfold exact_run.
  assert (Q : exists su, construct (N := Rnum) ex_funs wh_env (wh_dict (wh_grape []) (wh_pulse (wh_waves ++ ["shrink_ampl_lim" :-> VBool shrink]))) = (true, Good su) /\
    g_kind (su_settings su) = KGRAPE /\ exists bs cs t1 t2 p, g_pulses (su_settings su) = [ModelBases.shipped ex_funs Fourier bs cs] /\ g_times (su_settings su) = [t1; t2] /\ g_params (su_settings su) = [p] /\
      bs_k bs = 1 /\ cs_bins cs = 5 /\ cs_guess cs = zero_guess /\ cs_scaling cs = unit_scaling /\ cs_time_name cs = "t" /\ tf_name t2 = "t" /\ tf_opt t1 = false /\ tf_opt t2 = false).
  { eexists. split; [lazy -[ModelBases.shipped]; reflexivity|]. split; [reflexivity|]. do 5 eexists. split; [reflexivity|]. split; [reflexivity|]. split; [reflexivity|]. repeat (split; [reflexivity|]). reflexivity. }
  destruct Q as (su & Q & Kd & bs & cs & t1 & t2 & p & Gp & Gt & Gr & K1 & K2 & K3 & K4 & K5 & K6 & K7 & K8). exists su.
  destruct (C75_runs _ _ _ _ Q (wh_world (Some UserError) [[1; 2; 3]%Z])) as (r0 & s0 & R0 & _).
  unfold optimise, new_state in R0. destruct (new_controls (g_pulses (su_settings su)) (g_times (su_settings su)) (g_params (su_settings su))) as [c0|] eqn:C; [|discriminate]. clear R0 r0 s0.
  pose proof (said_plain _ _ _ _ Q) as PB. set (x := map (@of_Z Rnum) [1; 2; 3]%Z).
  assert (Zs : forall (B : Type) (k : R -> R) (g : list R), length g = 5 -> as_samples (N := Rnum) 5 (Ar (map k g)) <> None).
  { intros _ k g Lg. unfold as_samples. rewrite map_length, Lg. discriminate. }
  assert (US : usable (g_pulses (su_settings su)) (g_times (su_settings su))).
  { constructor; [exact PB| | | | |]; rewrite ?Gp; try (apply List.Forall_cons; [|apply List.Forall_nil]).
    - apply C56_shipped_bases; [discriminate|lia].
    - intros g Lg. unfold guess_samples, scaling_samples. cbn [pf_guess pf_scaling pf_bins ModelBases.shipped] in *. rewrite K2, K3, K4 in *. cbn [zero_guess unit_scaling]. split; apply (Zs R); exact Lg.
    - cbn. rewrite K2. discriminate.
    - cbn. rewrite Gt. unfold lookup_time. cbn. rewrite K5, K6. discriminate.
    - rewrite Gt. intros t [<-|[<-|[]]]; congruence. }
  assert (AG : List.Forall array_guess (g_pulses (su_settings su))).
  { rewrite Gp. apply List.Forall_cons; [|apply List.Forall_nil]. intros _ g _. cbn. rewrite K3. cbn. eauto. }
  destruct (C56_delivery_total _ _ _ _ _ c0 x C (reach_refl c0) US AG) as (c' & dl & D & L1 & L2 & L3 & HP); [discriminate| |].
  { destruct (C09_index_partition _ _ _ _ _ _ C PB (reach_refl c0)) as (_ & -> & _). rewrite Gp, Gr. cbn. rewrite K1. reflexivity. }
  assert (Ms : exists m, get_mean_value c0 = Ok m).
  { eexists. apply (C10_mean_value _ _ _ _ _ _ C PB (reach_refl c0)). rewrite Gp. repeat constructor. cbn. apply repeat_length. }
  assert (Ss : exists sg, get_sigma_variation c0 = Ok sg).
  { eexists. apply (C10_sigma_variation _ _ _ _ _ _ C PB (reach_refl c0)).
    - rewrite Gp. repeat constructor. cbn. apply repeat_length.
    - rewrite Gt. intros t [<-|[<-|[]]]; assumption. }
  destruct Ms as (m & Ms), Ss as (sg & Ss).
  destruct (first_gradient (su_settings su) (wh_world (Some UserError) [[1; 2; 3]%Z]) c0 c' m sg x _ dl UserError Kd C Ss Ms D (fun _ => eq_refl) eq_refl) as (s & Op & Hi).
  destruct (HP 0 _ ltac:(rewrite Gp; reflexivity)) as (a & Ha & La). rewrite Gp in L2. cbn in L2. destruct (d_timegrids dl) as [|g gs] eqn:Tg; [discriminate|].
  exists (Err UserError), s, dl, a, g. rewrite Tg, Hi. cbn in La. rewrite K2 in La. repeat (split; [assumption|]). split; [now left|]. auto.
Qed.
Example C76_amplitudes_exact_example : exists su r s dl a v o,
  construct (N := Rnum) ex_funs wh_env (wh_dict (wh_grape []) (wh_pulse (wh_waves ++ ["shrink_ampl_lim" :-> VBool true]))) = (true, Good su) /\
  optimise (su_settings su) (wh_world (Some UserError) [[1; 2; 3]%Z]) = Ok (r, s) /\ In (EvGrad dl) (history s) /\ gives (EvGrad dl) dl /\
  item_of (VDict (wh_dict (N := Rnum) (wh_grape []) (wh_pulse (wh_waves ++ ["shrink_ampl_lim" :-> VBool true])))) "pulses" 0 v /\ nth_error (d_pulses dl) 0 = Some (Ar a) /\ length a = 5 /\
  is_number (setting v ["lower_limit"] (float 0)) (of_Z (-1)) /\ is_number (setting v ["upper_limit"] (float 1)) (of_Z 3) /\ or_none is_names (setting v ["shaping_options"] VNone) o /\ ends_with_limit o.
Proof.
  destruct (exact_run_is true) as (su & r & s & dl & a & g & H1 & H2 & H3 & H4 & H5 & _). do 6 eexists. exists None. split; [exact H1|]. split; [exact H2|]. split; [exact H3|]. split; [constructor|].
  split; [do 2 eexists; split; [reflexivity|]; split; [left; reflexivity|reflexivity]|]. split; [exact H4|]. split; [exact H5|]. split; [constructor|]. split; [constructor|]. split; [constructor|exact I].
Qed.
Example C76_time_grids_example : exists su r s dl g v t,
  construct (N := Rnum) ex_funs wh_env (wh_dict (wh_grape []) (wh_pulse (wh_waves ++ ["shrink_ampl_lim" :-> VBool false]))) = (true, Good su) /\
  optimise (su_settings su) (wh_world (Some UserError) [[1; 2; 3]%Z]) = Ok (r, s) /\ In (EvGrad dl) (history s) /\ gives (EvGrad dl) dl /\
  item_of (VDict (wh_dict (N := Rnum) (wh_grape []) (wh_pulse (wh_waves ++ ["shrink_ampl_lim" :-> VBool false])))) "pulses" 0 v /\ nth_error (d_timegrids dl) 0 = Some g /\
  setting v ["bins_number"] (VInt 101) = VInt 5 /\ setting v ["time_name"] (VStr "time") = VStr "t" /\
  duration_of (VDict (wh_dict (N := Rnum) (wh_grape []) (wh_pulse (wh_waves ++ ["shrink_ampl_lim" :-> VBool false])))) "t" t /\
  is_number (setting t ["initial_value"] (float 1)) (of_Z 7) /\ setting t ["is_optimization"] (VBool false) = VBool false /\ equally_spaced 7%R 5 g.
Proof.
  destruct (exact_run_is false) as (su & r & s & dl & a & g & H1 & H2 & H3 & H4 & H5 & H6). do 5 eexists. exists (wh_pulse (wh_waves ++ ["shrink_ampl_lim" :-> VBool false])), (wh_time 7).
  split; [exact H1|]. split; [exact H2|]. split; [exact H3|]. split; [constructor|].
  assert (J : item_of (VDict (wh_dict (N := Rnum) (wh_grape []) (wh_pulse (wh_waves ++ ["shrink_ampl_lim" :-> VBool false])))) "pulses" 0 (wh_pulse (wh_waves ++ ["shrink_ampl_lim" :-> VBool false]))).
  { do 2 eexists; split; [reflexivity|]; split; [left; reflexivity|reflexivity]. }
  assert (Du : duration_of (VDict (wh_dict (N := Rnum) (wh_grape []) (wh_pulse (wh_waves ++ ["shrink_ampl_lim" :-> VBool false])))) "t" (wh_time 7)).
  { exists (VList [wh_time 5; wh_time 7]), [wh_time 5], []. split; [reflexivity|]. split; [left; reflexivity|]. split; [reflexivity|]. intros w []. }
  split; [exact J|]. split; [exact H6|]. split; [reflexivity|]. split; [reflexivity|]. split; [exact Du|]. split; [constructor|]. split; [reflexivity|].
  destruct (C76_time_grids _ _ _ _ _ _ _ _ _ _ _ _ _ _ _ (of_Z 7) (of_Z 0 / of_Z 1)%num (of_Z 1 / of_Z 1)%num H1 H2 H3 (to_the_gradient dl) J H6 eq_refl eq_refl Du) as (T & ET & Q & _); [constructor|constructor|constructor|].
  specialize (Q eq_refl). cbn in Q. subst T. exact ET.
Qed.

(** rationals: the pulse is cut at its limits, the goal 3/2 ends a maximisation after the second evaluation *)
Definition wh_goals : list (key * value (@num Qcnum)) :=
  wh_grape ["optimization_direction" :-> VStr "maximization"; "FoM_goal" :-> frac (N := Qcnum) 3 2; "max_eval_total" :-> VInt 10; "total_time_lim" :-> VInt 30].
Definition qs (l : list (@num Qcnum)) (m : list Z) : bool := forallb (fun p => eqq (fst p) (of_Z (snd p))) (combine l m) && Nat.eqb (length l) (length m).
Definition evaluated_are (tr : list (@event Qcnum)) (l : list (list Z * list Z)) : bool :=
  let ds := flat_map (fun e => match e with EvEval _ d _ => [d] | _ => [] end) tr in
  Nat.eqb (length ds) (length l) &&
  forallb (fun p => match d_pulses (fst p) with [Ar a] => qs a (fst (snd p)) | _ => false end && qs (d_parameters (fst p)) (snd (snd p))) (combine ds l).
Definition final_is (tr : list (@event Qcnum)) (n : Z) : bool := existsb (fun e => match e with EvFinal f => eqq (f_fom f) (of_Z n) | _ => false end) tr.
Lemma both_exist {N : Num} (m : bool * out setup) (W : world) (P : setup -> res unit -> st -> bool) :
  good_and m (fun su => match optimise (su_settings su) W with Ok (r, s) => P su r s | Err _ => false end) = true ->
  exists su r s, m = (true, Good su) /\ optimise (su_settings su) W = Ok (r, s) /\ P su r s = true.
Proof. intros H. apply good_exists in H as (su & H1 & H2). exists su. destruct (optimise (su_settings su) W) as [[r s]|]; [|discriminate]. eauto 6. Qed.
Example C76_example : exists su r s A,
  construct (N := Qcnum) ex_funs wh_env (wh_dict wh_goals (wh_pulse wh_steps)) = (true, Good su) /\
  optimise (su_settings su) (wh_world None [[9; -9; 1]; [0; 1; 8]; [0; 0; 1]]%Z) = Ok (r, s) /\ r = Ok tt /\
  evaluated_are (history s) [([3; -1], [1]); ([0; 1], [2])]%Z = true /\ final_is (history s) 2 = true /\ calls (history s) = 2 /\
  algorithm_entries (VDict (wh_dict wh_goals (wh_pulse wh_steps))) A /\ plainly A /\ maximises A /\
  (exists v, entry A ["FoM_goal"] = Some v /\ is_number v (of_Z 3 / of_Z 2)%num) /\
  (exists v, entry A ["total_time_lim"] = Some v /\ is_number v (of_Z 30)) /\ entry A ["max_eval_total"] = Some (VInt 10).
Proof.
  destruct (both_exist (construct (N := Qcnum) ex_funs wh_env (wh_dict wh_goals (wh_pulse wh_steps))) (wh_world None [[9; -9; 1]; [0; 1; 8]; [0; 0; 1]]%Z)
    (fun _ r s => fine_end r && evaluated_are (history s) [([3; -1], [1]); ([0; 1], [2])]%Z && final_is (history s) 2 && Nat.eqb (calls (history s)) 2)) as (su & r & s & H1 & H2 & X).
  { vm_compute. reflexivity. }
  apply andb_prop in X as [X X4]. apply andb_prop in X as [X X3]. apply andb_prop in X as [X1 X2]. exists su, r, s. eexists. split; [exact H1|]. split; [exact H2|].
  split; [destruct r as [[]|]; [reflexivity|discriminate]|]. split; [exact X2|]. split; [exact X3|]. split; [now apply Nat.eqb_eq|]. split; [reflexivity|].
  split; [split; [reflexivity|]; split; [reflexivity|]; eexists; split; [constructor|vm_compute; reflexivity]|]. split; [reflexivity|].
  split; [eexists; split; [reflexivity|constructor]|]. split; [eexists; split; [reflexivity|constructor]|]. reflexivity.
Qed.
(** the conclusions of the theorems in this run *)
Example C76_counts_example : exists dict, items (N := Qcnum) (VDict dict) "pulses" 1 /\ items (VDict dict) "parameters" 1 /\ dict = wh_dict wh_goals (wh_pulse wh_steps).
Proof. exists (wh_dict wh_goals (wh_pulse wh_steps)). split; [do 2 eexists; split; [reflexivity|]; split; [left; reflexivity|reflexivity]|]. split; [do 2 eexists; split; [reflexivity|]; split; [right; reflexivity|reflexivity]|reflexivity]. Qed.

(** ** Where it ends *)
(** limit_pulse not at the end of the list: the user gets a sample 9 with the limits -1 and 3 *)
Theorem C76_limit_not_last_refuted : exists d su W r s x dl a v,
  construct (N := Qcnum) ex_funs wh_env d = (true, Good su) /\ optimise (su_settings su) W = Ok (r, s) /\ In (EvEval x dl a) (history s) /\
  item_of (VDict d) "pulses" 0 v /\ setting v ["shrink_ampl_lim"] (VBool false) = VBool false /\
  is_number (setting v ["lower_limit"] (float 0)) (of_Z (-1)) /\ is_number (setting v ["upper_limit"] (float 1)) (of_Z 3) /\
  setting v ["shaping_options"] VNone = VList [VStr "limit_pulse"; VStr "add_new_update_pulse"] /\
  exists p, nth_error (d_pulses dl) 0 = Some p /\ exists y, In y (samples p) /\ ~ between (of_Z (-1)) (of_Z 3) y.
Proof.
  set (v := wh_pulse (N := Qcnum) (wh_steps ++ ["shaping_options" :-> VList [VStr "limit_pulse"; VStr "add_new_update_pulse"]])).
  exists (wh_dict (wh_grape []) v).
  destruct (both_exist (construct (N := Qcnum) ex_funs wh_env (wh_dict (wh_grape []) v)) (wh_world None [[9; -9; 1]]%Z) (fun _ r s => evaluated_are (history s) [([9; -9], [1])]%Z)) as (su & r & s & H1 & H2 & X).
  { vm_compute. reflexivity. }
  unfold evaluated_are in X. set (ds := flat_map _ (history s)) in X. assert (Y : exists x dl a, In (EvEval x dl a) (history s) /\ In dl ds /\ ds = [dl]).
  { apply andb_prop in X as [X _]. apply Nat.eqb_eq in X. destruct ds as [|dl [|? ?]] eqn:Ed; try discriminate. assert (I : In dl ds) by (rewrite Ed; now left).
    unfold ds in I. apply in_flat_map in I as (e & I & J). destruct e as [x d a| | | | | | |]; try destruct J as [<-|[]]; try destruct J. exists x, d, a. split; [exact I|]. split; [now left|reflexivity]. }
  destruct Y as (x & dl & a & I & _ & Ed). rewrite Ed in X. cbn in X. exists su, (wh_world None [[9; -9; 1]]%Z), r, s, x, dl, a, v. split; [exact H1|]. split; [exact H2|]. split; [exact I|].
  split; [do 2 eexists; split; [reflexivity|]; split; [left; reflexivity|reflexivity]|]. split; [reflexivity|]. split; [constructor|]. split; [constructor|]. split; [reflexivity|].
  destruct (d_pulses dl) as [|[|l] [|? ?]]; try discriminate. exists (Ar l). split; [reflexivity|]. rewrite !andb_true_r in X. apply andb_prop in X as [X _]. unfold qs in X.
  destruct l as [|y l]; [discriminate|]. exists y. split; [now left|]. cbn [combine forallb fst snd] in X. apply andb_prop in X as [X _]. apply andb_prop in X as [X _].
  unfold eqq in X. apply Qeq_bool_eq in X. apply Qc_is_canon in X. subst y. intros [[_ Q]|[_ Q]]; vm_compute in Q; discriminate.
Qed.
(** binary64: a shrunk sample exceeds the upper limit 1 by one unit in the last place *)
Theorem C76_shrink_rounding_refuted : exists d su W r s x dl a v,
  construct (N := F64) ex_funs wh_env d = (true, Good su) /\ optimise (su_settings su) W = Ok (r, s) /\ In (EvEval x dl a) (history s) /\
  item_of (VDict d) "pulses" 0 v /\ setting v ["shaping_options"] VNone = VNone /\
  is_number (setting v ["lower_limit"] (float 0)) (of_Z (-1)) /\ is_number (setting v ["upper_limit"] (float 1)) (of_Z 1) /\
  exists p, nth_error (d_pulses dl) 0 = Some p /\ exists y, In y (samples p) /\ (of_Z 1 <? y)%num = true.
Proof.
  set (v := VDict (F := @num F64) ["pulse_name" :-> VStr "y"; "time_name" :-> VStr "t"; "lower_limit" :-> VInt (-1); "upper_limit" :-> VInt 1; "bins_number" :-> VInt 2; "basis" :-> VDict ["basis_name" :-> VStr "PiecewiseBasis"]; "shrink_ampl_lim" :-> VBool true]).
  exists (wh_dict (wh_grape []) v). set (W := ex_world (N := F64) [] <|w_lbfgs := fun _ _ => Ask (N := F64) [f64_lit (-0x16666666666666) (-53); f64_lit 5 (-1); f64_of_Z 1] (fun _ => Done)|>).
  destruct (both_exist (construct (N := F64) ex_funs wh_env (wh_dict (wh_grape []) v)) W
    (fun _ r s => existsb (fun e => match e with EvEval _ d _ => match d_pulses d with [Ar [_; y]] => (of_Z 1 <? y)%num | _ => false end | _ => false end) (history s))) as (su & r & s & H1 & H2 & X).
  { vm_compute. reflexivity. }
  apply existsb_exists in X as (e & I & X). destruct e as [x dl a| | | | | | |]; try discriminate. exists su, W, r, s, x, dl, a, v. split; [exact H1|]. split; [exact H2|]. split; [exact I|].
  split; [do 2 eexists; split; [reflexivity|]; split; [left; reflexivity|reflexivity]|]. split; [reflexivity|]. split; [constructor|]. split; [constructor|].
  destruct (d_pulses dl) as [|[|[|? [|y [|? ?]]]] [|? ?]]; try discriminate. eexists. split; [reflexivity|]. exists y. split; [right; now left|exact X].
Qed.
(** the direct search takes a dictionary with a pulse and then raises without any evaluation *)
Example C76_direct_example : exists su r s e,
  construct (N := Qcnum) ex_funs wh_env (wh_dict (ex_other "DirectSearch") (wh_pulse wh_steps)) = (true, Good su) /\
  optimise (su_settings su) (wh_world None []) = Ok (r, s) /\ g_kind (su_settings su) = KDirect /\ r = Err e /\ calls (history s) = 0.
Proof.
  destruct (both_exist (construct (N := Qcnum) ex_funs wh_env (wh_dict (ex_other "DirectSearch") (wh_pulse wh_steps))) (wh_world None [])
    (fun su r s => match g_kind (su_settings su), r with KDirect, Err e => Nat.eqb (calls (history s)) 0 | _, _ => false end)) as (su & r & s & H1 & H2 & X).
  { vm_compute. reflexivity. }
  destruct (g_kind (su_settings su)) eqn:K, r as [|e]; try discriminate. exists su, (Err e), s, e. split; [exact H1|]. split; [exact H2|]. split; [exact K|]. split; [reflexivity|]. now apply Nat.eqb_eq.
Qed.

Print Assumptions C76_from_controls.
Print Assumptions C76_counts.
Print Assumptions C76_direct_search_with_pulses.
Print Assumptions C76_amplitudes.
Print Assumptions C76_parameters.
Print Assumptions C76_goal.
Print Assumptions C76_best.
Print Assumptions C76_total_time.
Print Assumptions C76_budget.
Print Assumptions C76_amplitudes_exact.
Print Assumptions C76_time_grids.
Print Assumptions C76_limit_not_last_refuted.
Print Assumptions C76_shrink_rounding_refuted.
