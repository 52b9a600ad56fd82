(** * Reading of the whole dictionary: lemmas. *)
From Coq Require Import String ZArith List Bool Lia.
From Verif Require Import Num Py ModelPulse ModelBases ModelControls ModelState ModelDump ModelImport SpecImport ProofImport ModelJson ModelConfig SpecConfig ProofConfig ProofConfigControls.
Import ListNotations.
Open Scope string_scope.
Open Scope list_scope.

Section All.
  Context {N : Num} (F : funs N) (E : env).
  Notation V := (value num).
  Notation D := (list (key * V)).

  (** ** On which entries the parts depend *)
  Lemma search_of direct (a b : D) G : find a "dsm_settings" = find b "dsm_settings" -> says_search E direct (VDict a) G -> says_search E direct (VDict b) G.
  Proof. intros X (S & W & H). rewrite !entry_cons, X in H. exists S, W. rewrite !entry_cons. exact H. Qed.
  Lemma drift_of direct (a b : D) G : find a "compensate_drift" = find b "compensate_drift" -> says_drift direct (VDict a) G -> says_drift direct (VDict b) G.
  Proof. intros X (C & H). rewrite setting_one, (sd_v_find _ b _ _ X) in H. exists C. rewrite setting_one. exact H. Qed.
  Lemma steps_of (a b : D) G : find a "re_evaluation" = find b "re_evaluation" -> says_steps (VDict a) G -> says_steps (VDict b) G.
  Proof. intros X. unfold says_steps. rewrite !entry_one, X. tauto. Qed.
  Lemma lbfgs_of (a b : D) l : find a "stopping_criteria" = find b "stopping_criteria" -> says_lbfgs (VDict a) l -> says_lbfgs (VDict b) l.
  Proof. intros X (C & H). rewrite setting_one, (sd_v_find _ b _ _ X) in H. exists C. rewrite setting_one. exact H. Qed.
  Lemma controls_of (d e : D) G : find d "pulses" = find e "pulses" -> find d "parameters" = find e "parameters" -> find d "times" = find e "times" ->
    says_controls F E (VDict d) G -> says_controls F E (VDict e) G.
  Proof. intros X1 X2 X3. unfold says_controls. rewrite !entry_one, X1, X2, X3. tauto. Qed.
  Lemma names_of (d e : D) sec k : find d sec = find e sec -> names d sec k = names e sec k.
  Proof. intros X. unfold names, item. rewrite X. reflexivity. Qed.
  Lemma named_of (d e : D) : find d "pulses" = find e "pulses" -> find d "parameters" = find e "parameters" -> find d "times" = find e "times" -> named d -> named e.
  Proof. intros X1 X2 X3 (N1 & N2 & N3). unfold named. rewrite <- (names_of d e _ _ X1), <- (names_of d e _ _ X2), <- (names_of d e _ _ X3). auto. Qed.

  (** ** Algorithms *)
  Lemma settings_eta G sd : (g_seeded G = true <-> sd <> Unseeded) ->
    settings_of (g_kind G) (g_method G) (base_of G) (g_max_si G) (g_steps G) (g_drift_si G) (g_drift_min G) (g_drift_avg G) sd (stop_of G) (g_pulses G) (g_times G) (g_params G) = G.
  Proof.
    intros X. unfold settings_of, base_of, stop_of. cbn. assert (Y : match sd with Unseeded => false | _ => true end = g_seeded G).
    { destruct sd; destruct (g_seeded G); try reflexivity; try (destruct (proj1 X eq_refl); reflexivity); symmetry; apply X; discriminate. }
    rewrite Y. destruct G; reflexivity.
  Qed.
  Lemma seeded_iff sd : match sd with Unseeded => false | _ => true end = true <-> sd <> Unseeded.
  Proof. destruct sd; split; congruence. Qed.
  (** what [says] states about everything below the general entries; [a] is the dictionary "algorithm_settings" *)
  Definition says_rest (d a : D) (G : settings) (sd : seed) (lb : option lbfgs_cfg) : Prop :=
    says_main (VDict a) G /\ says_controls F E (VDict d) G /\ seed_of (g_kind G) (entry (VDict a) ["random_number_generator"]) sd /\
    (g_seeded G = true <-> sd <> Unseeded) /\
    match g_kind G with
    | KdCRAB => says_search E false (VDict a) G /\ says_drift false (VDict a) G /\ says_steps (VDict a) G /\
        (exists n, entry (VDict a) ["super_iteration_number"] = Some (VInt n) /\ g_max_si G = n) /\ lb = None
    | KDirect => says_search E true (VDict a) G /\ says_drift true (VDict a) G /\ says_steps (VDict a) G /\ g_max_si G = 1%Z /\ lb = None
    | KGRAPE => no_search G /\ g_max_si G = 1%Z /\ (exists l, lb = Some l /\ says_lbfgs (VDict a) l) /\ g_pulses G <> [] /\ e_fom_methods E = Good tt
    | KAD => no_search G /\ is_integer (setting (VDict a) ["super_iteration_number"] (VInt 1)) (g_max_si G) /\ (exists l, lb = Some l /\ says_lbfgs (VDict a) l)
    end.
  Lemma base_find a t : ~ In t ["max_eval_total"; "total_time_lim"; "optimization_direction"; "FoM_goal"] -> find (base_dict a) t = find a t.
  Proof. intros I. cbn in I. unfold base_dict. rewrite !find_sd_other by (apply String.eqb_neq; intros ->; tauto). reflexivity. Qed.
  Lemma read_algorithm_says k d a G sd lb d' : find d "algorithm_settings" = Some (VDict a) -> named d -> read_algorithm F E k d = Good (G, sd, lb, d') -> g_kind G = k /\ says_rest d a G sd lb.
  Proof.
    intros Ha Nm H. unfold read_algorithm in H. unfold item at 1 in H. rewrite Ha in H. cbn [obind as_dict] in H. apply obind_good in H as ([b a1] & Rb & H).
    assert (Controls : forall e pf rf tf e' G', (forall t, In t ["pulses"; "parameters"; "times"] -> find e t = find d t) -> read_controls F E e = Good (pf, rf, tf, e') ->
       g_pulses G' = pf -> g_params G' = rf -> g_times G' = tf -> says_controls F E (VDict d) G').
    { intros e pf rf tf e' G' X RC <- <- <-. apply (controls_of e d); [apply X; cbn; tauto..|]. apply read_controls_good. split; [|eexists; exact RC].
      apply (named_of d e); [symmetry; apply X; cbn; tauto..|exact Nm]. }
    destruct k.
    - steps H. injection H as <- <- <- <-. set (G := settings_of _ _ _ _ _ _ _ _ _ _ _ _ _) in *.
      assert (Eb : b = base_of G) by (destruct b; reflexivity). rewrite Eb in Rb. apply read_base_good in Rb as [-> Hm].
      assert (Es : s = stop_of G) by (destruct s; reflexivity). change m with (g_method G) in R. rewrite Es in R.
      assert (Fs : forall t, ~ In t ["max_eval_total"; "total_time_lim"; "optimization_direction"; "FoM_goal"; "dsm_settings"] -> find l t = find a t).
      { intros t I. rewrite (read_search_frame _ _ _ _ _ _ R) by (cbn in I |- *; tauto). apply base_find. cbn in I |- *; tauto. }
      assert (Fd : forall t, ~ In t ["max_eval_total"; "total_time_lim"; "optimization_direction"; "FoM_goal"; "dsm_settings"; "compensate_drift"] -> find l0 t = find a t).
      { intros t I. rewrite (read_drift_frame _ _ _ _ _ R0) by (intros ->; cbn in I; tauto). apply Fs. cbn in I |- *; tauto. }
      split; [reflexivity|]. split; [exact Hm|]. split; [eapply Controls; [|exact R5|reflexivity..]; intros t I; apply find_store_other; cbn in I; destruct I as [<-|[<-|[<-|[]]]]; reflexivity|].
      rewrite entry_one. apply read_seed_good in R4. rewrite Fd in R4 by (cbn; intuition discriminate). split; [exact R4|]. split; [apply seeded_iff|].
      change (g_kind G) with KdCRAB. split; [|split; [|split; [|split; [|reflexivity]]]].
      + apply (search_of _ (base_dict a) a); [apply base_find; cbn; intuition discriminate|]. apply read_search_good. eexists; exact R.
      + apply (drift_of _ l a); [apply Fs; cbn; intuition discriminate|]. apply read_drift_good. eexists; exact R0.
      + apply (steps_of l0 a); [apply Fd; cbn; intuition discriminate|]. apply read_steps_good. exact R3.
      + apply item_good in R1. rewrite Fd in R1 by (cbn; intuition discriminate). rewrite entry_one, R1. apply integer_good in R2. unfold is_integer in R2. rewrite R2. eexists. split; reflexivity.
    - steps H. injection H as <- <- <- <-. set (G := settings_of _ _ _ _ _ _ _ _ _ _ _ _ _) in *.
      assert (Eb : b = base_of G) by (destruct b; reflexivity). rewrite Eb in Rb. apply read_base_good in Rb as [-> Hm].
      assert (Es : s = stop_of G) by (destruct s; reflexivity). change m with (g_method G) in R. rewrite Es in R.
      assert (Fs : forall t, ~ In t ["max_eval_total"; "total_time_lim"; "optimization_direction"; "FoM_goal"; "dsm_settings"] -> find l t = find a t).
      { intros t I. rewrite (read_search_frame _ _ _ _ _ _ R) by (cbn in I |- *; tauto). apply base_find. cbn in I |- *; tauto. }
      assert (Fd : forall t, ~ In t ["max_eval_total"; "total_time_lim"; "optimization_direction"; "FoM_goal"; "dsm_settings"; "compensate_drift"] -> find l0 t = find a t).
      { intros t I. rewrite (read_drift_frame _ _ _ _ _ R0) by (intros ->; cbn in I; tauto). apply Fs. cbn in I |- *; tauto. }
      split; [reflexivity|]. split; [exact Hm|]. split; [eapply Controls; [|exact R2|reflexivity..]; intros t I; apply find_store_other; cbn in I; destruct I as [<-|[<-|[<-|[]]]]; reflexivity|].
      split; [reflexivity|]. split; [apply (seeded_iff Unseeded)|].
      change (g_kind G) with KDirect. split; [|split; [|split; [|split; reflexivity]]].
      + apply (search_of _ (base_dict a) a); [apply base_find; cbn; intuition discriminate|]. apply read_search_good. eexists; exact R.
      + apply (drift_of _ l a); [apply Fs; cbn; intuition discriminate|]. apply read_drift_good. exists l0. rewrite R0. f_equal. f_equal. f_equal. f_equal.
        clear -R0. unfold read_drift in R0. steps R0. injection R0 as <- _ _ _. injection R1 as <-. reflexivity.
      + apply (steps_of l0 a); [apply Fd; cbn; intuition discriminate|]. apply read_steps_good. exact R1.
    - steps H. injection H as <- <- <- <-. set (G := settings_of _ _ _ _ _ _ _ _ _ _ _ _ _) in *.
      assert (Eb : b = base_of G) by (destruct b; reflexivity). rewrite Eb in Rb. apply read_base_good in Rb as [-> Hm].
      assert (Fl : forall t, ~ In t ["max_eval_total"; "total_time_lim"; "optimization_direction"; "FoM_goal"; "stopping_criteria"] -> find l0 t = find a t).
      { intros t I. rewrite (read_lbfgs_frame _ _ _ _ R0) by (intros ->; cbn in I; tauto). apply base_find. cbn in I |- *; tauto. }
      split; [reflexivity|]. split; [exact Hm|].
      split; [eapply Controls; [|exact R2|reflexivity..]; intros t I; cbn in I; destruct I as [<-|[<-|[<-|[]]]]; rewrite find_store_other, find_sd_other by reflexivity; reflexivity|].
      rewrite entry_one. apply read_seed_good in R1. rewrite Fl in R1 by (cbn; intuition discriminate). split; [exact R1|]. split; [apply seeded_iff|].
      change (g_kind G) with KGRAPE. split; [repeat split|]. split; [reflexivity|]. split; [eexists; split; [reflexivity|]|split; [|exact R]].
      + apply (lbfgs_of (base_dict a) a); [apply base_find; cbn; intuition discriminate|]. apply read_lbfgs_good. eexists; exact R0.
      + apply check_good in R3. intros X. unfold G, settings_of in X. cbn [g_pulses] in X. rewrite X in R3. discriminate R3.
    - steps H. injection H as <- <- <- <-. set (G := settings_of _ _ _ _ _ _ _ _ _ _ _ _ _) in *.
      assert (Eb : b = base_of G) by (destruct b; reflexivity). rewrite Eb in Rb. apply read_base_good in Rb as [-> Hm].
      assert (Fl : forall t, ~ In t ["max_eval_total"; "total_time_lim"; "optimization_direction"; "FoM_goal"; "stopping_criteria"; "super_iteration_number"] -> find l0 t = find a t).
      { intros t I. rewrite (read_lbfgs_frame _ _ _ _ R0) by (intros ->; cbn in I; tauto). rewrite find_sd_other by (apply String.eqb_neq; intros ->; cbn in I; tauto). apply base_find. cbn in I |- *; tauto. }
      split; [reflexivity|]. split; [exact Hm|].
      split; [eapply Controls; [|exact R2|reflexivity..]; intros t I; cbn in I; destruct I as [<-|[<-|[<-|[]]]]; rewrite find_store_other, find_sd_other by reflexivity; reflexivity|].
      rewrite entry_one. apply read_seed_good in R1. rewrite Fl in R1 by (cbn; intuition discriminate). split; [exact R1|]. split; [apply seeded_iff|].
      change (g_kind G) with KAD. split; [repeat split|]. split.
      + rewrite setting_one. apply integer_good in R. rewrite (sd_v_find _ a) in R by (apply base_find; cbn; intuition discriminate). exact R.
      + eexists. split; [reflexivity|]. apply (lbfgs_of (sd_d (base_dict a) "super_iteration_number" (VInt 1)) a);
          [rewrite find_sd_other by reflexivity; apply base_find; cbn; intuition discriminate|]. apply read_lbfgs_good. eexists; exact R0.
  Qed.

  Lemma read_algorithm_back k d a G sd lb : find d "algorithm_settings" = Some (VDict a) -> g_kind G = k -> says_rest d a G sd lb -> exists d', read_algorithm F E k d = Good (G, sd, lb, d').
  Proof.
    intros Ha Hk (Hm & Hc & Hs & Hg & H). rewrite Hk in *. rewrite entry_one in Hs. unfold read_algorithm. unfold item at 1. rewrite Ha. cbn [obind as_dict].
    rewrite (proj2 (read_base_good _ _ _) (conj eq_refl Hm)). cbn [obind].
    assert (Controls : forall e, (forall t, In t ["pulses"; "parameters"; "times"] -> find e t = find d t) -> exists e', read_controls F E e = Good (g_pulses G, g_params G, g_times G, e')).
    { intros e X. apply read_controls_good. apply (controls_of d e); [symmetry; apply X; cbn; tauto..|exact Hc]. }
    destruct k.
    - destruct H as (H1 & H2 & H3 & (n & H4 & H5) & ->). rewrite entry_one in H4.
      apply (search_of _ a (base_dict a)) in H1; [|symmetry; apply base_find; cbn; intuition discriminate]. apply read_search_good in H1 as (a2 & R). rewrite R. cbn [obind].
      assert (Fs : forall t, ~ In t ["max_eval_total"; "total_time_lim"; "optimization_direction"; "FoM_goal"; "dsm_settings"] -> find a2 t = find a t).
      { intros t I. rewrite (read_search_frame _ _ _ _ _ _ R) by (cbn in I |- *; tauto). apply base_find. cbn in I |- *; tauto. }
      apply (drift_of _ a a2) in H2; [|symmetry; apply Fs; cbn; intuition discriminate]. apply read_drift_good in H2 as (a3 & R0). rewrite R0. cbn [obind].
      assert (Fd : forall t, ~ In t ["max_eval_total"; "total_time_lim"; "optimization_direction"; "FoM_goal"; "dsm_settings"; "compensate_drift"] -> find a3 t = find a t).
      { intros t I. rewrite (read_drift_frame _ _ _ _ _ R0) by (intros ->; cbn in I; tauto). apply Fs. cbn in I |- *; tauto. }
      unfold item at 1. rewrite Fd, H4 by (cbn; intuition discriminate). cbn [obind integer].
      apply (steps_of a a3) in H3; [|symmetry; apply Fd; cbn; intuition discriminate]. apply read_steps_good in H3. rewrite H3. cbn [obind].
      rewrite <- (Fd "random_number_generator") in Hs by (cbn; intuition discriminate). apply read_seed_good in Hs. rewrite Hs. cbn [obind].
      destruct (Controls (store d "algorithm_settings" (VDict a3))) as (e' & RC); [intros t I; apply find_store_other; cbn in I; destruct I as [<-|[<-|[<-|[]]]]; reflexivity|]. rewrite RC. cbn [obind].
      rewrite <- Hk, <- H5, settings_eta by exact Hg. eexists; reflexivity.
    - destruct H as (H1 & H2 & H3 & H5 & ->).
      apply (search_of _ a (base_dict a)) in H1; [|symmetry; apply base_find; cbn; intuition discriminate]. apply read_search_good in H1 as (a2 & R). rewrite R. cbn [obind].
      assert (Fs : forall t, ~ In t ["max_eval_total"; "total_time_lim"; "optimization_direction"; "FoM_goal"; "dsm_settings"] -> find a2 t = find a t).
      { intros t I. rewrite (read_search_frame _ _ _ _ _ _ R) by (cbn in I |- *; tauto). apply base_find. cbn in I |- *; tauto. }
      assert (Hdr := H2). destruct Hdr as (C & _ & _ & Hsi & _).
      apply (drift_of _ a a2) in H2; [|symmetry; apply Fs; cbn; intuition discriminate]. apply read_drift_good in H2 as (a3 & R0). rewrite R0. cbn [obind].
      assert (Fd : forall t, ~ In t ["max_eval_total"; "total_time_lim"; "optimization_direction"; "FoM_goal"; "dsm_settings"; "compensate_drift"] -> find a3 t = find a t).
      { intros t I. rewrite (read_drift_frame _ _ _ _ _ R0) by (intros ->; cbn in I; tauto). apply Fs. cbn in I |- *; tauto. }
      apply (steps_of a a3) in H3; [|symmetry; apply Fd; cbn; intuition discriminate]. apply read_steps_good in H3. rewrite H3. cbn [obind].
      destruct (Controls (store d "algorithm_settings" (VDict a3))) as (e' & RC); [intros t I; apply find_store_other; cbn in I; destruct I as [<-|[<-|[<-|[]]]]; reflexivity|]. rewrite RC. cbn [obind].
      cbn in Hs. subst sd. rewrite <- Hk, <- H5, <- Hsi, settings_eta by exact Hg. eexists; reflexivity.
    - destruct H as (Hn & H5 & (l & -> & H6) & H7 & H8). rewrite H8. cbn [obind].
      apply (lbfgs_of a (base_dict a)) in H6; [|symmetry; apply base_find; cbn; intuition discriminate]. apply read_lbfgs_good in H6 as (a2 & R0). rewrite R0. cbn [obind].
      assert (Fl : forall t, ~ In t ["max_eval_total"; "total_time_lim"; "optimization_direction"; "FoM_goal"; "stopping_criteria"] -> find a2 t = find a t).
      { intros t I. rewrite (read_lbfgs_frame _ _ _ _ R0) by (intros ->; cbn in I; tauto). apply base_find. cbn in I |- *; tauto. }
      rewrite <- (Fl "random_number_generator") in Hs by (cbn; intuition discriminate). apply read_seed_good in Hs. rewrite Hs. cbn [obind].
      destruct (Controls (store (sd_d d "sys_type" (VStr "StateTransfer")) "algorithm_settings" (VDict a2))) as (e' & RC);
        [intros t I; cbn in I; destruct I as [<-|[<-|[<-|[]]]]; rewrite find_store_other, find_sd_other by reflexivity; reflexivity|]. rewrite RC. cbn [obind].
      assert (C : negb (Nat.eqb (length (g_pulses G)) 0) = true) by (destruct (g_pulses G); [congruence|reflexivity]). rewrite C. cbn [check obind].
      destruct Hn as (Q1 & Q2 & Q3 & Q4 & Q5 & Q6 & Q7 & Q8 & Q9 & Q10 & Q11).
      assert (X : no_stop = stop_of G) by (unfold no_stop, stop_of; congruence). match goal with |- exists d', Good (?S, _, _, _) = _ => replace S with G; [eexists; reflexivity|symmetry; etransitivity; [|apply (settings_eta G sd Hg)]] end. rewrite Hk, H5, <- X, Q1, Q2, Q3, Q4, Q5. reflexivity.
    - destruct H as (Hn & H5 & (l & -> & H6)). rewrite setting_one in H5. rewrite <- (sd_v_find (base_dict a) a) in H5 by (apply base_find; cbn; intuition discriminate). apply integer_good in H5. rewrite H5. cbn [obind].
      apply (lbfgs_of a (sd_d (base_dict a) "super_iteration_number" (VInt 1))) in H6; [|symmetry; rewrite find_sd_other by reflexivity; apply base_find; cbn; intuition discriminate]. apply read_lbfgs_good in H6 as (a2 & R0). rewrite R0. cbn [obind].
      assert (Fl : forall t, ~ In t ["max_eval_total"; "total_time_lim"; "optimization_direction"; "FoM_goal"; "stopping_criteria"; "super_iteration_number"] -> find a2 t = find a t).
      { intros t I. rewrite (read_lbfgs_frame _ _ _ _ R0) by (intros ->; cbn in I; tauto). rewrite find_sd_other by (apply String.eqb_neq; intros ->; cbn in I; tauto). apply base_find. cbn in I |- *; tauto. }
      rewrite <- (Fl "random_number_generator") in Hs by (cbn; intuition discriminate). apply read_seed_good in Hs. rewrite Hs. cbn [obind].
      destruct (Controls (store (sd_d d "sys_type" (VStr "StateTransfer")) "algorithm_settings" (VDict a2))) as (e' & RC);
        [intros t I; cbn in I; destruct I as [<-|[<-|[<-|[]]]]; rewrite find_store_other, find_sd_other by reflexivity; reflexivity|]. rewrite RC. cbn [obind].
      destruct Hn as (Q1 & Q2 & Q3 & Q4 & Q5 & Q6 & Q7 & Q8 & Q9 & Q10 & Q11).
      assert (X : no_stop = stop_of G) by (unfold no_stop, stop_of; congruence). match goal with |- exists d', Good (?S, _, _, _) = _ => replace S with G; [eexists; reflexivity|symmetry; etransitivity; [|apply (settings_eta G sd Hg)]] end. rewrite Hk, <- X, Q1, Q2, Q3, Q4, Q5. reflexivity.
  Qed.

  (** ** All of it *)
  (** "algorithm_settings" when the algorithm reads it *)
  Definition front_alg (a : D) : D := sd_d (sd_d a "optimization_direction" (VStr "minimization")) "algorithm_name" VNone.
  Lemma front_alg_rest d e a G sd lb : (forall t, In t ["pulses"; "parameters"; "times"] -> find e t = find d t) -> says_rest e (front_alg a) G sd lb <-> says_rest d a G sd lb.
  Proof.
    intros X.
    assert (Fa : forall t, ~ In t ["optimization_direction"; "algorithm_name"] -> find (front_alg a) t = find a t).
    { intros t I. cbn in I. unfold front_alg. rewrite !find_sd_other by (apply String.eqb_neq; intros ->; tauto). reflexivity. }
    assert (M : says_main (VDict (front_alg a)) G <-> says_main (VDict a) G).
    { unfold says_main. rewrite !setting_one. rewrite (sd_v_find (front_alg a) a "max_eval_total"), (sd_v_find (front_alg a) a "total_time_lim"), (sd_v_find (front_alg a) a "FoM_goal") by (apply Fa; cbn; intuition discriminate).
      unfold front_alg. rewrite sd_v_other, sd_v_same by reflexivity. reflexivity. }
    unfold says_rest. rewrite M. rewrite !entry_one, !setting_one. rewrite (Fa "random_number_generator"), (Fa "super_iteration_number") by (cbn; intuition discriminate).
    rewrite (sd_v_find (front_alg a) a "super_iteration_number") by (apply Fa; cbn; intuition discriminate).
    assert (C : says_controls F E (VDict e) G <-> says_controls F E (VDict d) G) by (split; apply controls_of; try apply X; try (symmetry; apply X); cbn; tauto). rewrite C.
    assert (S1 : forall b, says_search E b (VDict (front_alg a)) G <-> says_search E b (VDict a) G) by (intros b; split; apply search_of; [|symmetry]; apply Fa; cbn; intuition discriminate).
    assert (S2 : forall b, says_drift b (VDict (front_alg a)) G <-> says_drift b (VDict a) G) by (intros b; split; apply drift_of; [|symmetry]; apply Fa; cbn; intuition discriminate).
    assert (S3 : says_steps (VDict (front_alg a)) G <-> says_steps (VDict a) G) by (split; apply steps_of; [|symmetry]; apply Fa; cbn; intuition discriminate).
    assert (S4 : forall l, says_lbfgs (VDict (front_alg a)) l <-> says_lbfgs (VDict a) l) by (intros b; split; apply lbfgs_of; [|symmetry]; apply Fa; cbn; intuition discriminate).
    destruct (g_kind G); rewrite ?S1, ?S2, ?S3; try reflexivity; setoid_rewrite S4; reflexivity.
  Qed.

  Lemma read_rest_good f d a su : find d "algorithm_settings" = Some (VDict (sd_d a "optimization_direction" (VStr "minimization"))) ->
    (read_rest F E f d = Good su -> su_job su = fr_job f /\ su_logfile su = fr_logfile f /\ su_console su = fr_console f /\ su_microseconds su = fr_microseconds f /\ su_format su = fr_format f /\
      no_object (VDict a) "algorithm_attribute" /\ selects E "algorithm" (VDict a) "algorithm_module" "algorithm_class" "algorithm_name" (ClsAlgorithm (g_kind (su_settings su))) /\
      says_rest d a (su_settings su) (su_seed su) (su_lbfgs su)).
  Proof.
    intros Ha H. unfold read_rest, kw in H. unfold item in H. rewrite Ha in H. cbn [obind as_dict] in H. look_in H. steps H.
    apply no_class_good in R. apply resolve_selects in R0. destruct x as [k| | | | | |]; try discriminate H. steps H. injection H as <-. cbn.
    apply read_algorithm_says with (a := front_alg a) in R4; [|apply find_store_same|split; [|split]; assumption]. destruct R4 as [Hk Hr].
    do 5 (split; [reflexivity|]). unfold no_object. rewrite setting_one. split; [exact R|]. split; [rewrite Hk; exact R0|].
    revert Hr. apply front_alg_rest. intros t I. apply find_store_other. cbn in I. destruct I as [<-|[<-|[<-|[]]]]; reflexivity.
  Qed.
  Lemma read_rest_back f d a G sd lb : find d "algorithm_settings" = Some (VDict (sd_d a "optimization_direction" (VStr "minimization"))) ->
    no_object (VDict a) "algorithm_attribute" -> selects E "algorithm" (VDict a) "algorithm_module" "algorithm_class" "algorithm_name" (ClsAlgorithm (g_kind G)) ->
    says_rest d a G sd lb ->
    exists su, read_rest F E f d = Good su /\ su_job su = fr_job f /\ su_logfile su = fr_logfile f /\ su_console su = fr_console f /\ su_microseconds su = fr_microseconds f /\ su_format su = fr_format f /\
      su_settings su = G /\ su_seed su = sd /\ su_lbfgs su = lb.
  Proof.
    intros Ha Hn Hsel Hr. unfold read_rest, kw. unfold item. rewrite Ha. cbn [obind as_dict]. unfold no_object in Hn. rewrite setting_one in Hn. look. rewrite Hn. cbn [obind no_class].
    apply resolve_selects in Hsel. rewrite Hsel. cbn [obind]. change (sd_d (sd_d a _ _) _ _) with (front_alg a). set (e := store d "algorithm_settings" (VDict (front_alg a))).
    assert (X : forall t, In t ["pulses"; "parameters"; "times"] -> find e t = find d t) by (intros t I; apply find_store_other; cbn in I; destruct I as [<-|[<-|[<-|[]]]]; reflexivity).
    apply (front_alg_rest d e) in Hr; [|exact X]. assert (Nm : named e) by (destruct Hr as (_ & Hc & _); apply read_controls_good in Hc; tauto). destruct Nm as (N1 & N2 & N3). rewrite N1, N2, N3. cbn [obind].
    destruct (read_algorithm_back (g_kind G) e (front_alg a) G sd lb (find_store_same _ _ _) eq_refl Hr) as (d' & ->). cbn [obind]. eexists. split; [reflexivity|]. cbn. tauto.
  Qed.

  Lemma construct_says d su : construct F E d = (true, Good su) -> e_folder_free E = true /\ says F E (VDict d) (plan_of su).
  Proof.
    unfold construct. destruct (read_front d) as [[f d1]| |] eqn:Hf; try discriminate. destruct (e_folder_free E) eqn:Fr; [|discriminate]. intros [= H]. split; [reflexivity|].
    apply read_front_good in Hf as ((a & Ha & ->) & Hj & Hl & Hc & Hm & Ho). eapply read_rest_good in H; [|apply find_store_same].
    destruct H as (E1 & E2 & E3 & E4 & E5 & Hn & Hs & Hr). unfold says. exists (VDict a). split; [exact Ha|]. split; [eexists; reflexivity|]. split; [exact Hn|]. split; [exact Hs|].
    unfold says_general. cbn [plan_of p_job p_logfile p_console p_microseconds p_format p_settings p_seed p_lbfgs]. rewrite E1, E2, E3, E4, E5. split; [auto 6|].
    destruct Hr as (H1 & H2 & H3). split; [exact H1|]. split; [|exact H3].
    revert H2. apply controls_of; rewrite find_store_other, !find_sd_other by reflexivity; reflexivity.
  Qed.
  Lemma front_rest_back d p : says F E (VDict d) p -> exists f d1 su, read_front d = Good (f, d1) /\ read_rest F E f d1 = Good su /\ plan_of su = p.
  Proof.
    intros (A & HA & (a & ->) & Hn & Hs & (G1 & G2 & G3 & G4 & G5) & Hm & Hc & Hr).
    set (f := {| fr_job := p_job p; fr_logfile := p_logfile p; fr_console := p_console p; fr_microseconds := p_microseconds p; fr_format := p_format p |}).
    set (d1 := store (sd_d (sd_d (sd_d (sd_d (sd_d d "optimization_client_name" (VStr "run")) "create_logfile" (VBool true)) "console_info" (VBool true))
         "use_microsecond_name" (VBool false)) "dump_format" (VStr "npz")) "algorithm_settings" (VDict (sd_d a "optimization_direction" (VStr "minimization")))).
    assert (Hf : read_front d = Good (f, d1)). { apply read_front_good. split; [exists a; split; [exact HA|reflexivity]|]. auto 6. }
    exists f, d1. rewrite Hf. destruct (read_rest_back f d1 a (p_settings p) (p_seed p) (p_lbfgs p)) as (su & -> & E1 & E2 & E3 & E4 & E5 & E6 & E7 & E8); [apply find_store_same|exact Hn|exact Hs| |].
    - split; [exact Hm|]. split; [|exact Hr]. revert Hc. apply controls_of; unfold d1; rewrite find_store_other, !find_sd_other by reflexivity; reflexivity.
    - exists su. split; [reflexivity|]. split; [reflexivity|]. unfold plan_of. rewrite E1, E2, E3, E4, E5, E6, E7, E8. destruct p; reflexivity.
  Qed.  Lemma construct_back d p : e_folder_free E = true -> says F E (VDict d) p -> exists su, construct F E d = (true, Good su) /\ plan_of su = p.
  Proof. intros Fr H. apply front_rest_back in H as (f & d1 & su & H1 & H2 & H3). unfold construct. rewrite H1, Fr, H2. eauto. Qed.
End All.
