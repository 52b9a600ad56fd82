(** * C75 What an optimisation dictionary says.
    [construct F E d]: the constructor of the optimiser on the dictionary [d] in the environment [E]; first component: a results folder was
    made by it.  [says F E D p]: the plan [p] according to the documented entries and defaults (SpecConfig.v). *)
From Coq Require Import String ZArith List Bool Lia FinFun QArith Qcanon.
From Verif Require Import Num NumFacts NumQ Py ModelPulse ModelBases ModelControls ModelState ModelSearch ModelRun SpecRun ModelImport SpecImport ModelJson SpecJson PropJson
  ModelConfig SpecConfig ProofConfig ProofConfigControls ProofConfigAll ProofConfigAgain ProofConfigFile ExampleControls PropRun.
Import ListNotations.
Open Scope string_scope.
Open Scope list_scope.
Open Scope nat_scope.

Section C75.
  Context {N : Num} (F : funs N) (E : env).
  Notation V := (value num).
  Notation D := (list (key * V)).
  Implicit Types d : D.

  (** The constructor succeeds exactly on the dictionaries that say something, and the optimiser holds what they say. *)
  Theorem C75_constructed d p : (exists su, construct F E d = (true, Good su) /\ plan_of su = p) <-> e_folder_free E = true /\ says F E (VDict d) p.
  Proof. split; [intros (su & H & <-); apply construct_says; exact H|intros [H H1]; apply construct_back; assumption]. Qed.

  (** A dictionary says at most one thing. *)
  Theorem C75_determined d p p' : says F E (VDict d) p -> says F E (VDict d) p' -> p = p'.
  Proof.
    intros H H'. apply front_rest_back in H as (f & d1 & su & H1 & H2 & <-). apply front_rest_back in H' as (f' & d1' & su' & H1' & H2' & <-). congruence.
  Qed.

  (** A results folder is made exactly if the general entries can be read and the folder is free: whatever else is wrong with the dictionary. *)
  Theorem C75_folder d : fst (construct F E d) = true <->
    e_folder_free E = true /\ exists A p, entry (VDict d) ["algorithm_settings"] = Some A /\ is_dict A /\ says_general (VDict d) p.
  Proof.
    unfold construct. split.
    - destruct (read_front d) as [[f d1]| |] eqn:Hf; try discriminate. destruct (e_folder_free E); [|discriminate]. intros _. split; [reflexivity|].
      apply read_front_good in Hf as ((a & Ha & _) & H1 & H2 & H3 & H4 & H5). exists (VDict a).
      exists {| p_job := fr_job f; p_logfile := fr_logfile f; p_console := fr_console f; p_microseconds := fr_microseconds f; p_format := fr_format f;
                p_settings := settings_of KdCRAB (MNelderMead false) {| ba_max_total := 0; ba_total_lim := of_Z 0; ba_maximise := false; ba_goal := None |} 0 None false (of_Z 0) 1 Unseeded no_stop [] [] [];
                p_seed := Unseeded; p_lbfgs := None |}.
      split; [exact Ha|]. split; [eexists; reflexivity|]. unfold says_general. cbn. auto.
    - intros (-> & A & p & HA & (a & ->) & H1 & H2 & H3 & H4 & H5).
      assert (Hf : exists d1, read_front d = Good ({| fr_job := p_job p; fr_logfile := p_logfile p; fr_console := p_console p; fr_microseconds := p_microseconds p; fr_format := p_format p |}, d1)).
      { eexists. apply read_front_good. cbn. split; [eexists; split; [exact HA|reflexivity]|]. auto. }
      destruct Hf as (d1 & ->). reflexivity.
  Qed.

  (** Constructing an optimiser again from the same dictionary, into which the first constructor has put its defaults, gives the same optimiser
      and leaves the dictionary as it is. *)
  Theorem C75_again d su : construct F E d = (true, Good su) ->
    exists su', construct F E (su_dict su) = (true, Good su') /\ plan_of su' = plan_of su /\ su_dict su' = su_dict su.
  Proof. intros H. destruct (construct_again F E d su H) as [(su' & H1 & H2 & H3 & _) _]. eauto. Qed.

  (** The json file with the dictionary in the results folder, read and given to a constructor, gives the same optimiser if its keys are text:
      json refuses functions; tuples and arrays come back as lists. *)
  Theorem C75_file d su old : construct F E d = (true, Good su) -> storable (su_printed su) -> unambiguous (su_printed su) -> text_keys (su_printed su) ->
    exists d1 su', readjson Calm (fst (writejsonfile Calm (su_printed su) old)) = VDict d1 /\ construct F E d1 = (true, Good su') /\ plan_of su' = plan_of su.
  Proof.
    intros H S U T. destruct (construct_again F E d su H) as [_ (d1 & su' & H1 & H2 & H3 & _)]. rewrite H1 in *.
    destruct (C64_round_trip (VDict d1) old S U) as [_ ->]. destruct (construct_says F E _ _ H2) as [Fr Hs]. rewrite H3 in Hs.
    apply says_plain in Hs; [|exact T]. cbn [plain] in Hs |- *. eexists. apply (construct_back F E) in Hs as (su2 & R & P); [|exact Fr]. exists su2. split; [reflexivity|]. split; assumption.
  Qed.

  (** What has to be in every dictionary. *)
  Theorem C75_mandatory d p : says F E (VDict d) p ->
    (exists A, entry (VDict d) ["algorithm_settings"] = Some A /\
       (g_kind (p_settings p) = KdCRAB -> entry A ["super_iteration_number"] <> None) /\
       (g_kind (p_settings p) = KdCRAB \/ g_kind (p_settings p) = KDirect ->
          entry A ["dsm_settings"; "general_settings"] <> None /\ entry A ["dsm_settings"; "stopping_criteria"] <> None)) /\
    (exists P l, entry (VDict d) ["pulses"] = Some P /\ is_list P l /\ length l = length (g_pulses (p_settings p)) /\
       forall x, In x l -> entry x ["pulse_name"] <> None /\ entry x ["basis"] <> None /\
         (entry x ["bins_number"] <> None \/ entry x ["basis"; "random_super_parameter_distribution"] <> None)) /\
    (exists P l, entry (VDict d) ["parameters"] = Some P /\ is_list P l /\ forall x, In x l -> entry x ["parameter_name"] <> None) /\
    (exists P l, entry (VDict d) ["times"] = Some P /\ is_list P l /\ forall x, In x l -> entry x ["time_name"] <> None).
  Proof.
    intros (A & H1 & H2 & H3 & H4 & H5 & H6 & ((P1 & l1 & A1 & B1 & C1 & D1) & (P2 & l2 & A2 & B2 & C2) & (P3 & l3 & A3 & B3 & C3)) & H8 & H9 & H). split; [|split; [|split]].
    - exists A. split; [exact H1|]. split.
      + intros K. rewrite K in H. destruct H as (_ & _ & _ & (n & X & _) & _). rewrite X. discriminate.
      + intros [K|K]; rewrite K in H; destruct H as ((S & W & X1 & _ & X2 & _) & _); rewrite X1, X2; split; discriminate.
    - exists P1, l1. split; [exact A1|]. split; [exact B1|]. split; [clear -C1; induction C1; cbn; congruence|]. intros x I. rewrite Forall_forall in D1. split; [apply D1; exact I|].
      assert (X : exists f, says_pulse F E x f) by (clear -C1 I; induction C1; [destruct I|destruct I as [<-|I]; eauto]).
      destruct X as (f & B & b & s & u & (p0 & ->) & X2 & X3 & X4 & X5 & X6 & X). rewrite X2. split; [discriminate|].
      assert (Y : b = Piecewise \/ says_distribution E B s) by (destruct b; tauto). destruct Y as [-> |(R & Y & _)]; [left; tauto|right].
      rewrite entry_cons. rewrite entry_one in X2. rewrite X2. rewrite Y. discriminate.
    - exists P2, l2. split; [exact A2|]. split; [exact B2|]. intros x I. assert (X : exists f, says_parameter x f) by (clear -C2 I; induction C2; [destruct I|destruct I as [<-|I]; eauto]).
      destruct X as (f & _ & _ & X & _). rewrite X. discriminate.
    - exists P3, l3. split; [exact A3|]. split; [exact B3|]. intros x I. assert (X : exists f, says_time x f) by (clear -C3 I; induction C3; [destruct I|destruct I as [<-|I]; eauto]).
      destruct X as (f & _ & _ & X & _). rewrite X. discriminate.
  Qed.

  (** Other entries of the dictionary and of "algorithm_settings" mean nothing, nor does the order of the entries. *)
  Definition top_keys : list string := ["optimization_client_name"; "create_logfile"; "console_info"; "use_microsecond_name"; "dump_format"; "pulses"; "parameters"; "times"].
  Definition algorithm_keys : list string :=
    ["algorithm_attribute"; "algorithm_module"; "algorithm_class"; "algorithm_name"; "max_eval_total"; "total_time_lim"; "optimization_direction"; "FoM_goal";
     "random_number_generator"; "dsm_settings"; "compensate_drift"; "re_evaluation"; "super_iteration_number"; "stopping_criteria"].
  Theorem C75_documented d d' a a' p :
    entry (VDict d) ["algorithm_settings"] = Some (VDict a) -> entry (VDict d') ["algorithm_settings"] = Some (VDict a') ->
    (forall t, In t top_keys -> entry (VDict d) [t] = entry (VDict d') [t]) -> (forall t, In t algorithm_keys -> entry (VDict a) [t] = entry (VDict a') [t]) ->
    says F E (VDict d) p -> says F E (VDict d') p.
  Proof.
    intros Ha Ha' T T' (A & H1 & H2 & H3 & H4 & H5 & H6 & H7 & H8 & H9 & H). rewrite Ha in H1. injection H1 as <-.
    assert (X : forall t w, In t top_keys -> setting (VDict d') [t] w = setting (VDict d) [t] w) by (intros t w I; unfold setting; rewrite T by exact I; reflexivity).
    assert (X' : forall t w, In t algorithm_keys -> setting (VDict a') [t] w = setting (VDict a) [t] w) by (intros t w I; unfold setting; rewrite T' by exact I; reflexivity).
    assert (Fi : forall t, In t top_keys -> find d t = find d' t) by (intros t I; specialize (T t I); rewrite !entry_one in T; exact T).
    assert (Fi' : forall t, In t algorithm_keys -> find a t = find a' t) by (intros t I; specialize (T' t I); rewrite !entry_one in T'; exact T').
    exists (VDict a'). split; [exact Ha'|]. split; [eexists; reflexivity|].
    unfold no_object, selects, says_general, says_main in *. rewrite !X, !X' by (cbn; tauto). rewrite <- !(T' "random_number_generator") by (cbn; tauto).
    split; [exact H3|]. split; [exact H4|]. split; [exact H5|]. split; [exact H6|]. split; [revert H7; apply controls_of; apply Fi; cbn; tauto|]. split; [exact H8|]. split; [exact H9|].
    destruct (g_kind (p_settings p)).
    - destruct H as (K1 & K2 & K3 & K4 & K5). split; [revert K1; apply search_of; apply Fi'; cbn; tauto|]. split; [revert K2; apply drift_of; apply Fi'; cbn; tauto|]. split; [revert K3; apply steps_of; apply Fi'; cbn; tauto|].
      rewrite <- (T' "super_iteration_number") by (cbn; tauto). split; assumption.
    - destruct H as (K1 & K2 & K3 & K4). split; [revert K1; apply search_of; apply Fi'; cbn; tauto|]. split; [revert K2; apply drift_of; apply Fi'; cbn; tauto|]. split; [revert K3; apply steps_of; apply Fi'; cbn; tauto|exact K4].
    - destruct H as (K1 & K2 & (l & K3 & K4) & K5). split; [exact K1|]. split; [exact K2|]. split; [|exact K5]. exists l. split; [exact K3|]. revert K4. apply lbfgs_of. apply Fi'; cbn; tauto.
    - destruct H as (K1 & K2 & (l & K3 & K4)). split; [exact K1|]. split; [exact K2|]. exists l. split; [exact K3|]. revert K4. apply lbfgs_of. apply Fi'; cbn; tauto.
  Qed.

  (** Whether a guess or scaling file is given by an absolute or a relative path: the entry "path_mode" makes no difference. *)
  Theorem C75_path_mode path mode mode' : file_of E path mode = file_of E path mode'.
  Proof.
    unfold file_of. assert (X : forall q, (if is_absolute q then q else join (e_cwd E) q) = join (e_cwd E) q) by (intros q; unfold join; destruct (is_absolute q); reflexivity).
    rewrite X. destruct (String.eqb mode "absolute"), (String.eqb mode' "absolute"); reflexivity.
  Qed.

  (** A constructed optimiser can be executed, and asks the user for at most as many evaluations as the dictionary says. *)
  Lemma says_pulse_built f v m : says_pulse F E v f -> exists q, new_pulse m f = Ok q.
  Proof.
    intros (B & b & s & u & H1 & H2 & H3 & H4 & H5 & -> & H7 & H8 & _). unfold new_pulse. cbn [pf_nctrl ModelBases.shipped].
    assert (X : basis_nctrl b s (cs_bins u) <> 0). { intros X. destruct b; cbn in X, H8; try lia. }
    assert (Y : exists z, py_nth (index_list m (basis_nctrl b s (cs_bins u))) (-1) = Ok z).
    { unfold index_list, py_nth. rewrite map_length, seq_length. destruct (basis_nctrl b s (cs_bins u)) as [|n]; [congruence|].
      change (-1 <? 0)%Z with true. cbv iota. destruct (_ || _)%bool eqn:Q; [exfalso; apply orb_true_iff in Q; destruct Q as [Q|Q]; [apply Z.ltb_lt in Q|apply Z.leb_le in Q]; lia|].
      destruct (nth_error _ _) eqn:P; [eexists; reflexivity|]. apply nth_error_None in P. rewrite map_length, seq_length in P. lia. }
    destruct Y as (z & ->). eexists. reflexivity.
  Qed.
  Lemma pulses_built l fs : Forall2 (says_pulse F E) l fs -> forall m, exists r, new_pulses m fs = Ok r.
  Proof.
    intros H. induction H as [|v f l fs H _ IH]; intros m; [eexists; reflexivity|]. cbn. destruct (says_pulse_built f v m H) as (q & ->). cbn. destruct (IH (pc_last (core q))) as ([ps k] & ->). eexists; reflexivity.
  Qed.
  Lemma times_built l fs : Forall2 says_time l fs -> forall t, exists r, new_times fs t = Ok r.
  Proof.
    intros H. induction H as [|v f l fs H _ IH]; intros t; [eexists; reflexivity|]. cbn. destruct H as (_ & _ & _ & _ & _ & _ & _ & _ & _ & H). unfold new_time.
    destruct (tf_opt f); [rewrite (H eq_refl)|]; cbn; apply IH.
  Qed.
  Theorem C75_runs d su : construct F E d = (true, Good su) -> forall W, exists r s, ModelRun.optimise (su_settings su) W = Ok (r, s) /\
    forall n, setting (VDict d) ["algorithm_settings"; "max_eval_total"] huge = VInt n -> (Z.of_nat (calls (history s)) <= Z.max 0 n)%Z.
  Proof.
    intros H W. apply construct_says in H as [_ H]. destruct H as (A & H1 & H2 & H3 & H4 & H5 & (H6 & _) & H7 & _). cbn [plan_of p_settings] in *.
    assert (C : exists c, new_controls (g_pulses (su_settings su)) (g_times (su_settings su)) (g_params (su_settings su)) = Ok c).
    { destruct H7 as ((P1 & l1 & A1 & B1 & C1 & D1) & _ & (P3 & l3 & A3 & B3 & C3)). unfold new_controls. destruct (pulses_built _ _ C1 (-1)) as ([ps m] & ->). cbn. destruct (times_built _ _ C3 []) as (ts & ->). eexists; reflexivity. }
    destruct C as (c & C). unfold ModelRun.optimise, new_state. rewrite C. cbn [rbind]. destruct (execute _ _) as [r s] eqn:X. exists r, s. split; [reflexivity|]. intros n Hn.
    assert (Y : ModelRun.optimise (su_settings su) W = Ok (r, s)) by (unfold ModelRun.optimise, new_state; rewrite C; cbn [rbind]; rewrite X; reflexivity).
    apply C16_total_evaluation_budget in Y as [Y _]. assert (Z : setting A ["max_eval_total"] huge = VInt n).
    { rewrite <- Hn. unfold setting. destruct H2 as (a & ->). rewrite (entry_cons d). rewrite entry_one in H1. rewrite H1. reflexivity. }
    rewrite Z in H6. injection H6 as ->. exact Y.
  Qed.
End C75.

(** ** A dictionary after the documentation: dCRAB with a pulse in the Fourier basis, a piecewise constant pulse with a guess, a parameter
    and an optimised time; rational numbers *)
Definition ex_env : env (N := Qcnum) :=
  {| e_guess := fun _ => Outside; e_scaling := fun _ => Outside; e_exists := fun _ => false; e_load_guess := fun _ _ => Outside; e_load_scaling := fun _ _ => Outside;
     e_cwd := "/home"; e_normpath := fun p => p; e_jax := false; e_elsewhere := fun _ _ => Fails; e_fom_methods := Raises AttributeError; e_folder_free := true |}.
Notation "k :-> v" := (KStr k, v) (at level 60, no associativity).
Definition ex_algorithm : list (key * value (@num Qcnum)) :=
  ["algorithm_name" :-> VStr "dCRAB"; "super_iteration_number" :-> VInt 3; "max_eval_total" :-> VInt 50; "optimization_direction" :-> VStr "maximization"; "comment" :-> VStr "first try";
   "FoM_goal" :-> frac (N := Qcnum) 99 100; "random_number_generator" :-> VDict ["seed_number" :-> VInt 420];
   "dsm_settings" :-> VDict ["general_settings" :-> VDict ["dsm_algorithm_name" :-> VStr "CMAES"; "population" :-> VInt 8]; "stopping_criteria" :-> VDict ["xatol" :-> frac (N := Qcnum) 1 100]]].
Definition ex_fourier : list (key * value (@num Qcnum)) :=
  ["pulse_name" :-> VStr "x"; "upper_limit" :-> VInt 15; "lower_limit" :-> VInt (-15); "bins_number" :-> VInt 21; "time_name" :-> VStr "t"; "amplitude_variation" :-> VInt 5; "comment" :-> VNone;
   "basis" :-> VDict ["basis_name" :-> VStr "Fourier"; "basis_vector_number" :-> VInt 2;
     "random_super_parameter_distribution" :-> VDict ["distribution_name" :-> VStr "Uniform"; "lower_limit" :-> VInt 0; "upper_limit" :-> VInt 7]]].
Definition ex_steps : list (key * value (@num Qcnum)) :=
  ["pulse_name" :-> VStr "y"; "bins_number" :-> VInt 4; "time_name" :-> VStr "t"; "basis" :-> VDict ["basis_name" :-> VStr "PiecewiseBasis"];
   "initial_guess" :-> VDict ["function_type" :-> VStr "list_function"; "list_function" :-> VTuple [VInt 1; VInt 2; VInt 2; VInt 1]]].
Definition ex_parameter : list (key * value (@num Qcnum)) := ["parameter_name" :-> VStr "p"; "lower_limit" :-> VInt (-2)].
Definition ex_when : list (key * value (@num Qcnum)) := ["time_name" :-> VStr "t"; "initial_value" :-> VInt 3; "is_optimization" :-> VBool true; "upper_limit" :-> VInt 4].
Definition ex_dict (alg : list (key * value (@num Qcnum))) pulses parameters : list (key * value (@num Qcnum)) :=
  ["optimization_client_name" :-> VStr "test"; "algorithm_settings" :-> VDict alg; "pulses" :-> VList (map VDict pulses); "parameters" :-> VList (map VDict parameters); "times" :-> VList [VDict ex_when]].
Definition ex_whole := ex_dict ex_algorithm [ex_fourier; ex_steps] [ex_parameter].
Definition eqq (a b : @num Qcnum) : bool := Qeq_bool (this a) (this b).
Definition good_and {A} (m : bool * out A) (P : A -> bool) : bool := match m with (true, Good a) => P a | _ => false end.
Lemma good_exists {A} (m : bool * out A) P : good_and m P = true -> exists a, m = (true, Good a) /\ P a = true.
Proof. destruct m as [[|] [a| |]]; try discriminate. eauto. Qed.
Definition ex_expected (su : setup (N := Qcnum)) : bool :=
  let G := su_settings su in
  String.eqb (su_job su) "test" && String.eqb (su_format su) "npz" && su_console su &&
  match g_kind G with KdCRAB => true | _ => false end && match g_method G with MCMAES (Some 8) => true | _ => false end &&
  Z.eqb (g_max_total G) 50 && Z.eqb (g_max_si G) 3 && g_maximise G && match g_goal G with Some x => eqq x (of_Z 99 / of_Z 100)%num | None => false end &&
  eqq (g_xatol G) (of_Z 1 / of_Z 100)%num && Z.eqb (g_max_eval G) (10 ^ 10) && eqq (g_total_lim G) (of_Z (10 ^ 10)) &&
  match g_cbs_n G with Some 1%Z => true | _ => false end && match su_seed su with Seeded 420%Z => true | _ => false end &&
  match g_pulses G with
  | [f; g] => String.eqb (pf_name f) "x" && Nat.eqb (pf_bins f) 21 && Nat.eqb (pf_nctrl f) 4 && eqq (pf_lower f) (of_Z (-15)) && eqq (pf_upper f) (of_Z 15) &&
      match pf_dist f with Some (2, lo, up) => eqq lo (of_Z 0) && eqq up (of_Z 7) | _ => false end &&
      String.eqb (pf_name g) "y" && Nat.eqb (pf_nctrl g) 4 && match pf_dist g with None => true | _ => false end && match pf_guess g with GArr [_; b; _; _] => eqq b (of_Z 2) | _ => false end
  | _ => false
  end &&
  match g_params G with [r] => String.eqb (rf_name r) "p" && eqq (rf_value r) (of_Z 1) && eqq (rf_lower r) (of_Z (-2)) && eqq (rf_upper r) (of_Z 11 / of_Z 10)%num | _ => false end &&
  match g_times G with [w] => String.eqb (tf_name w) "t" && tf_opt w && eqq (tf_upper w) (of_Z 4) | _ => false end.
Example C75_example : exists su, construct ex_funs ex_env ex_whole = (true, Good su) /\ ex_expected su = true.
Proof. apply good_exists. vm_compute. reflexivity. Qed.
Lemma ex_says : exists su, construct ex_funs ex_env ex_whole = (true, Good su) /\ says ex_funs ex_env (VDict ex_whole) (plan_of su).
Proof. destruct C75_example as (su & H & _). exists su. split; [exact H|]. apply C75_constructed. eauto. Qed.
(** the other three algorithms; GRAPE also needs its methods of the user's object, AD needs jax *)
Definition ex_env2 : env (N := Qcnum) :=
  {| e_guess := fun _ => Outside; e_scaling := fun _ => Outside; e_exists := fun _ => false; e_load_guess := fun _ _ => Outside; e_load_scaling := fun _ _ => Outside;
     e_cwd := "/home"; e_normpath := fun p => p; e_jax := true; e_elsewhere := fun _ _ => Fails; e_fom_methods := Good tt; e_folder_free := true |}.
Definition ex_other (name : string) : list (key * value (@num Qcnum)) :=
  ["algorithm_name" :-> VStr name; "stopping_criteria" :-> VDict ["ftol" :-> frac (N := Qcnum) 1 1000];
   "dsm_settings" :-> VDict ["general_settings" :-> VDict ["dsm_algorithm_name" :-> VStr "NelderMead"; "is_adaptive" :-> VBool true]; "stopping_criteria" :-> VDict []]].
Definition ex_lbfgs (su : setup (N := Qcnum)) : bool := match su_lbfgs su with Some l => eqq (lb_ftol l) (of_Z 1 / of_Z 1000)%num && eqq (lb_maxls l) (of_Z 20) | None => false end.
Example C75_algorithms :
  (exists su, construct ex_funs ex_env2 (ex_dict (ex_other "DirectSearch") [ex_steps] []) = (true, Good su) /\
     (match g_kind (su_settings su), g_method (su_settings su), su_seed su with KDirect, MNelderMead true, Unseeded => true | _, _, _ => false end) = true) /\
  (exists su, construct ex_funs ex_env2 (ex_dict (ex_other "GRAPE") [ex_steps] []) = (true, Good su) /\
     (match g_kind (su_settings su), su_seed su with KGRAPE, Seeded 2022 => ex_lbfgs su | _, _ => false end) = true) /\
  (exists su, construct ex_funs ex_env2 (ex_dict (ex_other "AD") [ex_steps] []) = (true, Good su) /\
     (match g_kind (su_settings su), su_seed su with KAD, SeedDrawn => ex_lbfgs su | _, _ => false end) = true) /\
  construct ex_funs ex_env (ex_dict (ex_other "GRAPE") [ex_steps] []) = (true, Raises AttributeError).
Proof. split; [apply good_exists; vm_compute; reflexivity|]. split; [apply good_exists; vm_compute; reflexivity|]. split; [apply good_exists; vm_compute; reflexivity|]. vm_compute. reflexivity. Qed.
(** the file of the example: json takes it, all keys are text *)
Fixpoint nice (v : value (@num Qcnum)) : bool :=
  match v with
  | VFunction _ | VOther => false
  | VList l | VTuple l | VArray l => forallb nice l
  | VDict d => forallb (fun kv => match fst kv with KStr _ => nice (snd kv) | _ => false end) d && (length (nodup string_dec (map (fun kv => match fst kv with KStr s => s | _ => "" end) d)) =? length d)
  | _ => true
  end.
Lemma nice_inside u v : inside u v -> nice v = true -> nice u = true.
Proof.
  intros H. induction H as [|l v I H IH|l v I H IH|l v I H IH|d k v I H IH]; intros X; auto; apply IH; cbn in X.
  1-3: rewrite forallb_forall in X; apply X; exact I.
  apply andb_prop in X as [X _]. rewrite forallb_forall in X. specialize (X _ I). cbn in X. destruct k; try discriminate. exact X.
Qed.
Lemma nice_keys d : nice (VDict d) = true -> (forall k w, In (k, w) d -> exists s, k = KStr s) /\ NoDup (map (fun kv => written (fst kv)) d).
Proof.
  cbn. intros X. apply andb_prop in X as [X Y]. apply Nat.eqb_eq in Y. rewrite forallb_forall in X.
  assert (T : forall k w, In (k, w) d -> exists s, k = KStr s) by (intros k w I; specialize (X _ I); cbn in X; destruct k; try discriminate; eauto). split; [exact T|].
  set (f := fun kv : key * value (@num Qcnum) => match fst kv with KStr s => s | _ => "" end) in Y.
  assert (Nd : NoDup (map f d)).
  { assert (Z : length (nodup string_dec (map f d)) = length (map f d)) by (rewrite map_length; exact Y). clear -Z.
    induction (map f d) as [|s l IH]; [constructor|]. cbn in Z. destruct (in_dec string_dec s l) as [I|I].
    - assert (Q : length (nodup string_dec l) <= length l) by (apply NoDup_incl_length; [apply NoDup_nodup|intros q; apply nodup_In]). cbn in Z. lia.
    - constructor; [exact I|]. apply IH. cbn in Z. lia. }
  assert (Z : map (fun kv => written (fst kv)) d = map Some (map f d)).
  { rewrite map_map. apply map_ext_in. intros [k w] I. destruct (T k w I) as (s & ->). reflexivity. }
  assert (Nd' : NoDup (map Some (map f d))) by (apply FinFun.Injective_map_NoDup; [intros a b [= ->]; reflexivity|exact Nd]). rewrite <- Z in Nd'. exact Nd'.
Qed.
Lemma nice_file v : nice v = true -> storable v /\ unambiguous v /\ text_keys v.
Proof.
  intros X. split; [|split].
  - intros u H. specialize (nice_inside u v H X). intros Y. destruct u; try exact I; try discriminate. intros w I. destruct (proj1 (nice_keys _ Y) _ _ I). discriminate.
  - intros d H. apply nice_keys. apply (nice_inside _ v H X).
  - intros d k w H I. apply (proj1 (nice_keys d (nice_inside _ v H X)) _ _ I).
Qed.
Example C75_file_example : exists su, construct ex_funs ex_env ex_whole = (true, Good su) /\ storable (su_printed su) /\ unambiguous (su_printed su) /\ text_keys (su_printed su) /\
  ~ native (su_printed su) /\ (exists d, su_dict su = d /\ length d = length ex_whole + 4).
Proof.
  destruct (good_exists (construct ex_funs ex_env ex_whole) (fun su => nice (su_printed su) && Nat.eqb (length (su_dict su)) (length ex_whole + 4) &&
     match entry (su_printed su) ["pulses"] with Some (VList [_; w]) => match entry w ["initial_guess"; "list_function"] with Some (VTuple _) => true | _ => false end | _ => false end)) as (su & H & X).
  { vm_compute. reflexivity. }
  apply andb_prop in X as [X X3]. apply andb_prop in X as [X1 X2]. destruct (nice_file _ X1) as (Y1 & Y2 & Y3). exists su. split; [exact H|]. split; [exact Y1|]. split; [exact Y2|]. split; [exact Y3|]. split.
  - intros Na. assert (In' : forall path (v w : value (@num Qcnum)), entry (N := Qcnum) v path = Some w -> inside w v).
    { induction path as [|s path IH]; intros v w R; cbn in R; [injection R as ->; constructor|]. destruct v; try discriminate. destruct (lookup d s) as [x|] eqn:L; [|discriminate].
      destruct (lookup_in _ _ _ L) as (k & I). eapply in_dict; [exact I|]. apply IH. exact R. }
    destruct (entry (su_printed su) ["pulses"]) as [P|] eqn:R; [|discriminate]. destruct P; try discriminate. destruct l as [|a [|w [|? ?]]]; try discriminate.
    destruct (entry w ["initial_guess"; "list_function"]) as [q|] eqn:R2; [|discriminate]. destruct q; try discriminate.
    assert (Z : inside (VTuple l) (su_printed su)).
    { pose proof (In' _ _ _ R) as Q. pose proof (In' _ _ _ R2) as Q2. clear -Q Q2. revert Q. rename Q2 into R2. intros R. remember (VList [a; w]) as L eqn:EL. induction R; subst; [eapply in_list; [right; left; reflexivity|exact R2]|eapply in_list; eauto|eapply in_tuple; eauto|eapply in_array; eauto|eapply in_dict; eauto]. }
    exact (Na _ Z).
  - eexists. split; [reflexivity|]. apply Nat.eqb_eq. exact X2.
Qed.

(** ** Where the documentation is not followed *)
(** the documented default names do not exist: the constructor fails, after it has made a results folder *)
Theorem C75_default_names_refuted : exists p r : list (key * value (@num Qcnum)),
  (exists su, construct ex_funs ex_env (ex_dict ex_algorithm [("pulse_name" :-> VStr "pulse") :: p] [("parameter_name" :-> VStr "parameter") :: r]) = (true, Good su)) /\
  construct ex_funs ex_env (ex_dict ex_algorithm [p] [("parameter_name" :-> VStr "parameter") :: r]) = (true, Raises KeyError) /\
  construct ex_funs ex_env (ex_dict ex_algorithm [("pulse_name" :-> VStr "pulse") :: p] [r]) = (true, Raises KeyError).
Proof.
  exists (tl ex_fourier), (tl ex_parameter). split; [|split].
  - destruct (good_exists (construct ex_funs ex_env (ex_dict ex_algorithm [("pulse_name" :-> VStr "pulse") :: tl ex_fourier] [("parameter_name" :-> VStr "parameter") :: tl ex_parameter])) (fun _ => true)) as (su & H & _); [vm_compute; reflexivity|]. eauto.
  - vm_compute. reflexivity.
  - vm_compute. reflexivity.
Qed.
(** documented default 0.1 of the value of a parameter: it is 1; documented default 10e10 of max_eval_total: it is 10**10 *)
Theorem C75_default_values_refuted : exists d su, construct ex_funs ex_env d = (true, Good su) /\
  (exists A r, entry (VDict d) ["algorithm_settings"] = Some A /\ entry A ["max_eval_total"] = None /\ entry (VDict d) ["parameters"] = Some (VList [r]) /\ entry r ["initial_value"] = None) /\
  g_max_total (su_settings su) = (10 ^ 10)%Z /\ (10 ^ 10 < 10 * 10 ^ 10)%Z /\
  exists f, g_params (su_settings su) = [f] /\ eqq (rf_value f) (of_Z 1) = true /\ eqq (rf_value f) (of_Z 1 / of_Z 10)%num = false.
Proof.
  exists (ex_dict (ex_other "DirectSearch") [ex_steps] [ex_parameter]).
  destruct (good_exists (construct ex_funs ex_env (ex_dict (ex_other "DirectSearch") [ex_steps] [ex_parameter]))
    (fun su => Z.eqb (g_max_total (su_settings su)) (10 ^ 10) && match g_params (su_settings su) with [f] => eqq (rf_value f) (of_Z 1) && negb (eqq (rf_value f) (of_Z 1 / of_Z 10)%num) | _ => false end)) as (su & H & X).
  { vm_compute. reflexivity. }
  exists su. split; [exact H|]. split; [do 2 eexists; split; [reflexivity|]; split; [reflexivity|]; split; reflexivity|].
  apply andb_prop in X as [X1 X2]. apply Z.eqb_eq in X1. split; [exact X1|]. split; [lia|]. destruct (g_params (su_settings su)) as [|f [|? ?]]; try discriminate. apply andb_prop in X2 as [X2 X3]. apply negb_true_iff in X3. eauto.
Qed.
(** an entry that is ignored in the dictionary, in the algorithm settings and in a pulse is refused in a parameter or a time *)
Theorem C75_comment_refuted : exists d d' : list (key * value (@num Qcnum)), d' = ex_dict ex_algorithm [ex_fourier] [ex_parameter ++ ["comment" :-> VNone]] /\
  d = ex_dict ex_algorithm [ex_fourier] [ex_parameter] /\ (exists su, construct ex_funs ex_env d = (true, Good su)) /\ construct ex_funs ex_env d' = (true, Raises TypeError).
Proof.
  do 2 eexists. split; [reflexivity|]. split; [reflexivity|]. split; [|vm_compute; reflexivity].
  destruct (good_exists (construct ex_funs ex_env (ex_dict ex_algorithm [ex_fourier] [ex_parameter])) (fun _ => true)) as (su & H & _); [vm_compute; reflexivity|]. eauto.
Qed.
(** no number of bins by default in a piecewise basis *)
Theorem C75_bins_refuted : exists p : list (key * value (@num Qcnum)),
  (exists su, construct ex_funs ex_env (ex_dict ex_algorithm [("bins_number" :-> VInt 101) :: p] []) = (true, Good su)) /\
  construct ex_funs ex_env (ex_dict ex_algorithm [p] []) = (true, Raises KeyError).
Proof.
  exists ["pulse_name" :-> VStr "y"; "time_name" :-> VStr "t"; "basis" :-> VDict ["basis_name" :-> VStr "PiecewiseBasis"]]. split; [|vm_compute; reflexivity].
  match goal with |- exists su, ?c = _ => destruct (good_exists c (fun _ => true)) as (su & H & _); [vm_compute; reflexivity|]; eauto end.
Qed.
(** a changed sigma in a dictionary that was used before: the offset computed from the old one stays *)
Definition ex_sigmoid (sigma : list (key * value (@num Qcnum))) : list (key * value (@num Qcnum)) :=
  ["pulse_name" :-> VStr "s"; "time_name" :-> VStr "t"; "basis" :-> VDict (["basis_name" :-> VStr "SigmoidTimeDep";
     "random_super_parameter_distribution" :-> VDict ["distribution_name" :-> VStr "Uniform"]] ++ sigma)].
Definition offset_of (su : setup (N := Qcnum)) : option (value (@num Qcnum)) :=
  match find (su_dict su) "pulses" with Some (VList [VDict p]) => entry (VDict p) ["basis"; "offset"] | _ => None end.
Definition is_offset (su : setup (N := Qcnum)) (x : @num Qcnum) : bool := match offset_of su with Some (VFloat y) => eqq y x | _ => false end.
Definition only_basis (su : setup (N := Qcnum)) : option (list (key * value (@num Qcnum)) * list (key * value (@num Qcnum))) :=
  match find (su_dict su) "pulses" with Some (VList [VDict p]) => match find p "basis" with Some (VDict b) => Some (p, b) | _ => None end | _ => None end.
Lemma only_basis_of su p b : only_basis su = Some (p, b) -> find (su_dict su) "pulses" = Some (VList [VDict p]) /\ find p "basis" = Some (VDict b).
Proof.
  unfold only_basis. destruct (find (su_dict su) "pulses") as [[]|]; try discriminate. destruct l as [|[] [|? ?]]; try discriminate.
  destruct (find d "basis") as [[]|] eqn:B; try discriminate. intros [= <- <-]. auto.
Qed.
Definition with_sigma (su : setup (N := Qcnum)) p b : list (key * value (@num Qcnum)) := store (su_dict su) "pulses" (VList [VDict (store p "basis" (VDict (store b "sigma" (VInt 2))))]).
Definition offset_stays (su : setup (N := Qcnum)) : bool :=
  match only_basis su with Some (p, b) => good_and (construct ex_funs ex_env (with_sigma su p b)) (fun su3 => is_offset su3 (of_Z (-10))) | None => false end.
Lemma offset_stays_of su : offset_stays su = true -> exists p b su3, find (su_dict su) "pulses" = Some (VList [VDict p]) /\ find p "basis" = Some (VDict b) /\
  construct ex_funs ex_env (with_sigma su p b) = (true, Good su3) /\ is_offset su3 (of_Z (-10)) = true.
Proof.
  unfold offset_stays. destruct (only_basis su) as [[p b]|] eqn:O; [|discriminate]. intros X. apply good_exists in X. destruct X as (su3 & H & X).
  destruct (only_basis_of _ _ _ O). exists p, b, su3. auto.
Qed.
Theorem C75_offset_refuted : exists su su2,
  construct ex_funs ex_env (ex_dict ex_algorithm [ex_sigmoid ["sigma" :-> VInt 1]] []) = (true, Good su) /\ is_offset su (of_Z (-10)) = true /\
  construct ex_funs ex_env (ex_dict ex_algorithm [ex_sigmoid ["sigma" :-> VInt 2]] []) = (true, Good su2) /\ is_offset su2 (of_Z (-20)) = true /\
  exists p b su3, find (su_dict su) "pulses" = Some (VList [VDict p]) /\ find p "basis" = Some (VDict b) /\
    construct ex_funs ex_env (store (su_dict su) "pulses" (VList [VDict (store p "basis" (VDict (store b "sigma" (VInt 2))))])) = (true, Good su3) /\ is_offset su3 (of_Z (-10)) = true.
Proof.
  destruct (good_exists (construct ex_funs ex_env (ex_dict ex_algorithm [ex_sigmoid ["sigma" :-> VInt 1]] [])) (fun su => is_offset su (of_Z (-10)) && offset_stays su)) as (su & H & X).
  { vm_compute. reflexivity. }
  destruct (good_exists (construct ex_funs ex_env (ex_dict ex_algorithm [ex_sigmoid ["sigma" :-> VInt 2]] [])) (fun su => is_offset su (of_Z (-20)))) as (su2 & H2 & X2).
  { vm_compute. reflexivity. }
  exists su, su2. apply andb_prop in X. destruct X as [X1 X]. split; [exact H|]. split; [exact X1|]. split; [exact H2|]. split; [exact X2|]. apply offset_stays_of. exact X.
Qed.

Print Assumptions C75_constructed.
Print Assumptions C75_determined.
Print Assumptions C75_folder.
Print Assumptions C75_again.
Print Assumptions C75_file.
Print Assumptions C75_mandatory.
Print Assumptions C75_documented.
Print Assumptions C75_path_mode.
Print Assumptions C75_runs.
Print Assumptions C75_default_names_refuted.
Print Assumptions C75_default_values_refuted.
Print Assumptions C75_comment_refuted.
Print Assumptions C75_bins_refuted.
Print Assumptions C75_offset_refuted.
