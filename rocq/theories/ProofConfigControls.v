(** * Reading of pulses, parameters and times: lemmas. *)
From Coq Require Import String ZArith List Bool Lia.
From Verif Require Import Num Py ModelPulse ModelBases ModelControls ModelState ModelDump ModelImport SpecImport ProofImport ModelJson ModelConfig SpecConfig ProofConfig.
Import ListNotations.
Open Scope string_scope.
Open Scope list_scope.

Section Controls.
  Context {N : Num} (F : funs N) (E : env).
  Notation V := (value num).
  Notation D := (list (key * V)).

  (** ** Guess and scaling *)
  Lemma read_fun_good {X} (zero : X) ev arr load (g : D) f : (exists g', read_fun E zero ev arr load g = Good (f, g')) <-> says_function E zero ev arr load (VDict g) f.
  Proof.
    unfold read_fun. split.
    - intros (g' & H). steps H. apply item_good in R. apply text_good in R0. unfold is_text in R0. subst.
      destruct (String.eqb_spec x0 "lambda_function") as [->|X1].
      { steps H. injection H as <- <-. apply item_good in R0. apply text_good in R1. unfold is_text in R1. subst. eapply function_text; rewrite ?entry_one; eassumption. }
      destruct (String.eqb_spec x0 "list_function") as [->|X2].
      { steps H. injection H as <- <-. apply item_good in R0. apply numbers_good in R1. eapply function_samples; rewrite ?entry_one; eassumption. }
      destruct (String.eqb_spec x0 "python_file") as [->|X3].
      { steps H. look_in R1. look_in R2. apply text_good in R0, R1, R2. destruct (e_exists E (file_of E x x1) && negb (String.eqb x0 ""))%bool eqn:B.
        - apply andb_prop in B as [B1 B2]. apply negb_true_iff, String.eqb_neq in B2. steps H. injection H as <- <-. eapply function_file; rewrite ?entry_one, ?setting_one; eassumption.
        - injection H as <- <-. apply andb_false_iff in B. eapply function_no_file; rewrite ?entry_one, ?setting_one; try eassumption.
          destruct B as [B|B]; [left; exact B|right]. apply negb_false_iff, String.eqb_eq in B. exact B. }
      injection H as <- <-. eapply function_unknown; [rewrite entry_one; exact R|]. cbn. intuition congruence.
    - intros H. inversion H as [|v s f' H1 H2 H3|v w l H1 H2 H3|v path name mode f' H1 H2 H3 H4 H5 H6 H7|v path name mode H1 H2 H3 H4 H5|v t H1 H2]; subst; rewrite ?entry_one, ?setting_one in *; unfold item; rewrite H1; cbn [obind text].
      + rewrite H2. cbn [obind text String.eqb Ascii.eqb Bool.eqb]. rewrite H3. eexists; reflexivity.
      + rewrite H2. cbn [obind]. apply numbers_good in H3. rewrite H3. eexists; reflexivity.
      + cbn [String.eqb Ascii.eqb Bool.eqb]. apply text_good in H2, H3, H4. look. rewrite H2. cbn [obind]. rewrite H3. cbn [obind]. rewrite H4. cbn [obind]. rewrite H5. apply String.eqb_neq in H6. rewrite H6. cbn. rewrite H7. eexists; reflexivity.
      + cbn [String.eqb Ascii.eqb Bool.eqb]. apply text_good in H2, H3, H4. look. rewrite H2. cbn [obind]. rewrite H3. cbn [obind]. rewrite H4. cbn [obind].
        destruct H5 as [-> | ->]; cbn; [|rewrite andb_false_r]; eexists; reflexivity.
      + cbn in H2. destruct (String.eqb_spec t "lambda_function") as [->|]; [tauto|]. destruct (String.eqb_spec t "list_function") as [->|]; [tauto|]. destruct (String.eqb_spec t "python_file") as [->|]; [tauto|]. eexists; reflexivity.
  Qed.
  Lemma says_function_default {X} (zero : X) ev arr load s f : ev s = Good zero -> says_function E zero ev arr load (VDict (default_fun s)) f -> f = zero.
  Proof.
    intros Ev H. inversion H as [|v t f' H1 H2 H3|v w l H1 H2 H3|v path name mode f' H1 H2 H3 H4 H5 H6 H7|v path name mode H1 H2 H3 H4 H5|v t H1 H2]; subst; cbn in H1; try discriminate H1.
    - cbn in H2. injection H2 as <-. congruence.
    - reflexivity.
  Qed.
  Lemma function_dict {X} (zero : X) ev arr load v f : says_function E zero ev arr load v f -> (v = VNone /\ f = zero) \/ exists g, v = VDict g.
  Proof.
    intros H. inversion H; subst; [left; auto|..]; right; match goal with H1 : entry v ["function_type"] = Some _ |- _ => destruct (entry_dict _ _ _ _ H1) as (g & ->) end; eexists; reflexivity.
  Qed.
  Lemma read_guess_good (p : D) f : (exists p', read_guess E p = Good (f, p')) <-> says_function E zero_guess (eval_guess E) GArr (e_load_guess E) (setting (VDict p) ["initial_guess"] VNone) f.
  Proof.
    rewrite setting_one. unfold read_guess, kw. split.
    - intros (p' & H). destruct (sd_v p "initial_guess" VNone) as [| | | | | | |g| | | | |]; try discriminate H.
      + cbn in H. injection H as <- <-. constructor.
      + cbn [obind as_dict] in H. steps H. injection H as <- <-. apply read_fun_good. eexists; exact R.
    - intros H. destruct (function_dict _ _ _ _ _ _ H) as [[HV ->]|(g & HV)]; rewrite HV in *; [eexists; reflexivity|].
      apply read_fun_good in H as (g' & H). cbn [obind as_dict]. rewrite H. eexists; reflexivity.
  Qed.
  Lemma read_scaling_good (p : D) f : (exists p', read_scaling E p = Good (f, p')) <-> says_function E unit_scaling (eval_scaling E) SArr (e_load_scaling E) (setting (VDict p) ["scaling_function"] VNone) f.
  Proof.
    rewrite setting_one. unfold read_scaling, kw. split.
    - intros (p' & H). destruct (sd_v p "scaling_function" VNone) as [| | | | | | |g| | | | |]; try discriminate H.
      + cbn in H. injection H as <- <-. constructor.
      + cbn [obind as_dict] in H. steps H. injection H as <- <-. apply read_fun_good. eexists; exact R.
    - intros H. destruct (function_dict _ _ _ _ _ _ H) as [[HV ->]|(g & HV)]; rewrite HV in *; [eexists; reflexivity|].
      apply read_fun_good in H as (g' & H). cbn [obind as_dict]. rewrite H. eexists; reflexivity.
  Qed.
  Lemma read_guess_frame (p : D) f p' s : read_guess E p = Good (f, p') -> s <> "initial_guess" -> find p' s = find p s.
  Proof.
    intros H I. apply String.eqb_neq in I. unfold read_guess in H. destruct (kw p "initial_guess" VNone); steps H; injection H as _ <-; try reflexivity; rewrite find_store_other by exact I; reflexivity.
  Qed.
  Lemma read_scaling_frame (p : D) f p' s : read_scaling E p = Good (f, p') -> s <> "scaling_function" -> find p' s = find p s.
  Proof.
    intros H I. apply String.eqb_neq in I. unfold read_scaling in H. destruct (kw p "scaling_function" VNone); steps H; injection H as _ <-; try reflexivity; rewrite find_store_other by exact I; reflexivity.
  Qed.

  (** ** Bases *)
  Definition class_dict (d : D) : D := sd_d (sd_d (sd_d (sd_d d "basis_attribute" VNone) "basis_module" VNone) "basis_class" VNone) "basis_name" VNone.
  Lemma class_dict_basis b d s : says_basis b (VDict (class_dict d)) s <-> says_basis b (VDict d) s.
  Proof.
    assert (H : forall t w, existsb (String.eqb t) ["basis_attribute"; "basis_module"; "basis_class"; "basis_name"] = false -> setting (VDict (class_dict d)) [t] w = setting (VDict d) [t] w).
    { intros t w X. cbn in X. repeat (apply orb_false_elim in X; destruct X as [? X]). rewrite !setting_one. unfold class_dict. rewrite !sd_v_other by assumption. reflexivity. }
    unfold says_basis. rewrite !H by reflexivity. reflexivity.
  Qed.
  Lemma read_basis_good b d k s d' ampl lo up : read_basis b d = Good (k, s, d') -> (0 <= k)%Z -> says_basis b (VDict d) (full_basis s ampl lo up).
  Proof.
    intros H P. unfold read_basis in H.
    destruct b; steps H; injection H as <- <- <-; unfold says_basis, float; change (@frac N) with (@lit N); rewrite ?setting_one;
      cbn [bs_k bs_basis_max bs_sigma bs_offset bs_tau_var bs_sigma_var full_basis with_steps blank]; rewrite ?Z2Nat.id by exact P;
      repeat match goal with R : integer _ = Good _ |- _ => apply integer_good in R | R : number _ = Good _ |- _ => rewrite ?sd_v_other in R by reflexivity; apply number_good in R end;
      auto 9.
  Qed.
  Lemma read_basis_frame b d k s d' t : read_basis b d = Good (k, s, d') ->
    ~ In t ["basis_vector_number"; "basis_max"; "sigma"; "offset"; "tau_variation"; "sigma_variation"] -> find d' t = find d t.
  Proof.
    intros H I. cbn in I. unfold read_basis in H.
    destruct b; steps H; injection H as _ _ <-; rewrite ?find_sd_other by (apply String.eqb_neq; intros X; subst t; tauto); reflexivity.
  Qed.
  Definition strip (s : basis_settings) : basis_settings := full_basis s (of_Z 0) (of_Z 0) (of_Z 0).
  Lemma read_basis_back b d s : says_basis b (VDict d) s -> exists d', read_basis b d = Good (Z.of_nat (bs_k s), strip s, d').
  Proof.
    intros H. unfold says_basis, float in H. change (@frac N) with (@lit N) in H. change (10 ^ 10)%Z with 10000000000%Z in H. change (10 ^ 20)%Z with 100000000000000000000%Z in H.
    destruct b; destruct H as (H1 & H2 & H3 & H4 & H5); rewrite ?setting_one in *; try destruct H3 as [H3 H3'];
      repeat match goal with H : is_integer _ _ |- _ => apply integer_good in H | H : is_number _ _ |- _ => apply number_good in H end;
      unfold read_basis; cbn beta iota zeta; rewrite ?H1; cbn [obind]; rewrite ?sd_v_other by reflexivity;
      repeat (match goal with H : number _ = Good _ |- _ => rewrite H; clear H; cbn [obind] end; rewrite ?sd_v_other by reflexivity);
      destruct s as [k v1 v2 v3 v4 v5 v6 v7 v8]; cbn [bs_k bs_basis_max bs_sigma bs_offset bs_tau_var bs_sigma_var] in *; subst;
      unfold strip, full_basis, with_steps, blank; cbn [bs_k bs_basis_max bs_sigma bs_offset bs_tau_var bs_sigma_var bs_w_lower bs_w_upper bs_ampl]; rewrite ?Nat2Z.id; eexists; reflexivity.
  Qed.
  Lemma coefficient_iff b s ampl bins : negb (Nat.eqb (basis_nctrl b (full_basis s ampl (of_Z 0) (of_Z 0)) bins) 0) = true <-> some_coefficient b (bs_k s) bins.
  Proof. rewrite negb_true_iff, Nat.eqb_neq. destruct b; cbn; split; try tauto; try lia. Qed.

  Definition dist_dict (r : D) : D :=
    sd_d (sd_d (sd_d (sd_d r "distribution_attribute" VNone) "distribution_module" VNone) "distribution_class" VNone) "distribution_name" VNone.
  Lemma read_distribution_good (d : D) s : (exists d', read_distribution E d = Good (bs_w_lower s, bs_w_upper s, d')) <-> says_distribution E (VDict d) s.
  Proof.
    unfold says_distribution, read_distribution, no_object, kw, float. change (@frac N) with (@lit N). setoid_rewrite entry_one. split.
    - intros (d' & H). steps H. apply item_good in R. apply as_dict_good in R0. subst. exists (VDict x0). rewrite !setting_one. look_in R2. apply resolve_selects in R2.
      apply no_class_good in R1. destruct x1; try discriminate H. steps H. injection H as <- <- <-. apply check_good in R0. rewrite !keywords_sd in R0 by reflexivity. apply keywords_good in R0.
      look_in R3. look_in R4. apply number_good in R3, R4. split; [exact R|]. split; [eexists; reflexivity|]. auto.
    - intros (R & HR & (r & ->) & H1 & H2 & H3 & H4 & H5). rewrite !setting_one in *. unfold item. rewrite HR. cbn [obind as_dict]. rewrite H1. cbn [obind no_class].
      look. apply resolve_selects in H2. rewrite H2. cbn [obind]. rewrite !keywords_sd by reflexivity. apply keywords_good in H3. rewrite H3. cbn [obind check].
      apply number_good in H4, H5. rewrite H4. cbn [obind]. rewrite H5. eexists; reflexivity.
  Qed.
  Lemma distribution_of (d e : D) s : find d "random_super_parameter_distribution" = find e "random_super_parameter_distribution" ->
    says_distribution E (VDict d) s -> says_distribution E (VDict e) s.
  Proof. intros X (R & H). rewrite entry_one, X in H. exists R. rewrite entry_one. exact H. Qed.

  Lemma sd_v_find (d e : D) s w : find d s = find e s -> sd_v d s w = sd_v e s w.
  Proof. intros H. unfold sd_v. rewrite H. reflexivity. Qed.
  Lemma strip_full s : full_basis (strip s) (bs_ampl s) (bs_w_lower s) (bs_w_upper s) = s.
  Proof. destruct s; reflexivity. Qed.
  Definition common (name : string) (bins : Z) (tname : string) (lo up : num) (g : guess_fn) (sc : scaling_fn) (shrink : bool) (opts : option (list string)) (over : bool) : common_settings :=
    {| cs_name := name; cs_bins := Z.to_nat bins; cs_time_name := tname; cs_lower := lo; cs_upper := up; cs_guess := g;
       cs_scaling := sc; cs_shrink := shrink; cs_options := opts; cs_overwrite := over |}.
  Lemma read_pulse_says p f p' : read_pulse F E p = Good (f, p') -> says_pulse F E (VDict p) f.
  Proof.
    intros H. unfold read_pulse in H. steps H. apply item_good in R. apply as_dict_good in R0. subst x. rename x0 into bd. apply no_class_good in R1.
    look_in R2. apply resolve_selects in R2. destruct x1 as [| | |b| | |]; try discriminate H.
    steps H. unfold kw in *. change (sd_d (sd_d (sd_d (sd_d bd _ _) _ _) _ _) _ _) with (class_dict bd) in *.
    set (p1 := store p "basis" (VDict l)) in *.
    assert (B1 : find l1 "basis" = Some (VDict l)) by (rewrite (read_scaling_frame _ _ _ _ R14), (read_guess_frame _ _ _ _ R13) by discriminate; apply find_store_same).
    assert (O1 : forall t, String.eqb t "basis" = false -> find p1 t = find p t) by (intros t X; apply find_store_other; exact X).
    assert (O2 : forall t, String.eqb t "basis" = false -> t <> "initial_guess" -> t <> "scaling_function" -> find l1 t = find p t)
      by (intros t X Y Z; rewrite (read_scaling_frame _ _ _ _ R14), (read_guess_frame _ _ _ _ R13) by assumption; apply O1; exact X).
    apply check_good in R4, R11, R17. apply andb_prop in R11 as [K1 K2]. apply Z.leb_le in K1, R17. apply coefficient_iff in K2.
    unfold p1 in R4. rewrite (keywords_store _ _ _ _ _ R) in R4. apply keywords_good in R4.
    assert (HF : exists wl wu, f = ModelBases.shipped F b (full_basis b0 x4 wl wu) (common x x0 x1 x2 x3 g s x6 x5 x7) /\
      match b with Piecewise => entry (VDict p) ["bins_number"] <> None /\ wl = of_Z 0 /\ wu = of_Z 0 | _ => says_distribution E (VDict bd) (full_basis b0 x4 wl wu) end).
    { assert (Dn : forall wl wu d', b <> Piecewise -> read_distribution E l = Good (wl, wu, d') -> says_distribution E (VDict bd) (full_basis b0 x4 wl wu)).
      { intros wl wu d' NP RD. apply (distribution_of l bd).
        - rewrite (read_basis_frame _ _ _ _ _ _ R3) by (cbn; intuition discriminate). unfold class_dict. rewrite !find_sd_other by reflexivity. reflexivity.
        - apply read_distribution_good. eexists. exact RD. }
      destruct b; try (apply obind_good in H as (v1 & A1 & H); apply obind_good in H as (v2 & A2 & H); apply obind_good in H as ([[wl wu] d1] & A3 & H); apply item_good in A1; apply as_dict_good in A2; rewrite B1 in A1; injection A1 as <-; injection A2 as <-; injection H as <- <-; do 2 eexists; split; [reflexivity|]; eapply Dn; [discriminate|eassumption]).
      injection H as <- <-. do 2 eexists. split; [reflexivity|]. split; [|auto]. rewrite entry_one. apply obind_good in R0 as (v1 & A1 & _). apply item_good in A1. rewrite A1. discriminate. }
    destruct HF as (wl & wu & -> & HD). exists (VDict bd), b, (full_basis b0 x4 wl wu), (common x x0 x1 x2 x3 g s x6 x5 x7).
    rewrite entry_one. unfold no_object, float. change (@frac N) with (@lit N). rewrite !setting_one.
    split; [eexists; reflexivity|]. split; [exact R|]. split; [eexists; reflexivity|]. split; [exact R1|]. split; [exact R2|]. split; [reflexivity|].
    split; [apply class_dict_basis; eapply read_basis_good; eassumption|]. split; [exact K2|]. split; [exact R4|].
    cbn [common cs_name cs_bins cs_time_name cs_lower cs_upper cs_guess cs_scaling cs_shrink cs_options cs_overwrite full_basis bs_ampl].
    rewrite Z2Nat.id by exact R17.
    apply text_good in R5, R7. apply integer_good in R6. apply number_good in R8, R9, R10. apply flag_good in R15, R16. apply strings_good in R12.
    rewrite (sd_v_find _ p) in R5, R6, R7, R8, R9, R10, R12 by (apply O1; reflexivity).
    rewrite (sd_v_find _ p) in R15, R16 by (apply O2; [reflexivity|discriminate|discriminate]).
    do 9 (split; [assumption|]).
    split; [|split; [|destruct b; exact HD]].
    - rewrite <- (sd_v_find p1 p) by (apply O1; reflexivity). rewrite <- setting_one. apply read_guess_good. eexists. exact R13.
    - rewrite <- (sd_v_find l0 p) by (rewrite (read_guess_frame _ _ _ _ R13) by discriminate; apply O1; reflexivity). rewrite <- setting_one. apply read_scaling_good. eexists. exact R14.
  Qed.
  Lemma read_pulse_back p f : says_pulse F E (VDict p) f -> exists p', read_pulse F E p = Good (f, p').
  Proof.
    intros (B & b & s & u & _ & HB & (bd & ->) & HN & HS & -> & Hb & HK & HR & Hname & Hbins & Htime & Hlo & Hup & Ham & Hsh & Hov & Hopt & Hg & Hsc & Hd).
    rewrite entry_one in HB. unfold no_object, float in *. change (@frac N) with (@lit N) in *. rewrite !setting_one in *.
    unfold read_pulse, kw. unfold item at 1. rewrite HB. cbn [obind as_dict]. rewrite HN. cbn [obind no_class]. look. apply resolve_selects in HS. rewrite HS. cbn [obind].
    match goal with |- context [obind ?c (fun _ => obind (read_basis _ _) _)] => assert (C : c = Good tt) end.
    { destruct b; try reflexivity. destruct Hd as [Hd _]. rewrite entry_one in Hd. unfold item. destruct (find p "bins_number"); [reflexivity|congruence]. }
    rewrite C. cbn [obind]. clear C. change (sd_d (sd_d (sd_d (sd_d bd _ _) _ _) _ _) _ _) with (class_dict bd).
    apply class_dict_basis in Hb. destruct (read_basis_back _ _ _ Hb) as (bd' & Rb). rewrite Rb. cbn [obind].
    rewrite (keywords_store _ _ _ _ _ HB). apply keywords_good in HR. rewrite HR. cbn [obind check].
    set (p1 := store p "basis" (VDict bd')).
    assert (O1 : forall t, String.eqb t "basis" = false -> find p1 t = find p t) by (intros t X; apply find_store_other; exact X).
    apply text_good in Hname, Htime. apply integer_good in Hbins. apply number_good in Hlo, Hup, Ham. apply flag_good in Hsh, Hov. apply strings_good in Hopt.
    rewrite <- (sd_v_find p1 p) in Hname, Htime, Hbins, Hlo, Hup, Ham, Hopt by (apply O1; reflexivity).
    rewrite Hname. cbn [obind]. rewrite Hbins. cbn [obind]. rewrite Htime. cbn [obind]. rewrite Hlo. cbn [obind]. rewrite Hup. cbn [obind]. rewrite Ham. cbn [obind].
    rewrite Nat2Z.id, (proj2 (coefficient_iff _ _ _ _) (HK : some_coefficient b (bs_k (strip s)) _)), (proj2 (Z.leb_le 0 (Z.of_nat (bs_k s))) ltac:(lia)). cbn [obind check andb].
    rewrite Hopt. cbn [obind].
    rewrite <- (sd_v_find p1 p), <- setting_one in Hg by (apply O1; reflexivity). apply read_guess_good in Hg as (p2 & Hg). rewrite Hg. cbn [obind].
    assert (O2 : forall t, String.eqb t "basis" = false -> t <> "initial_guess" -> find p2 t = find p t)
      by (intros t X Y; rewrite (read_guess_frame _ _ _ _ Hg) by assumption; apply O1; exact X).
    rewrite <- (sd_v_find p2 p), <- setting_one in Hsc by (apply O2; [reflexivity|discriminate]). apply read_scaling_good in Hsc as (p3 & Hsc). rewrite Hsc. cbn [obind].
    assert (O3 : forall t, String.eqb t "basis" = false -> t <> "initial_guess" -> t <> "scaling_function" -> find p3 t = find p t)
      by (intros t X Y Z; rewrite (read_scaling_frame _ _ _ _ Hsc) by assumption; apply O2; assumption).
    rewrite <- (sd_v_find p3 p) in Hsh, Hov by (apply O3; [reflexivity|discriminate|discriminate]). rewrite Hsh. cbn [obind]. rewrite Hov. cbn [obind].
    rewrite (proj2 (Z.leb_le 0 (Z.of_nat (cs_bins u))) ltac:(lia)). cbn [obind check].
    assert (U : {| cs_name := cs_name u; cs_bins := cs_bins u; cs_time_name := cs_time_name u; cs_lower := cs_lower u; cs_upper := cs_upper u; cs_guess := cs_guess u;
       cs_scaling := cs_scaling u; cs_shrink := cs_shrink u; cs_options := cs_options u; cs_overwrite := cs_overwrite u |} = u) by (destruct u; reflexivity). rewrite U. clear U.
    assert (B3 : find p3 "basis" = Some (VDict bd')) by (rewrite (read_scaling_frame _ _ _ _ Hsc), (read_guess_frame _ _ _ _ Hg) by discriminate; apply find_store_same).
    assert (Dn : says_distribution E (VDict bd) s -> exists d', read_distribution E bd' = Good (bs_w_lower s, bs_w_upper s, d')).
    { intros X. apply read_distribution_good. apply (distribution_of bd bd'); [|exact X].
      rewrite (read_basis_frame _ _ _ _ _ _ Rb) by (cbn; intuition discriminate). unfold class_dict. rewrite !find_sd_other by reflexivity. reflexivity. }
    destruct b; try (destruct (Dn Hd) as (d' & Rd); unfold item; rewrite B3; cbn [obind as_dict]; rewrite Rd; cbn [obind]; rewrite strip_full; eexists; reflexivity).
    destruct Hd as (_ & W1 & W2). assert (W : full_basis (strip s) (bs_ampl s) (of_Z 0) (of_Z 0) = s) by (transitivity (full_basis (strip s) (bs_ampl s) (bs_w_lower s) (bs_w_upper s)); [f_equal; congruence|apply strip_full]). rewrite W. eexists; reflexivity.
  Qed.
  Lemma read_pulse_good p f : (exists p', read_pulse F E p = Good (f, p')) <-> says_pulse F E (VDict p) f.
  Proof. split; [intros (p' & H); eapply read_pulse_says; exact H|apply read_pulse_back]. Qed.

  (** ** Parameters and times *)
  Lemma read_param_good v f : read_param v = Good f /\ (exists d x, v = VDict d /\ find d "parameter_name" = Some x) <-> says_parameter v f.
  Proof.
    unfold says_parameter, read_param, kw, float. change (@frac N) with (@lit N). split.
    - intros (H & d & y & -> & Hn). rewrite !setting_one, entry_one. cbn [as_dict obind] in H. steps H. injection H as <-. cbn. apply check_good in R. apply only_keywords_good in R.
      apply number_good in R1, R2, R3, R4. apply text_good in R0. rewrite (sd_v_some _ _ _ _ Hn) in R0. split; [eexists; reflexivity|]. split; [exact R|]. split; [rewrite Hn; f_equal; exact R0|]. tauto.
    - intros ((d & ->) & H0 & H1 & H2 & H3 & H4 & H5). rewrite !setting_one in *. rewrite entry_one in H1. split; [|eauto]. cbn [as_dict obind]. apply only_keywords_good in H0. rewrite H0. cbn [check obind].
      rewrite (sd_v_some _ _ _ _ H1). cbn [text obind]. apply number_good in H2, H3, H4, H5. rewrite H2. cbn [obind]. rewrite H3. cbn [obind]. rewrite H4. cbn [obind]. rewrite H5. cbn [obind]. destruct f; reflexivity.
  Qed.
  Lemma read_time_good v f : read_time v = Good f <-> says_time v f.
  Proof.
    unfold says_time, read_time, kw, float. change (@frac N) with (@lit N). split.
    - intros H. steps H. apply as_dict_good in R. subst v. rewrite !setting_one, entry_one. injection H as <-. cbn. apply check_good in R1, R9. apply only_keywords_good in R1.
      apply number_good in R4, R6, R7, R8. apply flag_good in R5. apply integer_good in R2. apply item_good in R0. apply text_good in R3. rewrite (sd_v_some _ _ _ _ R0) in R3.
      split; [eexists; reflexivity|]. split; [exact R1|]. split; [rewrite R0; f_equal; exact R3|]. do 6 (split; [assumption|]). intros ->. apply negb_true_iff in R9. exact R9.
    - intros ((d & ->) & H0 & H1 & H2 & H3 & H4 & H5 & H6 & H7 & H8). rewrite !setting_one in *. rewrite entry_one in H1. cbn [as_dict obind]. unfold item. rewrite H1. cbn [obind].
      apply only_keywords_good in H0. rewrite H0. cbn [check obind]. rewrite (sd_v_some _ _ _ _ H1). apply integer_good in H3. rewrite H3. cbn [text obind].
      apply number_good in H2, H5, H6, H7. apply flag_good in H4. rewrite H2. cbn [obind]. rewrite H4. cbn [obind]. rewrite H5. cbn [obind]. rewrite H6. cbn [obind]. rewrite H7. cbn [obind].
      assert (C : negb (tf_opt f && neqb (tf_upper f - tf_lower f)%num (of_Z 0)) = true) by (destruct (tf_opt f); [rewrite H8 by reflexivity|]; reflexivity). rewrite C. cbn [check obind]. destruct f; reflexivity.
  Qed.

  (** ** All controls *)
  Lemma read_pulses_good l fs : (exists l', read_pulses F E l = Good (fs, l')) <-> Forall2 (says_pulse F E) l fs.
  Proof.
    revert fs. induction l as [|v l IH]; intros fs; cbn.
    - split; [intros (l' & [= <- <-]); constructor|intros H; inversion H; eexists; reflexivity].
    - split.
      + intros (l' & H). steps H. apply as_dict_good in R. subst v. injection H as <- <-. constructor; [eapply read_pulse_says; exact R0|]. apply IH. eexists; exact R1.
      + intros H. inversion H as [|? f ? fs' H1 H2]; subst. assert (X := H1). destruct X as (B & b & s & u & (p & ->) & _). cbn [as_dict obind].
        apply read_pulse_back in H1 as (p' & H1). rewrite H1. cbn [obind]. apply IH in H2 as (l' & H2). rewrite H2. cbn [obind]. eexists; reflexivity.
  Qed.
  Lemma names_good d sec k : names d sec k = Good tt <-> exists v l, find d sec = Some v /\ is_list v l /\ Forall (fun p => entry p [k] <> None) l.
  Proof.
    unfold names. split.
    - intros H. steps H. apply item_good in R. apply as_list_good in R0. exists x, x0. split; [exact R|]. split; [exact R0|]. apply omap_good in R1. clear -R1.
      induction R1 as [|v u l m H _ IH]; constructor; [|exact IH]. steps H. apply as_dict_good in R. subst. rewrite entry_one. apply item_good in R0. congruence.
    - intros (v & l & H1 & H2 & H3). unfold item. rewrite H1. cbn [obind]. apply as_list_good in H2. rewrite H2. cbn [obind].
      assert (X : exists us, omap (fun v => (p <-? as_dict v; _ <-? match find p k with Some w => Good w | None => Raises KeyError end; Good tt)%out) l = Good us).
      { clear -H3. induction H3 as [|v l H _ (us & IH)]; [eexists; reflexivity|]. cbn. rewrite IH. destruct (entry v [k]) as [w|] eqn:X; [|congruence].
        destruct (entry_dict _ _ _ _ X) as (p & ->). rewrite entry_one in X. cbn. rewrite X. eexists; reflexivity. }
      destruct X as (us & ->). reflexivity.
  Qed.
  Lemma list_fun v (l l' : list V) : is_list v l -> is_list v l' -> l = l'.
  Proof. intros [-> | ->] [H|H]; congruence. Qed.
  (** the three lists together with the names read beforehand *)
  Definition named (d : D) : Prop := names d "pulses" "pulse_name" = Good tt /\ names d "parameters" "parameter_name" = Good tt /\ names d "times" "time_name" = Good tt.
  Lemma read_controls_good d G : named d /\ (exists d', read_controls F E d = Good (g_pulses G, g_params G, g_times G, d')) <-> says_controls F E (VDict d) G.
  Proof.
    unfold says_controls, read_controls. setoid_rewrite entry_one. split.
    - intros ((N1 & N2 & N3) & d' & H). apply names_good in N1 as (v1 & l1 & A1 & B1 & C1), N2 as (v2 & l2 & A2 & B2 & C2), N3 as (v3 & l3 & A3 & B3 & C3).
      steps H. apply item_good in R, R0, R1. apply as_list_good in R2, R4, R6. injection H as -> -> -> <-.
      assert (X1 : l1 = x2) by (eapply list_fun; [exact B1|congruence]). assert (X2 : l2 = x3) by (eapply list_fun; [exact B2|congruence]). subst.
      split; [|split].
      + exists x, x2. split; [exact R|]. split; [exact R2|]. split; [|exact C1]. apply read_pulses_good. eexists; exact R3.
      + exists x1, x3. split; [exact R1|]. split; [exact R4|]. apply omap_good in R5. clear -R5 C2. induction R5 as [|v f l m H _ IH]; constructor; inversion C2; subst; [|apply IH; assumption].
        apply read_param_good. split; [exact H|]. destruct (entry v ["parameter_name"]) as [w|] eqn:X; [|congruence]. destruct (entry_dict _ _ _ _ X) as (p & ->). rewrite entry_one in X. eauto.
      + exists x0, x5. split; [exact R0|]. split; [exact R6|]. apply omap_good in R7. revert R7. apply Forall2_mono. intros a b. apply read_time_good.
    - intros ((v1 & l1 & A1 & B1 & C1 & D1) & (v2 & l2 & A2 & B2 & C2) & (v3 & l3 & A3 & B3 & C3)). split.
      + split; [|split]; apply names_good.
        * eauto 6.
        * exists v2, l2. split; [exact A2|]. split; [exact B2|]. clear -C2. induction C2 as [|v f l m H _ IH]; constructor; [|exact IH]. destruct H as (_ & _ & H & _). congruence.
        * exists v3, l3. split; [exact A3|]. split; [exact B3|]. clear -C3. induction C3 as [|v f l m H _ IH]; constructor; [|exact IH]. destruct H as (_ & _ & H & _). congruence.
      + unfold item. rewrite A1, A2, A3. cbn [obind]. apply as_list_good in B1, B2, B3. rewrite B1. cbn [obind]. apply read_pulses_good in C1 as (l' & C1). rewrite C1. cbn [obind]. rewrite B2. cbn [obind].
        assert (X : omap read_param l2 = Good (g_params G)) by (apply omap_good; revert C2; apply Forall2_mono; intros a b X; apply read_param_good in X; tauto). rewrite X. cbn [obind]. rewrite B3. cbn [obind].
        assert (Y : omap read_time l3 = Good (g_times G)) by (apply omap_good; revert C3; apply Forall2_mono; intros a b Y; apply read_time_good; exact Y). rewrite Y. cbn [obind]. eexists; reflexivity.
  Qed.
End Controls.
