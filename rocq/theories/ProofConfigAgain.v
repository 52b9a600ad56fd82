(** * Reading a dictionary a second time, after the constructors have put their defaults into it. *)
From Coq Require Import String ZArith List Bool Lia.
From Verif Require Import Num Py ModelPulse ModelBases ModelControls ModelState ModelImport SpecImport ProofImport ModelJson ModelConfig SpecConfig ProofConfig ProofConfigControls ProofConfigAll.
Import ListNotations.
Open Scope string_scope.
Open Scope list_scope.

Section Again.
  Context {N : Num} (F : funs N) (E : env).
  Notation V := (value num).
  Notation D := (list (key * V)).
  Implicit Types (d q a : D).

  (** [q] has the same entries as [d] under the keys [l] *)
  Definition same (l : list string) d q : Prop := forall t, In t l -> find q t = find d t.
  Lemma same_refl l d : same l d d.
  Proof. intros t _. reflexivity. Qed.
  Lemma same_sub l m d q : incl m l -> same l d q -> same m d q.
  Proof. intros I H t J. apply H. apply I. exact J. Qed.
End Again.
(** the value of key [s] in [q], from [Hq : same l (chain of defaults) q] *)
Ltac value Hq s :=
  let K := fresh "K" in
  pose proof (Hq s ltac:(cbn; tauto)) as K; rewrite ?find_store_other in K by reflexivity; rewrite ?find_sd_other in K by reflexivity; rewrite ?find_store_other in K by reflexivity;
  first [rewrite find_sd_same in K | rewrite find_store_same in K | idtac];
  rewrite ?sd_v_other in K by reflexivity.
Ltac known := repeat match goal with K : find ?q ?s = Some ?v |- context [sd_v ?q ?s ?w] => rewrite (sd_v_some q s w v K) | K : find ?q ?s = Some ?v |- context [sd_d ?q ?s ?w] => rewrite (sd_d_some q s w v K) end.
Ltac reads := repeat match goal with R : ?r = Good ?x |- context [?r] => rewrite R; cbn [obind] end.
Ltac clean := repeat match goal with R : context [sd_v (sd_d _ _ _) _ _] |- _ => first [rewrite sd_v_same in R | rewrite sd_v_other in R by reflexivity] end.

Section Again2.
  Context {N : Num} (F : funs N) (E : env).
  Notation V := (value num).
  Notation D := (list (key * V)).
  Implicit Types (d q a : D).

  Lemma read_fun_again {X} (zero : X) ev arr load (g : D) f g' : read_fun E zero ev arr load g = Good (f, g') -> read_fun E zero ev arr load g' = Good (f, g').
  Proof.
    intros H. assert (H0 := H). unfold read_fun in H. steps H.
    destruct (String.eqb x0 "lambda_function") eqn:E1; [steps H; injection H as <- <-; exact H0|].
    destruct (String.eqb x0 "list_function") eqn:E2; [steps H; injection H as <- <-; exact H0|].
    destruct (String.eqb x0 "python_file") eqn:E3; [|injection H as <- <-; exact H0]. steps H. clean.
    set (q := sd_d (sd_d (sd_d g _ _) _ _) _ _) in H. assert (Hq : same ["function_type"; "file_path"; "function_name"; "path_mode"] q q) by apply same_refl.
    unfold q in Hq at 1. value Hq "function_type". value Hq "file_path". value Hq "function_name". value Hq "path_mode". apply item_good in R. rewrite R in K.
    assert (G : read_fun E zero ev arr load q = (if (e_exists E (file_of E x1 x3) && negb (String.eqb x2 ""))%bool then obind (load (file_of E x1 x3) x2) (fun f => Good (f, q)) else Good (zero, q))).
    { unfold read_fun. unfold item. rewrite K. cbn [obind]. rewrite R0. cbn [obind]. rewrite E1, E2, E3. known. reads. known. reads. known. reads. known. reflexivity. }
    destruct (e_exists E (file_of E x1 x3) && negb (String.eqb x2 ""))%bool.
    - steps H. injection H as <- <-. rewrite G. rewrite R4. reflexivity.
    - injection H as <- <-. exact G.
  Qed.
  Lemma read_guess_again p f p' q : read_guess E p = Good (f, p') -> same ["initial_guess"] p' q -> read_guess E q = Good (f, q).
  Proof.
    intros H S. specialize (S "initial_guess" (or_introl eq_refl)). unfold read_guess, kw in *. unfold sd_v in *. destruct (find p "initial_guess") as [v|] eqn:P.
    - destruct v; cbn [obind as_dict] in H; try discriminate.
      + steps H. injection H as <- <-. rewrite S, P. rewrite R. reflexivity.
      + steps H. injection H as <- <-. rewrite find_store_same in S. rewrite S. cbn [obind as_dict]. rewrite (read_fun_again _ _ _ _ _ _ _ R). cbn [obind]. rewrite store_id by exact S. reflexivity.
    - steps H. injection H as <- <-. rewrite S, P. rewrite R. reflexivity.
  Qed.
  Lemma read_scaling_again p f p' q : read_scaling E p = Good (f, p') -> same ["scaling_function"] p' q -> read_scaling E q = Good (f, q).
  Proof.
    intros H S. specialize (S "scaling_function" (or_introl eq_refl)). unfold read_scaling, kw in *. unfold sd_v in *. destruct (find p "scaling_function") as [v|] eqn:P.
    - destruct v; cbn [obind as_dict] in H; try discriminate.
      + steps H. injection H as <- <-. rewrite S, P. rewrite R. reflexivity.
      + steps H. injection H as <- <-. rewrite find_store_same in S. rewrite S. cbn [obind as_dict]. rewrite (read_fun_again _ _ _ _ _ _ _ R). cbn [obind]. rewrite store_id by exact S. reflexivity.
    - steps H. injection H as <- <-. rewrite S, P. rewrite R. reflexivity.
  Qed.
  Lemma read_basis_again b d k s d' q : read_basis b d = Good (k, s, d') ->
    same ["basis_vector_number"; "basis_max"; "offset"; "sigma"; "tau_variation"; "sigma_variation"] d' q -> read_basis b q = Good (k, s, q).
  Proof.
    intros H S. destruct b; cbn [read_basis] in H |- *; steps H; injection H as <- <- <-; clean;
      try (value S "basis_vector_number"); try (value S "basis_max"); try (value S "offset"); try (value S "sigma"); try (value S "tau_variation"); try (value S "sigma_variation");
      known; reads; known; reads; known; reads; known; reads; known; reads; known; reflexivity.
  Qed.
  Lemma read_distribution_again d lo up d' q : read_distribution E d = Good (lo, up, d') -> same ["random_super_parameter_distribution"] d' q -> read_distribution E q = Good (lo, up, q).
  Proof.
    intros H S. unfold read_distribution in H. steps H. destruct x1; try discriminate. steps H. injection H as <- <- <-. unfold kw in *. clean.
    specialize (S "random_super_parameter_distribution" (or_introl eq_refl)). rewrite find_store_same in S.
    set (r := sd_d (sd_d (sd_d (sd_d x0 _ _) _ _) _ _) _ _) in *. assert (Hr : same ["distribution_attribute"; "distribution_module"; "distribution_class"; "distribution_name"] r r) by apply same_refl.
    unfold r in Hr at 1. value Hr "distribution_attribute". value Hr "distribution_module". value Hr "distribution_class". value Hr "distribution_name".
    unfold read_distribution, kw. unfold item. rewrite S. cbn [obind as_dict]. known. reads. known. reads. known. reads.
    unfold r. rewrite !sd_v_other by reflexivity. reads. fold r. rewrite store_id by exact S. reflexivity.
  Qed.

  Lemma read_guess_keys p f p' l : read_guess E p = Good (f, p') -> keywords l p' = keywords l p.
  Proof.
    intros H. unfold read_guess, kw in H. unfold sd_v in H. destruct (find p "initial_guess") as [v|] eqn:P; [|steps H; injection H as _ <-; reflexivity].
    destruct v; steps H; injection H as _ <-; try reflexivity; eapply keywords_store; exact P.
  Qed.
  Lemma read_scaling_keys p f p' l : read_scaling E p = Good (f, p') -> keywords l p' = keywords l p.
  Proof.
    intros H. unfold read_scaling, kw in H. unfold sd_v in H. destruct (find p "scaling_function") as [v|] eqn:P; [|steps H; injection H as _ <-; reflexivity].
    destruct v; steps H; injection H as _ <-; try reflexivity; eapply keywords_store; exact P.
  Qed.
  Lemma read_distribution_frame d lo up d' t : read_distribution E d = Good (lo, up, d') -> t <> "random_super_parameter_distribution" -> find d' t = find d t.
  Proof.
    intros H I. apply String.eqb_neq in I. unfold read_distribution in H. steps H. destruct x1; try discriminate. steps H. injection H as _ _ <-. apply find_store_other. exact I.
  Qed.
  Lemma read_pulse_again p f p' : read_pulse F E p = Good (f, p') -> read_pulse F E p' = Good (f, p').
  Proof.
    intros H. unfold read_pulse in H. steps H. apply item_good in R. apply as_dict_good in R0. subst x. rename x0 into bd. clean.
    destruct x1 as [| | |b| | |]; try discriminate H.
    steps H. unfold kw in *. change (sd_d (sd_d (sd_d (sd_d bd _ _) _ _) _ _) _ _) with (class_dict bd) in *.
    set (p1 := store p "basis" (VDict l)) in *.
    assert (B1 : find l1 "basis" = Some (VDict l)) by (rewrite (read_scaling_frame _ _ _ _ _ R14), (read_guess_frame _ _ _ _ _ R13) by discriminate; apply find_store_same).
    assert (O2 : forall t, String.eqb t "basis" = false -> t <> "initial_guess" -> t <> "scaling_function" -> find l1 t = find p t)
      by (intros t X Y Z; rewrite (read_scaling_frame _ _ _ _ _ R14), (read_guess_frame _ _ _ _ _ R13) by assumption; apply find_store_other; exact X).
    assert (Kl : forall k, keywords k l1 = keywords k p) by (intros k; rewrite (read_scaling_keys _ _ _ _ R14), (read_guess_keys _ _ _ _ R13); unfold p1; apply (keywords_store _ _ _ _ _ R)).
    (* the dictionary afterwards: that of the basis and the rest *)
    assert (HQ : exists bq, find p' "basis" = Some (VDict bq) /\ (forall t, String.eqb t "basis" = false -> find p' t = find l1 t) /\ (forall k, keywords k p' = keywords k p) /\
        (forall t, t <> "random_super_parameter_distribution" -> find bq t = find l t) /\
        match b with
        | Piecewise => f = ModelBases.shipped F b (full_basis b0 x4 (of_Z 0) (of_Z 0)) (common x x0 x1 x2 x3 g s x6 x5 x7)
        | _ => exists wl wu, read_distribution E bq = Good (wl, wu, bq) /\ f = ModelBases.shipped F b (full_basis b0 x4 wl wu) (common x x0 x1 x2 x3 g s x6 x5 x7)
        end).
    { destruct b; try (apply obind_good in H as (v1 & A1 & H); apply obind_good in H as (v2 & A2 & H); apply obind_good in H as ([[wl wu] d1] & A3 & H);
        apply item_good in A1; apply as_dict_good in A2; rewrite B1 in A1; injection A1 as <-; injection A2 as <-; injection H as <- <-;
        exists d1; split; [apply find_store_same|]; split; [intros t X; apply find_store_other; exact X|]; split; [intros k; rewrite (keywords_store _ _ _ _ _ B1); apply Kl|];
        split; [intros t X; apply (read_distribution_frame _ _ _ _ _ A3 X)|]; exists wl, wu; split; [apply (read_distribution_again _ _ _ _ _ A3 (same_refl _ _))|reflexivity]).
      injection H as <- <-. exists l. split; [exact B1|]. split; [reflexivity|]. split; [exact Kl|]. split; [reflexivity|]. reflexivity. }
    clear H. destruct HQ as (bq & Q1 & Q2 & Q3 & Q4 & Q5).
    assert (C : forall t, In t ["basis_attribute"; "basis_module"; "basis_class"; "basis_name"] -> find bq t = Some (sd_v bd t VNone)).
    { intros t I. rewrite Q4 by (intros ->; cbn in I; intuition discriminate). rewrite (read_basis_frame _ _ _ _ _ _ R3) by (cbn in I |- *; intuition (subst; discriminate)).
      unfold class_dict. cbn in I. destruct I as [<-|[<-|[<-|[<-|[]]]]]; rewrite ?find_sd_other by reflexivity; rewrite find_sd_same; rewrite ?sd_v_other by reflexivity; reflexivity. }
    assert (K1 := C "basis_attribute" ltac:(cbn; tauto)). assert (K2 := C "basis_module" ltac:(cbn; tauto)). assert (K3 := C "basis_class" ltac:(cbn; tauto)). assert (K4 := C "basis_name" ltac:(cbn; tauto)).
    assert (Rb : read_basis b bq = Good (z, b0, bq)) by (apply (read_basis_again _ _ _ _ _ _ R3); intros t I; apply Q4; intros ->; cbn in I; intuition discriminate).
    assert (Rg : read_guess E p' = Good (g, p')).
    { apply (read_guess_again _ _ _ _ R13). intros t [<-|[]]. rewrite Q2 by reflexivity. apply (read_scaling_frame _ _ _ _ _ R14). discriminate. }
    assert (Rs : read_scaling E p' = Good (s, p')) by (apply (read_scaling_again _ _ _ _ R14); intros t [<-|[]]; apply Q2; reflexivity).
    assert (O3 : forall t, String.eqb t "basis" = false -> t <> "initial_guess" -> t <> "scaling_function" -> find p' t = find p t) by (intros t X Y Z; rewrite Q2 by exact X; apply O2; assumption).
    assert (O4 : forall t w, String.eqb t "basis" = false -> t <> "initial_guess" -> t <> "scaling_function" -> sd_v p' t w = sd_v p t w) by (intros t w X Y Z; apply sd_v_find; apply O3; assumption).
    assert (O5 : forall t w, String.eqb t "basis" = false -> sd_v p1 t w = sd_v p t w) by (intros t w X; apply sd_v_find; apply find_store_other; exact X).
    assert (O6 : forall t w, String.eqb t "basis" = false -> t <> "initial_guess" -> t <> "scaling_function" -> sd_v l1 t w = sd_v p t w) by (intros t w X Y Z; apply sd_v_find; apply O2; assumption).
    rewrite O5 in R5, R6, R7, R8, R9, R10, R12 by reflexivity. rewrite O6 in R15, R16 by (reflexivity || discriminate).
    unfold p1 in R4. rewrite (keywords_store _ _ _ _ _ R) in R4. rewrite <- (Q3 ["self"; "map_index"; "rng"; "is_AD"]) in R4.
    unfold read_pulse, kw. unfold item at 1. rewrite Q1. cbn [obind as_dict]. known. rewrite R1. cbn [obind]. rewrite R2. cbn [obind].
    assert (Bn : (match b with Piecewise => obind (item p' "bins_number") (fun _ => Good tt) | _ => Good tt end) = Good tt).
    { destruct b; try reflexivity. unfold item in R0 |- *. rewrite O3 by (reflexivity || discriminate). exact R0. }
    rewrite Bn. cbn [obind]. rewrite Rb. cbn [obind]. rewrite (store_id p' "basis") by exact Q1. rewrite R4. cbn [obind]. rewrite !O4 by (reflexivity || discriminate).
    rewrite R5, R6, R7, R8, R9, R10. cbn [obind]. rewrite R11, R12. cbn [obind]. rewrite Rg. cbn [obind]. rewrite Rs. cbn [obind]. rewrite !O4 by (reflexivity || discriminate). rewrite R15, R16. cbn [obind]. rewrite R17. cbn [obind].
    destruct b; try (destruct Q5 as (wl & wu & Rd & ->); unfold item; rewrite Q1; cbn [obind as_dict]; rewrite Rd; cbn [obind]; rewrite (store_id p' "basis") by exact Q1; reflexivity).
    rewrite Q5. reflexivity.
  Qed.
  Lemma read_pulses_again l fs l' : read_pulses F E l = Good (fs, l') -> read_pulses F E l' = Good (fs, l').
  Proof.
    revert fs l'. induction l as [|v l IH]; intros fs l' H; cbn in H; [injection H as <- <-; reflexivity|].
    steps H. injection H as <- <-. cbn. rewrite (read_pulse_again _ _ _ R0). cbn [obind]. rewrite (IH _ _ R1). reflexivity.
  Qed.
  Lemma read_controls_again d pf rf tf d' q : read_controls F E d = Good (pf, rf, tf, d') -> same ["pulses"; "parameters"; "times"] d' q -> read_controls F E q = Good (pf, rf, tf, q).
  Proof.
    intros H S. unfold read_controls in H. steps H. injection H as <- <- <- <-.
    value S "pulses". value S "parameters". value S "times". apply item_good in R, R0, R1. rewrite R1 in K0. rewrite R0 in K1.
    unfold read_controls, item. rewrite K, K0, K1. cbn [obind].
    assert (A : as_list (match x with VTuple _ => VTuple l0 | _ => VList l0 end) = Good l0) by (destruct x; reflexivity). rewrite A. cbn [obind].
    rewrite (read_pulses_again _ _ _ R3). cbn [obind]. reads. f_equal. f_equal. apply store_id. rewrite K. f_equal. destruct x; reflexivity.
  Qed.

  Lemma read_base_again a b a' q : read_base a = Good (b, a') -> same ["max_eval_total"; "total_time_lim"; "optimization_direction"; "FoM_goal"] a' q -> read_base q = Good (b, q).
  Proof.
    intros H S. unfold read_base in H. steps H. injection H as <- <-. clean. value S "max_eval_total". value S "total_time_lim". value S "optimization_direction". value S "FoM_goal".
    unfold read_base. known. reads. known. reads. known. reads. known. reads. known. reads. reflexivity.
  Qed.
  Lemma read_stopping_again a b a' q : read_stopping a = Good (b, a') -> same ["max_eval"; "time_lim"; "change_based_stop"; "xatol"; "fatol"] a' q -> read_stopping q = Good (b, q).
  Proof.
    intros H S. unfold read_stopping in H. steps H. injection H as <- <-. change (Z.pow_pos 10 100) with (10 ^ 100)%Z in S. clean. value S "max_eval". value S "time_lim". value S "change_based_stop". value S "xatol". value S "fatol".
    unfold read_stopping. known. reads. known. reads. known. reads. known. reads. known. reads. known. reads. known. reads. known. reflexivity.
  Qed.
  Lemma read_nm_again a b a' q : read_nm a = Good (b, a') -> same ["parallelization"; "is_adaptive"] a' q -> read_nm q = Good (b, q).
  Proof.
    intros H S. unfold read_nm in H. steps H. injection H as <- <-. clean. value S "parallelization". value S "is_adaptive". unfold read_nm. known. reads. known. reflexivity.
  Qed.
  Lemma read_cma_again a b a' q : read_cma a = Good (b, a') -> same ["parallelization"; "is_adaptive"; "population"] a' q -> read_cma q = Good (b, q).
  Proof.
    intros H S. unfold read_cma in H. steps H. destruct x as [n|].
    - destruct (0 <=? n)%Z eqn:P; [|discriminate]. injection H as <- <-. clean. value S "parallelization". value S "is_adaptive". value S "population". unfold read_cma. known. reads. known. rewrite P. reflexivity.
    - injection H as <- <-. clean. value S "parallelization". value S "is_adaptive". value S "population". unfold read_cma. known. reads. known. reflexivity.
  Qed.
  Lemma read_lbfgs_again a b a' q : read_lbfgs a = Good (b, a') -> same ["stopping_criteria"] a' q -> read_lbfgs q = Good (b, q).
  Proof.
    intros H S. unfold read_lbfgs in H. steps H. injection H as <- <-. clean. value S "stopping_criteria".
    set (r := sd_d (sd_d (sd_d (sd_d x _ _) _ _) _ _) _ _) in *. assert (Hr : same ["max_eval_total"; "ftol"; "gtol"; "maxls"] r r) by apply same_refl.
    unfold r in Hr at 1. value Hr "max_eval_total". value Hr "ftol". value Hr "gtol". value Hr "maxls".
    unfold read_lbfgs. known. cbn [obind as_dict]. known. reads. known. reads. known. reads. known. reads. known. rewrite store_id by exact K. reflexivity.
  Qed.
  Lemma read_drift_again direct a si mi av a' q : read_drift direct a = Good (si, mi, av, a') -> same ["compensate_drift"] a' q -> read_drift direct q = Good (si, mi, av, q).
  Proof.
    intros H S. unfold read_drift in H. steps H. injection H as <- <- <- <-. value S "compensate_drift". destruct direct; clean.
    - set (r := sd_d (sd_d x _ _) _ _) in *. assert (Hr : same ["compensate_after_minutes"; "num_average"] r r) by apply same_refl.
      unfold r in Hr at 1. value Hr "compensate_after_minutes". value Hr "num_average".
      unfold read_drift. known. cbn [obind as_dict]. known. injection R0 as <-. reads. known. reads. known. reads. rewrite store_id by exact K. reflexivity.
    - set (r := sd_d (sd_d (sd_d x _ _) _ _) _ _) in *. assert (Hr : same ["compensate_after_SI"; "compensate_after_minutes"; "num_average"] r r) by apply same_refl.
      unfold r in Hr at 1. value Hr "compensate_after_SI". value Hr "compensate_after_minutes". value Hr "num_average".
      unfold read_drift. known. cbn [obind as_dict]. known. reads. known. reads. known. reads. known. rewrite store_id by exact K. reflexivity.
  Qed.

  Lemma read_stopping_frame a b a' t : read_stopping a = Good (b, a') -> ~ In t ["max_eval"; "time_lim"; "change_based_stop"; "xatol"; "fatol"] -> find a' t = find a t.
  Proof. intros H I. cbn in I. unfold read_stopping in H. steps H. injection H as _ <-. rewrite !find_sd_other by (apply String.eqb_neq; intros ->; tauto). reflexivity. Qed.
  Lemma read_nm_frame a b a' t : read_nm a = Good (b, a') -> ~ In t ["parallelization"; "is_adaptive"] -> find a' t = find a t.
  Proof. intros H I. cbn in I. unfold read_nm in H. steps H. injection H as _ <-. rewrite !find_sd_other by (apply String.eqb_neq; intros ->; tauto). reflexivity. Qed.
  Lemma read_cma_frame a b a' t : read_cma a = Good (b, a') -> ~ In t ["parallelization"; "is_adaptive"; "population"] -> find a' t = find a t.
  Proof.
    intros H I. cbn in I. unfold read_cma in H. steps H. destruct x as [n|]; [destruct (0 <=? n)%Z; [|discriminate]|]; injection H as _ <-; rewrite !find_sd_other by (apply String.eqb_neq; intros ->; tauto); reflexivity.
  Qed.
  Lemma read_search_again direct a m s a' q : read_search E direct a = Good (m, s, a') -> same ["dsm_settings"; "total_time_lim"] a' q -> read_search E direct q = Good (m, s, q).
  Proof.
    intros H S. unfold read_search in H. steps H.
    set (sc1 := if direct then _ else _) in H.
    (* what both ways leave behind *)
    assert (Q : exists g' sc', a' = store (sd_d a "total_time_lim" ten10) "dsm_settings" (VDict (store (store x0 "stopping_criteria" (VDict sc')) "general_settings" (VDict g'))) /\
       read_stopping sc1 = Good (s, sc') /\
       ((direct = true /\ find g' "dsm_name" <> None /\ read_nm g' = Good (m, g')) \/
        ((direct && match find g' "dsm_name" with Some _ => true | None => false end)%bool = false /\
         (exists mo cl na k, find g' "dsm_algorithm_module" = Some mo /\ find g' "dsm_algorithm_class" = Some cl /\ find g' "dsm_algorithm_name" = Some na /\
            resolve E "dsm_settings" mo cl na = Good k /\ (match k with ClsNelderMead => read_nm g' | ClsCMAES => read_cma g' | _ => Outside end) = Good (m, g'))))).
    { destruct (direct && match find x4 "dsm_name" with Some _ => true | None => false end)%bool eqn:Dn.
      - steps H. injection H as <- <- <-. exists l, l0. split; [reflexivity|]. split; [exact R6|]. left. apply andb_prop in Dn as [-> Dn]. split; [reflexivity|].
        rewrite (read_nm_frame _ _ _ _ R5) by (cbn; intuition discriminate). split; [destruct (find x4 "dsm_name"); congruence|]. apply (read_nm_again _ _ _ _ R5 (same_refl _ _)).
      - steps H. injection H as <- <- <-. exists l, l0. split; [reflexivity|]. split; [exact R7|]. right. clean.
        set (g1 := sd_d (sd_d (sd_d x4 _ _) _ _) _ _) in R6.
        assert (Fg : forall t, ~ In t ["parallelization"; "is_adaptive"; "population"] -> find l t = find g1 t).
        { intros t I. destruct x5; try discriminate R6; [apply (read_nm_frame _ _ _ _ R6)|apply (read_cma_frame _ _ _ _ R6)]; cbn in I |- *; tauto. }
        rewrite Fg by (cbn; intuition discriminate). unfold g1 at 1. rewrite !find_sd_other by reflexivity. split; [exact Dn|].
        do 3 rewrite Fg by (cbn; intuition discriminate). unfold g1.
        do 4 eexists. split; [rewrite !find_sd_other by reflexivity; apply find_sd_same|]. split; [rewrite find_sd_other by reflexivity; apply find_sd_same|]. split; [apply find_sd_same|].
        rewrite !sd_v_other by reflexivity. split; [exact R5|]. destruct x5; try discriminate R6; [apply (read_nm_again _ _ _ _ R6 (same_refl _ _))|apply (read_cma_again _ _ _ _ R6 (same_refl _ _))]. }
    clear H. destruct Q as (g' & sc' & -> & Rst & Q). value S "dsm_settings". value S "total_time_lim". set (ds := store (store x0 _ _) _ _) in *.
    assert (D1 : find ds "stopping_criteria" = Some (VDict sc')) by (unfold ds; rewrite find_store_other by reflexivity; apply find_store_same).
    assert (D2 : find ds "general_settings" = Some (VDict g')) by apply find_store_same.
    assert (T1 : exists w, find sc' "total_time_lim" = Some w).
    { rewrite (read_stopping_frame _ _ _ _ Rst) by (cbn; intuition discriminate). unfold sc1. destruct direct; rewrite ?find_sd_other by reflexivity; rewrite find_sd_same; eexists; reflexivity. }
    destruct T1 as (w & T1).
    assert (T2 : (if direct then sc' else sd_d sc' "k3" (VInt 3)) = sc').
    { destruct direct; [reflexivity|]. apply (sd_d_some _ _ _ (sd_v (sd_d x2 "total_time_lim" (sd_v a "total_time_lim" ten10)) "k3" (VInt 3))). rewrite (read_stopping_frame _ _ _ _ Rst) by (cbn; intuition discriminate). unfold sc1. apply find_sd_same. }
    unfold read_search, item. rewrite K. cbn [obind as_dict]. rewrite D1. cbn [obind as_dict]. rewrite (sd_d_some sc' _ _ _ T1), T2. rewrite D2. cbn [obind as_dict]. rewrite (sd_d_some q _ _ _ K0).
    assert (Rst' := read_stopping_again _ _ _ _ Rst (same_refl _ _)).
    destruct Q as [(-> & Dn & Rn)|(Dn & mo & cl & na & k & M1 & M2 & M3 & Rk & Rm)].
    - destruct (find g' "dsm_name"); [|congruence]. cbn [andb]. rewrite Rn. cbn [obind]. rewrite Rst'. cbn [obind]. rewrite (store_id ds) by exact D1. rewrite (store_id ds) by exact D2. rewrite store_id by exact K. reflexivity.
    - rewrite Dn. known. rewrite Rk. cbn [obind]. rewrite Rm. cbn [obind]. rewrite Rst'. cbn [obind]. rewrite (store_id ds) by exact D1. rewrite (store_id ds) by exact D2. rewrite store_id by exact K. reflexivity.
  Qed.

  (** keys of "algorithm_settings" that belong to the parts *)
  Lemma read_steps_of a q : find q "re_evaluation" = find a "re_evaluation" -> read_steps q = read_steps a.
  Proof. intros H. unfold read_steps. rewrite H. reflexivity. Qed.
  Lemma read_seed_of k a q : find q "random_number_generator" = find a "random_number_generator" -> read_seed k q = read_seed k a.
  Proof. intros H. unfold read_seed. rewrite H. reflexivity. Qed.
  Lemma read_base_frame a b a' t : read_base a = Good (b, a') -> ~ In t ["max_eval_total"; "total_time_lim"; "optimization_direction"; "FoM_goal"] -> find a' t = find a t.
  Proof. intros H I. cbn in I. unfold read_base in H. steps H. injection H as _ <-. rewrite !find_sd_other by (apply String.eqb_neq; intros ->; tauto). reflexivity. Qed.
  Lemma read_controls_frame d pf rf tf d' t : read_controls F E d = Good (pf, rf, tf, d') -> t <> "pulses" -> find d' t = find d t.
  Proof. intros H I. apply String.eqb_neq in I. unfold read_controls in H. steps H. injection H as _ _ _ <-. apply find_store_other. exact I. Qed.
  Lemma total_time_lim_there a b a' : read_base a = Good (b, a') -> exists w, find a' "total_time_lim" = Some w.
  Proof. intros H. unfold read_base in H. steps H. injection H as _ <-. rewrite !find_sd_other by reflexivity. rewrite find_sd_same. eexists; reflexivity. Qed.
  Lemma read_search_time direct a m s a' w : read_search E direct a = Good (m, s, a') -> find a "total_time_lim" = Some w -> find a' "total_time_lim" = Some w.
  Proof.
    intros H I. unfold read_search in H. steps H. destruct (direct && match find x4 "dsm_name" with Some _ => true | None => false end)%bool; steps H; injection H as _ _ <-;
      rewrite find_store_other, find_sd_same by reflexivity; rewrite (sd_v_some _ _ _ _ I); reflexivity.
  Qed.

  Lemma read_algorithm_again k d G sd lb d' q : read_algorithm F E k d = Good (G, sd, lb, d') -> same ["algorithm_settings"; "pulses"; "parameters"; "times"; "sys_type"] d' q ->
    read_algorithm F E k q = Good (G, sd, lb, q).
  Proof.
    intros H S. unfold read_algorithm in H. steps H. destruct k.
    - steps H. injection H as <- <- <- <-.
      assert (A : find q "algorithm_settings" = Some (VDict l1)) by (rewrite S by (cbn; tauto); rewrite (read_controls_frame _ _ _ _ _ _ R8) by discriminate; apply find_store_same).
      assert (Fd : forall t, t <> "compensate_drift" -> find l1 t = find l0 t) by (intros t I; apply (read_drift_frame _ _ _ _ _ R3 I)).
      assert (Fs : forall t, ~ In t ["dsm_settings"; "total_time_lim"] -> find l0 t = find l t) by (intros t I; apply (read_search_frame _ _ _ _ _ _ R2); cbn in I |- *; tauto).
      destruct (total_time_lim_there _ _ _ R1) as (w & Tw). assert (Tw' := read_search_time _ _ _ _ _ _ R2 Tw).
      assert (B : read_base l1 = Good (b, l1)).
      { apply (read_base_again _ _ _ _ R1). intros t I. rewrite Fd by (intros ->; cbn in I; intuition discriminate). cbn in I. destruct I as [<-|[<-|[<-|[<-|[]]]]]; try (apply Fs; cbn; intuition discriminate); congruence. }
      assert (Se : read_search E false l1 = Good (m, s, l1)) by (apply (read_search_again _ _ _ _ _ _ R2); intros t I; apply Fd; intros ->; cbn in I; intuition discriminate).
      assert (Dr : read_drift false l1 = Good (b0, n, z, l1)) by (apply (read_drift_again _ _ _ _ _ _ _ R3 (same_refl _ _))).
      assert (Co : read_controls F E q = Good (l4, l5, l3, q)) by (apply (read_controls_again _ _ _ _ _ _ R8); intros t I; apply S; cbn in I |- *; tauto).
      unfold read_algorithm. rewrite (proj2 (item_good q _ _) A). cbn [obind as_dict]. rewrite B. cbn [obind]. rewrite Se. cbn [obind]. rewrite Dr. cbn [obind]. rewrite R4. cbn [obind]. rewrite R5. cbn [obind]. rewrite R6. cbn [obind]. rewrite R7. cbn [obind].
      rewrite (store_id q) by exact A. rewrite Co. reflexivity.
    - steps H. injection H as <- <- <- <-.
      assert (A : find q "algorithm_settings" = Some (VDict l1)) by (rewrite S by (cbn; tauto); rewrite (read_controls_frame _ _ _ _ _ _ R5) by discriminate; apply find_store_same).
      assert (Fd : forall t, t <> "compensate_drift" -> find l1 t = find l0 t) by (intros t I; apply (read_drift_frame _ _ _ _ _ R3 I)).
      assert (Fs : forall t, ~ In t ["dsm_settings"; "total_time_lim"] -> find l0 t = find l t) by (intros t I; apply (read_search_frame _ _ _ _ _ _ R2); cbn in I |- *; tauto).
      destruct (total_time_lim_there _ _ _ R1) as (w & Tw). assert (Tw' := read_search_time _ _ _ _ _ _ R2 Tw).
      assert (B : read_base l1 = Good (b, l1)).
      { apply (read_base_again _ _ _ _ R1). intros t I. rewrite Fd by (intros ->; cbn in I; intuition discriminate). cbn in I. destruct I as [<-|[<-|[<-|[<-|[]]]]]; try (apply Fs; cbn; intuition discriminate); congruence. }
      assert (Se : read_search E true l1 = Good (m, s, l1)) by (apply (read_search_again _ _ _ _ _ _ R2); intros t I; apply Fd; intros ->; cbn in I; intuition discriminate).
      assert (Dr : read_drift true l1 = Good (b0, n, z, l1)) by (apply (read_drift_again _ _ _ _ _ _ _ R3 (same_refl _ _))).
      assert (Co : read_controls F E q = Good (l4, l5, l3, q)) by (apply (read_controls_again _ _ _ _ _ _ R5); intros t I; apply S; cbn in I |- *; tauto).
      unfold read_algorithm. rewrite (proj2 (item_good q _ _) A). cbn [obind as_dict]. rewrite B. cbn [obind]. rewrite Se. cbn [obind]. rewrite Dr. cbn [obind]. rewrite R4. cbn [obind].
      rewrite (store_id q) by exact A. rewrite Co. reflexivity.
    - steps H. injection H as <- <- <- <-.
      match goal with Rl : read_lbfgs l = Good (?x, ?y), Rc : read_controls _ _ _ = Good (?pf, ?rf, ?tf, ?e) |- _ => rename Rl into RL; rename Rc into RC; set (a := y) in *; set (lb := x) in *; set (pf' := pf) in *; set (rf' := rf) in *; set (tf' := tf) in * end.
      assert (A : find q "algorithm_settings" = Some (VDict a)) by (rewrite S by (cbn; tauto); rewrite (read_controls_frame _ _ _ _ _ _ RC) by discriminate; apply find_store_same).
      assert (T : sd_d q "sys_type" (VStr "StateTransfer") = q).
      { eapply sd_d_some. rewrite S by (cbn; tauto). rewrite (read_controls_frame _ _ _ _ _ _ RC) by discriminate. rewrite find_store_other by reflexivity. apply find_sd_same. }
      assert (B : read_base a = Good (b, a)).
      { apply (read_base_again _ _ _ _ R1). intros t I. apply (read_lbfgs_frame _ _ _ _ RL). intros ->. cbn in I. intuition discriminate. }
      assert (L : read_lbfgs a = Good (lb, a)) by (apply (read_lbfgs_again _ _ _ _ RL (same_refl _ _))).
      assert (Co : read_controls F E q = Good (pf', rf', tf', q)) by (apply (read_controls_again _ _ _ _ _ _ RC); intros t I; apply S; cbn in I |- *; tauto).
      unfold read_algorithm. rewrite (proj2 (item_good q _ _) A). cbn [obind as_dict]. rewrite B. cbn [obind]. rewrite R2. cbn [obind]. rewrite T, L. cbn [obind]. rewrite R4. cbn [obind].
      rewrite (store_id q) by exact A. rewrite Co. cbn [obind]. rewrite R6. reflexivity.
    - steps H. injection H as <- <- <- <-. rename R3 into RL. rename R5 into RC.
      match type of RL with _ = Good (?x, ?y) => set (a := y) in *; set (lb := x) in * end.
      match type of RC with _ = Good (?pf, ?rf, ?tf, _) => set (pf' := pf) in *; set (rf' := rf) in *; set (tf' := tf) in * end.
      assert (A : find q "algorithm_settings" = Some (VDict a)) by (rewrite S by (cbn; tauto); rewrite (read_controls_frame _ _ _ _ _ _ RC) by discriminate; apply find_store_same).
      assert (T : sd_d q "sys_type" (VStr "StateTransfer") = q).
      { eapply sd_d_some. rewrite S by (cbn; tauto). rewrite (read_controls_frame _ _ _ _ _ _ RC) by discriminate. rewrite find_store_other by reflexivity. apply find_sd_same. }
      assert (U : find a "super_iteration_number" = Some (sd_v l "super_iteration_number" (VInt 1))) by (rewrite (read_lbfgs_frame _ _ _ _ RL) by discriminate; apply find_sd_same).
      assert (B : read_base a = Good (b, a)).
      { apply (read_base_again _ _ _ _ R1). intros t I. rewrite (read_lbfgs_frame _ _ _ _ RL) by (intros ->; cbn in I; intuition discriminate). apply find_sd_other. cbn in I. destruct I as [<-|[<-|[<-|[<-|[]]]]]; reflexivity. }
      assert (L : read_lbfgs a = Good (lb, a)) by (apply (read_lbfgs_again _ _ _ _ RL (same_refl _ _))).
      assert (Co : read_controls F E q = Good (pf', rf', tf', q)) by (apply (read_controls_again _ _ _ _ _ _ RC); intros t I; apply S; cbn in I |- *; tauto).
      unfold read_algorithm. rewrite (proj2 (item_good q _ _) A). cbn [obind as_dict]. rewrite B. cbn [obind]. rewrite (sd_v_some _ _ _ _ U), (sd_d_some _ _ _ _ U). rewrite R2. cbn [obind]. rewrite T, L. cbn [obind]. rewrite R4. cbn [obind].
      rewrite (store_id q) by exact A. rewrite Co. reflexivity.
  Qed.

  Lemma read_pulse_name p f p' : read_pulse F E p = Good (f, p') -> find p' "pulse_name" = find p "pulse_name".
  Proof.
    intros H. unfold read_pulse in H. steps H. destruct x1 as [| | |b| | |]; try discriminate H. steps H.
    assert (X : find l1 "pulse_name" = find p "pulse_name") by (rewrite (read_scaling_frame _ _ _ _ _ R15), (read_guess_frame _ _ _ _ _ R14) by discriminate; apply find_store_other; reflexivity).
    destruct b; steps H; injection H as _ <-; rewrite ?find_store_other by reflexivity; exact X.
  Qed.
  Lemma read_pulses_name l fs l' : read_pulses F E l = Good (fs, l') -> Forall (fun p => entry p ["pulse_name"] <> None) l -> Forall (fun p => entry p ["pulse_name"] <> None) l'.
  Proof.
    revert fs l'. induction l as [|v l IH]; intros fs l' H A; cbn in H; [injection H as <- <-; constructor|].
    steps H. injection H as <- <-. inversion A as [|? ? A1 A2]; subst. apply as_dict_good in R. subst v. constructor; [|eapply IH; eassumption].
    rewrite entry_one in A1 |- *. rewrite (read_pulse_name _ _ _ R0). exact A1.
  Qed.
  Lemma read_controls_named d pf rf tf d' : read_controls F E d = Good (pf, rf, tf, d') -> names d "pulses" "pulse_name" = Good tt -> names d' "pulses" "pulse_name" = Good tt.
  Proof.
    intros H A. unfold read_controls in H. steps H. injection H as _ _ _ <-. apply names_good in A as (v & l' & A1 & A2 & A3). apply item_good in R. rewrite R in A1. injection A1 as <-.
    apply as_list_good in R2. rewrite (list_fun _ _ _ A2 R2) in A3. apply names_good. eexists _, l0. rewrite find_store_same. split; [reflexivity|]. split; [destruct x; try (left; reflexivity); right; reflexivity|].
    eapply read_pulses_name; eassumption.
  Qed.
  Lemma names_of_find d q sec k : find q sec = find d sec -> names q sec k = names d sec k.
  Proof. intros H. unfold names, item. rewrite H. reflexivity. Qed.

  (** what the algorithm leaves alone *)
  Lemma read_algorithm_frame k d a G sd lb d' : find d "algorithm_settings" = Some (VDict a) -> read_algorithm F E k d = Good (G, sd, lb, d') ->
    (forall t, ~ In t ["algorithm_settings"; "pulses"; "sys_type"] -> find d' t = find d t) /\
    (names d "pulses" "pulse_name" = Good tt -> names d' "pulses" "pulse_name" = Good tt) /\
    exists a', find d' "algorithm_settings" = Some (VDict a') /\ find a' "optimization_direction" <> None /\
      forall t, ~ In t ["max_eval_total"; "total_time_lim"; "optimization_direction"; "FoM_goal"; "dsm_settings"; "compensate_drift"; "stopping_criteria"; "super_iteration_number"] -> find a' t = find a t.
  Proof.
    intros A H. unfold read_algorithm in H. unfold item at 1 in H. rewrite A in H. cbn [obind as_dict] in H. apply obind_good in H as ([b l] & R1 & H).
    assert (Dir : find l "optimization_direction" <> None) by (clear -R1; unfold read_base in R1; steps R1; injection R1 as _ <-; rewrite !find_sd_other by reflexivity; rewrite find_sd_same; discriminate).
    assert (Fb : forall t, ~ In t ["max_eval_total"; "total_time_lim"; "optimization_direction"; "FoM_goal"] -> find l t = find a t) by (intros t I; apply (read_base_frame _ _ _ _ R1 I)).
    assert (Go : forall d0 a' pf rf tf, (forall t, ~ In t ["algorithm_settings"; "pulses"; "sys_type"] -> find d0 t = find d t) -> (find d0 "pulses" = find d "pulses") ->
       read_controls F E (store d0 "algorithm_settings" (VDict a')) = Good (pf, rf, tf, d') -> find a' "optimization_direction" <> None ->
       (forall t, ~ In t ["max_eval_total"; "total_time_lim"; "optimization_direction"; "FoM_goal"; "dsm_settings"; "compensate_drift"; "stopping_criteria"; "super_iteration_number"] -> find a' t = find a t) ->
       (forall t, ~ In t ["algorithm_settings"; "pulses"; "sys_type"] -> find d' t = find d t) /\
       (names d "pulses" "pulse_name" = Good tt -> names d' "pulses" "pulse_name" = Good tt) /\
       exists a', find d' "algorithm_settings" = Some (VDict a') /\ find a' "optimization_direction" <> None /\
         forall t, ~ In t ["max_eval_total"; "total_time_lim"; "optimization_direction"; "FoM_goal"; "dsm_settings"; "compensate_drift"; "stopping_criteria"; "super_iteration_number"] -> find a' t = find a t).
    { intros d0 a' pf rf tf X1 X2 RC X3 X4. split; [|split].
      - intros t I. rewrite (read_controls_frame _ _ _ _ _ _ RC) by (intros ->; cbn in I; tauto). rewrite find_store_other by (apply String.eqb_neq; intros ->; cbn in I; tauto). apply X1. exact I.
      - intros Nm. apply (read_controls_named _ _ _ _ _ RC). rewrite (names_of_find d) by (rewrite find_store_other by reflexivity; exact X2). exact Nm.
      - exists a'. split; [rewrite (read_controls_frame _ _ _ _ _ _ RC) by discriminate; apply find_store_same|]. split; [exact X3|exact X4]. }
    destruct k; steps H; injection H as _ _ _ <-.
    - match goal with RC : read_controls _ _ _ = _ |- _ => eapply Go; [| |exact RC| |]; try reflexivity end.
      + rewrite (read_drift_frame _ _ _ _ _ R0) by discriminate. rewrite (read_search_frame _ _ _ _ _ _ R) by (cbn; intuition discriminate). exact Dir.
      + intros t I. rewrite (read_drift_frame _ _ _ _ _ R0) by (intros ->; cbn in I; tauto). rewrite (read_search_frame _ _ _ _ _ _ R) by (cbn in I |- *; tauto). apply Fb. cbn in I |- *. tauto.
    - match goal with RC : read_controls _ _ _ = _ |- _ => eapply Go; [| |exact RC| |]; try reflexivity end.
      + rewrite (read_drift_frame _ _ _ _ _ R0) by discriminate. rewrite (read_search_frame _ _ _ _ _ _ R) by (cbn; intuition discriminate). exact Dir.
      + intros t I. rewrite (read_drift_frame _ _ _ _ _ R0) by (intros ->; cbn in I; tauto). rewrite (read_search_frame _ _ _ _ _ _ R) by (cbn in I |- *; tauto). apply Fb. cbn in I |- *. tauto.
    - match goal with RC : read_controls _ _ _ = _ |- _ => eapply Go; [| |exact RC| |] end.
      + intros t I. apply find_sd_other. apply String.eqb_neq. intros ->. cbn in I. tauto.
      + apply find_sd_other. reflexivity.
      + rewrite (read_lbfgs_frame _ _ _ _ R0) by discriminate. exact Dir.
      + intros t I. rewrite (read_lbfgs_frame _ _ _ _ R0) by (intros ->; cbn in I; tauto). apply Fb. cbn in I |- *. tauto.
    - match goal with RC : read_controls _ _ _ = _ |- _ => eapply Go; [| |exact RC| |] end.
      + intros t I. apply find_sd_other. apply String.eqb_neq. intros ->. cbn in I. tauto.
      + apply find_sd_other. reflexivity.
      + rewrite (read_lbfgs_frame _ _ _ _ R0) by discriminate. rewrite find_sd_other by reflexivity. exact Dir.
      + intros t I. rewrite (read_lbfgs_frame _ _ _ _ R0) by (intros ->; cbn in I; tauto). rewrite find_sd_other by (apply String.eqb_neq; intros ->; cbn in I; tauto). apply Fb. cbn in I |- *. tauto.
  Qed.

  Definition general : list string := ["optimization_client_name"; "create_logfile"; "console_info"; "use_microsecond_name"; "dump_format"].
  Lemma read_front_again d f d' q a : read_front d = Good (f, d') -> same general d' q -> find q "algorithm_settings" = Some (VDict a) -> find a "optimization_direction" <> None -> read_front q = Good (f, q).
  Proof.
    intros H S A Di. unfold general in S. unfold read_front in H. steps H. injection H as <- <-. clean.
    value S "optimization_client_name". value S "create_logfile". value S "console_info". value S "use_microsecond_name". value S "dump_format".
    unfold read_front. known. reads. known. reads. known. reads. known. reads. known. reads. known. unfold item. rewrite A. cbn [obind as_dict].
    assert (X : sd_d a "optimization_direction" (VStr "minimization") = a) by (destruct (find a "optimization_direction") eqn:Y; [eapply sd_d_some; exact Y|congruence]). rewrite X. rewrite store_id by exact A. reflexivity.
  Qed.
  Lemma construct_again d su : construct F E d = (true, Good su) ->
    (exists su', construct F E (su_dict su) = (true, Good su') /\ plan_of su' = plan_of su /\ su_dict su' = su_dict su /\ su_printed su' = VDict (su_dict su)) /\
    (exists d1 su', su_printed su = VDict d1 /\ construct F E d1 = (true, Good su') /\ plan_of su' = plan_of su /\ su_dict su' = su_dict su /\ su_printed su' = su_printed su).
  Proof.
    unfold construct. destruct (read_front d) as [[f d1]| |] eqn:Hf; try discriminate. destruct (e_folder_free E) eqn:Fr; [|discriminate]. intros [= H].
    unfold read_rest in H. steps H. apply item_good in R. apply as_dict_good in R0. subst x. rename x0 into a. unfold kw in *.
    destruct x1 as [k| | | | | |]; try discriminate H. steps H. set (a2 := sd_d a "algorithm_name" VNone) in *. set (d2 := store d1 "algorithm_settings" (VDict a2)) in *.
    match goal with R : read_algorithm _ _ _ _ = Good _ |- _ => rename R into RA end. injection H as <-. cbn [su_dict su_printed plan_of].
    assert (A2 : find d2 "algorithm_settings" = Some (VDict a2)) by apply find_store_same.
    assert (Di : find a "optimization_direction" <> None).
    { clear -Hf R. unfold read_front in Hf. steps Hf. injection Hf as _ <-. rewrite find_store_same in R. injection R as <-. rewrite find_sd_same. discriminate. }
    assert (Na : find a2 "algorithm_name" = Some (sd_v a "algorithm_name" VNone)) by apply find_sd_same.
    assert (O2 : forall t, t <> "algorithm_name" -> find a2 t = find a t) by (intros t I; apply find_sd_other; apply String.eqb_neq; exact I).
    split.
    - match type of RA with _ = Good (?G, ?sd, ?lb, ?d') => set (q := d') in *; set (G0 := G) in *; set (sd0 := sd) in *; set (lb0 := lb) in * end.
      destruct (read_algorithm_frame _ _ _ _ _ _ _ A2 RA) as (F1 & F2 & a' & A3 & Di' & F3).
      assert (Rf : read_front q = Good (f, q)).
      { apply (read_front_again d f d1 q a'); [exact Hf| |exact A3|exact Di']. intros t I. rewrite F1 by (intros X; cbn in I, X; intuition (subst; discriminate)).
        apply find_store_other. cbn in I. destruct I as [<-|[<-|[<-|[<-|[<-|[]]]]]]; reflexivity. }
      rewrite Rf. unfold read_rest, kw. rewrite (proj2 (item_good q _ _) A3). cbn [obind as_dict].
      assert (V : forall t w, In t ["algorithm_attribute"; "algorithm_module"; "algorithm_class"] -> sd_v a' t w = sd_v a t w).
      { intros t w I. apply sd_v_find. rewrite F3 by (intros X; cbn in I, X; intuition (subst; discriminate)). apply O2. intros ->. cbn in I. intuition discriminate. }
      assert (Na' : find a' "algorithm_name" = Some (sd_v a "algorithm_name" VNone)) by (rewrite F3 by (cbn; intuition discriminate); exact Na).
      rewrite !V by (cbn; tauto). rewrite (sd_v_some _ _ _ _ Na'), (sd_d_some _ _ _ _ Na'). rewrite R1. cbn [obind]. rewrite R2. cbn [obind]. rewrite (store_id q) by exact A3.
      rewrite F2 by assumption. cbn [obind]. rewrite (names_of_find d2 q "parameters"), (names_of_find d2 q "times") by (apply F1; cbn; intuition discriminate). reads.
      rewrite (read_algorithm_again _ _ _ _ _ _ _ RA (same_refl _ _)). cbn [obind]. eexists. split; [reflexivity|]. split; [reflexivity|]. split; reflexivity.
    - exists d2.
      assert (Rf : read_front d2 = Good (f, d2)).
      { apply (read_front_again d f d1 d2 a2); [exact Hf| |exact A2|rewrite O2 by discriminate; exact Di]. intros t I. apply find_store_other. cbn in I. destruct I as [<-|[<-|[<-|[<-|[<-|[]]]]]]; reflexivity. }
      rewrite Rf. unfold read_rest, kw. rewrite (proj2 (item_good d2 _ _) A2). cbn [obind as_dict].
      assert (V : forall t w, In t ["algorithm_attribute"; "algorithm_module"; "algorithm_class"] -> sd_v a2 t w = sd_v a t w).
      { intros t w I. apply sd_v_find. apply O2. intros ->. cbn in I. intuition discriminate. }
      rewrite !V by (cbn; tauto). rewrite (sd_v_some _ _ _ _ Na), (sd_d_some _ _ _ _ Na). rewrite R1. cbn [obind]. rewrite R2. cbn [obind]. rewrite (store_id d2) by exact A2.
      reads. eexists. split; [reflexivity|]. split; [reflexivity|]. split; [reflexivity|]. split; reflexivity.
  Qed.
End Again2.
