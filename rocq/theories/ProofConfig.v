(** * Reading of the optimisation dictionary: lemmas. *)
From Coq Require Import String ZArith List Bool Lia.
From Verif Require Import Num Py ModelPulse ModelBases ModelControls ModelState ModelDump ModelImport SpecImport ProofImport ModelJson ModelConfig SpecConfig.
Import ListNotations.
Open Scope string_scope.
Open Scope list_scope.

Lemma obind_good {A B} (m : out A) (k : A -> out B) b : obind m k = Good b <-> exists a, m = Good a /\ k a = Good b.
Proof. destruct m; cbn; split; [intros H; eauto|intros (? & [= <-] & H); exact H|discriminate|intros (? & ? & _); discriminate|discriminate|intros (? & ? & _); discriminate]. Qed.
(** split a reading that succeeded into its steps *)
Ltac steps H :=
  repeat match type of H with
  | obind _ _ = Good _ => let a := fresh "x" in let H1 := fresh "R" in apply obind_good in H; destruct H as (a & H1 & H); cbn beta in H; match type of a with unit => destruct a | _ => idtac end
  | context [match ?p with (_, _) => _ end] => is_var p; destruct p
  end.

Section Dict.
  Context {N : Num}.
  Notation V := (value num).
  Notation D := (list (key * V)).
  Implicit Types (d : D) (v w : V) (s t : string).

  Lemma find_lookup d s : find d s = lookup d s.
  Proof. unfold lookup. induction d as [|[[s'| | | |] v] d IH]; cbn; try exact IH; [reflexivity|]. destruct (String.eqb s s'); [reflexivity|exact IH]. Qed.
  Lemma find_app d e s : find (d ++ e) s = match find d s with Some v => Some v | None => find e s end.
  Proof. induction d as [|[[s'| | | |] v] d IH]; cbn; try exact IH; [reflexivity|]. destruct (String.eqb s s'); [reflexivity|exact IH]. Qed.
  Lemma find_sd_same d s v : find (sd_d d s v) s = Some (sd_v d s v).
  Proof. unfold sd_d, sd_v. destruct (find d s) eqn:H; [exact H|]. rewrite find_app, H. cbn. rewrite String.eqb_refl. reflexivity. Qed.
  Lemma find_sd_other d s t v : String.eqb t s = false -> find (sd_d d s v) t = find d t.
  Proof. intros H. unfold sd_d. destruct (find d s); [reflexivity|]. rewrite find_app. cbn. rewrite H. destruct (find d t); reflexivity. Qed.
  Lemma sd_v_same d s v w : sd_v (sd_d d s v) s w = sd_v d s v.
  Proof. unfold sd_v at 1. rewrite find_sd_same. reflexivity. Qed.
  Lemma sd_v_other d s t v w : String.eqb t s = false -> sd_v (sd_d d s v) t w = sd_v d t w.
  Proof. intros H. unfold sd_v. rewrite find_sd_other by exact H. reflexivity. Qed.
  Lemma sd_d_some d s v w : find d s = Some w -> sd_d d s v = d.
  Proof. intros H. unfold sd_d. rewrite H. reflexivity. Qed.
  Lemma sd_v_some d s v w : find d s = Some w -> sd_v d s v = w.
  Proof. intros H. unfold sd_v. rewrite H. reflexivity. Qed.
  Lemma find_store_same d s v : find (store d s v) s = Some v.
  Proof.
    unfold store, set_item. induction d as [|[[s'| | | |] w] d IH]; cbn; try exact IH; [rewrite String.eqb_refl; reflexivity|].
    destruct (String.eqb s s') eqn:H; cbn; rewrite H; [reflexivity|exact IH].
  Qed.
  Lemma find_store_other d s t v : String.eqb t s = false -> find (store d s v) t = find d t.
  Proof.
    intros H. unfold store, set_item. induction d as [|[[s'| | | |] w] d IH]; cbn; try exact IH; [rewrite H; reflexivity|].
    destruct (String.eqb s s') eqn:H1; cbn; [apply String.eqb_eq in H1; subst; rewrite H; reflexivity|]. destruct (String.eqb t s'); [reflexivity|exact IH].
  Qed.
  Lemma store_id d s v : find d s = Some v -> store d s v = d.
  Proof.
    unfold store, set_item. induction d as [|[[s'| | | |] w] d IH]; cbn; try (intros H; f_equal; exact (IH H)); [discriminate|].
    destruct (String.eqb s s') eqn:H1; [intros [= ->]; reflexivity|]. intros H. f_equal. exact (IH H).
  Qed.
  Lemma store_store d s v w : store (store d s v) s w = store d s w.
  Proof.
    unfold store, set_item. induction d as [|[[s'| | | |] x] d IH]; cbn; try (f_equal; exact IH); [rewrite String.eqb_refl; reflexivity|].
    destruct (String.eqb s s') eqn:H; cbn; rewrite H; [reflexivity|]. f_equal. exact IH.
  Qed.

  Lemma entry_cons d s path : entry (VDict d) (s :: path) = match find d s with Some v => entry v path | None => None end.
  Proof. cbn. rewrite find_lookup. reflexivity. Qed.
  Lemma entry_one d s : entry (VDict d) [s] = find d s.
  Proof. rewrite entry_cons. destruct (find d s); reflexivity. Qed.
  Lemma setting_one d s v : setting (VDict d) [s] v = sd_v d s v.
  Proof. unfold setting. rewrite entry_one. reflexivity. Qed.
  Lemma entry_dict v s path w : entry v (s :: path) = Some w -> is_dict v.
  Proof. cbn. destruct v; try discriminate. intros _. eexists; reflexivity. Qed.

  Lemma item_good d s v : item d s = Good v <-> find d s = Some v.
  Proof. unfold item. destruct (find d s); split; congruence. Qed.
  Lemma number_good v x : number v = Good x <-> is_number v x.
  Proof. split; [destruct v; try discriminate; intros [= <-]; constructor|intros []; reflexivity]. Qed.
  Lemma integer_good v n : integer v = Good n <-> is_integer v n.
  Proof. split; [destruct v; try discriminate; intros [= <-]; reflexivity|intros ->; reflexivity]. Qed.
  Lemma flag_good v b : flag v = Good b <-> is_flag v b.
  Proof. split; [destruct v; try discriminate; intros [= <-]; reflexivity|intros ->; reflexivity]. Qed.
  Lemma text_good v s : text v = Good s <-> is_text v s.
  Proof. split; [destruct v; try discriminate; intros [= <-]; reflexivity|intros ->; reflexivity]. Qed.
  Lemma as_dict_good v d : as_dict v = Good d <-> v = VDict d.
  Proof. split; [destruct v; try discriminate; intros [= <-]; reflexivity|intros ->; reflexivity]. Qed.
  Lemma as_list_good v l : as_list v = Good l <-> is_list v l.
  Proof. split; [destruct v; try discriminate; intros [= <-]; [left|right]; reflexivity|intros [-> | ->]; reflexivity]. Qed.
  Lemma opt_text_good v o : opt_text v = Good o <-> or_none is_text v o.
  Proof.
    split; [destruct v; try discriminate; intros [= <-]; [constructor|constructor; [reflexivity|discriminate]]|].
    intros []; [reflexivity|]. unfold is_text in H. subst. reflexivity.
  Qed.
  Lemma no_class_good v : no_class v = Good tt <-> v = VNone.
  Proof. split; [destruct v; try discriminate; reflexivity|intros ->; reflexivity]. Qed.
  Lemma check_good c e : check c e = Good tt <-> c = true.
  Proof. destruct c; cbn; split; congruence. Qed.
  Lemma omap_good {A B} (f : A -> out B) (l : list A) bs : omap f l = Good bs <-> Forall2 (fun a b => f a = Good b) l bs.
  Proof.
    revert bs. induction l as [|a l IH]; intros bs; cbn.
    - split; [intros [= <-]; constructor|intros H; inversion H; reflexivity].
    - split.
      + intros H. steps H. injection H as <-. constructor; [exact R|]. apply IH. exact R0.
      + intros H. inversion H as [|? b ? bs' H1 H2]; subst. rewrite H1. cbn. apply IH in H2. rewrite H2. reflexivity.
  Qed.
  Lemma Forall2_mono {A B} (P Q : A -> B -> Prop) l m : (forall a b, P a b -> Q a b) -> Forall2 P l m -> Forall2 Q l m.
  Proof. intros H H1. induction H1 as [|a b l m H1 _ IH]; constructor; [apply H; exact H1|exact IH]. Qed.
  Lemma numbers_good v xs : numbers v = Good xs <-> are_numbers v xs.
  Proof.
    unfold numbers, are_numbers. split.
    - destruct v; try discriminate; intros H; apply omap_good in H; exists l; (split; [tauto|]); revert H; apply Forall2_mono; intros a b; apply number_good.
    - intros (l & [-> |[-> | ->]] & H); apply omap_good; revert H; apply Forall2_mono; intros a b; apply number_good.
  Qed.
  Lemma optional_good {A} (f : V -> out A) (R : V -> A -> Prop) o r : (forall v a, f v = Good a <-> R v a) -> optional f o = Good r <-> may_be R o r.
  Proof.
    intros I. unfold optional. destruct o as [v|].
    - split; [intros H; steps H; injection H as <-; constructor; apply I; exact R0|].
      intros H. inversion H as [|? a H1]; subst. apply I in H1. rewrite H1. reflexivity.
    - split; [intros [= <-]; constructor|intros H; inversion H; reflexivity].
  Qed.
  Lemma goal_good v r : opt_number v = Good r <-> or_none is_number v r.
  Proof.
    split.
    - destruct v; cbn; try discriminate; intros [= <-]; constructor; try constructor; discriminate.
    - intros [|v' x H _]; [reflexivity|]. inversion H; reflexivity.
  Qed.
  Lemma opt_integer_good v r : opt_integer v = Good r <-> or_none is_integer v r.
  Proof.
    split.
    - destruct v; cbn; try discriminate; intros [= <-]; constructor; try constructor; discriminate.
    - intros [|v' n H _]; [reflexivity|]. unfold is_integer in H. subst. reflexivity.
  Qed.
  Lemma strings_good v o : strings v = Good o <-> or_none is_names v o.
  Proof.
    unfold is_names. split.
    - destruct v; try discriminate; cbn; intros H; try (injection H as <-; constructor); steps H; injection H as <-;
        (constructor; [eexists; split; [first [left; reflexivity|right; reflexivity]|apply omap_good in R; revert R; apply Forall2_mono; intros a b; apply text_good]|discriminate]).
    - intros [|v' l (vs & [-> | ->] & H) _]; [reflexivity| |]; cbn;
        (assert (H1 : omap text vs = Good l) by (apply omap_good; revert H; apply Forall2_mono; intros a b; apply text_good)); rewrite H1; reflexivity.
  Qed.

  (** keyword arguments *)
  Lemma existsb_in s l : existsb (String.eqb s) l = true <-> In s l.
  Proof. rewrite existsb_exists. split; [intros (x & I & H); apply String.eqb_eq in H; subst; exact I|intros I; exists s; split; [exact I|apply String.eqb_refl]]. Qed.
  Lemma keywords_good l d : keywords l d = true <-> keys_not l (VDict d).
  Proof.
    unfold keywords, keys_not, key_of. rewrite forallb_forall. split.
    - intros H k (d' & w & [= <-] & I). specialize (H _ I). cbn in H. destruct k as [s| | | |]; try discriminate.
      exists s. split; [reflexivity|]. intros C. apply existsb_in in C. rewrite C in H. discriminate.
    - intros H [k w] I. destruct (H k ltac:(eauto)) as (s & -> & C). cbn. destruct (existsb (String.eqb s) l) eqn:X; [|reflexivity]. apply existsb_in in X. contradiction.
  Qed.
  Lemma only_keywords_good l d : only_keywords l d = true <-> keys_among l (VDict d).
  Proof.
    unfold only_keywords, keys_among, key_of. rewrite forallb_forall. split.
    - intros H k (d' & w & [= <-] & I). specialize (H _ I). cbn in H. destruct k as [s| | | |]; try discriminate.
      exists s. split; [reflexivity|]. apply existsb_in. exact H.
    - intros H [k w] I. destruct (H k ltac:(eauto)) as (s & -> & C). cbn. apply existsb_in. exact C.
  Qed.
  (** keys after a default or a change *)
  Lemma keywords_sd l d s v : existsb (String.eqb s) l = false -> keywords l (sd_d d s v) = keywords l d.
  Proof. intros H. unfold sd_d. destruct (find d s); [reflexivity|]. unfold keywords. rewrite forallb_app. cbn. rewrite H. rewrite andb_true_r. reflexivity. Qed.
  Lemma keywords_store l d s v w : find d s = Some w -> keywords l (store d s v) = keywords l d.
  Proof.
    unfold store, set_item, keywords. induction d as [|[[s'| | | |] x] d IH]; cbn; try reflexivity; [discriminate|].
    destruct (String.eqb s s') eqn:H1; [reflexivity|]. intros H. cbn. f_equal. exact (IH H).
  Qed.
End Dict.

#[export] Hint Rewrite @find_sd_same @find_store_same @sd_v_same : dict.
(** values of entries after defaults and changes *)
Ltac look := repeat first
  [ rewrite find_sd_same | rewrite find_store_same | rewrite sd_v_same
  | rewrite find_sd_other by reflexivity | rewrite find_store_other by reflexivity | rewrite sd_v_other by reflexivity ].
Ltac look_in H := repeat first
  [ rewrite find_sd_same in H | rewrite find_store_same in H | rewrite sd_v_same in H
  | rewrite find_sd_other in H by reflexivity | rewrite find_store_other in H by reflexivity | rewrite sd_v_other in H by reflexivity ].

Section Parts.
  Context {N : Num} (F : funs N) (E : env).
  Notation V := (value num).
  Notation D := (list (key * V)).

  (** ** Classes *)
  Lemma known_fun t n m c m' c' : known t n m c -> known t n m' c' -> m = m' /\ c = c'.
  Proof. intros H1 H2. apply known_entry in H1, H2. rewrite H1 in H2. injection H2 as <- <-. split; reflexivity. Qed.
  Lemma resolve_good t m c n k : resolve E t m c n = Good k <->
    exists m' c' n' mm cc, or_none is_text m m' /\ or_none is_text c c' /\ or_none is_text n n' /\ chosen t n' m' c' mm cc /\ installed E mm cc = Found (Some k).
  Proof.
    unfold resolve. split.
    - intros H. steps H. apply opt_text_good in R, R0, R1. exists x, x0, x1. unfold dynamic_import in H. destruct x1 as [nm|].
      + rewrite by_name_shipped in H. destruct (entry_of t nm) as [e|] eqn:X.
        * destruct (entry_known _ _ _ X) as (mm & cc & -> & Kn). cbn in H. exists mm, cc. do 3 (split; [assumption|]). split; [constructor; exact Kn|].
          destruct (installed E mm cc) as [[k'|]| |]; cbn in H; congruence.
        * unfold import_class in H. destruct x as [mm|]; [|discriminate]. destruct x0 as [cc|]; [|discriminate].
          exists mm, cc. do 3 (split; [assumption|]). split; [apply chosen_unknown; intros a b Kn; apply known_entry in Kn; congruence|].
          destruct (installed E mm cc) as [[k'|]| |]; cbn in H; congruence.
      + destruct x as [mm|]; [|discriminate]. destruct x0 as [cc|]; [|discriminate]. exists mm, cc. do 3 (split; [assumption|]). split; [constructor|].
        unfold import_class in H. destruct (installed E mm cc) as [[k'|]| |]; cbn in H; congruence.
    - intros (m' & c' & n' & mm & cc & H1 & H2 & H3 & Ch & I). apply opt_text_good in H1, H2, H3. rewrite H1, H2, H3. cbn [obind]. unfold dynamic_import.
      inversion Ch as [nm m0 c0 a b Kn|nm a b Un|a b]; subst.
      + rewrite by_name_shipped, (known_entry _ _ _ _ Kn). cbn. rewrite I. reflexivity.
      + rewrite by_name_shipped. destruct (entry_of t nm) as [e|] eqn:X; [destruct (entry_known _ _ _ X) as (a & b & _ & Kn); destruct (Un _ _ Kn)|].
        cbn. rewrite I. reflexivity.
      + cbn. rewrite I. reflexivity.
  Qed.
  Lemma resolve_selects t (d : D) m c n k : resolve E t (sd_v d m VNone) (sd_v d c VNone) (sd_v d n VNone) = Good k <-> selects E t (VDict d) m c n k.
  Proof. unfold selects. rewrite resolve_good. setoid_rewrite setting_one. reflexivity. Qed.

  (** ** Front *)
  Lemma read_front_good d f d' : read_front d = Good (f, d') <->
    (exists a, entry (VDict d) ["algorithm_settings"] = Some (VDict a) /\
      d' = store (sd_d (sd_d (sd_d (sd_d (sd_d d "optimization_client_name" (VStr "run")) "create_logfile" (VBool true)) "console_info" (VBool true))
         "use_microsecond_name" (VBool false)) "dump_format" (VStr "npz")) "algorithm_settings" (VDict (sd_d a "optimization_direction" (VStr "minimization")))) /\
    is_text (setting (VDict d) ["optimization_client_name"] (VStr "run")) (fr_job f) /\
    is_flag (setting (VDict d) ["create_logfile"] (VBool true)) (fr_logfile f) /\
    is_flag (setting (VDict d) ["console_info"] (VBool true)) (fr_console f) /\
    is_flag (setting (VDict d) ["use_microsecond_name"] (VBool false)) (fr_microseconds f) /\
    is_text (setting (VDict d) ["dump_format"] (VStr "npz")) (fr_format f).
  Proof.
    rewrite !setting_one, entry_one. unfold read_front. split.
    - intros H. steps H. look_in R0. look_in R1. look_in R2. look_in R3. look_in R4. apply item_good in R4. look_in R4. apply as_dict_good in R5. subst. injection H as <- <-. cbn.
      apply text_good in R, R3. apply flag_good in R0, R1, R2. split; [eexists; split; [exact R4|reflexivity]|]. tauto.
    - intros ((a & H & ->) & H1 & H2 & H3 & H4 & H5). apply text_good in H1, H5. apply flag_good in H2, H3, H4.
      rewrite H1. cbn [obind]. look. rewrite H2. cbn [obind]. look. rewrite H3. cbn [obind]. look. rewrite H4. cbn [obind]. look. rewrite H5. cbn [obind].
      unfold item. look. rewrite H. cbn. destruct f; reflexivity.
  Qed.

  (** ** Main settings *)
  Definition base_of (G : settings) : base_cfg := {| ba_max_total := g_max_total G; ba_total_lim := g_total_lim G; ba_maximise := g_maximise G; ba_goal := g_goal G |}.
  Definition base_dict (a : D) : D :=
    sd_d (sd_d (sd_d (sd_d a "max_eval_total" ten10) "total_time_lim" ten10) "optimization_direction" (VStr "minimization")) "FoM_goal" VNone.
  Lemma direction_good (s : string) b : (if String.eqb s "minimization" then Good false else if String.eqb s "maximization" then Good true else Raises TypeError) = Good b <->
    s = (if b then "maximization" else "minimization").
  Proof.
    destruct (String.eqb_spec s "minimization") as [->|X]; [destruct b; split; congruence|]. destruct (String.eqb_spec s "maximization") as [->|Y]; destruct b; split; congruence.
  Qed.
  Lemma read_base_good a G a' : read_base a = Good (base_of G, a') <-> a' = base_dict a /\ says_main (VDict a) G.
  Proof.
    unfold says_main, base_dict. rewrite !setting_one. unfold read_base. change huge with (@ten10 N). split.
    - intros H. steps H. look_in R0. look_in R1. look_in R3. apply goal_good in R3. apply direction_good in R2. apply integer_good in R. apply number_good in R0. apply text_good in R1.
      injection H as <- <- <- <- <-. subst. tauto.
    - intros (-> & H1 & H2 & H3 & H4). apply integer_good in H1. apply number_good in H2. apply text_good in H3.
      rewrite H1. cbn [obind]. look. rewrite H2. cbn [obind]. rewrite H3. cbn [obind].
      rewrite (proj2 (direction_good _ (g_maximise G)) eq_refl). cbn [obind]. apply goal_good in H4. rewrite H4. reflexivity.
  Qed.

  (** ** Stopping criteria *)
  Definition stop_of (G : settings) : stop_cfg :=
    {| st_max_eval := g_max_eval G; st_time_lim := g_time_lim G; st_xatol := g_xatol G; st_fatol := g_fatol G; st_cbs_n := g_cbs_n G; st_cbs_change := g_cbs_change G |}.
  Definition stop_dict (d : D) : D :=
    sd_d (sd_d (sd_d (sd_d (sd_d d "max_eval" ten10) "time_lim" ten10) "change_based_stop" (VDict default_cbs)) "xatol" (lit 1 100000000000000)) "fatol" (lit 1 (10 ^ 100)).
  Lemma read_stopping_good d G d' : read_stopping d = Good (stop_of G, d') <-> d' = stop_dict d /\ says_stopping (VDict d) G.
  Proof.
    unfold says_stopping, stop_dict. rewrite !setting_one. unfold read_stopping. change huge with (@ten10 N).
    change (frac 1 (10 ^ 14)) with (@lit N 1 100000000000000). change (frac 1 (10 ^ 100)) with (@lit N 1 (10 ^ 100)). change default_change with (VDict (@default_cbs N)).
    split.
    - intros H. steps H. look_in R0. look_in R1. look_in R4. look_in R5. apply as_dict_good in R1. rewrite R1. rewrite !entry_one.
      apply integer_good in R. apply number_good in R0, R4, R5. apply (optional_good _ _ _ _ integer_good) in R2. apply (optional_good _ _ _ _ number_good) in R3.
      injection H as <- <- <- <- <- <- <-. split; [reflexivity|]. do 4 (split; [assumption|]). split; [eexists; reflexivity|]. tauto.
    - intros (-> & H1 & H2 & H3 & H4 & (c & Hc) & H5 & H6). rewrite Hc in H5, H6. rewrite entry_one in H5, H6.
      apply integer_good in H1. apply number_good in H2, H3, H4. apply (optional_good _ _ _ _ integer_good) in H5. apply (optional_good _ _ _ _ number_good) in H6.
      rewrite H1. cbn [obind]. look. rewrite H2. cbn [obind]. look. rewrite Hc. cbn [obind as_dict]. rewrite H5. cbn [obind]. rewrite H6. cbn [obind].
      rewrite H3. cbn [obind]. look. rewrite H4. reflexivity.
  Qed.
  (** ** Search methods *)
  Definition nm_dict (g : D) : D := sd_d (sd_d g "parallelization" (VBool false)) "is_adaptive" (VBool false).
  Definition cma_dict (g : D) : D := sd_d (nm_dict g) "population" VNone.
  Lemma read_nm_good g m g' : read_nm g = Good (m, g') <-> g' = nm_dict g /\ is_nelder_mead (VDict g) m.
  Proof.
    unfold is_nelder_mead, read_nm. rewrite setting_one. split.
    - intros H. steps H. look_in R. injection H as <- <-. split; [reflexivity|]. exists x. split; [reflexivity|]. apply flag_good. exact R.
    - intros (-> & b & -> & H). look. apply flag_good in H. rewrite H. reflexivity.
  Qed.
  Lemma read_cma_good g m g' : read_cma g = Good (m, g') <-> g' = cma_dict g /\ is_cmaes (VDict g) m.
  Proof.
    unfold is_cmaes, read_cma. rewrite setting_one. look. split.
    - intros H. steps H. apply opt_integer_good in R. destruct x as [n|].
      + destruct (0 <=? n)%Z eqn:L; [|discriminate]. injection H as <- <-. split; [reflexivity|]. eexists. split; [reflexivity|]. cbn. rewrite Z2Nat.id by lia. exact R.
      + injection H as <- <-. split; [reflexivity|]. exists None. split; [reflexivity|exact R].
    - intros (-> & p & -> & H). apply opt_integer_good in H. rewrite H. cbn [obind]. destruct p as [p|]; cbn [option_map]; [|reflexivity].
      rewrite (proj2 (Z.leb_le 0 (Z.of_nat p)) ltac:(lia)), Nat2Z.id. reflexivity.
  Qed.

  Lemma stopping_sd d s v G : ~ In s ["max_eval"; "time_lim"; "change_based_stop"; "xatol"; "fatol"] -> says_stopping (VDict (sd_d d s v)) G <-> says_stopping (VDict d) G.
  Proof.
    intros I. cbn in I. unfold says_stopping. rewrite !setting_one.
    rewrite !sd_v_other by (apply String.eqb_neq; intros X; apply I; subst; tauto). reflexivity.
  Qed.
  Definition search_dict (direct : bool) (a sc : D) : D :=
    let sc := sd_d sc "total_time_lim" (sd_v a "total_time_lim" ten10) in if direct then sc else sd_d sc "k3" (VInt 3).
  Lemma search_dict_stopping direct a sc G : says_stopping (VDict (search_dict direct a sc)) G <-> says_stopping (VDict sc) G.
  Proof. unfold search_dict. destruct direct; rewrite ?stopping_sd by (cbn; intuition discriminate); reflexivity. Qed.
  Definition method_dict (g : D) : D := sd_d (sd_d (sd_d g "dsm_algorithm_module" VNone) "dsm_algorithm_class" VNone) "dsm_algorithm_name" VNone.
  Lemma method_dict_nm g m : is_nelder_mead (VDict (method_dict g)) m <-> is_nelder_mead (VDict g) m.
  Proof. unfold is_nelder_mead, method_dict. rewrite !setting_one. look. reflexivity. Qed.
  Lemma method_dict_cma g m : is_cmaes (VDict (method_dict g)) m <-> is_cmaes (VDict g) m.
  Proof. unfold is_cmaes, method_dict. rewrite !setting_one. look. reflexivity. Qed.

  Lemma read_search_good direct a G : (exists a', read_search E direct a = Good (g_method G, stop_of G, a')) <-> says_search E direct (VDict a) G.
  Proof.
    unfold says_search, read_search. rewrite !entry_cons. split.
    - intros (a' & H). steps H. apply item_good in R, R1, R3. apply as_dict_good in R0, R2, R4. subst. rewrite R. rewrite !entry_one.
      rewrite R3, R1. do 2 eexists. split; [reflexivity|]. split; [eexists; reflexivity|]. split; [reflexivity|]. split; [eexists; reflexivity|].
      unfold says_method. destruct (direct && match find x4 "dsm_name" with Some _ => true | None => false end)%bool eqn:Dp.
      + steps H. injection H as -> -> <-. apply read_nm_good in R0. change (if direct then _ else _) with (search_dict direct a x2) in R2. apply read_stopping_good in R2.
        rewrite search_dict_stopping in R2. split; [|tauto]. left. apply andb_prop in Dp as [-> Dp]. rewrite entry_one. split; [|tauto]. destruct (find x4 "dsm_name"); discriminate.
      + assert (ND : ~ (if direct then entry (VDict x4) ["dsm_name"] <> None else False)) by (destruct direct; [|tauto]; rewrite entry_one; destruct (find x4 "dsm_name"); [discriminate|intros X; apply X; reflexivity]).
        steps H. injection H as -> -> <-. look_in R0. apply resolve_selects in R0. change (if direct then _ else _) with (search_dict direct a x2) in R4. apply read_stopping_good in R4.
        rewrite search_dict_stopping in R4. split; [|tauto]. right. change (sd_d (sd_d (sd_d x4 _ _) _ _) _ _) with (method_dict x4) in R2. destruct x; try discriminate R2.
        * left. apply read_nm_good in R2. rewrite method_dict_nm in R2. tauto.
        * right. apply read_cma_good in R2. rewrite method_dict_cma in R2. tauto.
    - intros (S & W & H1 & (g & ->) & H2 & (sc & ->) & H3 & H4). destruct (find a "dsm_settings") as [ds|] eqn:X; [|discriminate].
      destruct (entry_dict _ _ _ _ H1) as (ds' & ->). rewrite entry_one in H1, H2. unfold item. rewrite X. cbn [obind as_dict]. rewrite H2. cbn [obind as_dict]. rewrite H1. cbn [obind as_dict].
      change (if direct then _ else _) with (search_dict direct a sc). apply (search_dict_stopping direct a) in H4.
      unfold says_method in H3. rewrite entry_one in H3. destruct (direct && match find g "dsm_name" with Some _ => true | None => false end)%bool eqn:Dp.
      + apply andb_prop in Dp as [-> Dp]. assert (M : is_nelder_mead (VDict g) (g_method G)) by (destruct (find g "dsm_name"); [|discriminate]; destruct H3 as [[_ M]|[[M _]|[M _]]]; [exact M| |]; destruct M; discriminate).
        rewrite (proj2 (read_nm_good _ _ _) (conj eq_refl M)). cbn [obind]. rewrite (proj2 (read_stopping_good _ _ _) (conj eq_refl H4)). cbn [obind]. eexists; reflexivity.
      + assert (ND : ~ (if direct then find g "dsm_name" <> None else False)) by (destruct direct; [|tauto]; destruct (find g "dsm_name"); [discriminate|intros Y; apply Y; reflexivity]).
        look. destruct H3 as [[M _]|[(_ & S1 & M)|(_ & S1 & M)]]; [contradiction| |]; apply resolve_selects in S1; rewrite S1; cbn [obind];
        change (sd_d (sd_d (sd_d g _ _) _ _) _ _) with (method_dict g).
        * apply method_dict_nm in M. rewrite (proj2 (read_nm_good _ _ _) (conj eq_refl M)). cbn [obind]. rewrite (proj2 (read_stopping_good _ _ _) (conj eq_refl H4)). cbn [obind]. eexists; reflexivity.
        * apply method_dict_cma in M. rewrite (proj2 (read_cma_good _ _ _) (conj eq_refl M)). cbn [obind]. rewrite (proj2 (read_stopping_good _ _ _) (conj eq_refl H4)). cbn [obind]. eexists; reflexivity.
  Qed.
  Lemma read_search_frame direct a r a' s : read_search E direct a = Good (r, a') -> ~ In s ["dsm_settings"; "total_time_lim"] -> find a' s = find a s.
  Proof.
    intros H I. cbn in I. assert (X : String.eqb s "dsm_settings" = false /\ String.eqb s "total_time_lim" = false) by (split; apply String.eqb_neq; intros ->; tauto). destruct X as [X1 X2].
    unfold read_search in H. steps H. destruct (_ && _)%bool; steps H; injection H as _ <-; rewrite find_store_other, find_sd_other by assumption; reflexivity.
  Qed.

  (** ** Drift, re-evaluation, seeds *)
  Lemma read_drift_good direct a G : (exists a', read_drift direct a = Good (g_drift_si G, g_drift_min G, g_drift_avg G, a')) <-> says_drift direct (VDict a) G.
  Proof.
    unfold says_drift, read_drift, float. change (@frac N) with (@lit N). rewrite setting_one. split.
    - intros (a' & H). steps H. apply as_dict_good in R. exists (VDict x). rewrite !setting_one. split; [exact R|]. split; [eexists; reflexivity|].
      destruct direct; steps H; injection H as -> -> -> <-.
      + injection R0 as R0. look_in R2. apply number_good in R1. apply integer_good in R2. auto.
      + look_in R1. look_in R2. apply flag_good in R0. apply number_good in R1. apply integer_good in R2. auto.
    - intros (C & HC & (dr & ->) & H1 & H2 & H3). rewrite !setting_one in H1, H2, H3. rewrite HC. cbn [obind as_dict]. apply number_good in H2. apply integer_good in H3.
      destruct direct.
      + cbn [obind]. rewrite H2. cbn [obind]. look. rewrite H3. cbn [obind]. rewrite H1. eexists; reflexivity.
      + apply flag_good in H1. rewrite H1. cbn [obind]. look. rewrite H2. cbn [obind]. rewrite H3. cbn [obind]. eexists; reflexivity.
  Qed.
  Lemma read_drift_frame direct a r a' s : read_drift direct a = Good (r, a') -> s <> "compensate_drift" -> find a' s = find a s.
  Proof. intros H I. apply String.eqb_neq in I. unfold read_drift in H. steps H. injection H as _ <-. rewrite find_store_other, find_sd_other by assumption. reflexivity. Qed.
  Lemma default_steps_good : are_numbers documented_steps default_steps.
  Proof. eexists. split; [left; reflexivity|]. repeat constructor. Qed.
  Lemma default_steps_only l : are_numbers documented_steps l -> l = default_steps.
  Proof.
    intros (vs & H & I). destruct H as [[= <-]|[H|H]]; try discriminate H.
    repeat match goal with H : Forall2 _ (_ :: _) _ |- _ => inversion H; clear H; subst | H : Forall2 _ [] _ |- _ => inversion H; clear H; subst | H : is_number (frac _ _) _ |- _ => inversion H; clear H; subst end. reflexivity.
  Qed.
  Lemma read_steps_good a G : read_steps a = Good (g_steps G) <-> says_steps (VDict a) G.
  Proof.
    unfold says_steps, read_steps. rewrite entry_one. destruct (find a "re_evaluation") as [v|]; [|split; congruence]. split.
    - intros H. steps H. apply as_dict_good in R. subst. split; [eexists; reflexivity|]. rewrite setting_one. unfold sd_v. destruct (find x "re_evaluation_steps") as [w|].
      + steps H. injection H as H. exists x0. split; [congruence|]. apply numbers_good. exact R.
      + injection H as H. eexists. split; [symmetry; exact H|]. apply default_steps_good.
    - intros ((r & ->) & l & H1 & H2). cbn [obind as_dict]. rewrite setting_one in H2. unfold sd_v in H2. rewrite H1. destruct (find r "re_evaluation_steps") as [w|].
      + apply numbers_good in H2. rewrite H2. reflexivity.
      + apply default_steps_only in H2. subst. reflexivity.
  Qed.
  Lemma generator_good v s : generator v = Good s <-> (v = VNone /\ s = Unseeded) \/ (exists n, v = VInt n /\ (0 <= n)%Z /\ s = Seeded n).
  Proof.
    split.
    - destruct v; cbn; try discriminate; [intros [= <-]; left; tauto|]. destruct (n <? 0)%Z eqn:L; [discriminate|]. intros [= <-]. right. exists n. apply Z.ltb_ge in L. auto.
    - intros [[-> ->]|(n & -> & L & ->)]; [reflexivity|]. cbn. replace (n <? 0)%Z with false by lia. reflexivity.
  Qed.
  Lemma seed_entry_good v o : seed_entry v = Good o <-> (exists r, v = VDict r /\ o = find r "seed_number") \/ (o = None /\ (v = VNone \/ (exists b, v = VBool b) \/ (exists n, v = VInt n) \/ (exists x, v = VFloat x) \/
        (exists s, v = VStr s) \/ (exists l, is_list v l))).
  Proof.
    unfold is_list. split.
    - destruct v; cbn; try discriminate; intros [= <-]; first [left; eexists; split; reflexivity|right; split; [reflexivity|eauto 12]].
    - intros [(r & -> & ->)|(-> & [-> |[(b & ->)|[(n & ->)|[(x & ->)|[(s & ->)|(l & [-> | ->])]]]]])]; reflexivity.
  Qed.
  (** a seed entry and a generator, with what is taken instead if there is none, and perhaps if it is of a wrong kind *)
  Definition seed_read (fallback : seed) (catch : bool) (v : V) : out seed :=
    (s <-? seed_entry v;
     match s with None => Good fallback | Some w => match generator w with Raises TypeError => if catch then Good fallback else Raises TypeError | o => o end end)%out.
  Lemma seed_read_good fb c v s : seed_read fb c v = Good s <-> says_seed fb (Some v) s \/ (c = true /\ wrong_seed v /\ s = fb).
  Proof.
    unfold seed_read. split.
    - intros H. steps H. apply seed_entry_good in R. destruct R as [(r & -> & ->)|(-> & R)].
      + destruct (find r "seed_number") as [w|] eqn:X.
        * destruct (generator w) as [s'|e|] eqn:Gw; [| |discriminate].
          -- injection H as ->. left. apply generator_good in Gw as [[-> ->]|(n & -> & L & ->)]; [apply seed_none|apply seed_number; [|exact L]]; rewrite entry_one; exact X.
          -- right. destruct w; try discriminate Gw.
             ++ cbn in Gw. destruct (n <? 0)%Z; [injection Gw as <-; discriminate|discriminate].
             ++ injection Gw as <-. destruct c; [|discriminate]. injection H as <-. split; [reflexivity|]. split; [|reflexivity]. left. exists x. rewrite entry_one. exact X.
             ++ injection Gw as <-. destruct c; [|discriminate]. injection H as <-. split; [reflexivity|]. split; [|reflexivity]. right. exists d. rewrite entry_one. exact X.
        * injection H as <-. left. apply seed_no_number; [eexists; reflexivity|]. rewrite entry_one. exact X.
      + injection H as <-. left. apply seed_not_a_dictionary. exact R.
    - intros [H|(-> & W & ->)].
      + inversion H as [R (r & ->) X|R X|R X|R n X L]; subst.
        * rewrite entry_one in X. cbn. rewrite X. reflexivity.
        * rewrite (proj2 (seed_entry_good v None) (or_intror (conj eq_refl X))). reflexivity.
        * destruct (entry_dict _ _ _ _ X) as (r & ->). rewrite entry_one in X. cbn. rewrite X. reflexivity.
        * destruct (entry_dict _ _ _ _ X) as (r & ->). rewrite entry_one in X. cbn. rewrite X. cbn. replace (n <? 0)%Z with false by lia. reflexivity.
      + destruct W as [(x & X)|(d & X)]; destruct (entry_dict _ _ _ _ X) as (r & ->); rewrite entry_one in X; cbn; rewrite X; reflexivity.
  Qed.
  Lemma read_seed_good k a s : read_seed k a = Good s <-> seed_of k (find a "random_number_generator") s.
  Proof.
    unfold read_seed, seed_of. destruct k.
    - destruct (find a "random_number_generator") as [v|]; [|split; congruence].
      transitivity (seed_read (Seeded 2022) true v = Good s); [|rewrite seed_read_good; tauto].
      unfold seed_read. destruct (seed_entry v) as [[w|]| |]; cbn; try tauto; destruct (generator w) as [| []|]; tauto.
    - split; congruence.
    - destruct (find a "random_number_generator") as [v|]; [|split; congruence].
      transitivity (seed_read (Seeded 2022) false v = Good s); [|rewrite seed_read_good; intuition discriminate].
      unfold seed_read. destruct (seed_entry v) as [[w|]| |]; cbn; try tauto; destruct (generator w) as [| []|]; tauto.
    - destruct (find a "random_number_generator") as [v|]; [|split; congruence].
      transitivity (seed_read SeedDrawn true v = Good s); [|rewrite seed_read_good; tauto].
      unfold seed_read. destruct (seed_entry v) as [[w|]| |]; cbn; try tauto; destruct (generator w) as [| []|]; tauto.
  Qed.
  (** ** L-BFGS-B *)
  Lemma read_lbfgs_good a l : (exists a', read_lbfgs a = Good (l, a')) <-> says_lbfgs (VDict a) l.
  Proof.
    unfold says_lbfgs, read_lbfgs. rewrite setting_one. change huge with (@ten10 N). change (frac 1 (10 ^ 6)) with (@lit N 1 1000000). split.
    - intros (a' & H). steps H. injection H as <- <-. look_in R1. look_in R2. look_in R3. apply as_dict_good in R. apply number_good in R0, R1, R2, R3.
      exists (VDict x). rewrite !setting_one. split; [exact R|]. split; [eexists; reflexivity|]. tauto.
    - intros (S & HS & (sc & ->) & H1 & H2 & H3 & H4). rewrite !setting_one in H1, H2, H3, H4. apply number_good in H1, H2, H3, H4. rewrite HS. cbn [obind as_dict].
      rewrite H1. cbn [obind]. look. rewrite H2. cbn [obind]. look. rewrite H3. cbn [obind]. look. rewrite H4. cbn [obind]. destruct l. eexists; reflexivity.
  Qed.
  Lemma read_lbfgs_frame a r a' s : read_lbfgs a = Good (r, a') -> s <> "stopping_criteria" -> find a' s = find a s.
  Proof. intros H I. apply String.eqb_neq in I. unfold read_lbfgs in H. steps H. injection H as _ <-. rewrite find_store_other, find_sd_other by assumption. reflexivity. Qed.
End Parts.
