(** * A dictionary written to a json file and read again says the same. *)
From Coq Require Import String ZArith List Bool Lia.
From Verif Require Import Num Py ModelPulse ModelBases ModelControls ModelState ModelImport SpecImport ModelJson SpecJson ModelConfig SpecConfig ProofConfig.
Import ListNotations.
Open Scope string_scope.
Open Scope list_scope.

Section File.
  Context {N : Num} (F : funs N) (E : env).
  Notation V := (value num).
  Notation D := (list (key * V)).
  Implicit Types (v w : V) (d : D).

  Definition text_keys v : Prop := forall d k w, inside (VDict d) v -> In (k, w) d -> exists s, k = KStr s.

  Lemma text_keys_item d k w : text_keys (VDict d) -> In (k, w) d -> text_keys w.
  Proof. intros H I d' k' w' J. apply H. exact (in_dict _ _ _ _ I J). Qed.
  Lemma text_keys_list v l w : text_keys v -> is_list v l -> In w l -> text_keys w.
  Proof. intros H [-> | ->] I d' k' w' J; apply H; [exact (in_list _ _ _ I J)|exact (in_tuple _ _ _ I J)]. Qed.
  Lemma lookup_in d s w : lookup d s = Some w -> exists k, In (k, w) d.
  Proof. unfold lookup. destruct (List.find _ d) as [[k x]|] eqn:H; [|discriminate]. intros [= <-]. apply find_some in H as [H _]. eauto. Qed.
  Lemma plain_lookup d s : text_keys (VDict d) ->
    lookup (map (fun kv => (match written (fst kv) with Some s => KStr s | None => KOther end, plain (snd kv))) d) s = option_map plain (lookup d s).
  Proof.
    intros H. assert (T : forall k w, In (k, w) d -> exists s, k = KStr s) by (intros k w; apply H; constructor). clear H.
    unfold lookup. induction d as [|[k w] d IH]; [reflexivity|]. destruct (T k w (or_introl eq_refl)) as (s' & ->). cbn. destruct (String.eqb s s'); [reflexivity|]. apply IH. intros k' w' I. apply (T k' w'). right. exact I.
  Qed.
  Lemma text_keys_entry path : forall v w, text_keys v -> entry v path = Some w -> text_keys w.
  Proof.
    induction path as [|s path IH]; intros v w T H; cbn in H; [injection H as <-; exact T|]. destruct v; try discriminate. destruct (lookup d s) as [x|] eqn:L; [|discriminate].
    destruct (lookup_in _ _ _ L) as (k & I). eapply IH; [|exact H]. eapply text_keys_item; eassumption.
  Qed.
  Lemma plain_entry path : forall v, text_keys v -> entry (plain v) path = option_map plain (entry v path).
  Proof.
    induction path as [|s path IH]; intros v T; [reflexivity|]. destruct v; try reflexivity. cbn [plain entry]. rewrite plain_lookup by exact T.
    destruct (lookup d s) as [x|] eqn:L; [|reflexivity]. cbn [option_map]. destruct (lookup_in _ _ _ L) as (k & I). apply IH. eapply text_keys_item; eassumption.
  Qed.
  Lemma plain_setting v path x : text_keys v -> plain x = x -> setting (plain v) path x = plain (setting v path x).
  Proof. intros T P. unfold setting. rewrite plain_entry by exact T. destruct (entry v path); [reflexivity|symmetry; exact P]. Qed.
  Lemma text_keys_setting v path x : text_keys v -> text_keys x -> text_keys (setting v path x).
  Proof. intros T P. unfold setting. destruct (entry v path) eqn:H; [exact (text_keys_entry _ _ _ T H)|exact P]. Qed.

  Lemma number_plain v x : is_number v x -> is_number (plain v) x.
  Proof. intros []; constructor. Qed.
  Lemma integer_plain v x : is_integer v x -> is_integer (plain v) x.
  Proof. intros ->. reflexivity. Qed.
  Lemma text_plain v x : is_text v x -> is_text (plain v) x.
  Proof. intros ->. reflexivity. Qed.
  Lemma flag_plain v x : is_flag v x -> is_flag (plain v) x.
  Proof. intros ->. reflexivity. Qed.
  Lemma dict_plain v : is_dict v -> is_dict (plain v).
  Proof. intros (d & ->). eexists; reflexivity. Qed.
  Lemma list_plain v l : is_list v l -> is_list (plain v) (map plain l).
  Proof. intros [-> | ->]; left; reflexivity. Qed.
  Lemma Forall2_map {A} (P Q : V -> A -> Prop) l m : (forall a b, In a l -> P a b -> Q (plain a) b) -> Forall2 P l m -> Forall2 Q (map plain l) m.
  Proof. intros H H1. induction H1 as [|a b l m H1 _ IH]; constructor; [apply H; [left; reflexivity|exact H1]|apply IH; intros a' b' I; apply H; right; exact I]. Qed.
  Lemma numbers_plain v xs : are_numbers v xs -> are_numbers (plain v) xs.
  Proof.
    intros (l & H & H1). exists (map plain l). split; [left; destruct H as [-> |[-> | ->]]; reflexivity|]. revert H1. apply Forall2_map. intros a b _. apply number_plain.
  Qed.
  Lemma may_plain {A} (R : V -> A -> Prop) o r : (forall v a, R v a -> R (plain v) a) -> may_be R o r -> may_be R (option_map plain o) r.
  Proof. intros H []; constructor. apply H. assumption. Qed.
  Lemma or_none_plain {A} (R : V -> A -> Prop) v r : (forall v a, R v a -> R (plain v) a /\ plain v <> VNone) -> or_none R v r -> or_none R (plain v) r.
  Proof. intros H []; [constructor|]. destruct (H _ _ H0). constructor; assumption. Qed.
  Lemma or_text v r : or_none is_text v r -> or_none is_text (plain v) r.
  Proof. apply or_none_plain. intros w a ->. split; [reflexivity|discriminate]. Qed.
  Lemma or_integer v r : or_none is_integer v r -> or_none is_integer (plain v) r.
  Proof. apply or_none_plain. intros w a ->. split; [reflexivity|discriminate]. Qed.
  Lemma or_number v r : or_none is_number v r -> or_none is_number (plain v) r.
  Proof. apply or_none_plain. intros w a []; (split; [constructor|discriminate]). Qed.
  Lemma names_plain v l : is_names v l -> is_names (plain v) l /\ plain v <> VNone.
  Proof.
    intros (vs & H & H1). split; [|destruct H as [-> | ->]; discriminate]. exists (map plain vs). split; [apply list_plain; exact H|]. revert H1. apply Forall2_map. intros a b _. apply text_plain.
  Qed.
  Lemma none_plain v : v = VNone -> plain v = VNone.
  Proof. intros ->. reflexivity. Qed.
  Lemma no_object_plain v k : text_keys v -> no_object v k -> no_object (plain v) k.
  Proof. intros T H. unfold no_object in *. rewrite plain_setting, H by (exact T || reflexivity). reflexivity. Qed.
  Lemma selects_plain t v m c n k : text_keys v -> selects E t v m c n k -> selects E t (plain v) m c n k.
  Proof.
    intros T (x1 & x2 & x3 & x4 & x5 & H1 & H2 & H3 & H4). exists x1, x2, x3, x4, x5. rewrite !plain_setting by (exact T || reflexivity). split; [apply or_text; exact H1|]. split; [apply or_text; exact H2|]. split; [apply or_text; exact H3|exact H4].
  Qed.
  Lemma text_keys_dict d : (forall k w, In (k, w) d -> (exists s, k = KStr s) /\ text_keys w) -> text_keys (VDict d).
  Proof. intros H d' k w I J. inversion I; subst; [apply (H k w); exact J|]. match goal with K : In _ d |- _ => apply H in K as [_ K]; eapply K; eassumption end. Qed.
  Lemma text_keys_leaf v : match v with VList _ | VTuple _ | VArray _ | VDict _ => False | _ => True end -> text_keys v.
  Proof. intros H d' k w I J. inversion I; subst; contradiction. Qed.
End File.
Ltac kinds := first [assumption | apply number_plain; assumption | apply integer_plain; assumption | apply text_plain; assumption | apply flag_plain; assumption | apply dict_plain; assumption | apply numbers_plain; assumption
  | apply or_text; assumption | apply or_integer; assumption | apply or_number; assumption].
Section File2.
  Context {N : Num} (F : funs N) (E : env).
  Notation V := (value num).
  Notation D := (list (key * V)).
  Implicit Types (v w : V) (d : D).

  Lemma general_plain v p : text_keys v -> says_general v p -> says_general (plain v) p.
  Proof. intros T (H1 & H2 & H3 & H4 & H5). unfold says_general. rewrite !plain_setting by (exact T || reflexivity). repeat (split; [kinds|]). kinds. Qed.
  Lemma main_plain v G : text_keys v -> says_main v G -> says_main (plain v) G.
  Proof. intros T (H1 & H2 & H3 & H4). unfold says_main. rewrite !plain_setting by (exact T || reflexivity). repeat (split; [kinds|]). kinds. Qed.
  Lemma change_plain : @plain num default_change = default_change. Proof. reflexivity. Qed.
  Lemma change_texts : text_keys (@default_change N).
  Proof. apply text_keys_dict. intros k w [[= <- <-]|[[= <- <-]|[]]]; (split; [eexists; reflexivity|apply text_keys_leaf; exact I]). Qed.
  Lemma stopping_plain v G : text_keys v -> says_stopping v G -> says_stopping (plain v) G.
  Proof.
    intros T (H1 & H2 & H3 & H4 & H5 & H6 & H7). unfold says_stopping. rewrite !plain_setting by (exact T || reflexivity).
    rewrite !plain_entry by (apply text_keys_setting; [exact T|apply change_texts]). do 5 (split; [kinds|]). split; (eapply may_plain; [|eassumption]); intros; kinds.
  Qed.
  Lemma method_plain direct v m : text_keys v -> says_method E direct v m -> says_method E direct (plain v) m.
  Proof.
    intros T H. unfold says_method, is_nelder_mead, is_cmaes in *. rewrite !plain_setting by (exact T || reflexivity). rewrite plain_entry by exact T.
    assert (X : option_map plain (entry v ["dsm_name"]) <> None <-> entry v ["dsm_name"] <> None) by (destruct (entry v ["dsm_name"]); cbn; split; intros; try discriminate; congruence).
    assert (Y : (if direct then option_map plain (entry v ["dsm_name"]) <> None else False) <-> (if direct then entry v ["dsm_name"] <> None else False)) by (destruct direct; tauto). rewrite Y. clear X Y.
    destruct H as [(H1 & b & -> & H2)|[(H1 & H2 & b & -> & H3)|(H1 & H2 & p & -> & H3)]].
    - left. split; [exact H1|]. eexists. split; [reflexivity|]. kinds.
    - right. left. split; [exact H1|]. split; [apply selects_plain; assumption|]. eexists. split; [reflexivity|]. kinds.
    - right. right. split; [exact H1|]. split; [apply selects_plain; assumption|]. eexists. split; [reflexivity|]. kinds.
  Qed.
  Lemma search_plain direct v G : text_keys v -> says_search E direct v G -> says_search E direct (plain v) G.
  Proof.
    intros T (S & W & H1 & H2 & H3 & H4 & H5 & H6). assert (TS := text_keys_entry _ _ _ T H1). assert (TW := text_keys_entry _ _ _ T H3).
    exists (plain S), (plain W). rewrite !plain_entry, H1, H3 by exact T. split; [reflexivity|]. split; [kinds|]. split; [reflexivity|]. split; [kinds|]. split; [apply method_plain; assumption|apply stopping_plain; assumption].
  Qed.
  Lemma empty_texts : text_keys (@VDict num []).
  Proof. apply text_keys_dict. intros k w []. Qed.
  Lemma drift_plain direct v G : text_keys v -> says_drift direct v G -> says_drift direct (plain v) G.
  Proof.
    intros T (C & H1 & H2 & H3 & H4 & H5). assert (TC : text_keys C) by (rewrite <- H1; apply text_keys_setting; [exact T|apply empty_texts]).
    exists (plain C). rewrite plain_setting, H1 by (exact T || reflexivity). rewrite !plain_setting by (exact TC || reflexivity). split; [reflexivity|]. split; [kinds|]. split; [destruct direct; kinds|]. split; kinds.
  Qed.
  Lemma steps_plain v G : text_keys v -> says_steps v G -> says_steps (plain v) G.
  Proof.
    intros T H. unfold says_steps in *. rewrite plain_entry by exact T. destruct (entry v ["re_evaluation"]) as [R|] eqn:X; [|exact H]. cbn [option_map].
    destruct H as (H1 & l & H2 & H3). split; [kinds|]. exists l. split; [exact H2|]. rewrite plain_setting by (reflexivity || exact (text_keys_entry _ _ _ T X)). kinds.
  Qed.
  Lemma lbfgs_plain v l : text_keys v -> says_lbfgs v l -> says_lbfgs (plain v) l.
  Proof.
    intros T (C & H1 & H2 & H3 & H4 & H5 & H6). assert (TC : text_keys C) by (rewrite <- H1; apply text_keys_setting; [exact T|apply empty_texts]).
    exists (plain C). rewrite plain_setting, H1 by (exact T || reflexivity). rewrite !plain_setting by (exact TC || reflexivity). split; [reflexivity|]. repeat (split; [kinds|]). kinds.
  Qed.
  Lemma says_seed_plain f R s : text_keys R -> says_seed f (Some R) s -> says_seed f (Some (plain R)) s.
  Proof.
    intros T H. inversion H; subst.
    - apply seed_no_number; [kinds|]. rewrite plain_entry by exact T. match goal with K : entry _ _ = _ |- _ => rewrite K end. reflexivity.
    - apply seed_not_a_dictionary. match goal with K : _ \/ _ |- _ => destruct K as [-> |[(b & ->)|[(b & ->)|[(b & ->)|[(b & ->)|(b & Q)]]]]]; cbn; [eauto 8..|] ; do 5 right; exists (map plain b); apply list_plain; exact Q end.
    - apply seed_none. rewrite plain_entry by exact T. match goal with K : entry _ _ = _ |- _ => rewrite K end. reflexivity.
    - apply seed_number; [|assumption]. rewrite plain_entry by exact T. match goal with K : entry _ _ = _ |- _ => rewrite K end. reflexivity.
  Qed.
  Lemma wrong_seed_plain R : text_keys R -> wrong_seed R -> wrong_seed (plain R).
  Proof. intros T [(x & H)|(d & H)]; [left|right]; rewrite plain_entry, H by exact T; eexists; reflexivity. Qed.
  Lemma seed_plain k R s : (forall r, R = Some r -> text_keys r) -> seed_of k R s -> seed_of k (option_map plain R) s.
  Proof.
    intros T H. unfold seed_of in *. destruct R as [r|]; [|exact H]. specialize (T r eq_refl). cbn [option_map]. destruct k; auto.
    - destruct H as [H|[H H']]; [left; apply says_seed_plain; assumption|right; split; [apply wrong_seed_plain; assumption|exact H']].
    - apply says_seed_plain; assumption.
    - destruct H as [H|[H H']]; [left; apply says_seed_plain; assumption|right; split; [apply wrong_seed_plain; assumption|exact H']].
  Qed.

  Lemma function_plain {X} (zero : X) ev arr load v f : text_keys v -> says_function E zero ev arr load v f -> says_function E zero ev arr load (plain v) f.
  Proof.
    intros T H. inversion H; subst.
    - constructor.
    - eapply function_text; [rewrite plain_entry by exact T; rewrite H0; reflexivity|rewrite plain_entry by exact T; rewrite H1; reflexivity|assumption].
    - eapply function_samples; [rewrite plain_entry by exact T; rewrite H0; reflexivity|rewrite plain_entry by exact T; rewrite H1; reflexivity|kinds].
    - eapply function_file; try eassumption; [rewrite plain_entry by exact T; rewrite H0; reflexivity|rewrite plain_setting by (exact T || reflexivity); kinds..].
    - eapply function_no_file; try eassumption; [rewrite plain_entry by exact T; rewrite H0; reflexivity|rewrite plain_setting by (exact T || reflexivity); kinds..].
    - eapply function_unknown; [rewrite plain_entry by exact T; rewrite H0; reflexivity|assumption].
  Qed.
  Lemma basis_plain b v s : text_keys v -> says_basis b v s -> says_basis b (plain v) s.
  Proof.
    intros T (H1 & H2 & H3 & H4 & H5). unfold says_basis. destruct b; rewrite ?plain_setting by (exact T || reflexivity); repeat match goal with H : _ /\ _ |- _ => destruct H end; repeat (split; [first [kinds|split; kinds]|]); kinds.
  Qed.
  Lemma key_plain v k : text_keys v -> key_of (plain v) k -> key_of v k.
  Proof.
    intros T (d & w & H & I). destruct v; try discriminate H. injection H as <-. apply in_map_iff in I as ([k' w'] & H & I). injection H as H _. cbn in H.
    destruct (T d0 k' w' (in_self _) I) as (s & ->). cbn in H. subst k. exists d0, w'. split; [reflexivity|exact I].
  Qed.
  Lemma distribution_plain v s : text_keys v -> says_distribution E v s -> says_distribution E (plain v) s.
  Proof.
    intros T (R & H1 & H2 & H3 & H4 & H5 & H6 & H7). assert (TR := text_keys_entry _ _ _ T H1). exists (plain R). rewrite plain_entry, H1 by exact T. rewrite !plain_setting by (exact TR || reflexivity).
    split; [reflexivity|]. split; [kinds|]. split; [apply no_object_plain; assumption|]. split; [apply selects_plain; assumption|]. split; [intros k K; apply H5; apply key_plain; assumption|]. split; kinds.
  Qed.
  Lemma pulse_plain v f : text_keys v -> says_pulse F E v f -> says_pulse F E (plain v) f.
  Proof.
    intros T (B & b & s & u & H1 & H2 & H3 & H4 & H5 & H6 & H7 & H8 & H9 & K1 & K2 & K3 & K4 & K5 & K6 & K7 & K8 & K9 & L1 & L2 & L3).
    assert (TB := text_keys_entry _ _ _ T H2). exists (plain B), b, s, u. rewrite plain_entry, H2 by exact T. rewrite !plain_setting by (exact T || reflexivity).
    split; [kinds|]. split; [reflexivity|]. split; [kinds|]. split; [apply no_object_plain; assumption|]. split; [apply selects_plain; assumption|]. split; [exact H6|]. split; [apply basis_plain; assumption|]. split; [exact H8|].
    split; [intros k K; apply H9; apply key_plain; assumption|]. do 8 (split; [kinds|]). split; [eapply or_none_plain; [|exact K9]; apply names_plain|].
    assert (TN : text_keys (@VNone num)) by (apply text_keys_leaf; exact I).
    split; [apply function_plain; [apply text_keys_setting; assumption|assumption]|]. split; [apply function_plain; [apply text_keys_setting; assumption|assumption]|].
    destruct b; try (apply distribution_plain; assumption). destruct L3 as (L3 & L4). split; [|exact L4]. rewrite plain_entry by exact T. destruct (entry v ["bins_number"]); [discriminate|exact L3].
  Qed.
  Lemma parameter_plain v f : text_keys v -> says_parameter v f -> says_parameter (plain v) f.
  Proof.
    intros T (H1 & H2 & H3 & H4 & H5 & H6 & H7). unfold says_parameter. rewrite !plain_setting by (exact T || reflexivity). rewrite plain_entry, H3 by exact T.
    split; [kinds|]. split; [intros k K; apply H2; apply key_plain; assumption|]. split; [reflexivity|]. repeat (split; [kinds|]). kinds.
  Qed.
  Lemma time_plain v f : text_keys v -> says_time v f -> says_time (plain v) f.
  Proof.
    intros T (H1 & H2 & H3 & H4 & H5 & H6 & H7 & H8 & H9 & H10). unfold says_time. rewrite !plain_setting by (exact T || reflexivity). rewrite plain_entry, H3 by exact T.
    split; [kinds|]. split; [intros k K; apply H2; apply key_plain; assumption|]. split; [reflexivity|]. repeat (split; [kinds|]). kinds.
  Qed.
  Lemma controls_plain v G : text_keys v -> says_controls F E v G -> says_controls F E (plain v) G.
  Proof.
    intros T ((P1 & l1 & A1 & B1 & C1 & D1) & (P2 & l2 & A2 & B2 & C2) & (P3 & l3 & A3 & B3 & C3)).
    assert (T1 := text_keys_entry _ _ _ T A1). assert (T2 := text_keys_entry _ _ _ T A2). assert (T3 := text_keys_entry _ _ _ T A3).
    split; [|split].
    - exists (plain P1), (map plain l1). rewrite plain_entry, A1 by exact T. split; [reflexivity|]. split; [apply list_plain; exact B1|]. split.
      + revert C1. apply Forall2_map. intros a b I. apply pulse_plain. exact (text_keys_list _ _ _ T1 B1 I).
      + apply Forall_forall. intros x I. apply in_map_iff in I as (y & <- & I). rewrite Forall_forall in D1. specialize (D1 y I). rewrite plain_entry by (exact (text_keys_list _ _ _ T1 B1 I)). destruct (entry y ["pulse_name"]); [discriminate|exact D1].
    - exists (plain P2), (map plain l2). rewrite plain_entry, A2 by exact T. split; [reflexivity|]. split; [apply list_plain; exact B2|]. revert C2. apply Forall2_map. intros a b I. apply parameter_plain. exact (text_keys_list _ _ _ T2 B2 I).
    - exists (plain P3), (map plain l3). rewrite plain_entry, A3 by exact T. split; [reflexivity|]. split; [apply list_plain; exact B3|]. revert C3. apply Forall2_map. intros a b I. apply time_plain. exact (text_keys_list _ _ _ T3 B3 I).
  Qed.
  Theorem says_plain v p : text_keys v -> says F E v p -> says F E (plain v) p.
  Proof.
    intros T (A & H1 & H2 & H3 & H4 & H5 & H6 & H7 & H8 & H9 & H). assert (TA := text_keys_entry _ _ _ T H1).
    exists (plain A). rewrite plain_entry, H1 by exact T. split; [reflexivity|]. split; [kinds|]. split; [apply no_object_plain; assumption|]. split; [apply selects_plain; assumption|]. split; [apply general_plain; assumption|].
    split; [apply main_plain; assumption|]. split; [apply controls_plain; assumption|]. rewrite (plain_entry ["random_number_generator"]) by exact TA.
    split; [apply seed_plain; [intros r Hr; exact (text_keys_entry _ _ _ TA Hr)|exact H8]|]. split; [exact H9|]. destruct (g_kind (p_settings p)).
    - destruct H as (K1 & K2 & K3 & (n & K4 & K5) & K6). split; [apply search_plain; assumption|]. split; [apply drift_plain; assumption|]. split; [apply steps_plain; assumption|]. split; [|exact K6]. exists n. rewrite plain_entry, K4 by exact TA. split; [reflexivity|exact K5].
    - destruct H as (K1 & K2 & K3 & K4). split; [apply search_plain; assumption|]. split; [apply drift_plain; assumption|]. split; [apply steps_plain; assumption|exact K4].
    - destruct H as (K1 & K2 & (l & K3 & K4) & K5). split; [exact K1|]. split; [exact K2|]. split; [exists l; split; [exact K3|apply lbfgs_plain; assumption]|exact K5].
    - destruct H as (K1 & K2 & (l & K3 & K4)). split; [exact K1|]. rewrite plain_setting by (exact TA || reflexivity). split; [kinds|]. exists l. split; [exact K3|apply lbfgs_plain; assumption].
  Qed.
End File2.
