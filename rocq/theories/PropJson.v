(** * C64 Json files. *)
From Coq Require Import String List Bool ZArith Lia.
From Verif Require Import ModelJson SpecJson.
Import ListNotations.
Open Scope string_scope.
Open Scope list_scope.

Section C64.
  Context {F : Type}.
  Notation value := (value F).
  Notation json := (json F).
  Lemma value_rect' (P : value -> Prop) :
    (forall v, match v with VList _ | VTuple _ | VDict _ | VArray _ => False | _ => True end -> P v) ->
    (forall l, Forall P l -> P (VList l)) -> (forall l, Forall P l -> P (VTuple l)) -> (forall l, Forall P l -> P (VArray l)) ->
    (forall d, Forall (fun kv => P (snd kv)) d -> P (VDict d)) -> forall v, P v.
  Proof.
    intros H0 H1 H2 H3 H4. fix IH 1. intros v.
    assert (L : forall l, Forall P l) by (fix IHl 1; intros [|a l]; constructor; [apply IH|apply IHl]).
    destruct v; try (apply H0; exact I); [apply H1|apply H2| |apply H3]; try apply L.
    apply H4. revert d. fix IHd 1. intros [|[k a] d]; constructor; [apply IH|apply IHd].
  Qed.
  Lemma key_textE k : key_text k = written k. Proof. now destruct k as [| |[|]| |]. Qed.
  Definition items : list value -> option (list json) :=
    fix items l := match l with [] => Some [] | v :: l => match encode v, items l with Some j, Some js => Some (j :: js) | _, _ => None end end.
  Definition entries : list (key * value) -> option (list (string * json)) :=
    fix entries d := match d with
          | [] => Some []
          | (k, v) :: d => match key_text k, encode v, entries d with Some s, Some j, Some e => Some ((s, j) :: e) | _, _, _ => None end
          end.
  Lemma encode_list l : encode (VList l) = option_map JList (items l). Proof. reflexivity. Qed.
  Lemma encode_tuple l : encode (VTuple l) = option_map JList (items l). Proof. reflexivity. Qed.
  Lemma encode_array l : encode (VArray l) = option_map JList (items l). Proof. reflexivity. Qed.
  Lemma encode_dict d : encode (VDict d) = option_map JObj (entries d). Proof. reflexivity. Qed.
  Definition gather : list (string * json) -> list (key * value) -> list (key * value) :=
    fix entries d acc := match d with [] => acc | (s, j) :: d => entries d (set_item acc s (decode j)) end.
  Lemma decode_obj d : decode (JObj d) = VDict (gather d []). Proof. reflexivity. Qed.

  Lemma set_fresh acc s (v : value) : ~ In (KStr s) (map fst acc) -> set_item acc s v = acc ++ [(KStr s, v)].
  Proof.
    induction acc as [|[k w] acc IH]; intros H; [reflexivity|]. simpl in H. destruct k; cbn; try (f_equal; apply IH; tauto).
    destruct (String.eqb_spec s s0); [subst; exfalso; apply H; now left|]. f_equal. apply IH. tauto.
  Qed.
  Lemma gather_fresh d : forall acc, NoDup (map fst acc ++ map (fun e => KStr (fst e)) d) -> gather d acc = acc ++ map (fun e => (KStr (fst e), decode (snd e))) d.
  Proof.
    induction d as [|[s j] d IH]; intros acc H; cbn; [now rewrite app_nil_r|]. rewrite set_fresh.
    - rewrite IH; [now rewrite <- app_assoc|]. rewrite map_app, <- app_assoc. exact H.
    - simpl in H. apply NoDup_remove_2 in H. intros I. apply H, in_or_app. auto.
  Qed.

  Lemma round_trip (v : value) : unambiguous v -> forall j, encode v = Some j -> decode j = plain v.
  Proof.
    induction v as [v A|l IH|l IH|l IH|d IH] using value_rect'; intros U j E.
    - destruct v; try destruct A; cbn in E; try discriminate; injection E as <-; reflexivity.
    - rewrite encode_list in E. destruct (items l) as [js|] eqn:Ei; [|discriminate]. injection E as <-. cbn. f_equal.
      assert (U' : forall v, In v l -> unambiguous v) by (intros v I d D; apply U; now apply in_list with v). clear U. revert js Ei. induction l as [|v l IHl]; intros js Ei; cbn in Ei; [injection Ei as <-; reflexivity|].
      destruct (encode v) as [j|] eqn:Ev; [|discriminate]. destruct (items l) as [js'|] eqn:El; [|discriminate]. injection Ei as <-. inversion IH; subst. cbn. f_equal; [apply H1; auto; apply U'; now left|apply IHl; auto; intros; apply U'; now right].
    - rewrite encode_tuple in E. destruct (items l) as [js|] eqn:Ei; [|discriminate]. injection E as <-. cbn. f_equal.
      assert (U' : forall v, In v l -> unambiguous v) by (intros v I d D; apply U; now apply in_tuple with v). clear U. revert js Ei. induction l as [|v l IHl]; intros js Ei; cbn in Ei; [injection Ei as <-; reflexivity|].
      destruct (encode v) as [j|] eqn:Ev; [|discriminate]. destruct (items l) as [js'|] eqn:El; [|discriminate]. injection Ei as <-. inversion IH; subst. cbn. f_equal; [apply H1; auto; apply U'; now left|apply IHl; auto; intros; apply U'; now right].
    - rewrite encode_array in E. destruct (items l) as [js|] eqn:Ei; [|discriminate]. injection E as <-. cbn. f_equal.
      assert (U' : forall v, In v l -> unambiguous v) by (intros v I d D; apply U; now apply in_array with v). clear U. revert js Ei. induction l as [|v l IHl]; intros js Ei; cbn in Ei; [injection Ei as <-; reflexivity|].
      destruct (encode v) as [j|] eqn:Ev; [|discriminate]. destruct (items l) as [js'|] eqn:El; [|discriminate]. injection Ei as <-. inversion IH; subst. cbn. f_equal; [apply H1; auto; apply U'; now left|apply IHl; auto; intros; apply U'; now right].
    - rewrite encode_dict in E. destruct (entries d) as [es|] eqn:Ei; [|discriminate]. injection E as <-. rewrite decode_obj. cbn [plain]. f_equal.
      assert (U' : forall k v, In (k, v) d -> unambiguous v) by (intros k v I d' D; apply U; now apply in_dict with k v). specialize (U d (in_self _)).
      assert (K : forall d es, entries d = Some es -> map (fun kv : key * value => written (fst kv)) d = map (fun e => Some (fst e)) es).
      { clear. induction d as [|[k v] d IHd]; intros es Ei; cbn in Ei; [injection Ei as <-; reflexivity|]. destruct (key_text k) as [s|] eqn:Ek; [|discriminate]. destruct (encode v); [|discriminate]. destruct (entries d) as [e|]; [|discriminate]. injection Ei as <-. cbn. rewrite <- key_textE, Ek, (IHd e eq_refl). reflexivity. }
      rewrite gather_fresh.
      + cbn [app]. clear U K. revert es Ei. induction d as [|[k v] d IHd]; intros es Ei; cbn in Ei; [injection Ei as <-; reflexivity|]. destruct (key_text k) as [s|] eqn:Ek; [|discriminate]. destruct (encode v) as [j|] eqn:Ev; [|discriminate]. destruct (entries d) as [e|] eqn:El; [|discriminate].
        injection Ei as <-. inversion IH; subst. cbn [map fst snd]. rewrite <- key_textE, Ek. f_equal; [f_equal; apply H1; auto; apply (U' k); now left|apply IHd; auto; intros k' v' I; apply (U' k'); now right].
      + cbn [app map]. rewrite (K d es Ei) in U. clear - U. induction es as [|[s j] es IHe]; cbn in *; [constructor|]. inversion U; subst. constructor; [|auto].
        intros I. apply H1. apply in_map_iff in I. destruct I as [[s' j'] [E I]]. cbn in E. injection E as ->. apply in_map_iff. exists (s, j'). auto.
  Qed.
  Lemma storable_encode : forall v : value, storable v <-> exists j, encode v = Some j.
  Proof.
    assert (IT : forall l, Forall (fun v => storable v <-> exists j, encode v = Some j) l -> (forall v, In v l -> storable v) <-> exists js, items l = Some js).
    { induction l as [|v l IHl]; intros H; [split; [intros _; exists []; reflexivity|intros _ v []]|]. inversion H; subst. specialize (IHl H3). split.
      - intros K. destruct (proj1 H2 (K v (or_introl eq_refl))) as [j Ej]. destruct (proj1 IHl (fun w I => K w (or_intror I))) as [js Es]. exists (j :: js). cbn. now rewrite Ej, Es.
      - intros [js Es]. cbn in Es. destruct (encode v) as [j|] eqn:Ej; [|discriminate]. destruct (items l) as [js'|] eqn:El; [|discriminate].
        intros w [<-|I]; [apply H2; eauto|apply IHl; eauto]. }
    intros v. induction v as [v A|l IH|l IH|l IH|d IH] using value_rect'.
    - destruct v; try destruct A; cbn; (split; [intros S; try (eexists; reflexivity); exfalso; exact (S _ (in_self _))|intros [j E]; try discriminate; intros u I; inversion I; subst; exact Logic.I]).
    - rewrite encode_list. split.
      + intros S. destruct (proj1 (IT l IH)) as [js E]; [intros v I u U; apply S; now apply in_list with v|]. rewrite E. eexists; reflexivity.
      + intros [j E]. destruct (items l) as [js|] eqn:El; [|discriminate]. assert (K := proj2 (IT l IH) (ex_intro _ js El)). intros u I. inversion I; subst; [exact Logic.I|]. eapply K; eauto.
    - rewrite encode_tuple. split.
      + intros S. destruct (proj1 (IT l IH)) as [js E]; [intros v I u U; apply S; now apply in_tuple with v|]. rewrite E. eexists; reflexivity.
      + intros [j E]. destruct (items l) as [js|] eqn:El; [|discriminate]. assert (K := proj2 (IT l IH) (ex_intro _ js El)). intros u I. inversion I; subst; [exact Logic.I|]. eapply K; eauto.
    - rewrite encode_array. split.
      + intros S. destruct (proj1 (IT l IH)) as [js E]; [intros v I u U; apply S; now apply in_array with v|]. rewrite E. eexists; reflexivity.
      + intros [j E]. destruct (items l) as [js|] eqn:El; [|discriminate]. assert (K := proj2 (IT l IH) (ex_intro _ js El)). intros u I. inversion I; subst; [exact Logic.I|]. eapply K; eauto.
    - rewrite encode_dict.
      assert (ET : ((forall k v, In (k, v) d -> storable v) /\ forall v, ~ In (KOther, v) d) <-> exists es, entries d = Some es).
      { clear IT. induction d as [|[k v] d IHd]; [split; [intros _; exists []; reflexivity|intros _; split; [intros k v []|intros v []]]|]. inversion IH; subst. specialize (IHd H2). cbn [snd] in H1. split.
        - intros [K1 K2]. destruct (proj1 H1 (K1 k v (or_introl eq_refl))) as [j Ej]. destruct (proj1 IHd) as [es Es]; [split; [intros k' v' I; apply (K1 k'); now right|intros v' I; apply (K2 v'); now right]|].
          destruct (key_text k) as [s|] eqn:Ek; [|destruct k; try discriminate; exfalso; apply (K2 v); now left]. exists ((s, j) :: es). cbn. now rewrite Ek, Ej, Es.
        - intros [es Es]. cbn in Es. destruct (key_text k) as [s|] eqn:Ek; [|discriminate]. destruct (encode v) as [j|] eqn:Ej; [|discriminate]. destruct (entries d) as [es'|] eqn:El; [|discriminate].
          destruct (proj2 IHd (ex_intro _ es' eq_refl)) as [K1 K2]. split; [intros k' v' [Q|I]; [injection Q as <- <-; apply H1; eauto|eapply K1; eauto]|].
          intros v' [Q|I]; [injection Q as -> _; discriminate|eapply K2; eauto]. }
      split.
      + intros S. destruct (proj1 ET) as [es E]; [split; [intros k v I u U; apply S; now apply in_dict with k v|exact (S _ (in_self _))]|]. rewrite E. eexists; reflexivity.
      + intros [j E]. destruct (entries d) as [es|] eqn:El; [|discriminate]. destruct (proj2 ET (ex_intro _ es eq_refl)) as [K1 K2]. intros u I. inversion I; subst; [exact K2|]. eapply K1; eauto.
  Qed.

  (** A value that json takes is written with code 0 and read back, tuples and arrays as lists, classes as None and keys as text. *)
  Theorem C64_round_trip (v : value) old : storable v -> unambiguous v ->
    snd (writejsonfile Calm v old) = 0%Z /\ readjson Calm (fst (writejsonfile Calm v old)) = plain v.
  Proof.
    intros S U. destruct (proj1 (storable_encode v) S) as [j E]. unfold writejsonfile. rewrite E. split; [reflexivity|]. cbn. exact (round_trip v U j E).
  Qed.
  (** What json has itself is read back unchanged. *)
  Theorem C64_native (v : value) : native v -> plain v = v.
  Proof.
    induction v as [v A|l IH|l IH|l IH|d IH] using value_rect'; intros H.
    - destruct v; try destruct A; try reflexivity; exfalso; exact (H _ (in_self _)).
    - cbn. f_equal. rewrite <- (map_id l) at 2. apply map_ext_in. intros v I. rewrite Forall_forall in IH. apply IH; auto. intros u U. apply H. now apply in_list with v.
    - exfalso. exact (H _ (in_self _)).
    - exfalso. exact (H _ (in_self _)).
    - cbn. f_equal. rewrite <- (map_id d) at 2. apply map_ext_in. intros [k v] I. destruct (H _ (in_self _) k v I) as [s ->]. cbn. f_equal. rewrite Forall_forall in IH. apply (IH (KStr s, v) I). intros u U. apply H. now apply in_dict with (KStr s) v.
  Qed.
  (** The error code is 0 exactly for these values.  Otherwise the old file is lost and nothing can be read. *)
  Theorem C64_error (v : value) old : (snd (writejsonfile Calm v old) = 0%Z <-> storable v) /\
    (~ storable v -> snd (writejsonfile Calm v old) = 1%Z /\ readjson Calm (fst (writejsonfile Calm v old)) = VNone).
  Proof.
    rewrite storable_encode. unfold writejsonfile. destruct (encode v) as [j|]; cbn.
    - split; [split; [eauto|reflexivity]|]. intros H. exfalso. eauto.
    - split; [split; [discriminate|intros [j Q]; discriminate]|]. auto.
  Qed.
  (** Neither function raises; a file that is missing, incomplete or cannot be opened is read as None, and a file that cannot be opened is left alone with code 1. *)
  Theorem C64_read w (f : jfile F) (v : value) : (f = JMissing \/ f = JCut \/ w <> Calm -> readjson w f = VNone) /\ writejsonfile OpenFails v f = (f, 1%Z).
  Proof. split; [|reflexivity]. destruct w, f; intros [H|[H|H]]; try discriminate; try reflexivity; congruence. Qed.
  (** A function anywhere in the settings (the docstring promises None): the file of the settings is incomplete and nobody is told. *)
  Theorem C64_function_refuted (v : value) name old : inside (VFunction name) v -> print_optimization_dictionary Calm v old = JCut.
  Proof.
    intros I. unfold print_optimization_dictionary. destruct (C64_error v old) as [[H _] K]. unfold writejsonfile in *. destruct (encode v) as [j|] eqn:E; [|reflexivity]. exfalso. exact (H eq_refl _ I).
  Qed.
  (** Ctrl-C while the file is written is dropped, and the code is 0 although the file is incomplete. *)
  Theorem C64_interrupted_refuted (v : value) old : exists w, snd (writejsonfile w v old) = 0%Z /\ readjson Calm (fst (writejsonfile w v old)) = VNone.
  Proof. exists Interrupted. split; reflexivity. Qed.
End C64.
(** settings with a guess given as function *)
Definition settings_with (guess : value nat) : value nat :=
  VDict [(KStr "pulses", VList [VDict [(KStr "guess", guess); (KStr "limits", VTuple [VFloat 0; VFloat 1]); (KInt 7, VArray [VFloat 3])]]); (KStr "class", VClass "dCRAB")].
Example C64_case : readjson Calm (fst (writejsonfile Calm (settings_with (VInt 5)) JMissing)) =
  VDict [(KStr "pulses", VList [VDict [(KStr "guess", VInt 5); (KStr "limits", VList [VFloat 0; VFloat 1]); (KStr "7", VList [VFloat 3])]]); (KStr "class", VNone)]
  /\ inside (VFunction "guess") (settings_with (VFunction "guess")) /\ storable (settings_with (VInt 5)) /\ unambiguous (settings_with (VInt 5)).
Proof.
  split; [reflexivity|]. split.
  - eapply in_dict; [left; reflexivity|]. eapply in_list; [left; reflexivity|]. eapply in_dict; [left; reflexivity|]. apply in_self.
  - split; [apply storable_encode; eexists; reflexivity|]. intros d I.
    repeat match goal with
           | H : In _ (_ :: _) |- _ => destruct H as [H|H]; [first [injection H as <- <-|subst]|]
           | H : In _ [] |- _ => destruct H
           | H : inside _ _ |- _ => inversion H; clear H; subst
           end; cbn; repeat (constructor; [cbn; intuition discriminate|]); constructor.
Qed.
(** two keys with the same text: one entry is lost *)
Theorem C64_ambiguous_refuted : exists v : value nat, storable v /\ readjson Calm (fst (writejsonfile Calm v JMissing)) = VDict [(KStr "1", VInt 6)] /\ v = VDict [(KInt 1, VInt 5); (KStr "1", VInt 6)].
Proof. eexists. split; [|split; [|reflexivity]]; [apply storable_encode; eexists; reflexivity|reflexivity]. Qed.
Print Assumptions C64_round_trip.
Print Assumptions C64_native.
Print Assumptions C64_error.
Print Assumptions C64_read.
Print Assumptions C64_function_refuted.
Print Assumptions C64_interrupted_refuted.
Print Assumptions C64_ambiguous_refuted.
