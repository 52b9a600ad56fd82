(** * C49: dynamic import. *)
From Coq Require Import String List Bool.
From Verif Require Import Num Py ModelDump ProofDump ModelImport SpecImport ProofImport.
Import ListNotations.
Open Scope string_scope.
Open Scope list_scope.

Section Props.
  Context {A : Type}.
  Variable g : string -> string -> outcome (option A).

  (** a class given directly wins over everything, whatever the map *)
  Theorem C49_attribute T a m c n t : dynamic_import g T (Some a) m c n t = Some (Some a).
  Proof. reflexivity. Qed.
  (** otherwise the class chosen by name, or by module and class, is imported; None if that fails *)
  Theorem C49_chosen t n m0 c0 m c : chosen t n m0 c0 m c ->
    dynamic_import g (Some shipped) None m0 c0 n (Some t) = match g m c with Found a => Some a | Fails => Some None | Escapes => None end.
  Proof.
    intros [n' m0' c0' m' c' K|n' m' c' N|m' c']; unfold dynamic_import.
    - rewrite by_name_shipped, (known_entry _ _ _ _ K). reflexivity.
    - rewrite by_name_shipped. destruct (entry_of t n') as [e|] eqn:E; [|reflexivity]. destruct (entry_known _ _ _ E) as [m1 [c1 [_ K]]]. now apply N in K.
    - reflexivity.
  Qed.
  (** nothing chosen: None *)
  Theorem C49_nothing t n m0 c0 : (forall m c, ~ chosen t n m0 c0 m c) -> dynamic_import g (Some shipped) None m0 c0 n (Some t) = Some None.
  Proof.
    intros N. unfold dynamic_import. destruct n as [n|].
    - rewrite by_name_shipped. destruct (entry_of t n) as [e|] eqn:E.
      + destruct (entry_known _ _ _ E) as [m [c [_ K]]]. destruct (N m c). now constructor.
      + destruct m0 as [m|], c0 as [c|]; try reflexivity. destruct (N m c). apply chosen_unknown. intros m' c' K. apply known_entry in K. congruence.
    - destruct m0 as [m|], c0 as [c|]; try reflexivity. destruct (N m c). constructor.
  Qed.
  (** what is chosen is unique *)
  Theorem C49_unique t n m0 c0 m c m' c' : chosen t n m0 c0 m c -> chosen t n m0 c0 m' c' -> m = m' /\ c = c'.
  Proof.
    intros [n1 m1 c1 m2 c2 K|n1 m1 c1 N|m1 c1] H; inversion H; subst; auto.
    - apply known_entry in K. match goal with K' : known _ _ _ _ |- _ => apply known_entry in K' end. assert (E : entry m2 c2 = entry m' c') by congruence. injection E as -> ->. auto.
    - exfalso. match goal with F : forall _ _, ~ _ |- _ => exact (F _ _ K) end.
    - exfalso. match goal with K' : known _ _ _ _ |- _ => exact (N _ _ K') end.
  Qed.
  (** with any map and any arguments: no exception but those that are not derived from Exception, raised by the module imported *)
  Theorem C49_escapes T a m c n t : dynamic_import g T a m c n t = None -> exists m' c', g m' c' = Escapes.
  Proof.
    assert (H : forall m c, import_class g m c = Escapes -> exists m' c', g m' c' = Escapes) by (intros [m1|] [c1|]; cbn; try discriminate; eauto).
    unfold dynamic_import. destruct a; [discriminate|]. destruct n as [n|].
    - unfold caught. destruct (by_name g T m c n t) eqn:B; try discriminate. intros _. unfold by_name in B. destruct t as [t|]; [|discriminate]. destruct (map_dict T t) as [d|]; [|discriminate].
      destruct (get d n) as [e|]; [|eauto]. destruct (get e "module_name"), (get e "class_name"); try discriminate. eauto.
    - destruct m as [m|], c as [c|]; try discriminate. unfold caught. destruct (import_class g (Some m) (Some c)) eqn:E; try discriminate. eauto.
  Qed.

  (** the callers: the object is created by the chosen class; if there is none the constructor call raises TypeError *)
  Context {B : Type}.
  Variable construct : A -> res B.
  Theorem C49_created t n m0 c0 m c k : chosen t n m0 c0 m c -> g m c = Found (Some k) -> create g (Some shipped) construct t None m0 c0 n = Some (construct k).
  Proof. intros C E. unfold create. rewrite (C49_chosen _ _ _ _ _ _ C), E. reflexivity. Qed.
  Theorem C49_given t n m0 c0 k : create g (Some shipped) construct t (Some k) m0 c0 n = Some (construct k).
  Proof. reflexivity. Qed.
  Theorem C49_type_error t n m0 c0 : (forall m c, chosen t n m0 c0 m c -> g m c = Fails \/ g m c = Found None) ->
    create g (Some shipped) construct t None m0 c0 n = Some (Err TypeError).
  Proof.
    intros N. unfold create.
    assert (D : (exists m c, chosen t n m0 c0 m c) \/ forall m c, ~ chosen t n m0 c0 m c).
    { destruct n as [n|].
      - destruct (entry_of t n) as [e|] eqn:E.
        + left. destruct (entry_known _ _ _ E) as [m [c [_ K]]]. exists m, c. now constructor.
        + assert (U : forall m c, ~ known t n m c) by (intros m c K; apply known_entry in K; congruence).
          destruct m0 as [m|], c0 as [c|]; [left; exists m, c; now apply chosen_unknown|..]; right; intros m' c' H; inversion H; subst; eapply U; eauto.
      - destruct m0 as [m|], c0 as [c|]; [left; exists m, c; constructor|..]; right; intros m' c' H; inversion H. }
    destruct D as [[m [c C]]|D].
    - rewrite (C49_chosen _ _ _ _ _ _ C). destruct (N m c C) as [-> | ->]; reflexivity.
    - rewrite (C49_nothing _ _ _ _ D). reflexivity.
  Qed.
  (** the search methods: chosen in the same way, except that the direct search obeys the deprecated key dsm_name first *)
  Theorem C49_search_method nm n m0 c0 m c k : chosen "dsm_settings" n m0 c0 m c -> g m c = Found (Some k) ->
    create_search_method g (Some shipped) construct m0 c0 n = Some (construct k) /\ create_search_method_direct g (Some shipped) construct nm None m0 c0 n = Some (construct k).
  Proof. intros C E. unfold create_search_method_direct, create_search_method. rewrite (C49_chosen _ _ _ _ _ _ C), E. auto. Qed.
  (** whose value is ignored: asking for CMAES by this key gives Nelder-Mead *)
  Theorem C49_dsm_name_refuted nm n m0 c0 : create_search_method_direct g (Some shipped) construct nm (Some "CMAES") m0 c0 n = Some (construct nm).
  Proof. reflexivity. Qed.
End Props.
Print Assumptions C49_chosen.
Print Assumptions C49_nothing.
Print Assumptions C49_unique.
Print Assumptions C49_escapes.
Print Assumptions C49_created.
Print Assumptions C49_type_error.

(** A name without class type gives None even if the name is known everywhere and module and class are given and exist *)
Theorem C49_type_missing_refuted {A} (g : string -> string -> outcome (option A)) T m c n : dynamic_import g T None m c (Some n) None = Some None.
Proof. reflexivity. Qed.
(** and a known name silently overrides module and class given explicitly *)
Theorem C49_overridden_refuted : exists (g : string -> string -> outcome (option string)) m c, g m c = Found (Some "mine")
  /\ dynamic_import g (Some shipped) None (Some m) (Some c) (Some "Fourier") (Some "basis") = Some (Some "shipped").
Proof. exists (fun m _ => Found (Some (if String.eqb m "mine" then "mine" else "shipped"))), "mine", "Mine". split; reflexivity. Qed.
Print Assumptions C49_type_missing_refuted.
Print Assumptions C49_overridden_refuted.

Example C49_case : chosen "algorithm" (Some "dCRAB") None None "quocslib.optimizationalgorithms.dCRABAlgorithm" "dCRABAlgorithm"
  /\ chosen "basis" (Some "Mine") (Some "my.module") (Some "Mine") "my.module" "Mine"
  /\ dynamic_import (fun m c => Found (Some (m, c))) (Some shipped) None None None (Some "CMAES") (Some "dsm_settings") = Some (Some ("quocslib.gradientfreemethods.CMAES", "CMAES")).
Proof.
  split; [|split; [|reflexivity]].
  - apply chosen_name, (known_algorithm "dCRAB"). cbn. tauto.
  - apply chosen_unknown. intros m c K. apply known_entry in K. discriminate.
Qed.
