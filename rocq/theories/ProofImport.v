(** * Dynamic import: lemmas. *)
From Coq Require Import String List Bool.
From Verif Require Import Num Py ModelDump ProofDump ModelImport SpecImport.
Import ListNotations.
Open Scope string_scope.
Open Scope list_scope.

(** lookup in the shipped map *)
Definition entry_of (t n : string) : option (dict string) := match map_dict (Some shipped) t with Some d => get d n | None => None end.
Lemma shipped_total t : exists d, map_dict (Some shipped) t = Some d.
Proof.
  unfold map_dict, map_key. destruct (String.eqb t "algorithm"); [eexists; reflexivity|]. destruct (String.eqb t "dsm_settings"); [eexists; reflexivity|].
  destruct (String.eqb t "basis"); [eexists; reflexivity|]. destruct (String.eqb t "superparameter_distribution"); [eexists; reflexivity|]. eexists; reflexivity.
Qed.
Lemma known_entry t n m c : known t n m c -> entry_of t n = Some (entry m c).
Proof. intros [k I|k I|k I|]; [..|reflexivity]; cbn in I; repeat destruct I as [<-|I]; try reflexivity; destruct I. Qed.
Lemma entry_known t n e : entry_of t n = Some e -> exists m c, e = entry m c /\ known t n m c.
Proof.
  unfold entry_of, map_dict, map_key.
  destruct (String.eqb_spec t "algorithm") as [->|_].
  { intros E. cbn in E. repeat match type of E with (if ?b then _ else _) = _ => destruct b eqn:B; [apply String.eqb_eq in B; subst n; injection E as <-; do 2 eexists; split; [reflexivity|]; apply known_algorithm; cbn; tauto|clear B] end. discriminate. }
  destruct (String.eqb_spec t "dsm_settings") as [->|_].
  { intros E. cbn in E. repeat match type of E with (if ?b then _ else _) = _ => destruct b eqn:B; [apply String.eqb_eq in B; subst n; injection E as <-; do 2 eexists; split; [reflexivity|]; apply known_search; cbn; tauto|clear B] end. discriminate. }
  destruct (String.eqb_spec t "basis") as [->|_].
  { intros E. cbn in E. repeat match type of E with (if ?b then _ else _) = _ => destruct b eqn:B; [apply String.eqb_eq in B; subst n; injection E as <-; do 2 eexists; split; [reflexivity|]; apply known_basis; cbn; tauto|clear B] end. discriminate. }
  destruct (String.eqb_spec t "superparameter_distribution") as [->|_]; [|discriminate].
  intros E. cbn in E. destruct (String.eqb n "Uniform") eqn:B; [|discriminate]. apply String.eqb_eq in B. subst n. injection E as <-. do 2 eexists. split; [reflexivity|]. apply known_distribution.
Qed.
Lemma by_name_shipped {A} (g : string -> string -> outcome (option A)) m0 c0 n t :
  by_name g (Some shipped) m0 c0 n (Some t) = match entry_of t n with
    | None => import_class g m0 c0
    | Some e => match get e "module_name", get e "class_name" with Some m, Some c => g m c | _, _ => Fails end end.
Proof. unfold by_name, entry_of. destruct (shipped_total t) as [d ->]. reflexivity. Qed.
