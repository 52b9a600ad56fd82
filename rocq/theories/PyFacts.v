(** Lemmas about the Python helpers. *)
From Coq Require Import String ZArith List Bool Lia.
From Verif Require Import Num Py.
Import ListNotations.
Open Scope list_scope.

Lemma rbind_ok {A B} (m : res A) (k : A -> res B) b :
  rbind m k = Ok b -> exists a, m = Ok a /\ k a = Ok b.
Proof. destruct m; cbn; [eauto|discriminate]. Qed.

(** invert [rbind ... = Ok _] hypotheses *)
Ltac rinv :=
  repeat match goal with
  | H : rbind ?m _ = Ok _ |- _ => apply rbind_ok in H; destruct H as (? & ? & H)
  | H : (let '(_, _) := ?x in _) = Ok _ |- _ => destruct x
  | H : (match ?x with (_, _) => _ end) = Ok _ |- _ => destruct x
  | H : Ok _ = Ok _ |- _ => inversion H; clear H; subst
  | H : Err _ = Ok _ |- _ => discriminate H
  | H : Ok _ = Err _ |- _ => discriminate H
  end.

Lemma rmap_Forall2 {A B} (f : A -> res B) l l' :
  rmap f l = Ok l' <-> Forall2 (fun a b => f a = Ok b) l l'.
Proof.
  split.
  - revert l'. induction l as [|a l IH]; intros l' H; cbn in H.
    + inversion H; constructor.
    + rinv. constructor; auto.
  - induction 1; cbn; [reflexivity|]. now rewrite H, IHForall2.
Qed.

Lemma Forall2_length {A B} (R : A -> B -> Prop) l l' : Forall2 R l l' -> length l = length l'.
Proof. induction 1; cbn; auto. Qed.

Lemma rmap_length {A B} (f : A -> res B) l l' : rmap f l = Ok l' -> length l' = length l.
Proof. intros H%rmap_Forall2. symmetry; eapply Forall2_length; eauto. Qed.

Lemma Forall2_nth_l {A B} (R : A -> B -> Prop) l l' i a :
  Forall2 R l l' -> nth_error l i = Some a -> exists b, nth_error l' i = Some b /\ R a b.
Proof.
  intros H; revert i; induction H; intros [|i]; cbn; try discriminate; intros E.
  - injection E as <-. eauto.
  - auto.
Qed.
Lemma Forall2_nth_r {A B} (R : A -> B -> Prop) l l' i b :
  Forall2 R l l' -> nth_error l' i = Some b -> exists a, nth_error l i = Some a /\ R a b.
Proof.
  intros H; revert i; induction H; intros [|i]; cbn; try discriminate; intros E.
  - injection E as <-. eauto.
  - auto.
Qed.

Lemma rmap_nth {A B} (f : A -> res B) l l' i a :
  rmap f l = Ok l' -> nth_error l i = Some a -> exists b, f a = Ok b /\ nth_error l' i = Some b.
Proof. intros H%rmap_Forall2 E. destruct (Forall2_nth_l _ _ _ _ _ H E) as (b & ? & ?); eauto. Qed.
Lemma rmap_nth_r {A B} (f : A -> res B) l l' i b :
  rmap f l = Ok l' -> nth_error l' i = Some b -> exists a, f a = Ok b /\ nth_error l i = Some a.
Proof. intros H%rmap_Forall2 E. destruct (Forall2_nth_r _ _ _ _ _ H E) as (a & ? & ?); eauto. Qed.

Lemma rmap_app {A B} (f : A -> res B) l1 l2 :
  rmap f (l1 ++ l2) = (a <-! rmap f l1; b <-! rmap f l2; Ok (a ++ b)).
Proof.
  induction l1 as [|x l1 IH]; cbn.
  - now destruct (rmap f l2).
  - destruct (f x); cbn; [|reflexivity]. rewrite IH. destruct (rmap f l1); cbn; [|reflexivity].
    now destruct (rmap f l2).
Qed.

Lemma rmap_ext {A B} (f g : A -> res B) l : (forall a, In a l -> f a = g a) -> rmap f l = rmap g l.
Proof.
  induction l as [|a l IH]; intros H; cbn; [reflexivity|].
  rewrite (H a) by (now left). rewrite IH; [reflexivity|]. intros; apply H; now right.
Qed.

Lemma rmap_ok_pure {A B} (f : A -> B) l : rmap (fun a => Ok (f a)) l = Ok (map f l).
Proof. induction l as [|a l IH]; cbn; [reflexivity|]. now rewrite IH. Qed.

Lemma set_nth_length {A} (l : list A) i v : length (set_nth l i v) = length l.
Proof. revert i; induction l; intros [|i]; cbn; auto. Qed.
Lemma set_nth_same {A} (l : list A) i v : i < length l -> nth_error (set_nth l i v) i = Some v.
Proof. revert i; induction l; intros [|i]; cbn; intros; try lia; auto. apply IHl; lia. Qed.
Lemma set_nth_other {A} (l : list A) i j v : i <> j -> nth_error (set_nth l i v) j = nth_error l j.
Proof. revert i j; induction l; intros [|i] [|j]; cbn; intros; try congruence; auto. Qed.

Lemma py_nth_nonneg {A} (l : list A) (i : nat) :
  py_nth l (Z.of_nat i) = match nth_error l i with Some a => Ok a | None => Err IndexError end.
Proof.
  unfold py_nth.
  destruct (Z.ltb_spec (Z.of_nat i) 0); [lia|].
  destruct (Z.leb_spec (Z.of_nat (length l)) (Z.of_nat i)); rewrite ?orb_true_r, ?orb_false_r.
  - cbn. destruct (Z.ltb_spec (Z.of_nat i) 0); [lia|]. cbn.
    destruct (nth_error l i) eqn:E; [|reflexivity]. assert (i < length l) by (apply nth_error_Some; congruence). lia.
  - destruct (Z.ltb_spec (Z.of_nat i) 0); [lia|]. now rewrite Nat2Z.id.
Qed.

Lemma py_set_nonneg {A} (l : list A) (i : nat) v :
  i < length l -> py_set l (Z.of_nat i) v = Ok (set_nth l i v).
Proof.
  intros H. unfold py_set.
  destruct (Z.ltb_spec (Z.of_nat i) 0); [lia|].
  destruct (Z.leb_spec (Z.of_nat (length l)) (Z.of_nat i)); [lia|].
  destruct (Z.ltb_spec (Z.of_nat i) 0); [lia|]. cbn. now rewrite Nat2Z.id.
Qed.

Lemma map2_length {A B C} (f : A -> B -> C) l m : length (map2 f l m) = Nat.min (length l) (length m).
Proof. revert m; induction l; intros [|b m]; cbn; auto. Qed.
Lemma map2_nth {A B C} (f : A -> B -> C) l m i :
  nth_error (map2 f l m) i =
  match nth_error l i, nth_error m i with Some a, Some b => Some (f a b) | _, _ => None end.
Proof.
  revert m i; induction l as [|a l IH]; intros [|b m] [|i]; cbn; auto.
  - now destruct (nth_error l i).
Qed.

Section ArrFacts.
  Context {N : Num}.
  Lemma abin_same f (l m : list num) : length l = length m -> abin f (Ar l) (Ar m) = Ok (Ar (map2 f l m)).
  Proof. intros H; cbn. now rewrite H, Nat.eqb_refl. Qed.
  Lemma zeros_length n : length (zeros n) = n.
  Proof. apply repeat_length. Qed.
  Lemma linspace0_length T n : length (linspace0 T n) = n.
  Proof.
    destruct n as [|[|n]]; [reflexivity|reflexivity|].
    unfold linspace0. rewrite set_nth_length. destruct (neqb _ _); now rewrite !map_length, seq_length.
  Qed.
End ArrFacts.

(** dictionaries *)
Lemma dget_dset_same {V} (d : dict V) k v : dget (dset d k v) k = Some v.
Proof.
  induction d as [|[k' v'] d IH]; cbn.
  - now rewrite String.eqb_refl.
  - destruct (String.eqb_spec k k').
    + cbn. subst. now rewrite String.eqb_refl.
    + cbn. destruct (String.eqb_spec k k'); congruence.
Qed.
Lemma dget_dset_other {V} (d : dict V) k k' v : k <> k' -> dget (dset d k v) k' = dget d k'.
Proof.
  intros H. induction d as [|[k2 v2] d IH]; cbn.
  - destruct (String.eqb_spec k' k); congruence.
  - destruct (String.eqb_spec k k2); cbn.
    + destruct (String.eqb_spec k' k2); congruence.
    + now rewrite IH.
Qed.

Lemma nth_error_seq_lt s n j : j < n -> nth_error (seq s n) j = Some (s + j).
Proof.
  revert s j; induction n; intros s [|j] H; cbn; try lia.
  - f_equal; lia.
  - rewrite IHn by lia. f_equal; lia.
Qed.
