(** Lemmas for C87 about whole runs: where the figure of merit is evaluated. *)
From Coq Require Import String ZArith List Bool Reals Lia Lra.
From RecordUpdate Require Import RecordSet.
From Verif Require Import Num NumFacts Py PyFacts ModelPulse ModelControls ModelLinalg ModelState ModelSearch ModelRun
  SpecRun SpecSearch ProofSim ProofRoutine ProofCore ProofAnswers ProofNM ProofWalk.
Import ListNotations RecordSetNotations.
Open Scope list_scope.
Open Scope run_scope.

(** ** Sizes *)
Lemma set_list_len {A} idx : forall (l vs l' : list A), scatter_list l idx vs = Ok l' -> length l' = length l.
Proof.
  induction idx as [|i idx IH]; intros l vs l' H; [now injection H as <-|]. destruct vs as [|v vs]; [now injection H as <-|]. cbn [scatter_list] in H.
  apply rbind_ok in H as (l1 & E & H). apply IH in H. rewrite H. unfold py_set in E. cbv zeta in E. match type of E with (if ?b then _ else _) = _ => destruct b end; [discriminate|]. injection E as <-. apply set_nth_length.
Qed.
Lemma scatter_len {A} (l : list A) idx vs l' : scatter l idx vs = Ok l' -> length l' = length l.
Proof. unfold scatter. destruct (Nat.eqb _ _); [apply set_list_len|]. destruct vs as [|v [|]]; try discriminate. apply set_list_len. Qed.
Lemma scatter_all_len {N : Num} b : forall (l l' : list num), scatter_all b l = Ok l' -> length l' = length l.
Proof.
  induction b as [|[i x] b IH]; intros l l' H; [now injection H as <-|]. cbn [scatter_all] in H. apply rbind_ok in H as (l1 & E & H). apply IH in H. apply scatter_len in E. congruence.
Qed.
Lemma widths_len {N : Num} c m sg : get_mean_value c = Ok m -> get_sigma_variation c = Ok sg -> length sg = length m.
Proof. intros A B. apply scatter_all_len in A. apply scatter_all_len in B. now rewrite A, B. Qed.

(** ** Evaluations *)
Section At.
  Context {N : Num} (G : settings) (W : world) (P : vec -> Prop).
  (** the step evaluates the figure of merit at points of [P] only *)
  Definition only_at (s s' : st) : Prop := forall x d a, In (EvEval x d a) (s_trace s') -> In (EvEval x d a) (s_trace s) \/ P x.
  Lemma only_refl s : only_at s s. Proof. intros x d a H. now left. Qed.
  Lemma only_trans s1 s2 s3 : only_at s1 s2 -> only_at s2 s3 -> only_at s1 s3.
  Proof. intros A B x d a H. destruct (B x d a H) as [K|K]; [exact (A x d a K)|now right]. Qed.
  Lemma only_evals s s' : evals s' = evals s -> only_at s s'.
  Proof.
    intros E x d a H. left. assert (K : In (EvEval x d a) (evals s')) by (apply filter_In; now split). rewrite E in K. now apply filter_In in K.
  Qed.
  Lemma only_conv b s : only_at s (s <|s_sc ::= set sc_conv (fun _ => b)|>). Proof. now apply only_evals. Qed.
  Lemma only_reason r s : In r search_reasons -> only_at s (s <|s_sc ::= set sc_reason (fun _ => r)|>). Proof. intros _. now apply only_evals. Qed.
  Lemma only_other s s' : s_sc s' = s_sc s -> evals s' = evals s -> b_term (s_book s') = b_term (s_book s) -> only_at s s'.
  Proof. intros _ E _. now apply only_evals. Qed.

  Lemma quiet_in l x d a : Forall quiet_event l -> ~ In (EvEval x d a) l.
  Proof. intros F I. rewrite Forall_forall in F. exact (F _ I). Qed.
  Lemma only_routine x it : P x -> walk only_at (routine_call G W x it).
  Proof.
    intros HP s r s' H z d a I. apply adds_routine in H. inversion H as [? ? evs T F|d1 ? evs ? ? F ? T|d1 v evs evs1 ? ? ? F ? F1 T]; subst; rewrite T in I.
    - apply in_app_or in I as [I|I]; [|now left]. now apply (quiet_in _ _ _ _ (check_quiet _ F)) in I.
    - apply in_app_or in I as [I|I]; [now apply (quiet_in _ _ _ _ F1) in I|]. apply in_app_or in I as [I|I].
      + destruct (success _); cbn in I; [contradiction|]. destruct I as [I|I]; [discriminate|contradiction].
      + destruct I as [I|I]; [injection I as <- <- <-; now right|]. apply in_app_or in I as [I|I]; [now apply (quiet_in _ _ _ _ (check_quiet _ F)) in I|now left].
  Qed.
  Ltac wk := repeat first
    [ solve [auto] | apply (walk_ret only_at only_refl) | apply (walk_lift only_at only_refl) | apply walk_raise | apply (walk_get only_at only_refl)
    | (apply (walk_upd only_at only_other); intros ?; now repeat split) | apply (walk_bind only_at only_trans)
    | match goal with
      | |- forall _, _ => intro
      | |- walk _ (if ?c then _ else _) => destruct c
      | |- walk _ (match ?c with _ => _ end) => destruct c
      | |- walk _ (let _ := _ in _) => cbv zeta
      end ].
  Lemma only_update b v o1 o2 i o3 : walk only_at (update_controls b v o1 o2 i o3).
  Proof. apply walk_update; auto using only_refl, only_other. exact only_trans. Qed.
  Lemma only_average o : walk only_at (get_average o).
  Proof. apply walk_average; auto using only_refl, only_other. exact only_trans. Qed.
  Lemma only_store i v : walk only_at (store_test i v).
  Proof. apply walk_store; auto using only_refl, only_other. exact only_trans. Qed.
  Lemma only_re x it ps ii : P x -> walk only_at (re_evaluate G W x it ps ii).
  Proof.
    intros HP. pose proof (fun i => only_routine x i HP) as HR. pose proof only_average. pose proof only_store.
    revert ii. induction ps; intros ii; cbn [re_evaluate]; unfold test_average; wk.
  Qed.
  Lemma only_inner x it v : P x -> walk only_at (inner_routine_call G W x it v).
  Proof.
    intros HP. pose proof (fun i => only_routine x i HP) as HR. pose proof (fun i ps ii => only_re x i ps ii HP) as HE.
    pose proof only_update. pose proof only_average. pose proof only_store. unfold inner_routine_call, test_average. wk.
  Qed.
  Lemma only_dsm func x0 sg sim dmin davg : (forall x it v, walk only_at (func x it v)) -> walk only_at (run_dsm G W func x0 sg sim dmin davg).
  Proof.
    intros H. apply walk_dsm; auto using only_refl, only_conv, only_reason, only_other. exact only_trans.
  Qed.
End At.
