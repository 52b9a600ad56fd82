(** A function for the examples of the direct search: it computes [f] and leaves a record of the call. *)
From Coq Require Import String ZArith List Bool Lia QArith Qcanon.
From RecordUpdate Require Import RecordSet.
From Verif Require Import Num NumFacts NumQ Py PyFacts ModelPulse ModelControls ModelLinalg ModelState ModelSearch ModelRun
  SpecRun SpecSearch ProofNM ExampleControls ExampleRun PropSuper.
Import ListNotations RecordSetNotations.
Open Scope nat_scope.
Open Scope list_scope.
Open Scope run_scope.

Section Toy.
  Context {N : Num}.
  Definition toy (f : vec -> num) : vec -> nat -> option num -> M num :=
    fun x it v => emit (EvEval x (mk_delivered [] [] []) (says (f x)));;; ret (f x).
  Definition toy_log (s : st) : list (vec * num) :=
    flat_map (fun e => match e with
                       | EvEval x _ a => match user_value a with Some v => [(x, v)] | None => [] end
                       | _ => []
                       end) (rev (s_trace s)).

  Lemma toy_ok f x it v s y s' : toy f x it v s = (Ok y, s') ->
    y = f x /\ s' = s <|s_trace ::= cons (EvEval x (mk_delivered [] [] []) (says (f x)))|>.
  Proof. unfold toy. intros H. apply bind_ok in H as ([] & s1 & E & H). injection E as <-. now injection H as <- <-. Qed.
  Lemma toy_observes f : observes (toy f) toy_log.
  Proof.
    constructor; try reflexivity.
    - intros x it v s y s' H. apply toy_ok in H as [-> ->]. unfold toy_log. cbn. now rewrite flat_map_app.
    - intros by_ s. unfold toy_log. cbn. rewrite flat_map_app. apply app_nil_r.
  Qed.
  Lemma toy_computes f : computes (toy f) f.
  Proof. intros x it s y s' H. now apply toy_ok in H. Qed.
  Lemma toy_leaves f : leaves_flag (toy f).
  Proof. intros x it v s r s' H. unfold toy, emit in H. rewrite ProofSim.bind_upd in H. now injection H as <- <-. Qed.
  Lemma toy_numbers f : (forall x, nisnan (f x) = false) -> answers_numbers (toy f).
  Proof. intros H x it v s y s' E. apply toy_ok in E as [-> _]. apply H. Qed.

  (** a search started in the state of a new optimiser *)
  Definition search (G : settings) (W : world) (f : vec -> num) (x0 : vec) (sim : option (list vec)) (P : st -> dsm_result -> st -> bool) : bool :=
    match new_state G W with
    | Ok s => match run_nm G W (toy f) false x0 sim (g_drift_min G) (g_drift_avg G) s with (Ok r, s') => P s r s' | _ => false end
    | Err _ => false
    end.
  Lemma search_exists G W f x0 sim P : search G W f x0 sim P = true ->
    exists s r s', new_state G W = Ok s /\ run_nm G W (toy f) false x0 sim (g_drift_min G) (g_drift_avg G) s = (Ok r, s') /\ P s r s' = true.
  Proof.
    unfold search. destruct (new_state G W) as [s|]; [|discriminate].
    destruct (run_nm _ _ _ _ _ _ _ _ s) as [[r|] s'] eqn:E; [|discriminate]. eauto 10.
  Qed.
End Toy.

(** rational vectors and values *)
Definition pairs_are (l : list (list Qc * Qc)) (m : list (list Qc * Qc)) : bool :=
  Qc_list_eqb (map (fun p => snd p :: fst p) l) (map (fun p => snd p :: fst p) m).
Lemma pairs_are_eq l m : pairs_are l m = true -> l = m.
Proof.
  intros H. apply Qc_list_eqb_eq in H. revert m H. induction l as [|[x y] l IH]; intros [|[x' y'] m] H; try discriminate; [reflexivity|].
  cbn in H. injection H as -> -> H. f_equal. now apply IH.
Qed.
(** the squared distance from 2 *)
Definition square (x : list Qc) : Qc := match x with a :: _ => ((a - qc 2 1) * (a - qc 2 1))%Qc | [] => 0%Qc end.

(** loop heads, computed *)
Section Heads.
  Context {N : Num} (G : settings) (W : world) (func : vec -> nat -> option num -> M num) (adaptive : bool)
    (x0 : vec) (sim : option (list vec)) (drift_min : num) (drift_avg : Z).
  Definition ok {A} (o : res A * st) : option (A * st) := match o with (Ok a, s) => Some (a, s) | _ => None end.
  Definition first_head (s0 : st) : option (nm * st) :=
    match ok ((poll G W;;; set_conv false;;; now W;;; now W) s0) with
    | Some (t, s1) =>
        let start := match sim with Some sim => sim | None => default_simplex x0 end in
        match ok (eval_rows func start 0 0 s1) with
        | Some ((fsim, calls), s2) => ok (sort_simplex W (mk_nm start fsim calls 1 t) s2)
        | None => None
        end
    | None => None
    end.
  Definition next_head (h : nm * st) : option (nm * st) :=
    match is_conv G W (snd h), nm_parameters adaptive (length x0) with
    | (Ok false, s1), Ok (rho, chi, psi, sigma) =>
        match nm_iter G W func rho chi psi sigma (length x0) drift_min drift_avg (fst h) s1 with
        | (Ok (Goes L), s2) => Some (L, s2)
        | _ => None
        end
    | _, _ => None
    end.
  Fixpoint heads (n : nat) (s0 : st) : option (nm * st) :=
    match n with
    | O => first_head s0
    | S n => match heads n s0 with Some h => next_head h | None => None end
    end.
  Lemma heads_boundary n s0 L s : heads n s0 = Some (L, s) -> boundary G W func adaptive x0 sim drift_min drift_avg s0 L s.
  Proof.
    revert L s. induction n as [|n IH]; intros L s; cbn [heads].
    - unfold first_head. destruct ((poll G W;;; set_conv false;;; now W;;; now W) s0) as [[t|] s1] eqn:E0; [|discriminate]. cbn [ok]. cbv zeta.
      set (start := match sim with Some sim => sim | None => default_simplex x0 end).
      destruct (eval_rows func start 0 0 s1) as [[[fsim calls]|] s2] eqn:E1; [|discriminate]. cbn [ok].
      destruct (sort_simplex W (mk_nm start fsim calls 1 t) s2) as [[L'|] s3] eqn:E2; [|discriminate]. intros [= -> ->].
      exact (at_start G W func adaptive x0 sim drift_min drift_avg s0 t s1 fsim calls s2 L s E0 E1 E2).
    - destruct (heads n s0) as [[L0 s']|]; [|discriminate]. specialize (IH L0 s' eq_refl). unfold next_head. cbn [fst snd].
      destruct (is_conv G W s') as [[[|]|] s1] eqn:E1; try discriminate.
      destruct (nm_parameters adaptive (length x0)) as [[[[rho chi] psi] sigma]|] eqn:E2; [|discriminate].
      destruct (nm_iter _ _ _ _ _ _ _ _ _ _ L0 s1) as [[[L2|L2]|] s2] eqn:E3; try discriminate. intros [= -> ->].
      exact (at_next G W func adaptive x0 sim drift_min drift_avg s0 L0 s' s1 rho chi psi sigma L s IH E1 E2 E3).
  Qed.
End Heads.

(** loop head number [n] of a search started in the state of a new optimiser *)
Definition head_of {N : Num} (G : settings) (W : world) (f : vec -> num) (x0 : vec) (sim : option (list vec)) (n : nat) (P : nm -> bool) : bool :=
  match new_state G W with
  | Ok s0 => match heads G W (toy f) false x0 sim (g_drift_min G) (g_drift_avg G) n s0 with Some (L, s) => P L | None => false end
  | Err _ => false
  end.
Lemma head_of_exists {N : Num} G W f x0 sim n P : head_of G W f x0 sim n P = true ->
  exists s0 L s, new_state G W = Ok s0 /\ boundary G W (toy f) false x0 sim (g_drift_min G) (g_drift_avg G) s0 L s /\ P L = true.
Proof.
  unfold head_of. destruct (new_state G W) as [s0|]; [|discriminate].
  destruct (heads _ _ _ _ _ _ _ _ n s0) as [[L s]|] eqn:E; [|discriminate]. intros H. exists s0, L, s. split; [reflexivity|].
  split; [now apply heads_boundary with (n := n)|assumption].
Qed.
(** vertices and values of the simplex *)
Definition simplex_is (l : list (list Qc * Qc)) (L : nm (N := Qcnum)) : bool := pairs_are (combine (n_sim L) (n_fsim L)) l.
