(** Concrete configurations used by the examples and the counterexamples of the control properties. *)
From Coq Require Import String ZArith List Bool.
From Flocq Require Import BinarySingleNaN.
From Verif Require Import Num Py ModelPulse ModelControls ModelBases SpecControls.
Import ListNotations.
Open Scope list_scope.

Section Ex.
  Context {N : Num}.

  (** elementary functions: arbitrary, the examples do not depend on them *)
  Definition ex_funs : funs N :=
    mk_funs N (fun x => x) (fun x => x) (fun x => x) (fun x => x) (of_Z 3).
  Definition ex_basis (k : nat) : basis_settings :=
    {| bs_k := k; bs_w_lower := of_Z 0; bs_w_upper := of_Z 2; bs_ampl := of_Z 1; bs_basis_max := of_Z 1;
       bs_offset := of_Z 0; bs_sigma := of_Z 1; bs_tau_var := of_Z 1; bs_sigma_var := of_Z 1 |}.

  (** a pulse with limits -1 and 1, duration "t" *)
  Definition ex_common (bins : nat) (guess : guess_fn) (scaling : scaling_fn) (shrink : bool)
    (options : option (list string)) (overwrite : bool) : common_settings :=
    {| cs_name := "p"; cs_bins := bins; cs_time_name := "t"; cs_lower := of_Z (-1); cs_upper := of_Z 1;
       cs_guess := guess; cs_scaling := scaling; cs_shrink := shrink; cs_options := options;
       cs_overwrite := overwrite |}.
  Definition ex_pulse (b : basis_kind) (bins : nat) (guess : guess_fn) (scaling : scaling_fn) (shrink : bool)
    (options : option (list string)) (overwrite : bool) : pulse_cfg :=
    shipped ex_funs b (ex_basis 1) (ex_common bins guess scaling shrink options overwrite).
  Definition ex_plain (bins : nat) : pulse_cfg := ex_pulse Piecewise bins GOther SOther false None false.

  Definition ex_time (value lower upper : Z) (opt : bool) : time_cfg :=
    {| tf_map_index := -1; tf_name := "t"; tf_value := of_Z value; tf_opt := opt; tf_lower := of_Z lower;
       tf_upper := of_Z upper; tf_ampl := of_Z 1 |}.
  Definition ex_param (lower upper : Z) : param_cfg :=
    {| rf_name := "q"; rf_value := of_Z 1; rf_lower := of_Z lower; rf_upper := of_Z upper; rf_ampl := of_Z 1 |}.
End Ex.

(** Running concrete cases: a case is evaluated to a boolean, from which the existence statements follow. *)
Section Run.
  Context {N : Num}.
  (** operations of a history *)
  Inductive op := OGet (x : list num) | OUpdate (x : list num) | OSelect (rs : nat -> num) (pos : nat).
  Fixpoint play (ops : list op) (c : controls) : res controls :=
    match ops with
    | [] => Ok c
    | OGet x :: ops => '(c, _) <-! get_controls_lists x c; play ops c
    | OUpdate x :: ops => c <-! update_base_controls x c; play ops c
    | OSelect rs pos :: ops => '(c, _) <-! select_basis rs pos c; play ops c
    end.

  Lemma play_reachable ops c0 c c' : reachable c0 c -> play ops c = Ok c' -> reachable c0 c'.
  Proof.
    revert c. induction ops as [|[x|x|rs pos] ops IH]; intros c R H; cbn in H.
    - injection H as <-. exact R.
    - destruct (get_controls_lists x c) as [[c1 d]|] eqn:E; [|discriminate]. cbn in H.
      exact (IH _ (reach_get _ _ _ _ _ R E) H).
    - destruct (update_base_controls x c) as [c1|] eqn:E; [|discriminate]. cbn in H.
      exact (IH _ (reach_update _ _ _ _ R E) H).
    - destruct (select_basis rs pos c) as [[c1 d]|] eqn:E; [|discriminate]. cbn in H.
      exact (IH _ (reach_select _ _ _ _ _ _ R E) H).
  Qed.

  (** build, play a history, deliver at [x], test *)
  Definition case_ok (pl : list pulse_cfg) (tl : list time_cfg) (rl : list param_cfg) (ops : list op) (x : list num)
    (P : controls -> controls -> delivered -> bool) : bool :=
    match new_controls pl tl rl with
    | Ok c0 => match play ops c0 with
               | Ok c => match get_controls_lists x c with Ok (c', d) => P c c' d | Err _ => false end
               | Err _ => false
               end
    | Err _ => false
    end.
  Lemma case_ok_exists pl tl rl ops x P : case_ok pl tl rl ops x P = true ->
    exists c0 c c' d, new_controls pl tl rl = Ok c0 /\ reachable c0 c /\ play ops c0 = Ok c /\
      get_controls_lists x c = Ok (c', d) /\ P c c' d = true.
  Proof.
    unfold case_ok. destruct (new_controls pl tl rl) as [c0|]; [|discriminate].
    destruct (play ops c0) as [c|] eqn:E; [|discriminate].
    destruct (get_controls_lists x c) as [[c' d]|] eqn:G; [|discriminate]. intros H.
    exists c0, c, c', d. repeat split; auto. exact (play_reachable ops c0 c0 c (reach_refl c0) E).
  Qed.
End Run.

(** bitwise equality of doubles (one NaN) *)
Definition f64_same (x y : f64) : bool :=
  match x, y with
  | B754_zero s, B754_zero t => Bool.eqb s t
  | B754_infinity s, B754_infinity t => Bool.eqb s t
  | B754_nan, B754_nan => true
  | B754_finite s m e _, B754_finite t n f _ => Bool.eqb s t && Pos.eqb m n && Z.eqb e f
  | _, _ => false
  end.
Fixpoint same_list (l m : list f64) : bool :=
  match l, m with [], [] => true | x :: l, y :: m => f64_same x y && same_list l m | _, _ => false end.
(** sample lists of the delivered pulses *)
Definition pulses_are (d : delivered (N := F64)) (ls : list (list f64)) : bool :=
  (fix go (ds : list (arr (N := F64))) ls := match ds, ls with
   | [], [] => true | a :: ds, l :: ls => same_list (samples a) l && go ds ls | _, _ => false end) (d_pulses d) ls.

Lemma f64_same_eq x y : f64_same x y = true -> x = y.
Proof.
  destruct x as [s|s| |s m e Hx], y as [t|t| |t n f Hy]; cbn; try discriminate; intros H.
  - apply eqb_prop in H. now subst.
  - apply eqb_prop in H. now subst.
  - reflexivity.
  - apply andb_prop in H as [H H3]. apply andb_prop in H as [H1 H2].
    apply eqb_prop in H1. apply Pos.eqb_eq in H2. apply Z.eqb_eq in H3. subst.
    f_equal. apply Eqdep_dec.UIP_dec. decide equality.
Qed.
Lemma same_list_eq l m : same_list l m = true -> l = m.
Proof.
  revert m; induction l as [|x l IH]; intros [|y m] H; cbn in H; try discriminate; auto.
  apply andb_prop in H as [H1 H2]. f_equal; [now apply f64_same_eq|now apply IH].
Qed.
Lemma pulses_are_eq d ls : pulses_are d ls = true -> map samples (d_pulses d) = ls.
Proof.
  unfold pulses_are. generalize (d_pulses d). intros l. revert ls. induction l as [|x l IH]; intros [|y m] H; try discriminate; auto.
  apply andb_prop in H as [H1 H2]. cbn [map]. f_equal; [now apply same_list_eq|now apply IH].
Qed.

(** The example configurations can be evaluated, in every number system. *)
From Verif Require Import ProofBases ProofCtl ProofTotal.
Section ExUsable.
  Context {N : Num}.
  Definition ex_ready (f : pulse_cfg) : Prop :=
    exists b bins guess scaling shrink options overwrite,
      f = ex_pulse b bins guess scaling shrink options overwrite /\ b <> Walsh /\ bins <> 0%nat /\
      (exists l, guess = GArr l /\ length l = bins) /\
      (scaling = SOther \/ exists l, scaling = SArr l /\ length l = bins).

  Lemma ex_usable pl tl : (forall f, In f pl -> ex_ready f) -> (exists v l u o, tl = [ex_time v l u o]) ->
    usable pl tl /\ Forall array_guess pl.
  Proof.
    intros H (v & lo & up & o & ->).
    assert (P : forall f, In f pl -> plain_basis f /\ total_update f /\ sampled f /\ (pf_shrink f = true -> pf_bins f <> 0%nat) /\
      lookup_time [ex_time v lo up o] (pf_time_name f) <> None /\ array_guess f).
    { intros f Hf. destruct (H f Hf) as (b & bins & g & s & sh & op & ow & -> & NW & NB & (gl & -> & Lg) & S).
      split; [apply shipped_plain|]. split; [apply shipped_total; [exact NW|cbn; auto]|].
      split; [|split; [intros _; exact NB|split; [discriminate|intros _ q _; exact I]]].
      intros q Lq. cbn [ex_pulse shipped ex_common pf_bins cs_bins] in Lq. split.
      - cbn. rewrite Lg, PeanoNat.Nat.eqb_refl. discriminate.
      - destruct S as [->|(l & -> & Ll)]; cbn; [discriminate|]. rewrite Ll, PeanoNat.Nat.eqb_refl. discriminate. }
    split; [constructor|].
    1-5: apply Forall_forall; intros f Hf; now apply P.
    - intros t [<-|[]] _. reflexivity.
    - apply Forall_forall; intros f Hf; now apply P.
  Qed.
  Definition ex_std (b : basis_kind) (bins : nat) (shrink : bool) : pulse_cfg :=
    ex_pulse b bins (GArr (repeat (of_Z 0) bins)) SOther shrink None false.
  Lemma ex_std_ready b bins shrink : b <> Walsh -> bins <> 0%nat -> ex_ready (ex_std b bins shrink).
  Proof.
    intros H1 H2. exists b, bins, (GArr (repeat (of_Z 0) bins)), SOther, shrink, None, false.
    repeat split; auto. exists (repeat (of_Z 0) bins). split; [reflexivity|apply repeat_length].
  Qed.
End ExUsable.
