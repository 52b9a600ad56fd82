(** Structural lemmas about [Controls]: what every public operation keeps. *)
From Coq Require Import String ZArith List Bool Lia.
From Verif Require Import Num NumFacts Py PyFacts ModelPulse ModelControls SpecControls.
Import ListNotations.
Open Scope list_scope.

Section Static.
  Context {N : Num}.

  (** the object still carries the configuration it was created with *)
  Record cfg_matches (f : pulse_cfg) (p : pulse) : Prop := {
    cm_name : pc_name (core p) = pf_name f;
    cm_bins : pc_bins (core p) = pf_bins f;
    cm_time_name : pc_time_name (core p) = pf_time_name f;
    cm_lower : pc_lower (core p) = if (pf_upper f <? pf_lower f)%num then pf_upper f else pf_lower f;
    cm_upper : pc_upper (core p) = if (pf_upper f <? pf_lower f)%num then pf_lower f else pf_upper f;
    cm_guess : pc_guess (core p) = pf_guess f;
    cm_scaling : pc_scaling (core p) = pf_scaling f;
    cm_shrink : pc_shrink (core p) = pf_shrink f;
    cm_options : pc_options (core p) = select_options (pf_options f);
    cm_overwrite : pc_overwrite (core p) = pf_overwrite f;
    cm_nctrl : pc_nctrl (core p) = pf_nctrl f;
    cm_scale : pc_scale (core p) = pf_scale f;
    cm_offset : pc_offset (core p) = pf_offset f;
    cm_dist : pc_dist (core p) = pf_dist f;
    cm_shape : shape p = pf_shape f;
    cm_chop : chop p = pf_chop f
  }.

  Lemma cfg_matches_prepare f p x T : cfg_matches f p -> cfg_matches f (prepare x T p).
  Proof. intros []; constructor; cbn; assumption. Qed.
  Lemma cfg_matches_base f p b : cfg_matches f p -> cfg_matches f (with_core (set_base b (core p)) p).
  Proof. intros []; constructor; cbn; assumption. Qed.
  Lemma cfg_matches_w f p w : cfg_matches f p -> cfg_matches f (with_core (set_w w (core p)) p).
  Proof. intros []; constructor; cbn; assumption. Qed.
  Lemma cfg_matches_idx f p m : cfg_matches f p -> cfg_matches f (set_control_parameters_list m p).
  Proof. intros []; constructor; cbn; assumption. Qed.

  Lemma new_pulse_matches m f p : new_pulse m f = Ok p -> cfg_matches f p.
  Proof. intros H. unfold new_pulse in H. rinv. constructor; reflexivity. Qed.

  Definition slot (i : nat) (f : pulse_cfg) (c : controls) : Prop :=
    exists p, nth_error (c_pulses c) i = Some p /\ cfg_matches f p.

  Lemma new_pulses_slot m l ps m' i f :
    new_pulses m l = Ok (ps, m') -> nth_error l i = Some f ->
    exists p, nth_error ps i = Some p /\ cfg_matches f p.
  Proof.
    revert m ps i. induction l as [|g l IH]; intros m ps i H E; cbn in H; [now destruct i|].
    rinv. destruct i; cbn in *.
    - injection E as <-. eauto using new_pulse_matches.
    - eauto.
  Qed.

  Lemma new_controls_slot pl tl rl c i f :
    new_controls pl tl rl = Ok c -> nth_error pl i = Some f -> slot i f c.
  Proof.
    unfold new_controls. intros H E. rinv. unfold slot; cbn. eapply new_pulses_slot; eauto.
  Qed.

  Lemma reindex_pulses_nth m l i p : nth_error l i = Some p ->
    exists m', nth_error (fst (reindex_pulses m l)) i = Some (set_control_parameters_list m' p).
  Proof.
    revert m i; induction l as [|q l IH]; intros m [|i]; cbn [nth_error reindex_pulses]; try discriminate; intros E.
    - injection E as ->.
      destruct (reindex_pulses (pc_last (core (set_control_parameters_list m p))) l) as [ps m2] eqn:R. cbn. eauto.
    - specialize (IH (pc_last (core (set_control_parameters_list m q))) i E) as (m' & IH).
      destruct (reindex_pulses (pc_last (core (set_control_parameters_list m q))) l) as [ps m2] eqn:R. cbn in *. eauto.
  Qed.

  Lemma update_indexes_slot i f c : slot i f c -> slot i f (update_control_parameter_indexes c).
  Proof.
    intros (p & E & M). unfold update_control_parameter_indexes, slot.
    destruct (reindex_pulses (-1) (c_pulses c)) as [ps m] eqn:R. cbn.
    destruct (reindex_pulses_nth (-1) _ _ _ E) as (m' & E'). rewrite R in E'. cbn in E'.
    eauto using cfg_matches_idx.
  Qed.

  Lemma select_from_slot rs idx pos c c' pos' i f :
    plain_basis f -> slot i f c -> select_basis_from rs idx pos c = Ok (c', pos') -> slot i f c'.
  Proof.
    intros PB. revert pos c. induction idx as [|j idx IH]; intros pos c S H; cbn in H; [now rinv|].
    destruct (nth_error (c_pulses c) j) as [q|] eqn:Ej; [|now rinv].
    destruct (pc_dist (core q)) as [[[k a] b]|]; [|now apply (IH pos c)].
    apply rbind_ok in H as (w & Hw & H).
    eapply IH; [|exact H]. apply update_indexes_slot.
    destruct S as (p & E & M). unfold slot; cbn [c_pulses].
    destruct (Nat.eq_dec j i) as [->|NE].
    - rewrite E in Ej; injection Ej as <-.
      rewrite set_nth_same by (apply nth_error_Some; congruence).
      eexists; split; [reflexivity|].
      pose proof (cfg_matches_w _ _ w M) as M'.
      change (chop (with_core (set_w w (core p)) p)) with (chop p). rewrite (cm_chop _ _ M), PB.
      constructor; apply M'.
    - rewrite set_nth_other by assumption. eauto.
  Qed.

  Lemma set_base_pulse_matches f p x T p' : cfg_matches f p -> set_base_pulse x T p = Ok p' -> cfg_matches f p'.
  Proof.
    intros M H. unfold set_base_pulse in H. rinv.
    apply (cfg_matches_prepare _ _ x T) in M.
    destruct (pc_overwrite _); rinv; now apply (cfg_matches_base f (prepare x T p)).
  Qed.
  Lemma get_pulse_matches f p x T r : cfg_matches f p -> get_pulse x T p = Ok r -> cfg_matches f (fst r).
  Proof. intros M H. unfold get_pulse in H. rinv. now apply cfg_matches_prepare. Qed.
  Lemma get_bare_pulse_matches f p x T r : cfg_matches f p -> get_bare_pulse x T p = Ok r -> cfg_matches f (fst r).
  Proof. intros M H. unfold get_bare_pulse in H. rinv. now apply cfg_matches_prepare. Qed.

  Lemma get_controls_slot x c c' d i f : slot i f c -> get_controls_lists x c = Ok (c', d) -> slot i f c'.
  Proof.
    intros (p & E & M) H. unfold get_controls_lists in H. rinv. unfold slot; cbn [c_pulses].
    match goal with H : rmap _ (c_pulses c) = Ok ?l |- _ => destruct (rmap_nth _ _ _ _ _ H E) as (r & Hr & En) end.
    rinv. exists (fst r). split.
    - rewrite nth_error_map, En. reflexivity.
    - eapply get_pulse_matches; eauto.
  Qed.
  Lemma get_bare_slot x c c' d i f : slot i f c -> get_bare_controls_lists x c = Ok (c', d) -> slot i f c'.
  Proof.
    intros (p & E & M) H. unfold get_bare_controls_lists in H. rinv. unfold slot; cbn [c_pulses].
    match goal with H : rmap _ (c_pulses c) = Ok ?l |- _ => destruct (rmap_nth _ _ _ _ _ H E) as (r & Hr & En) end.
    rinv. exists (fst r). split.
    - rewrite nth_error_map, En. reflexivity.
    - eapply get_bare_pulse_matches; eauto.
  Qed.
  Lemma update_base_slot x c c' i f : slot i f c -> update_base_controls x c = Ok c' -> slot i f c'.
  Proof.
    intros (p & E & M) H. unfold update_base_controls in H. rinv. unfold slot; cbn [c_pulses].
    match goal with H : rmap _ (c_pulses c) = Ok ?l |- _ => destruct (rmap_nth _ _ _ _ _ H E) as (r & Hr & En) end.
    rinv. exists r. split; [assumption|].
    eapply set_base_pulse_matches; eauto.
  Qed.

  Lemma reachable_slot c0 c i f : reachable c0 c -> plain_basis f -> slot i f c0 -> slot i f c.
  Proof.
    intros R PB; induction R; intros S; auto.
    - eapply get_controls_slot; [now apply IHR|eassumption].
    - eapply get_bare_slot; [now apply IHR|eassumption].
    - eapply update_base_slot; [now apply IHR|eassumption].
    - eapply select_from_slot; [eassumption|now apply IHR|eassumption].
  Qed.
End Static.
