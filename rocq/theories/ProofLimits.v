(** Limits on pulses and parameters (any ordered number type, IEEE doubles included). *)
From Coq Require Import String ZArith List Bool Lia.
From Verif Require Import Num NumFacts Py PyFacts ModelPulse ModelControls SpecControls ProofControls.
Import ListNotations.
Open Scope list_scope.

Section Limits.
  Context {N : Num} (O : NumOrder N).

  Lemma clip_nan lo hi x : nisnan x = true -> clip lo hi x = x.
  Proof. intros H. unfold clip, npmin. rewrite H. cbn. unfold npmax. now rewrite H. Qed.

  Lemma clip_inside lo hi x : nleb lo x = true -> nleb x hi = true -> clip lo hi x = x.
  Proof.
    intros H1 H2. unfold clip, npmin. rewrite H2, orb_true_r. unfold npmax. now rewrite H1, orb_true_r.
  Qed.

  Lemma clip_within lo hi x : nleb lo hi = true -> nisnan x = false ->
    nleb lo (clip lo hi x) = true /\ nleb (clip lo hi x) hi = true.
  Proof.
    intros LH NX. destruct (nle_nonnan _ O _ _ LH) as [NL NH].
    unfold clip, npmin. rewrite NX; cbn [orb].
    destruct (nleb x hi) eqn:E.
    - unfold npmax. rewrite NX; cbn [orb]. destruct (nleb lo x) eqn:E2.
      + auto.
      + split; [now apply nle_refl|assumption].
    - unfold npmax. rewrite NH, LH. cbn [orb]. split; [assumption|now apply nle_refl].
  Qed.

  Lemma clip_nan_iff lo hi x : nleb lo hi = true -> nisnan (clip lo hi x) = nisnan x.
  Proof.
    intros LH. destruct (nisnan x) eqn:E.
    - now rewrite clip_nan.
    - destruct (clip_within lo hi x LH E) as [H _]. now apply (nle_nonnan _ O) in H.
  Qed.

  Lemma run_ops_app p l1 l2 a : run_ops p (l1 ++ l2) a = (b <-! run_ops p l1 a; run_ops p l2 b).
  Proof.
    revert a; induction l1 as [|o l1 IH]; intros a; cbn; [reflexivity|].
    destruct (apply_op p o a); cbn; auto.
  Qed.

  Lemma unknown_none s : ~ In s known_options -> shaping_op_of_name s = None.
  Proof.
    intros H. unfold shaping_op_of_name, known_options in *. cbn in H.
    repeat match goal with |- context [String.eqb s ?t] => destruct (String.eqb_spec s t); [exfalso; apply H; subst; tauto|] end.
    reflexivity.
  Qed.

  Lemma ends_with_limit_options names : ends_with_limit names ->
    exists pre, select_options names = pre ++ [OpLimit].
  Proof.
    destruct names as [l|]; cbn.
    - intros (pre & post & -> & H).
      exists (flat_map (fun s => match shaping_op_of_name s with Some o => [o] | None => [] end) pre).
      rewrite flat_map_app. f_equal. cbn. f_equal.
      induction post as [|s post IH]; cbn; [reflexivity|].
      rewrite (unknown_none s) by (apply H; now left). cbn. apply IH. intros; apply H; now right.
    - intros _. exists [OpGuess; OpBase; OpUpdate; OpScale]. reflexivity.
  Qed.

  Lemma in_samples_amap f a y : In y (samples (amap f a)) -> exists z, In z (samples a) /\ y = f z.
  Proof.
    destruct a; cbn.
    - intros [<-|[]]; eauto.
    - intros H; apply in_map_iff in H as (z & <- & H); eauto.
  Qed.

  Lemma get_pulse_limited p x T p' a pre :
    pc_shrink (core p) = false -> pc_options (core p) = pre ++ [OpLimit] ->
    get_pulse x T p = Ok (p', a) ->
    exists b, run_ops (prepare x T p) pre (Ar (zeros (pc_bins (core p)))) = Ok b /\
              a = amap (clip (pc_lower (core p)) (pc_upper (core p))) b.
  Proof.
    intros S E H. unfold get_pulse, get_build_pulse in H. cbn [pc_options pc_bins] in H. apply rbind_ok in H as (b & H & R).
    injection R as <- ->.
    change (pc_options (core (prepare x T p))) with (pc_options (core p)) in H. rewrite E, run_ops_app in H.
    apply rbind_ok in H as (c & H1 & H2). exists c. split; [exact H1|].
    cbn in H2. unfold get_limited_pulse in H2.
    change (pc_shrink (set_time_grid T (set_opt x (core p)))) with (pc_shrink (core p)) in H2. rewrite S in H2.
    cbn in H2. now injection H2 as <-.
  Qed.

  Lemma sorted_limits f : nisnan (pf_lower f) = false -> nisnan (pf_upper f) = false ->
    let lo := if (pf_upper f <? pf_lower f)%num then pf_upper f else pf_lower f in
    let hi := if (pf_upper f <? pf_lower f)%num then pf_lower f else pf_upper f in
    nleb lo hi = true.
  Proof.
    intros HL HU. cbn. destruct (nltb (pf_upper f) (pf_lower f)) eqn:E.
    - now apply (nlt_nle _ O) in E.
    - now apply nlt_false_le.
  Qed.

  Lemma delivered_pulse_nth x c c' d i a :
    get_controls_lists x c = Ok (c', d) -> nth_error (d_pulses d) i = Some a ->
    exists p v T p', nth_error (c_pulses c) i = Some p /\ gather x (pc_indices (core p)) = Ok v /\
        get_pulse v T p = Ok (p', a).
  Proof.
    intros H E. unfold get_controls_lists in H. rinv. cbn [d_pulses] in E.
    rewrite nth_error_map in E.
    match goal with H : rmap _ (c_pulses c) = Ok ?l |- _ => destruct (nth_error l i) as [[p' a']|] eqn:En;
      [destruct (rmap_nth_r _ _ _ _ _ H En) as (p & Hp & Ep)|discriminate] end.
    cbn in E; injection E as ->. rinv. eauto 9.
  Qed.

  Lemma samples_within_limits pl tl rl c0 c x c' d i f a :
    new_controls pl tl rl = Ok c0 -> reachable c0 c -> get_controls_lists x c = Ok (c', d) ->
    nth_error pl i = Some f -> nth_error (d_pulses d) i = Some a ->
    plain_basis f -> pf_shrink f = false -> ends_with_limit (pf_options f) ->
    nisnan (pf_lower f) = false -> nisnan (pf_upper f) = false ->
    forall y, In y (samples a) -> nisnan y = true \/ between (pf_lower f) (pf_upper f) y.
  Proof.
    intros HC R HG Ef Ea PB HS HE NL NU y Hy.
    pose proof (reachable_slot _ _ _ _ R PB (new_controls_slot _ _ _ _ _ _ HC Ef)) as (p & Ep & M).
    destruct (delivered_pulse_nth _ _ _ _ _ _ HG Ea) as (q & v & T & q' & Eq & Hv & Hq).
    rewrite Ep in Eq; injection Eq as <-.
    destruct (ends_with_limit_options _ HE) as (pre & Hpre).
    destruct (get_pulse_limited p v T q' a pre) as (b & Hb & ->).
    { now rewrite (cm_shrink _ _ M). } { now rewrite (cm_options _ _ M). } { exact Hq. }
    destruct (in_samples_amap _ _ _ Hy) as (z & Hz & ->).
    rewrite (cm_lower _ _ M), (cm_upper _ _ M).
    pose proof (sorted_limits f NL NU) as LH; cbn in LH.
    destruct (nisnan z) eqn:EN; [left; now rewrite clip_nan_iff|right].
    destruct (clip_within _ _ z LH EN) as [A B]. unfold between.
    destruct (nltb (pf_upper f) (pf_lower f)); auto.
  Qed.
End Limits.
