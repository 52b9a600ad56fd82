(** Accepting the start vector of a super-iteration. *)
From Coq Require Import String ZArith List Bool Lia Reals Lra.
From Verif Require Import Num NumFacts Py PyFacts ModelPulse ModelControls SpecControls
  ProofControls ProofLimits ProofShrink ProofTimes ProofIndex ProofPipeline ProofEss ProofBase ProofSI ProofBases ProofCtl.
Import ListNotations.
Open Scope list_scope.

(** ** Accepting the start vector changes no base pulse *)
Section Mean.
  Context {N : Num} (NX : NumExact N).

  Lemma gather_offset pl tl rl c0 c m i f p :
    new_controls pl tl rl = Ok c0 -> Forall plain_basis pl -> reachable c0 c ->
    Forall (fun f => length (pf_offset f) = pf_nctrl f) pl ->
    get_mean_value c = Ok m -> nth_error pl i = Some f -> nth_error (c_pulses c) i = Some p ->
    gather m (pc_indices (core p)) = Ok (pf_offset f).
  Proof.
    intros HC PB RC FO HM Ef Ep. rewrite (mean_value _ _ _ _ _ HC PB RC FO) in HM. injection HM as <-.
    assert (WI := new_controls_wi _ _ _ _ HC PB).
    assert (SF := reachable_fix _ _ WI RC). assert (W := same_fix_wi _ _ SF WI).
    assert (PBf : plain_basis f) by (rewrite Forall_forall in PB; apply PB; exact (nth_error_In _ _ Ef)).
    destruct (good_reachable _ _ _ _ PBf RC (good_new _ _ _ _ _ _ HC Ef)) as (p' & Ep' & [M _]).
    rewrite Ep in Ep'. injection Ep' as <-.
    rewrite (wi_pulse_indices _ _ _ W Ep), (cm_nctrl _ _ M).
    destruct (same_fix_sizes _ _ SF) as [S1 _]. destruct (new_controls_sizes _ _ _ _ HC) as [S2 _]. rewrite S1, S2.
    assert (SP : pl = firstn i pl ++ f :: skipn (S i) pl).
    { clear - Ef. revert i Ef. induction pl as [|g pl IH]; intros [|i] E; cbn in *; try discriminate.
      - injection E as ->. reflexivity. - f_equal. now apply IH. }
    assert (L1 : length (concat (map pf_offset (firstn i pl))) = offset_of (map pf_nctrl pl) i).
    { unfold offset_of. rewrite firstn_map. clear - FO. revert i. induction FO as [|g l Hg FO IH]; intros [|i]; try reflexivity.
      cbn [firstn map concat]. rewrite app_length, IH, lsum_cons. now rewrite Hg. }
    rewrite SP at 1. rewrite map_app, concat_app. cbn [map concat]. rewrite <- !app_assoc.
    rewrite Forall_forall in FO. rewrite <- L1, <- (FO f (nth_error_In _ _ Ef)). apply gather_seq.
  Qed.

  Lemma map2_zero (b : list num) n : length b = n -> map2 nadd b (repeat (of_Z 0) n) = b.
  Proof. intros <-. induction b as [|x b IH]; [reflexivity|]. cbn. now rewrite IH, (nadd_0 _ NX). Qed.

  Lemma mean_keeps_bases pl tl rl c0 c cD m c2 :
    new_controls pl tl rl = Ok c0 -> reachable c0 c ->
    (forall f, In f pl -> plain_basis f /\ pf_overwrite f = false /\ zero_at_offset f) ->
    no_optimised_time tl -> (forall t, In t tl -> tf_value t <> of_Z 0) ->
    get_mean_value c = Ok m -> evaluations c cD -> update_base_controls m cD = Ok c2 -> bases c2 = bases c.
  Proof.
    intros HC RC HF NO HZ HM HE HU.
    assert (PB : Forall plain_basis pl) by (apply Forall_forall; intros f Hf; now apply HF).
    assert (FO : Forall (fun f => length (pf_offset f) = pf_nctrl f) pl) by (apply Forall_forall; intros f Hf; now apply HF).
    assert (FX := new_controls_fixed _ _ _ _ NO HC).
    assert (HU0 : update_base_controls m c = Ok c2) by (rewrite <- update_base_ess, <- (evaluations_ess _ _ HE), update_base_ess; exact HU).
    assert (R2 : reachable c0 c2) by (eapply reach_update; eauto).
    apply list_ext. intros i. rewrite <- !base_of_bases.
    assert (LP : forall c', reachable c0 c' -> length (c_pulses c') = length pl).
    { intros c' R'. destruct (pulse_lists _ _ _ _ _ HC PB R') as (E & _). apply (f_equal (@length _)) in E. now rewrite !map_length in E. }
    destruct (nth_error pl i) as [f|] eqn:Ef.
    2: { apply nth_error_None in Ef. unfold base_of.
         rewrite (proj2 (nth_error_None (c_pulses c2) i)), (proj2 (nth_error_None (c_pulses c) i)); [reflexivity| |]; rewrite LP; auto. }
    destruct (HF f (nth_error_In _ _ Ef)) as (PBf & OV & ZL & ZO).
    destruct (good_reachable _ _ _ _ PBf RC (good_new _ _ _ _ _ _ HC Ef)) as (p & Ep & M & GW).
    destruct (good_reachable _ _ _ _ PBf R2 (good_new _ _ _ _ _ _ HC Ef)) as (p2 & Ep2 & M2 & GW2).
    destruct (update_base_base _ _ _ _ _ HU0 Ep2) as (p' & v & T & s & E' & Hv & HT & Hs & K).
    rewrite Ep in E'; injection E' as <-.
    rewrite (gather_offset _ _ _ _ _ _ _ _ _ HC PB RC FO HM Ef Ep) in Hv. injection Hv as <-.
    rewrite (reachable_times_fixed _ _ FX R2) in HT.
    rewrite (cm_shape _ _ M) in Hs.
    rewrite ZO in Hs; [|apply good_core_of; [now split|exact ZL]|reflexivity|exact (nonzero_time _ _ _ _ _ _ HC NO HZ HT)].
    injection Hs as <-.
    rewrite (cm_overwrite _ _ M), OV in K. destruct K as (b2 & Hb2 & ->).
    destruct (base_array _ _ _ _ _ _ _ HC PB RC Ef OV) as (b & Hb & Lb). unfold base_of in Hb |- *. rewrite Ep in Hb.
    injection Hb as Hb. rewrite Hb in Hb2. destruct (aiadd_length _ _ _ Hb2) as (b2l & -> & Lb2).
    apply aiadd_same in Hb2; [|rewrite repeat_length; now symmetry]. cbn in Hb2. rewrite map2_zero in Hb2 by exact Lb.
    rewrite Ep, Ep2. cbn. now rewrite Hb, Hb2.
  Qed.

  Lemma select_keeps_bases pl tl rl c0 c rs p c' q :
    new_controls pl tl rl = Ok c0 -> Forall plain_basis pl -> reachable c0 c -> select_basis rs p c = Ok (c', q) ->
    bases c' = bases c.
  Proof.
    intros EC PB R ES. assert (WI := new_controls_wi _ _ _ _ EC PB).
    assert (W2 := same_fix_wi _ _ (reachable_fix _ _ WI R) WI). exact (proj1 (select_bases _ _ _ _ _ _ (proj1 W2) ES)).
  Qed.
End Mean.
