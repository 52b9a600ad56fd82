(** The gradient vector of GRAPE next to the vector of control parameters. *)
From Coq Require Import String ZArith List Bool Lia Reals Lra.
From Verif Require Import Num NumFacts Py PyFacts ModelPulse ModelBases ModelControls ModelGrape SpecControls
  ProofBases ProofIndex ProofTimes ProofPipeline ProofBase ProofControls ProofEss ProofSI ProofCtl ProofExtra.
Import ListNotations.
Open Scope list_scope.
Open Scope nat_scope.

Section Vector.
  Context {N : Num}.

  Lemma gather_firstn (x v : list num) n : gather x (map Z.of_nat (seq 0 n)) = Ok v -> v = firstn n x /\ length v = n.
  Proof.
    intros H. assert (L : length v = n).
    { unfold gather in H. apply rmap_length in H. now rewrite map_length, seq_length in H. }
    split; [|exact L].
    destruct (le_lt_dec n (length x)) as [Le|Lt].
    - pose proof (gather_seq [] (firstn n x) (skipn n x)) as G. cbn [app length] in G. rewrite firstn_skipn, firstn_length_le in G by exact Le.
      rewrite G in H. now injection H.
    - exfalso. unfold gather in H.
      destruct (rmap_nth _ _ _ (n - 1) (Z.of_nat (n - 1)) H) as (b & E & _).
      { rewrite nth_error_map, (nth_error_nth' _ 0) by (rewrite seq_length; lia). rewrite seq_nth by lia. reflexivity. }
      rewrite py_nth_nonneg in E. rewrite (proj2 (nth_error_None x (n - 1))) in E by lia. discriminate.
  Qed.

  Lemma gradient_length entry n x c c' g : grape_gradient entry n x c = Ok (c', g) -> length g = n.
  Proof.
    unfold grape_gradient. intros H. apply rbind_ok in H as ([c1 d] & _ & H). apply rbind_ok in H as (dt & _ & H). apply rbind_ok in H as (h & G & H).
    injection H as _ <-. apply rmap_length in G. now rewrite seq_length in G.
  Qed.

  Lemma slices f pl tl rl c0 c : new_controls (f :: pl) tl rl = Ok c0 -> plain_basis f -> reachable c0 c -> n_slices c = Ok (pf_bins f).
  Proof.
    intros HC PB RC. destruct (good_reachable _ 0 _ _ PB RC (good_new _ _ _ _ 0 _ HC eq_refl)) as (p & Ep & [M _]).
    unfold n_slices. destruct (c_pulses c) as [|q l]; [discriminate|]. injection Ep as ->. now rewrite (cm_bins _ _ M).
  Qed.

  Lemma nctrl_positive pl tl rl c0 f : new_controls pl tl rl = Ok c0 -> In f pl -> pf_nctrl f <> 0.
  Proof. intros HC I Z. rewrite no_parameters_raise in HC by eauto. discriminate. Qed.

  (** the samples of the first pulse *)
  Lemma first_samples (O : NumOrder N) F s u pl tl rl c0 c x c' d a g gs ss b bs :
    let f := shipped F Piecewise s u in
    new_controls (f :: pl) tl rl = Ok c0 -> Forall plain_basis pl -> reachable c0 c -> get_controls_lists x c = Ok (c', d) ->
    cs_shrink u = false -> nisnan (cs_lower u) = false -> nisnan (cs_upper u) = false ->
    nth_error (d_pulses d) 0 = Some a -> nth_error (d_timegrids d) 0 = Some g ->
    guess_samples f g = Some gs -> scaling_samples f g = Some ss -> base_of c 0 = Some b -> as_samples (cs_bins u) b = Some bs ->
    a = Ar (pipeline f {| i_guess := gs; i_scaling := ss; i_base := bs; i_update := firstn (cs_bins u) x |}) /\ length (firstn (cs_bins u) x) = cs_bins u.
  Proof.
    intros f HC PB RC HG SH NL NU Ea Eg Egs Ess Eb Ebs.
    assert (PF : plain_basis f) by apply shipped_plain.
    destruct (good_reachable _ 0 _ _ PF RC (good_new _ _ _ _ 0 _ HC eq_refl)) as (p & Ep & [M _]).
    destruct (delivered_pulse_full _ _ _ _ _ _ HG Ea) as (p' & v & T & E' & Hv & HT & Hgr & Ep' & HGP).
    rewrite Ep in E'; injection E' as <-. rewrite Eg in Hgr. injection Hgr as Hgr.
    pose proof (new_controls_wi _ _ _ _ HC (Forall_cons _ PF PB)) as W0. pose proof (same_fix_wi _ _ (reachable_fix _ _ W0 RC) W0) as W.
    rewrite (wi_pulse_indices _ _ _ W Ep) in Hv. cbn [offset_of firstn list_sum fold_right] in Hv.
    assert (En : pc_nctrl (core p) = cs_bins u) by (rewrite (cm_nctrl _ _ M); reflexivity). rewrite En in Hv.
    apply gather_firstn in Hv as [-> L]. split; [|exact L].
    assert (PR : prepared f (prepare (firstn (cs_bins u) x) T p) {| i_guess := gs; i_scaling := ss; i_base := bs; i_update := firstn (cs_bins u) x |}).
    { constructor; cbn [i_guess i_scaling i_base i_update].
      - cbn [prepare with_core core set_time_grid set_grid set_opt pc_time_grid pc_bins]. now rewrite <- Hgr.
      - cbn [prepare with_core core set_time_grid set_grid set_opt pc_time_grid pc_bins]. now rewrite <- Hgr.
      - unfold base_of in Eb. rewrite Ep in Eb. injection Eb as Eb. cbn [prepare with_core core set_time_grid set_grid set_opt pc_base]. now rewrite Eb.
      - exists (Ar (firstn (cs_bins u) x)). split.
        + assert (Es : shape (prepare (firstn (cs_bins u) x) T p) = pf_shape f) by (cbn; apply M). rewrite Es. reflexivity.
        + cbn [as_samples]. change (pf_bins f) with (cs_bins u). now rewrite L, Nat.eqb_refl. }
    rewrite (get_pulse_pipeline O f p _ T _ M PR SH NL NU) in HGP. now injection HGP as <-.
  Qed.
End Vector.

(** ** Derivatives *)
Section Slope.
  Open Scope R_scope.
  Lemma line_derivable (f : R -> R) x l : (exists del, 0 < del /\ forall h, Rabs h < del -> f (x + h) = f x + l * h) -> derivable_pt_lim f x l.
  Proof.
    intros (del & P & H) eps He. exists (mkposreal del P). intros h Hh Lh. cbn in Lh. rewrite H by exact Lh.
    replace ((f x + l * h - f x) / h - l) with 0 by (field; exact Hh). rewrite Rabs_R0. exact He.
  Qed.
  Lemma near s m : 0 < m -> exists del, 0 < del /\ forall h, Rabs h < del -> Rabs (s * h) < m.
  Proof.
    intros M. pose proof (Rabs_pos s) as P. exists (m / (Rabs s + 1)). split; [apply Rdiv_lt_0_compat; lra|].
    intros h H. rewrite Rabs_mult. apply Rle_lt_trans with ((Rabs s + 1) * Rabs h); [pose proof (Rabs_pos h); nra|].
    apply Rmult_lt_compat_l with (r := Rabs s + 1) in H; [|lra]. replace ((Rabs s + 1) * (m / (Rabs s + 1))) with m in H by (field; lra). exact H.
  Qed.
  Lemma cut_slope_in l u s k x : Rmin l u < s * (k + x) < Rmax l u -> derivable_pt_lim (fun t => cut (N := Rnum) l u (s * (k + t))%R) x s.
  Proof.
    intros [A B]. apply line_derivable. destruct (near s (Rmin (s * (k + x) - Rmin l u) (Rmax l u - s * (k + x)))) as (del & P & H).
    { apply Rmin_glb_lt; lra. }
    exists del. split; [exact P|]. intros h Hh. specialize (H h Hh). apply Rabs_def2 in H as [H1 H2].
    pose proof (Rmin_l (s * (k + x) - Rmin l u) (Rmax l u - s * (k + x))). pose proof (Rmin_r (s * (k + x) - Rmin l u) (Rmax l u - s * (k + x))).
    cbv beta. rewrite !Rcut_clip. replace (s * (k + (x + h))) with (s * (k + x) + s * h) by ring.
    rewrite (Rmin_left (s * (k + x) + s * h)), (Rmin_left (s * (k + x))) by lra. rewrite !Rmax_right by lra. ring.
  Qed.
  Lemma cut_slope_out l u s k x : s * (k + x) < Rmin l u \/ Rmax l u < s * (k + x) -> derivable_pt_lim (fun t => cut (N := Rnum) l u (s * (k + t))%R) x 0.
  Proof.
    assert (LU : Rmin l u <= Rmax l u) by (apply Rle_trans with l; [apply Rmin_l|apply Rmax_l]).
    intros Out. apply line_derivable. destruct (near s (Rabs (s * (k + x) - Rmin l u)) ltac:(apply Rabs_pos_lt; lra)) as (d1 & P1 & H1).
    destruct (near s (Rabs (s * (k + x) - Rmax l u)) ltac:(apply Rabs_pos_lt; lra)) as (d2 & P2 & H2).
    exists (Rmin d1 d2). split; [now apply Rmin_glb_lt|]. intros h Hh.
    specialize (H1 h (Rlt_le_trans _ _ _ Hh (Rmin_l _ _))). specialize (H2 h (Rlt_le_trans _ _ _ Hh (Rmin_r _ _))).
    apply Rabs_def2 in H1 as [H1 H1']. apply Rabs_def2 in H2 as [H2 H2'].
    cbv beta. rewrite !Rcut_clip. replace (s * (k + (x + h))) with (s * (k + x) + s * h) by ring. destruct Out as [A|A].
    - rewrite (Rabs_left (s * (k + x) - Rmin l u)) in H1, H1' by lra.
      rewrite (Rmin_left (s * (k + x) + s * h)), (Rmin_left (s * (k + x))) by lra. rewrite !Rmax_left by lra. ring.
    - rewrite (Rabs_pos_eq (s * (k + x) - Rmax l u)) in H2, H2' by lra.
      rewrite (Rmin_right (s * (k + x) + s * h)), (Rmin_right (s * (k + x))) by lra. ring.
  Qed.
End Slope.
