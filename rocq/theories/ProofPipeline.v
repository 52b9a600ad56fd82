(** The shaping pipeline, sample by sample. *)
From Coq Require Import String ZArith List Bool Lia Reals Lra.
From Verif Require Import Num NumFacts Py PyFacts ModelPulse ModelControls SpecControls ProofControls ProofLimits ProofShrink ProofTimes.
Import ListNotations.
Open Scope list_scope.

Section Pipe.
  Context {N : Num}.

  Lemma abin_as_r f (m : list num) a l : as_samples (length m) a = Some l -> abin f (Ar m) a = Ok (Ar (map2 f m l)).
  Proof.
    destruct a as [x|k]; cbn.
    - intros H; injection H as <-. do 2 f_equal. induction m; cbn; congruence.
    - destruct (Nat.eqb_spec (length k) (length m)); [|discriminate]. intros H; injection H as <-.
      rewrite e, Nat.eqb_refl. reflexivity.
  Qed.
  Lemma abin_as_l f (m : list num) a l : as_samples (length m) a = Some l -> abin f a (Ar m) = Ok (Ar (map2 f l m)).
  Proof.
    destruct a as [x|k]; cbn.
    - intros H; injection H as <-. do 2 f_equal. induction m; cbn; congruence.
    - destruct (Nat.eqb_spec (length k) (length m)); [|discriminate]. intros H; injection H as <-.
      reflexivity.
  Qed.
  Lemma as_samples_length n a l : as_samples n a = Some l -> length l = n.
  Proof.
    destruct a; cbn; [|destruct (Nat.eqb_spec (length l0) n)]; intros H; try discriminate; injection H as <-; auto.
    apply repeat_length.
  Qed.
  Lemma as_samples_amap n f a l : as_samples n a = Some l -> as_samples n (amap f a) = Some (map f l).
  Proof.
    destruct a; cbn.
    - intros H; injection H as <-. f_equal. induction n; cbn; congruence.
    - rewrite map_length. destruct (Nat.eqb _ _); [|discriminate]. intros H; now injection H as <-.
  Qed.

  Lemma clip_cut f x : NumOrder N -> nisnan (pf_lower f) = false -> nisnan (pf_upper f) = false ->
    clip (if (pf_upper f <? pf_lower f)%num then pf_upper f else pf_lower f)
         (if (pf_upper f <? pf_lower f)%num then pf_lower f else pf_upper f) x = cut (pf_lower f) (pf_upper f) x.
  Proof.
    intros O NL NU. pose proof (sorted_limits O f NL NU) as LH. cbn in LH. unfold cut.
    set (lo := if (pf_upper f <? pf_lower f)%num then pf_upper f else pf_lower f) in *.
    set (hi := if (pf_upper f <? pf_lower f)%num then pf_lower f else pf_upper f) in *.
    destruct (nle_nonnan _ O _ _ LH) as [HL HH].
    unfold clip, npmin. destruct (nisnan x) eqn:EX; cbn [orb]; [unfold npmax; now rewrite EX|].
    destruct (nleb x hi) eqn:E; cbn [orb]; unfold npmax.
    - rewrite EX. cbn [orb]. reflexivity.
    - rewrite HH, LH. reflexivity.
  Qed.

  (** the ingredients of pulse [p] (with configuration [f]) when vector [v] and duration [T] are set *)
  Record prepared (f : pulse_cfg) (p : pulse) (i : ingredients) : Prop := {
    pr_guess : guess_samples f (pc_time_grid (core p)) = Some (i_guess i);
    pr_scal : scaling_samples f (pc_time_grid (core p)) = Some (i_scaling i);
    pr_base : as_samples (pf_bins f) (pc_base (core p)) = Some (i_base i);
    pr_upd : exists a, shape p (core p) = Ok a /\ as_samples (pf_bins f) a = Some (i_update i)
  }.

  Lemma apply_op_effect (O : NumOrder N) f p i name o l :
    cfg_matches f p -> prepared f p i -> pf_shrink f = false ->
    nisnan (pf_lower f) = false -> nisnan (pf_upper f) = false ->
    shaping_op_of_name name = Some o -> length l = pf_bins f ->
    apply_op p o (Ar l) = Ok (Ar (option_effect (pf_lower f) (pf_upper f) i name l)) /\
    length (option_effect (pf_lower f) (pf_upper f) i name l) = pf_bins f.
  Proof.
    intros M P S NL NU E L. destruct P as [PG PS PB (a & PU1 & PU2)].
    pose proof (as_samples_length _ _ _ PB) as LB. pose proof (as_samples_length _ _ _ PU2) as LU.
    unfold option_effect, shaping_op_of_name in *.
    destruct (String.eqb name "add_initial_guess").
    - injection E as <-. cbn [apply_op]. unfold get_initial_guess. rewrite (cm_guess _ _ M).
      unfold guess_samples in PG.
      assert (exists ga, match pf_guess f with GCall f0 => f0 (pc_time_grid (core p)) | GArr l => Ok (Ar l) | GOther => Ok (Sc (of_Z 0)) end = Ok ga
              /\ as_samples (pf_bins f) ga = Some (i_guess i)) as (ga & E1 & E2).
      { destruct (pf_guess f) as [h|k|]; [destruct (h _); [|discriminate]|..]; eauto. }
      rewrite E1. cbn [rbind]. unfold get_limited_pulse. rewrite (cm_shrink _ _ M), S. cbn [rbind].
      rewrite (cm_lower _ _ M), (cm_upper _ _ M).
      assert (E3 := as_samples_amap _ (clip (if (pf_upper f <? pf_lower f)%num then pf_upper f else pf_lower f)
         (if (pf_upper f <? pf_lower f)%num then pf_lower f else pf_upper f)) _ _ E2).
      rewrite <- L in E3. rewrite (abin_as_l _ _ _ _ E3).
      rewrite (map_ext _ _ (fun x => clip_cut f x O NL NU)). split; [reflexivity|].
      rewrite map2_length, map_length, (as_samples_length _ _ _ E2), L. lia.
    - destruct (String.eqb name "add_base_pulse").
      { injection E as <-. cbn [apply_op]. rewrite <- L in PB. rewrite (abin_as_r _ _ _ _ PB). split; [reflexivity|].
        rewrite map2_length. lia. }
      destruct (String.eqb name "add_new_update_pulse").
      { injection E as <-. cbn [apply_op]. rewrite PU1. cbn [rbind]. rewrite <- L in PU2. rewrite (abin_as_r _ _ _ _ PU2).
        split; [reflexivity|]. rewrite map2_length. lia. }
      destruct (String.eqb name "scale_pulse").
      { injection E as <-. cbn [apply_op]. unfold get_scaling_function. rewrite (cm_scaling _ _ M).
        unfold scaling_samples in PS.
        assert (exists sa, match pf_scaling f with SCall1 f0 => f0 (pc_time_grid (core p)) | SCall2 _ => Err TypeError | SArr l => Ok (Ar l) | SOther => Ok (Sc (of_Z 1)) end = Ok sa
              /\ as_samples (pf_bins f) sa = Some (i_scaling i)) as (sa & E1 & E2).
        { destruct (pf_scaling f) as [h|h|k|]; [destruct (h _); [|discriminate]|..]; eauto; discriminate. }
        rewrite <- L in E2. pose proof (as_samples_length _ _ _ E2) as LS.
        split; [|rewrite map2_length; lia].
        rewrite <- (abin_as_l _ _ _ _ E2). destruct (pf_scaling f) as [h|h|k|]; try discriminate; rewrite E1; reflexivity. }
      destruct (String.eqb name "limit_pulse"); [|discriminate].
      injection E as <-. cbn [apply_op]. unfold get_limited_pulse. rewrite (cm_shrink _ _ M), S, (cm_lower _ _ M), (cm_upper _ _ M).
      cbn [amap]. rewrite (map_ext _ _ (fun x => clip_cut f x O NL NU)). split; [reflexivity|]. now rewrite map_length.
  Qed.

  Lemma option_effect_unknown lo hi i name l : shaping_op_of_name name = None -> option_effect lo hi i name l = l.
  Proof.
    unfold option_effect, shaping_op_of_name.
    repeat (destruct (String.eqb name _); [discriminate|]). reflexivity.
  Qed.

  Lemma run_ops_pipeline (O : NumOrder N) f p i names l :
    cfg_matches f p -> prepared f p i -> pf_shrink f = false ->
    nisnan (pf_lower f) = false -> nisnan (pf_upper f) = false -> length l = pf_bins f ->
    run_ops p (flat_map (fun s => match shaping_op_of_name s with Some o => [o] | None => [] end) names) (Ar l)
    = Ok (Ar (fold_left (fun a name => option_effect (pf_lower f) (pf_upper f) i name a) names l)).
  Proof.
    intros M P S NL NU. revert l; induction names as [|s names IH]; intros l L; cbn [flat_map fold_left]; [reflexivity|].
    destruct (shaping_op_of_name s) as [o|] eqn:E.
    - destruct (apply_op_effect O _ _ _ _ _ _ M P S NL NU E L) as [E1 L1].
      cbn [app run_ops]. rewrite E1. cbn [rbind]. apply IH. exact L1.
    - cbn [app]. rewrite option_effect_unknown by assumption. now apply IH.
  Qed.

  Lemma select_options_names f : select_options (pf_options f) =
    flat_map (fun s => match shaping_op_of_name s with Some o => [o] | None => [] end) (names_of f).
  Proof. unfold names_of. destruct (pf_options f); reflexivity. Qed.

  (** delivered pulse = specified pipeline *)
  Lemma get_pulse_pipeline (O : NumOrder N) f p v T i :
    cfg_matches f p -> prepared f (prepare v T p) i -> pf_shrink f = false ->
    nisnan (pf_lower f) = false -> nisnan (pf_upper f) = false ->
    get_pulse v T p = Ok (prepare v T p, Ar (pipeline f i)).
  Proof.
    intros M P S NL NU. unfold get_pulse, get_build_pulse.
    apply (cfg_matches_prepare _ _ v T) in M.
    rewrite (cm_options _ _ M), (cm_bins _ _ M), select_options_names.
    rewrite (run_ops_pipeline O f (prepare v T p) i) by (auto; apply repeat_length). reflexivity.
  Qed.

  (** components of a delivered pulse *)
  Lemma delivered_pulse_full x c c' d i a :
    get_controls_lists x c = Ok (c', d) -> nth_error (d_pulses d) i = Some a ->
    exists p v T, nth_error (c_pulses c) i = Some p /\ gather x (pc_indices (core p)) = Ok v /\
        time_of (c_times c') (pc_time_name (core p)) = Ok T /\
        nth_error (d_timegrids d) i = Some (linspace0 T (pc_bins (core p))) /\
        nth_error (c_pulses c') i = Some (prepare v T p) /\
        get_pulse v T p = Ok (prepare v T p, a).
  Proof.
    intros H E. unfold get_controls_lists in H. rinv. cbn [d_pulses d_timegrids c_times c_pulses] in *.
    rewrite nth_error_map in E.
    match goal with H : rmap _ (c_pulses c) = Ok ?l |- _ => destruct (nth_error l i) as [[p' a']|] eqn:En;
      [destruct (rmap_nth_r _ _ _ _ _ H En) as (p & Hp & Ep)|discriminate] end.
    cbn in E; injection E as ->. rinv. rewrite !nth_error_map, !En. cbn [option_map fst].
    match goal with H : time_of _ _ = Ok ?t |- _ => match goal with H' : gather _ _ = Ok ?v |- _ =>
      assert (p' = prepare v t p) as -> by (unfold get_pulse in Hp; now rinv); exists p, v, t end end.
    repeat split; auto.
  Qed.
End Pipe.

Section PipeR.
  Open Scope R_scope.
  Lemma Rcut_clip l u x : cut (N := Rnum) l u x = Rmax (Rmin l u) (Rmin x (Rmax l u)).
  Proof.
    unfold cut. cbn [nisnan Rnum].
    destruct (nltb (Num := Rnum) u l) eqn:E; [apply Rltb_iff in E|apply Rltb_iff0 in E].
    - rewrite (Rmin_right l u), (Rmax_left l u) by lra.
      destruct (nleb (Num := Rnum) x l) eqn:E1; [apply Rleb_iff in E1|apply Rleb_iff0 in E1].
      + rewrite (Rmin_left x l) by lra. destruct (nleb (Num := Rnum) u x) eqn:E2; [apply Rleb_iff in E2|apply Rleb_iff0 in E2].
        * now rewrite Rmax_right by lra. * now rewrite Rmax_left by lra.
      + rewrite (Rmin_right x l) by lra. now rewrite Rmax_right by lra.
    - rewrite (Rmin_left l u), (Rmax_right l u) by lra.
      destruct (nleb (Num := Rnum) x u) eqn:E1; [apply Rleb_iff in E1|apply Rleb_iff0 in E1].
      + rewrite (Rmin_left x u) by lra. destruct (nleb (Num := Rnum) l x) eqn:E2; [apply Rleb_iff in E2|apply Rleb_iff0 in E2].
        * now rewrite Rmax_right by lra. * now rewrite Rmax_left by lra.
      + rewrite (Rmin_right x u) by lra. now rewrite Rmax_right by lra.
  Qed.
End PipeR.
