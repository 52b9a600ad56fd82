(** Every vector of the right length yields controls: no exception leaves get_controls_lists. *)
From Coq Require Import String ZArith List Bool Lia.
From Verif Require Import Num NumFacts Py PyFacts ModelPulse ModelControls ModelBases SpecControls ProofControls ProofLimits
  ProofShrink ProofTimes ProofIndex ProofPipeline ProofEss ProofBase ProofSI ProofBases ProofCtl.
Import ListNotations.
Open Scope list_scope.

Section Total.
  Context {N : Num}.

  Lemma shrink_length (lo hi : num) u : u <> [] -> exists v, shrink_list lo hi u = Ok v /\ length v = length u.
  Proof.
    intros NE. unfold shrink_list. destruct u as [|x u]; [congruence|]. cbn [amax amin rbind].
    destruct (_ || _)%bool; [eexists; split; [reflexivity|now rewrite map_length]|].
    destruct (_ <? _)%num; cbn [map amax amin rbind]; destruct (_ <? _)%num; eexists; (split; [reflexivity|]); cbn; now rewrite ?map_length.
  Qed.

  Lemma limited_total c (l : list num) n : length l = n -> (pc_shrink c = true -> n <> 0%nat) ->
    exists r, get_limited_pulse c (Ar l) = Ok (Ar r) /\ length r = n.
  Proof.
    intros L H. unfold get_limited_pulse. destruct (pc_shrink c).
    - destruct (shrink_length (pc_lower c) (pc_upper c) l) as (v & E & Lv).
      { intros ->. cbn in L. apply (H eq_refl). now symmetry. }
      rewrite E. cbn. eexists; split; [reflexivity|congruence].
    - eexists; split; [reflexivity|]. now rewrite map_length.
  Qed.

  Lemma abin_same (h : num -> num -> num) l m : length l = length m -> abin h (Ar l) (Ar m) = Ok (Ar (map2 h l m)).
  Proof. intros E. cbn. now rewrite E, Nat.eqb_refl. Qed.

  Lemma op_total f p o l :
    cfg_matches f p -> total_update f -> sampled f -> array_guess f -> (pf_shrink f = true -> pf_bins f <> 0%nat) ->
    core_of f (core p) -> (exists b, pc_base (core p) = Ar b /\ length b = pf_bins f) -> length l = pf_bins f ->
    exists r, apply_op p o (Ar l) = Ok (Ar r) /\ length r = pf_bins f.
  Proof.
    intros M TU SA AG NB CO (b & Eb & Lb) L.
    assert (NB' : pc_shrink (core p) = true -> pf_bins f <> 0%nat) by (rewrite (cm_shrink _ _ M); exact NB).
    destruct (SA (pc_time_grid (core p)) (co_grid _ _ CO)) as [SG SS].
    assert (BIN : forall h a, as_samples (pf_bins f) a <> None -> exists r, abin h a (Ar l) = Ok (Ar r) /\ length r = pf_bins f).
    { intros h a Ha. destruct (as_samples (pf_bins f) a) as [m|] eqn:E; [|congruence]. rewrite <- L in E.
      rewrite (abin_as_l h l a m E). eexists; split; [reflexivity|]. rewrite map2_length, (as_samples_length _ _ _ E). lia. }
    destruct o; cbn [apply_op].
    - (* guess *) unfold get_initial_guess. rewrite (co_guess _ _ CO).
      assert (G : exists a, (match pf_guess f with GCall h => h (pc_time_grid (core p)) | GArr l => Ok (Ar l) | GOther => Ok (Sc (of_Z 0)) end) = Ok a
                 /\ as_samples (pf_bins f) a <> None /\ (pf_shrink f = true -> exists q, a = Ar q)).
      { unfold guess_samples in SG. destruct (pf_guess f) as [h|q|] eqn:EG.
        - destruct (h _) as [a|] eqn:E; [|congruence]. exists a. repeat split; auto. intros SH.
          unfold array_guess in AG. rewrite EG in AG. destruct (AG SH _ (co_grid _ _ CO)) as (q & Eq). rewrite E in Eq. injection Eq as ->. eauto.
        - eexists. repeat split; auto. eauto.
        - eexists. repeat split; [exact SG|]. intros SH. unfold array_guess in AG. rewrite EG in AG. destruct (AG SH _ (co_grid _ _ CO)). }
      destruct G as (a & -> & SA' & ARR). cbn [rbind].
      assert (LIM : exists a', get_limited_pulse (core p) a = Ok a' /\ as_samples (pf_bins f) a' <> None).
      { destruct a as [y|q].
        - unfold get_limited_pulse. destruct (pc_shrink (core p)) eqn:SH.
          + rewrite (cm_shrink _ _ M) in SH. destruct (ARR SH) as (q & Eq). discriminate.
          + eexists; split; [reflexivity|]. cbn. congruence.
        - cbn in SA'. destruct (Nat.eqb_spec (length q) (pf_bins f)) as [Lq|]; [|congruence].
          destruct (limited_total (core p) q _ Lq NB') as (r & -> & Lr). eexists; split; [reflexivity|]. cbn. rewrite Lr, Nat.eqb_refl. congruence. }
      destruct LIM as (a' & -> & S'). cbn [rbind]. now apply BIN.
    - (* base *) rewrite Eb. rewrite abin_same by congruence. eexists; split; [reflexivity|]. rewrite map2_length. lia.
    - (* update *) rewrite (cm_shape _ _ M). destruct (TU _ CO) as (u & -> & Lu). cbn [rbind].
      rewrite abin_same by congruence. eexists; split; [reflexivity|]. rewrite map2_length. lia.
    - (* scale *) rewrite (cm_scaling _ _ M). unfold scaling_samples in SS.
      destruct (pf_scaling f) as [h|h|q|] eqn:ES; try congruence; unfold get_scaling_function; rewrite (cm_scaling _ _ M), ES.
      + destruct (h _) as [a|] eqn:E; [|congruence]. cbn [rbind]. now apply BIN.
      + cbn [rbind]. now apply BIN.
      + cbn [rbind]. apply BIN. exact SS.
    - (* limit *) now apply limited_total.
  Qed.

  Lemma build_total f p ops l :
    cfg_matches f p -> total_update f -> sampled f -> array_guess f -> (pf_shrink f = true -> pf_bins f <> 0%nat) ->
    core_of f (core p) -> (exists b, pc_base (core p) = Ar b /\ length b = pf_bins f) -> length l = pf_bins f ->
    exists r, run_ops p ops (Ar l) = Ok (Ar r) /\ length r = pf_bins f.
  Proof.
    intros M TU SA AG NB CO B. revert l. induction ops as [|o ops IH]; intros l L; cbn [run_ops]; [eauto|].
    destruct (op_total f p o l M TU SA AG NB CO B L) as (r & -> & Lr). cbn [rbind]. now apply IH.
  Qed.

  Lemma gather_total (x : list num) m n : (m + n <= length x)%nat -> exists v, gather x (map Z.of_nat (seq m n)) = Ok v /\ length v = n.
  Proof.
    intros H. unfold gather. destruct (rmap_total (py_nth x) (map Z.of_nat (seq m n))) as (v & E).
    - intros i a Ha. rewrite nth_error_map in Ha. destruct (nth_error (seq m n) i) as [j|] eqn:Ej; [|discriminate]. injection Ha as <-.
      apply nth_error_In, in_seq in Ej. rewrite py_nth_nonneg. destruct (nth_error x j) eqn:E; [eauto|]. apply nth_error_None in E. lia.
    - exists v. split; [exact E|]. now rewrite (rmap_length _ _ _ E), map_length, seq_length.
  Qed.

  Lemma offset_bound (sizes : list nat) i k : nth_error sizes i = Some k -> (offset_of sizes i + k <= list_sum sizes)%nat.
  Proof.
    revert i. induction sizes as [|s sizes IH]; intros [|i] H; try discriminate.
    - cbn in H. injection H as ->. unfold offset_of. cbn. lia.
    - cbn in H. specialize (IH _ H). unfold offset_of in *. cbn [firstn]. rewrite !lsum_cons. lia.
  Qed.

  Lemma set_times_total pl tl rl c0 c (x : list num) : new_controls pl tl rl = Ok c0 -> reachable c0 c -> x <> [] ->
    (forall t, In t tl -> tf_opt t = true -> tf_map_index t = (-1)%Z) -> exists ts, set_times x (c_times c) = Ok ts.
  Proof.
    intros HC RC NX MI. unfold set_times. apply rmap_total. intros i [k t] Ht. cbn [fst snd]. unfold set_time_from.
    destruct (ti_alpha t) as [a|] eqn:Ea; [|cbn; eauto].
    assert (IA : In a (optimised_times c)).
    { unfold optimised_times. apply in_flat_map. exists (k, t). split; [eapply nth_error_In; eauto|]. cbn. rewrite Ea. now left. }
    destruct (optimised_alpha _ _ _ _ _ _ HC RC IA) as (s & S1 & S2 & S3 & _). rewrite S3, (MI _ S1 S2).
    destruct x as [|y x]; [congruence|]. cbn. unfold set_parameter, set_value. cbn. eauto.
  Qed.

  (** what every evaluation of pulse [i] finds *)
  Definition pulse_data pl (x : list num) ts i (p : pulse) : Prop := exists f v T,
    nth_error pl i = Some f /\ gather x (pc_indices (core p)) = Ok v /\ time_of ts (pc_time_name (core p)) = Ok T /\
    good f p /\ core_of f (core (prepare v T p)) /\ exists b, pc_base (core p) = Ar b /\ length b = pf_bins f.

  Lemma pulse_ready pl tl rl c0 c x ts :
    new_controls pl tl rl = Ok c0 -> reachable c0 c -> usable pl tl ->
    length x = get_control_parameters_number c ->
    set_times x (c_times c) = Ok ts \/ ts = c_times c ->
    (forall i p, nth_error (c_pulses c) i = Some p -> pulse_data pl x ts i p) /\
    length (c_pulses c) = length pl /\ length (c_params c) = length rl /\
    (forall i r, nth_error (c_params c) i = Some r -> exists y, gather x (pa_indices r) = Ok [y]).
  Proof.
    intros HC RC US LX Hts. destruct US as [PB TU SA NB TI MI].
    assert (WI := new_controls_wi _ _ _ _ HC PB). assert (SF := reachable_fix _ _ WI RC). assert (W := same_fix_wi _ _ SF WI).
    destruct (same_fix_sizes _ _ SF) as [S1 S3]. destruct (new_controls_sizes _ _ _ _ HC) as [S2 S4].
    rewrite number_eq in LX. change (map (fun p => pc_nctrl (core p)) (c_pulses c)) with (sizes_of c) in LX.
    assert (LP : length (c_pulses c) = length pl).
    { apply (f_equal (@length _)) in S1. apply (f_equal (@length _)) in S2. unfold sizes_of in *. rewrite !map_length in *. congruence. }
    split; [|split; [exact LP|split; [congruence|]]].
    - intros i p Ep.
      destruct (nth_error pl i) as [f|] eqn:Ef; [|apply nth_error_None in Ef; assert (i < length (c_pulses c))%nat by (apply nth_error_Some; congruence); lia].
      assert (PBf := Forall_nth_error _ _ _ _ PB Ef).
      destruct (good_reachable _ _ _ _ PBf RC (good_new _ _ _ _ _ _ HC Ef)) as (p' & Ep' & GP). rewrite Ep in Ep'. injection Ep' as <-.
      destruct (gather_total x (offset_of (sizes_of c) i) (pc_nctrl (core p))) as (v & Hv & Lv).
      { assert (offset_of (sizes_of c) i + pc_nctrl (core p) <= list_sum (sizes_of c))%nat; [|lia].
        apply offset_bound. unfold sizes_of. now rewrite nth_error_map, Ep. }
      rewrite <- (wi_pulse_indices _ _ _ W Ep) in Hv.
      assert (TT : exists T, time_of ts (pc_time_name (core p)) = Ok T).
      { pose proof (Forall_nth_error _ _ _ _ TI Ef) as K. cbn in K. destruct (lookup_time tl (pf_time_name f)) as [t|] eqn:L; [|congruence].
        destruct (reachable_tslot _ _ _ _ RC (new_controls_tslot _ _ _ _ _ _ HC L)) as (s & Es & _).
        rewrite (cm_time_name _ _ (proj1 GP)). unfold time_of. destruct Hts as [Hts| ->]; [|rewrite Es; eauto].
        destruct (set_times_dget _ _ _ _ _ Hts Es) as (s' & Es' & _). rewrite Es'. eauto. }
      destruct TT as (T & HT). rewrite (cm_nctrl _ _ (proj1 GP)) in Lv.
      assert (CO := good_core_of _ _ v T GP Lv).
      assert (RU : regular_update f).
      { intros q a Hq Ha. destruct (Forall_nth_error _ _ _ _ TU Ef q Hq) as (l & El & Ll). rewrite El in Ha. injection Ha as <-. eauto. }
      destruct (base_regular _ _ _ _ _ _ _ HC PB RC Ef RU) as (b & Eb & Lb). unfold base_of in Eb. rewrite Ep in Eb. injection Eb as Eb.
      exists f, v, T. repeat (split; [auto|]). exists b. split; [exact Eb|exact Lb].
    - intros i r Er. rewrite (wi_param_indices _ _ _ W Er).
      assert (i < length (c_params c))%nat by (apply nth_error_Some; congruence).
      destruct (gather_total x (list_sum (sizes_of c) + i) 1 ltac:(lia)) as (v & Hv & Lv). cbn [seq map] in Hv.
      destruct v as [|y [|]]; try discriminate. exists y. exact Hv.
  Qed.

  Lemma delivery_total pl tl rl c0 c x :
    new_controls pl tl rl = Ok c0 -> reachable c0 c -> usable pl tl -> Forall array_guess pl ->
    x <> [] -> length x = get_control_parameters_number c ->
    exists c' d, get_controls_lists x c = Ok (c', d) /\
      length (d_pulses d) = length pl /\ length (d_timegrids d) = length pl /\ length (d_parameters d) = length rl /\
      forall i f, nth_error pl i = Some f -> exists l, nth_error (d_pulses d) i = Some (Ar l) /\ length l = pf_bins f.
  Proof.
    intros HC RC US AG NX LX.
    destruct (set_times_total _ _ _ _ _ _ HC RC NX (us_map _ _ US)) as (ts & Hts).
    destruct (pulse_ready _ _ _ _ _ _ _ HC RC US LX (or_introl Hts)) as (PD & LP & LR & PR). destruct US as [PB TU SA NB TI MI].
    assert (ONE : forall i p, nth_error (c_pulses c) i = Some p -> exists f v T l,
      nth_error pl i = Some f /\ gather x (pc_indices (core p)) = Ok v /\ time_of ts (pc_time_name (core p)) = Ok T /\
      get_pulse v T p = Ok (prepare v T p, Ar l) /\ length l = pf_bins f).
    { intros i p Ep. destruct (PD i p Ep) as (f & v & T & Ef & Hv & HT & GP & CO & b & Eb & Lb).
      destruct (build_total f (prepare v T p) (pc_options (core (prepare v T p))) (zeros (pc_bins (core (prepare v T p))))
        (cfg_matches_prepare _ _ _ _ (proj1 GP)) (Forall_nth_error _ _ _ _ TU Ef) (Forall_nth_error _ _ _ _ SA Ef)
        (Forall_nth_error _ _ _ _ AG Ef) (Forall_nth_error _ _ _ _ NB Ef) CO) as (r & Hr & Lr).
      { exists b. split; [exact Eb|exact Lb]. }
      { rewrite zeros_length. apply (cm_bins _ _ (cfg_matches_prepare _ _ _ _ (proj1 GP))). }
      exists f, v, T, r. repeat split; auto. unfold get_pulse, get_build_pulse. rewrite Hr. reflexivity. }
    destruct (rmap_total (fun p => v <-! gather x (pc_indices (core p)); t <-! time_of ts (pc_time_name (core p)); get_pulse v t p) (c_pulses c)) as (ps & Hps).
    { intros i p Ep. destruct (ONE i p Ep) as (f & v & T & l & _ & -> & E2 & E3 & _). cbn [rbind]. rewrite E2. cbn [rbind]. eauto. }
    destruct (rmap_total (fun r => v <-! gather x (pa_indices r); get_parameter v r) (c_params c)) as (rs & Hrs).
    { intros i r Er. destruct (PR i r Er) as (y & ->). unfold get_parameter, set_parameter. cbn. eauto. }
    unfold get_controls_lists. rewrite Hts. cbn [rbind]. rewrite Hps. cbn [rbind]. rewrite Hrs. cbn [rbind].
    eexists. eexists. split; [reflexivity|]. cbn [d_pulses d_timegrids d_parameters]. rewrite !map_length.
    rewrite (rmap_length _ _ _ Hps), (rmap_length _ _ _ Hrs). repeat split; auto.
    intros i f Ef.
    assert (exists p, nth_error (c_pulses c) i = Some p) as (p & Ep).
    { destruct (nth_error (c_pulses c) i) eqn:E; [eauto|]. apply nth_error_None in E. assert (i < length pl)%nat by (apply nth_error_Some; congruence). lia. }
    destruct (ONE i p Ep) as (f' & v & T & l & Ef' & E1 & E2 & E3 & Ll). rewrite Ef in Ef'. injection Ef' as <-.
    exists l. split; [|exact Ll]. destruct (rmap_nth _ _ _ _ _ Hps Ep) as (z & Hz & Ez). rewrite E1 in Hz. cbn [rbind] in Hz. rewrite E2 in Hz. cbn [rbind] in Hz.
    rewrite E3 in Hz. injection Hz as <-. now rewrite nth_error_map, Ez.
  Qed.

  Lemma bare_total pl tl rl c0 c x :
    new_controls pl tl rl = Ok c0 -> reachable c0 c -> usable pl tl ->
    length x = get_control_parameters_number c ->
    exists c' us, get_bare_controls_lists x c = Ok (c', us) /\ length us = length pl.
  Proof.
    intros HC RC US LX.
    destruct (pulse_ready _ _ _ _ _ _ _ HC RC US LX (or_intror eq_refl)) as (PD & LP & LR & PR). destruct US as [PB TU SA NB TI MI].
    unfold get_bare_controls_lists.
    match goal with |- context [rmap ?g (c_pulses c)] => destruct (rmap_total g (c_pulses c)) as (ps & Hps) end.
    { intros i p Ep. destruct (PD i p Ep) as (f & v & T & Ef & Hv & HT & GP & CO & b & Eb & Lb).
      rewrite Hv. cbn [rbind]. rewrite HT. cbn [rbind]. unfold get_bare_pulse.
      destruct (Forall_nth_error _ _ _ _ TU Ef _ CO) as (l & El & Ll).
      change (shape (prepare v T p)) with (shape p). rewrite (cm_shape _ _ (proj1 GP)). rewrite El. cbn. eauto. }
    rewrite Hps. cbn [rbind]. eexists. eexists. split; [reflexivity|]. now rewrite map_length, (rmap_length _ _ _ Hps).
  Qed.

  Lemma update_total pl tl rl c0 c x :
    new_controls pl tl rl = Ok c0 -> reachable c0 c -> usable pl tl ->
    x <> [] -> length x = get_control_parameters_number c ->
    exists c', update_base_controls x c = Ok c'.
  Proof.
    intros HC RC US NX LX.
    destruct (set_times_total _ _ _ _ _ _ HC RC NX (us_map _ _ US)) as (ts & Hts).
    destruct (pulse_ready _ _ _ _ _ _ _ HC RC US LX (or_introl Hts)) as (PD & LP & LR & PR). destruct US as [PB TU SA NB TI MI].
    unfold update_base_controls. rewrite Hts. cbn [rbind].
    match goal with |- context [rmap ?g (c_pulses c)] => destruct (rmap_total g (c_pulses c)) as (ps & Hps) end.
    { intros i p Ep. destruct (PD i p Ep) as (f & v & T & Ef & Hv & HT & GP & CO & b & Eb & Lb).
      rewrite Hv. cbn [rbind]. rewrite HT. cbn [rbind]. unfold set_base_pulse.
      destruct (Forall_nth_error _ _ _ _ TU Ef _ CO) as (l & El & Ll).
      change (shape (prepare v T p)) with (shape p). rewrite (cm_shape _ _ (proj1 GP)). rewrite El. cbn [rbind].
      change (pc_base (core (prepare v T p))) with (pc_base (core p)). rewrite Eb.
      destruct (pc_overwrite _); [eauto|]. unfold aiadd. rewrite abin_same by congruence. cbn [rbind].
      rewrite map2_length, Ll, Lb, PeanoNat.Nat.min_id, PeanoNat.Nat.eqb_refl. cbn. eauto. }
    rewrite Hps. cbn [rbind].
    match goal with |- context [rmap ?g (c_params c)] => destruct (rmap_total g (c_params c)) as (rs & Hrs) end.
    { intros i r Er. destruct (PR i r Er) as (y & ->). unfold set_parameter. cbn. eauto. }
    rewrite Hrs. cbn. eauto.
  Qed.

  Lemma select_total rs pos c : (forall p k a b, In p (c_pulses c) -> pc_dist (core p) = Some (k, a, b) -> k <> 0%nat) ->
    Forall plain (c_pulses c) -> exists c' q, select_basis rs pos c = Ok (c', q).
  Proof.
    unfold select_basis. generalize (seq 0 (length (c_pulses c))). intros idx. revert pos c.
    induction idx as [|i idx IH]; intros pos c H PL; cbn [select_basis_from]; [eauto|].
    destruct (nth_error (c_pulses c) i) as [p|] eqn:Ep; [|eauto].
    destruct (pc_dist (core p)) as [[[k a] b]|] eqn:Ed; [|now apply IH].
    unfold uniform_super_parameters. pose proof (H p k a b (nth_error_In _ _ Ep) Ed) as NZ.
    apply PeanoNat.Nat.eqb_neq in NZ. rewrite NZ. cbn [rbind].
    assert (PLp := Forall_nth_error _ _ _ _ PL Ep). unfold plain in PLp.
    match goal with |- context [update_control_parameter_indexes ?c1] => set (cc := c1) end.
    assert (DI : forall m ps, Forall plain ps -> map (fun p => pc_dist (core p)) (fst (reindex_pulses m ps)) = map (fun p => pc_dist (core p)) ps).
    { clear. intros m ps. revert m. induction ps as [|q ps IH]; intros m PL; [reflexivity|]. cbn [reindex_pulses].
      destruct (reindex_pulses _ ps) as [qs m'] eqn:E. inversion PL; subst. cbn [fst map]. f_equal.
      match type of E with reindex_pulses ?k ps = _ => specialize (IH k H2) end. now rewrite E in IH. }
    assert (PC : Forall plain (c_pulses cc)).
    { unfold cc. cbn [c_pulses]. clear - PL PLp. revert i. induction PL as [|q ps Hq PL IH]; intros [|i]; cbn; constructor; auto. }
    assert (DC : map (fun p => pc_dist (core p)) (c_pulses cc) = map (fun p => pc_dist (core p)) (c_pulses c)).
    { unfold cc. cbn [c_pulses]. apply map_set_nth_same with (a := p); [exact Ep|]. cbn. rewrite PLp. reflexivity. }
    assert (UP : c_pulses (update_control_parameter_indexes cc) = fst (reindex_pulses (-1) (c_pulses cc))).
    { unfold update_control_parameter_indexes. destruct (reindex_pulses (-1) (c_pulses cc)). reflexivity. }
    apply IH.
    - intros q k' a' b' Hq Hd. rewrite UP in Hq.
      assert (I : In (pc_dist (core q)) (map (fun p => pc_dist (core p)) (c_pulses c))).
      { rewrite <- DC, <- (DI (-1)%Z _ PC). apply in_map_iff. eauto. }
      apply in_map_iff in I as (q0 & E0 & I0). rewrite Hd in E0. exact (H q0 k' a' b' I0 E0).
    - rewrite UP. now apply reindex_plain.
  Qed.

  (** ** shipped bases *)
  Variable F : funs N.

  Lemma add_terms_total (term : nat -> res arr) l (b : list num) :
    (forall i, In i l -> exists t, term i = Ok (Ar t) /\ length t = length b) ->
    exists r, add_terms term l (Ar b) = Ok (Ar r) /\ length r = length b.
  Proof.
    revert b. induction l as [|i l IH]; intros b H; cbn [add_terms]; [eauto|].
    destruct (H i (or_introl eq_refl)) as (t & -> & Lt). cbn [rbind].
    rewrite aiadd_same_ok by congruence. cbn [rbind].
    assert (L : length (map2 nadd b t) = length b) by (rewrite map2_length; lia).
    destruct (IH (map2 nadd b t)) as (r & -> & Lr).
    - intros j Hj. destruct (H j (or_intror Hj)) as (u & E & Lu). exists u. split; [exact E|congruence].
    - exists r. split; [reflexivity|congruence].
  Qed.

  Lemma at_total (l : list num) i : (i < length l)%nat -> exists y, at_ l i = Ok y.
  Proof. intros H. exists (nth i l (of_Z 0)). now apply at_nth. Qed.

  Lemma fourier_total k c n : length (pc_time_grid c) = n -> pc_bins c = n -> length (pc_w c) = k -> length (pc_opt c) = (2 * k)%nat ->
    exists l, fourier_shape F k c = Ok (Ar l) /\ length l = n.
  Proof.
    intros LG LB LW LO. unfold fourier_shape, zero_pulse.
    destruct (add_terms_total (fourier_term F c) (seq 0 k) (zeros (pc_bins c))) as (r & -> & Lr).
    - intros i Hi. apply in_seq in Hi. unfold fourier_term.
      destruct (at_total (pc_opt c) (2 * i)) as (y & ->); [lia|]. cbn [rbind]. destruct (at_total (pc_w c) i) as (w & ->); [lia|]. cbn [rbind].
      destruct (at_total (pc_opt c) (2 * i + 1)) as (z & ->); [lia|]. cbn [rbind]. eexists; split; [reflexivity|]. rewrite map_length, zeros_length. congruence.
    - eexists; split; [reflexivity|]. rewrite Lr, zeros_length. exact LB.
  Qed.
  Lemma cheb_total k c n : length (pc_time_grid c) = n -> pc_bins c = n -> length (pc_w c) = k -> length (pc_opt c) = (2 * k)%nat ->
    exists l, chebyshev_shape F k c = Ok (Ar l) /\ length l = n.
  Proof.
    intros LG LB LW LO. unfold chebyshev_shape, zero_pulse.
    destruct (add_terms_total (chebyshev_term F c) (seq 0 k) (zeros (pc_bins c))) as (r & -> & Lr).
    - intros i Hi. apply in_seq in Hi. unfold chebyshev_term.
      destruct (at_total (pc_opt c) (2 * i)) as (y & ->); [lia|]. cbn [rbind]. destruct (at_total (pc_w c) i) as (w & ->); [lia|]. cbn [rbind].
      destruct (at_total (pc_opt c) (2 * i + 1)) as (z & ->); [lia|]. cbn [rbind]. eexists; split; [reflexivity|]. rewrite map_length, zeros_length. congruence.
    - eexists; split; [reflexivity|]. rewrite Lr, zeros_length. exact LB.
  Qed.
  Lemma sinc_total s c n : length (pc_time_grid c) = n -> pc_bins c = n -> length (pc_w c) = bs_k s -> length (pc_opt c) = bs_k s ->
    exists l, sinc_shape F s c = Ok (Ar l) /\ length l = n.
  Proof.
    intros LG LB LW LO. unfold sinc_shape, zero_pulse.
    destruct (add_terms_total (sinc_term F (bs_basis_max s) c) (seq 0 (bs_k s)) (zeros (pc_bins c))) as (r & -> & Lr).
    - intros i Hi. apply in_seq in Hi. unfold sinc_term.
      destruct (at_total (pc_opt c) i) as (y & ->); [lia|]. cbn [rbind]. destruct (at_total (pc_w c) i) as (w & ->); [lia|]. cbn [rbind].
      eexists; split; [reflexivity|]. rewrite map_length, zeros_length. congruence.
    - eexists; split; [reflexivity|]. rewrite Lr, zeros_length. exact LB.
  Qed.
  Lemma sigmoid_sum_total s c amps taus sigmas cl n : length (pc_time_grid c) = n -> pc_bins c = n ->
    (bs_k s < length amps)%nat -> (bs_k s <= length taus)%nat -> (bs_k s <= length sigmas)%nat ->
    exists l, sigmoid_sum F s c amps taus sigmas cl = Ok (Ar l) /\ length l = n.
  Proof.
    intros LG LB LA LT LS. unfold sigmoid_sum, zero_pulse.
    destruct (add_terms_total (fun i => a <-! at_ amps (i + 1); tau <-! at_ taus i; sg <-! at_ sigmas i; Ok (step F c a tau sg)) (seq 0 (bs_k s)) (zeros (pc_bins c))) as (r & -> & Lr).
    - intros i Hi. apply in_seq in Hi.
      destruct (at_total amps (i + 1)) as (y & ->); [lia|]. cbn [rbind]. destruct (at_total taus i) as (w & ->); [lia|]. cbn [rbind].
      destruct (at_total sigmas i) as (z & ->); [lia|]. cbn [rbind]. eexists; split; [reflexivity|]. rewrite map_length, zeros_length. congruence.
    - rewrite zeros_length in Lr. cbn [rbind]. destruct (at_total amps 0) as (a0 & ->); [lia|]. cbn [rbind].
      unfold step. rewrite aiadd_same_ok by (rewrite map_length; congruence). cbn [rbind].
      destruct cl.
      + rewrite aiadd_same_ok by (rewrite map2_length, !map_length; lia). eexists; split; [reflexivity|]. rewrite !map2_length, !map_length. lia.
      + eexists; split; [reflexivity|]. rewrite map2_length, map_length. lia.
  Qed.

  Lemma ins_length (x : num) l : length (insert x l) = S (length l).
  Proof. induction l as [|y l IH]; cbn; [reflexivity|]. destruct (x <=? y)%num; cbn; [reflexivity|]. now rewrite IH. Qed.
  Lemma sort_length (l : list num) : length (npsort l) = length l.
  Proof. induction l as [|x l IH]; [reflexivity|]. change (npsort (x :: l)) with (insert x (npsort l)). rewrite ins_length, IH. reflexivity. Qed.
  Lemma py_nth_total {A} (l : list A) i : l <> [] -> (i = 0 \/ i = -1)%Z -> exists y, py_nth l i = Ok y.
  Proof.
    intros NE H. assert (LN : (0 < length l)%nat) by (destruct l; [congruence|cbn; lia]).
    assert (E : py_nth l i = py_nth l (Z.of_nat (if (i <? 0)%Z then length l - 1 else 0))).
    { unfold py_nth. destruct H as [-> | ->]; [reflexivity|].
      cbn [Z.ltb Z.compare]. change (-1 <? 0)%Z with true. cbv iota.
      destruct (Z.of_nat (length l - 1) <? 0)%Z eqn:E1; [apply Z.ltb_lt in E1; lia|].
      replace (-1 + Z.of_nat (length l))%Z with (Z.of_nat (length l - 1)) by lia. reflexivity. }
    rewrite E, py_nth_nonneg. destruct (nth_error l _) eqn:E2; [eauto|]. apply nth_error_None in E2. destruct (i <? 0)%Z; lia.
  Qed.
  Lemma confine_taus_total off T (taus : list num) : taus <> [] -> exists r, confine_taus off T taus = Ok r /\ length r = length taus.
  Proof.
    intros NE. unfold confine_taus, first_of, last_of.
    assert (NS : npsort taus <> []) by (intros E; apply (f_equal (@length _)) in E; rewrite sort_length in E; destruct taus; [congruence|discriminate]).
    destruct (py_nth_total (npsort taus) 0 NS (or_introl eq_refl)) as (fi & ->). cbn [rbind].
    destruct (py_nth_total (npsort taus) (-1) NS (or_intror eq_refl)) as (la & ->). cbn [rbind].
    rewrite sort_length. destruct (Nat.eqb_spec (length taus) 1) as [E1|_].
    - destruct (_ <? _)%num; [eexists; split; [reflexivity|now rewrite E1]|].
      destruct (_ <? _)%num; [eexists; split; [reflexivity|now rewrite E1]|]. eauto.
    - destruct (_ || _)%bool; [|eauto]. eexists; split; [reflexivity|]. now rewrite !map_length.
  Qed.
  Lemma confine_sigmas_total s T (taus d : list num) : (length d <= length taus)%nat ->
    exists r, confine_sigmas F s T taus d = Ok r /\ length r = length d.
  Proof.
    intros H. unfold confine_sigmas.
    match goal with |- exists r, rmap ?g ?l = _ /\ _ => destruct (rmap_total g l) as (r & Hr) end.
    - intros i j Hj. apply nth_error_In, in_seq in Hj. destruct (at_total taus j) as (y & ->); [lia|]. cbn [rbind].
      destruct (at_total d j) as (z & ->); [lia|]. cbn [rbind]. eauto.
    - exists r. split; [exact Hr|]. now rewrite (rmap_length _ _ _ Hr), seq_length.
  Qed.

  Lemma allparas_split_lengths s k x amps dt ds : length x = (k + 1 + (if has_tau s then k else 0) + (if has_sigma s then k else 0))%nat ->
    allparas_split s k x = (amps, dt, ds) -> length amps = (k + 1)%nat /\ length dt = k /\ length ds = k.
  Proof.
    intros L E. unfold allparas_split in E. destruct (has_tau s), (has_sigma s); injection E as <- <- <-;
      rewrite ?map_length, ?firstn_length, ?skipn_length, ?zeros_length; lia.
  Qed.

  Lemma shipped_total b s u : b <> Walsh -> (0 < bs_k s)%nat -> total_update (shipped F b s u).
  Proof.
    intros NW K c CO. destruct CO as [Cb _ _ _ _ _ Cw Cg Co]. cbn [shipped pf_bins pf_shape pf_dist pf_nctrl] in *.
    destruct b; try congruence; cbn [basis_shape basis_nctrl] in *.
    - now apply fourier_total.
    - now apply sinc_total.
    - apply sigmoid_sum_total; auto; rewrite ?repeat_length; lia.
    - (* time dependent *) unfold sigmoid_timedep_shape.
      assert (H : Nat.div (length (pc_opt c) + 1) 2 = (bs_k s + 1)%nat).
      { rewrite Co. replace (2 * bs_k s + 1 + 1)%nat with ((bs_k s + 1) * 2)%nat by lia. apply Nat.div_mul. lia. }
      rewrite H. rewrite abin_same by (rewrite map_length, skipn_length; lia). cbn [rbind samples_of].
      destruct (confine_taus_total (bs_offset s) (pc_final_time c)
        (map2 nadd (pc_w c) (map (fun x => (x * bs_tau_var s / bs_ampl s)%num) (skipn (bs_k s + 1) (pc_opt c))))) as (r & -> & Lr).
      { intros E. apply (f_equal (@length _)) in E. rewrite map2_length, map_length, skipn_length in E. cbn in E. lia. }
      cbn [rbind]. rewrite map2_length, map_length, skipn_length in Lr. apply sigmoid_sum_total; auto; rewrite ?repeat_length, ?firstn_length; lia.
    - (* sigmas *) unfold sigmoid_sigmas_shape.
      assert (H : Nat.div (length (pc_opt c) + 1) 2 = (bs_k s + 1)%nat).
      { rewrite Co. replace (2 * bs_k s + 1 + 1)%nat with ((bs_k s + 1) * 2)%nat by lia. apply Nat.div_mul. lia. }
      rewrite H. set (d := map _ (skipn _ _)). assert (Ld : length d = bs_k s) by (unfold d; rewrite map_length, skipn_length; lia).
      destruct (em10 <=? bs_offset s)%num.
      + destruct (confine_sigmas_total s (pc_final_time c) (pc_w c) d ltac:(lia)) as (r & -> & Lr). cbn [rbind].
        apply sigmoid_sum_total; auto; rewrite ?firstn_length; lia.
      + cbn [rbind]. apply sigmoid_sum_total; auto; rewrite ?map_length, ?firstn_length; lia.
    - (* all parameters *) unfold sigmoid_allparas_shape.
      destruct (allparas_split s (length (pc_w c)) (pc_opt c)) as [[amps dt] ds] eqn:ES.
      apply allparas_split_lengths in ES as (La & Lt & Ls); [|rewrite Cw; lia].
      rewrite aiadd_same_ok by apply zeros_length. cbn [rbind].
      assert (Lz : length (map2 nadd (zeros (length (pc_w c))) (pc_w c)) = bs_k s) by (rewrite map2_length, zeros_length; lia).
      assert (TS : exists taus, (if has_tau s then taus <-! aiadd (Ar (map2 nadd (zeros (length (pc_w c))) (pc_w c))) (Ar dt);
          confine_taus (bs_offset s) (pc_final_time c) (samples_of taus) else Ok (samples_of (Ar (map2 nadd (zeros (length (pc_w c))) (pc_w c))))) = Ok taus
          /\ length taus = bs_k s).
      { destruct (has_tau s).
        - rewrite aiadd_same_ok by lia. cbn [rbind samples_of].
          destruct (confine_taus_total (bs_offset s) (pc_final_time c) (map2 nadd (map2 nadd (zeros (length (pc_w c))) (pc_w c)) dt)) as (r & -> & Lr).
          { intros E. apply (f_equal (@length _)) in E. rewrite map2_length in E. cbn in E. lia. }
          exists r. split; [reflexivity|]. rewrite Lr, map2_length. lia.
        - eexists; split; [reflexivity|]. exact Lz. }
      destruct TS as (taus & -> & Ltaus). cbn [rbind].
      destruct (has_sigma s && _)%bool.
      + destruct (confine_sigmas_total s (pc_final_time c) taus ds ltac:(lia)) as (r & -> & Lr). cbn [rbind].
        apply sigmoid_sum_total; auto; lia.
      + cbn [rbind]. apply sigmoid_sum_total; auto; rewrite ?map_length; lia.
    - now apply cheb_total.
    - now apply fourier_total.
    - exists (pc_opt c). split; [reflexivity|exact Co].
  Qed.
End Total.
