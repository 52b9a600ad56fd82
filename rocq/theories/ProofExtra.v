(** Corollaries assembled for the theorems of PropControls.v. *)
From Coq Require Import String ZArith List Bool Lia Reals Lra.
From Flocq Require Import Core.
From Verif Require Import Num NumFacts Py PyFacts ModelPulse ModelControls ModelBases SpecControls
  ProofControls ProofLimits ProofShrink ProofTimes ProofIndex ProofPipeline ProofEss ProofBase ProofSI
  ProofBases ProofCtl ProofTotal.
Import ListNotations.
Open Scope list_scope.

Section Generic.
  Context {N : Num}.

  Lemma default_nth f (gs ss b u : list num) j g s bj uj :
    pf_options f = None -> (j < pf_bins f)%nat ->
    nth_error gs j = Some g -> nth_error ss j = Some s -> nth_error b j = Some bj -> nth_error u j = Some uj ->
    nth_error (pipeline f {| i_guess := gs; i_scaling := ss; i_base := b; i_update := u |}) j =
    Some (cut (pf_lower f) (pf_upper f) (s * (cut (pf_lower f) (pf_upper f) g + of_Z 0 + bj + uj)))%num.
  Proof.
    intros OP J E1 E2 E3 E4. unfold pipeline, names_of. rewrite OP.
    cbn [fold_left option_effect default_names String.eqb Ascii.eqb Bool.eqb i_guess i_scaling i_base i_update].
    assert (EZ : nth_error (repeat (of_Z (Num := N) 0) (pf_bins f)) j = Some (of_Z 0)).
    { clear - J. revert j J. induction (pf_bins f) as [|n IH]; intros [|j] J; cbn; try lia; auto. apply IH. lia. }
    now rewrite nth_error_map, map2_nth, map2_nth, map2_nth, map2_nth, nth_error_map, E1, E2, E3, E4, EZ.
  Qed.

  Lemma delivered_default (O : NumOrder N) pl tl rl c0 c x c' d c'' us i f a g gs ss b bs u s j gj sj bj uj :
    new_controls pl tl rl = Ok c0 -> reachable c0 c ->
    get_controls_lists x c = Ok (c', d) -> get_bare_controls_lists x c' = Ok (c'', us) ->
    nth_error pl i = Some f -> plain_basis f -> pf_shrink f = false -> pf_options f = None ->
    nisnan (pf_lower f) = false -> nisnan (pf_upper f) = false ->
    nth_error (d_pulses d) i = Some a -> nth_error (d_timegrids d) i = Some g ->
    guess_samples f g = Some gs -> scaling_samples f g = Some ss ->
    base_of c i = Some b -> as_samples (pf_bins f) b = Some bs ->
    nth_error us i = Some u -> as_samples (pf_bins f) u = Some s -> (j < pf_bins f)%nat ->
    nth_error gs j = Some gj -> nth_error ss j = Some sj -> nth_error bs j = Some bj -> nth_error s j = Some uj ->
    nth_error (samples a) j =
    Some (cut (pf_lower f) (pf_upper f) (sj * (cut (pf_lower f) (pf_upper f) gj + of_Z 0 + bj + uj)))%num.
  Proof.
    intros H1 H2 H3 H4 H5 H6 H7 OP H8 H9 H10 H11 H12 H13 H14 H15 H16 H17 J E1 E2 E3 E4.
    destruct (delivered_pipeline O pl tl rl c0 c x c' d c'' us i f a g gs ss b bs u s
                H1 H2 H3 H4 H5 H6 H7 H8 H9 H10 H11 H12 H13 H14 H15 H16 H17) as (-> & _ & _).
    cbn [samples]. now apply default_nth.
  Qed.

  Lemma pipeline_unknown f l1 l2 s ing : ~ In s known_options ->
    pipeline (with_options (l1 ++ s :: l2) f) ing = pipeline (with_options (l1 ++ l2) f) ing.
  Proof.
    intros H. unfold pipeline, names_of, with_options. cbn [pf_options pf_lower pf_upper pf_bins].
    rewrite !fold_left_app. cbn [fold_left]. f_equal. apply option_effect_unknown, unknown_none, H.
  Qed.

  Lemma grid_end pl tl rl c0 c x c' d i f g :
    new_controls pl tl rl = Ok c0 -> reachable c0 c -> get_controls_lists x c = Ok (c', d) ->
    nth_error pl i = Some f -> plain_basis f -> nth_error (d_timegrids d) i = Some g ->
    exists T, time_of (c_times c') (pf_time_name f) = Ok T /\ length g = pf_bins f /\
      ((2 <= pf_bins f)%nat -> nth_error g (pf_bins f - 1) = Some T) /\
      (usable pl tl -> Forall array_guess pl -> x <> [] -> length x = get_control_parameters_number c ->
       exists l, nth_error (d_pulses d) i = Some (Ar l) /\ length l = length g).
  Proof.
    intros HC RC HG Hf PB Hg.
    assert (HA : exists a, nth_error (d_pulses d) i = Some a).
    { pose proof HG as HG2. unfold get_controls_lists in HG2. repeat (apply rbind_ok in HG2 as (? & ? & HG2)).
      injection HG2 as _ <-. cbn [d_timegrids] in Hg. cbn [d_pulses].
      match goal with |- exists a, nth_error (map snd ?l) i = _ => destruct (nth_error l i) as [q|] eqn:E end.
      - exists (snd q). now rewrite nth_error_map, E.
      - exfalso. rewrite nth_error_map in Hg. now rewrite E in Hg. }
    destruct HA as (a & Ha).
    destruct (delivered_pulse_full _ _ _ _ _ _ HG Ha) as (p & v & T & Ep & _ & HT & E & _).
    destruct (good_reachable _ _ _ _ PB RC (good_new _ _ _ _ _ _ HC Hf)) as (p' & Ep' & [M _]).
    rewrite Ep' in Ep. injection Ep as ->. rewrite (cm_time_name _ _ M) in HT. rewrite (cm_bins _ _ M) in E.
    rewrite E in Hg. injection Hg as <-. exists T. split; [exact HT|].
    assert (L : length (linspace0 T (pf_bins f)) = pf_bins f) by apply linspace0_length.
    split; [exact L|]. split; [apply linspace0_last|].
    intros US AG NX LX. destruct (delivery_total _ _ _ _ _ _ HC RC US AG NX LX) as (c2 & d2 & HG2 & _ & _ & _ & HP).
    rewrite HG in HG2. injection HG2 as <- <-. destruct (HP _ _ Hf) as (l & H1 & H2). exists l. split; [exact H1|congruence].
  Qed.

  Lemma parameter_limits (O : NumOrder N) pl tl rl c0 c x c' d i f v :
    new_controls pl tl rl = Ok c0 -> Forall plain_basis pl -> reachable c0 c ->
    get_controls_lists x c = Ok (c', d) -> nth_error rl i = Some f -> nth_error (d_parameters d) i = Some v ->
    Forall (fun g => length (pf_offset g) = pf_nctrl g) pl ->
    exists y, nth_error x (list_sum (map pf_nctrl pl) + i) = Some y /\
      (exists m, get_mean_value c' = Ok m /\ nth_error m (list_sum (map pf_nctrl pl) + i) = Some v) /\
      (nleb (rf_lower f) (rf_upper f) = true -> nisnan y = false ->
         nleb (rf_lower f) v = true /\ nleb v (rf_upper f) = true /\
         (nleb (rf_lower f) y = true -> nleb y (rf_upper f) = true ->
            v = y \/ (nleb y (rf_lower f) = true /\ v = rf_lower f))) /\
      (nltb (rf_upper f) (rf_lower f) = true -> nisnan y = false -> v = rf_upper f) /\
      (nisnan (rf_lower f) = false -> nisnan y = true -> v = y).
  Proof.
    intros HC PB RC HG Hf Hv HO.
    destruct (delivered_parameter _ _ _ _ _ _ _ _ _ _ _ HC PB RC HG Hf Hv) as (y & Hy & E & HV).
    exists y. split; [exact Hy|]. split; [|split; [|split]].
    - eexists. split; [exact (mean_value _ _ _ _ _ HC PB (reach_get _ _ _ _ _ RC HG) HO)|].
      assert (L : length (concat (map pf_offset pl)) = list_sum (map pf_nctrl pl)).
      { clear -HO. induction HO as [|g pl H _ IH]; [reflexivity|]. cbn [map concat]. rewrite app_length, IH, H. reflexivity. }
      rewrite nth_error_app2 by lia. replace (_ + i - _)%nat with i by lia. rewrite nth_error_map. exact HV.
    - intros H1 H2. rewrite E. exact (param_inside O _ _ _ H1 H2).
    - intros H1 H2. rewrite E. exact (param_swapped O _ _ _ H1 H2).
    - intros H1 H2. rewrite E. exact (param_nan O _ _ _ H1 H2).
  Qed.

  Lemma index_partition pl tl rl c0 c :
    new_controls pl tl rl = Ok c0 -> Forall plain_basis pl -> reachable c0 c ->
    concat (map (fun p => pc_indices (core p)) (c_pulses c) ++ map pa_indices (c_params c))
      = map Z.of_nat (seq 0 (get_control_parameters_number c)) /\
    get_control_parameters_number c = (list_sum (map pf_nctrl pl) + length rl)%nat /\
    map (fun p => length (pc_indices (core p))) (c_pulses c) = map pf_nctrl pl /\
    map (fun p => length (pa_indices p)) (c_params c) = map (fun _ => 1%nat) rl.
  Proof.
    intros HC PB RC.
    pose proof (new_controls_wi _ _ _ _ HC PB) as W0.
    pose proof (reachable_fix _ _ W0 RC) as SF. pose proof (same_fix_wi _ _ SF W0) as W.
    destruct (new_controls_sizes _ _ _ _ HC) as [S1 S2]. destruct (same_fix_sizes _ _ SF) as [S3 S4].
    split; [exact (wi_concat _ W)|]. split; [|split].
    - rewrite number_eq. unfold sizes_of in *. now rewrite S3, S1, S4, S2.
    - rewrite <- S1, <- S3. unfold sizes_of. apply map_ext_in. intros p Hp. apply In_nth_error in Hp as (k & Hk).
      rewrite (wi_pulse_indices _ _ _ W Hk), map_length, seq_length. reflexivity.
    - assert (E : map (fun p => length (pa_indices p)) (c_params c) = map (fun _ => 1%nat) (c_params c)).
      { apply map_ext_in. intros p Hp. apply In_nth_error in Hp as (k & Hk). now rewrite (wi_param_indices _ _ _ W Hk). }
      rewrite E. assert (L : length (c_params c) = length rl) by congruence. clear -L. revert rl L.
      induction (c_params c) as [|p ps IH]; intros [|q rl] L; try discriminate L; [reflexivity|]. cbn [map]. f_equal. apply IH. now injection L.
  Qed.

  Lemma no_parameters_raise pl tl rl : (exists f, In f pl /\ pf_nctrl f = 0%nat) ->
    new_controls (N := N) pl tl rl = Err IndexError.
  Proof.
    intros (f & Hf & Z). unfold new_controls.
    enough (E : forall m, new_pulses m pl = Err IndexError) by now rewrite E.
    induction pl as [|g pl IH]; [contradiction|]. intros m. cbn [new_pulses]. unfold new_pulse.
    destruct (pf_nctrl g) as [|n] eqn:En.
    - cbn [index_list seq map]. reflexivity.
    - rewrite index_list_last by discriminate. cbn [rbind]. destruct Hf as [->|Hf]; [congruence|]. rewrite (IH Hf). reflexivity.
  Qed.
End Generic.

Section Exact.
  Local Open Scope R_scope.
  Lemma time_grid pl tl rl c0 c x c' d i f g :
    new_controls (N := Rnum) pl tl rl = Ok c0 -> reachable c0 c -> get_controls_lists x c = Ok (c', d) ->
    nth_error pl i = Some f -> plain_basis f -> nth_error (d_timegrids d) i = Some g ->
    exists T, time_of (c_times c') (pf_time_name f) = Ok T /\
      length g = pf_bins f /\ equally_spaced T (pf_bins f) g /\
      (forall y, nth_error g 0 = Some y -> y = 0) /\
      ((2 <= pf_bins f)%nat -> nth_error g (pf_bins f - 1) = Some T) /\
      (0 <= T -> forall j k y z, (j <= k)%nat -> nth_error g j = Some y -> nth_error g k = Some z -> y <= z) /\
      (0 <= T -> forall y, In y g -> 0 <= y <= T).
  Proof.
    intros HC RC HG Hf PB Hg.
    destruct (grid_end _ _ _ _ _ _ _ _ _ _ _ HC RC HG Hf PB Hg) as (T & HT & L & _).
    destruct (delivered_grid _ _ _ _ _ _ _ _ _ _ _ HC RC HG Hf PB Hg) as (T' & HT' & ES).
    assert (T' = T) as -> by (pose proof (eq_trans (eq_sym HT) HT') as E; now injection E).
    exists T. split; [exact HT|]. split; [exact L|]. split; [exact ES|]. exact (spaced_facts _ _ _ ES).
  Qed.

  Lemma parameter_inside_R pl tl rl c0 c x c' d i f v y :
    new_controls (N := Rnum) pl tl rl = Ok c0 -> Forall plain_basis pl -> reachable c0 c ->
    get_controls_lists x c = Ok (c', d) -> nth_error rl i = Some f -> nth_error (d_parameters d) i = Some v ->
    nth_error x (list_sum (map pf_nctrl pl) + i) = Some y -> rf_lower f <= y <= rf_upper f -> v = y.
  Proof.
    intros HC PB RC HG Hf Hv Hy [H1 H2].
    destruct (delivered_parameter _ _ _ _ _ _ _ _ _ _ _ HC PB RC HG Hf Hv) as (y' & Hy' & E & _).
    pose proof (eq_trans (eq_sym Hy) Hy') as E2. injection E2 as <-.
    refine (eq_trans E _). unfold npmin, npmax. cbn.
    change (@num Rnum) with R in *.
    destruct (Rle_bool_spec y (rf_lower f)); cbn;
      repeat match goal with |- context [Rle_bool ?a ?b] => destruct (Rle_bool_spec a b); cbn
        | |- context [Rlt_bool ?a ?b] => destruct (Rlt_bool_spec a b); cbn end; lra.
  Qed.

  Lemma equal_limits_raise pl tl rl t :
    In t tl -> tf_opt t = true -> tf_upper t = tf_lower t -> Forall (fun f => pf_nctrl f <> 0%nat) pl ->
    new_controls (N := Rnum) pl tl rl = Err ZeroDivisionError.
  Proof.
    intros Ht HO HE NZ. unfold new_controls.
    assert (P : forall m, exists q, new_pulses (N := Rnum) m pl = Ok q).
    { clear -NZ. induction NZ as [|f pl Hf _ IH]; intros m; cbn [new_pulses]; [eauto|].
      unfold new_pulse. rewrite index_list_last by exact Hf. cbn [rbind].
      match goal with |- context [new_pulses ?k pl] => destruct (IH k) as ([ps m'] & ->) end. cbn. eauto. }
    destruct (P (-1)%Z) as ([ps m] & ->). cbn [rbind].
    enough (E : forall d, new_times (N := Rnum) tl d = Err ZeroDivisionError) by now rewrite E.
    induction tl as [|s tl IH]; [contradiction|]. intros d. cbn [new_times].
    destruct (new_time s) as [q|e] eqn:Es.
    - cbn [rbind]. destruct Ht as [->|Ht]; [|now apply IH]. exfalso. unfold new_time in Es. rewrite HO in Es. cbn in Es.
      change (@num Rnum) with R in *. destruct (Req_bool_spec (tf_upper t - tf_lower t) 0); [discriminate|lra].
    - unfold new_time in Es. destruct (tf_opt s); [|discriminate]. destruct (neqb _ _) in Es; [|discriminate]. injection Es as <-. reflexivity.
  Qed.
End Exact.
