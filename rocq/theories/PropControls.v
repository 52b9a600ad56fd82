(** * Pulses, parameters, durations and the optimisation vector (C01-C14, C30, C56, C57).
    Every theorem is followed by a concrete case and by its assumptions. *)
From Coq Require Import String ZArith List Bool Lia Reals Lra.
From Flocq Require Import BinarySingleNaN.
From Verif Require Import Num NumFacts Py PyFacts ModelPulse ModelControls ModelBases SpecControls
  ProofControls ProofLimits ProofShrink ProofTimes ProofIndex ProofPipeline ProofEss ProofBase ProofSI
  ProofBases ProofCtl ProofTotal ProofExtra ExampleControls.
Import ListNotations.
Open Scope list_scope.
Open Scope bool_scope.

(** ** C01 *)

(** Clipping, limit_pulse last: every delivered sample is NaN or between the two limits.  For every number
    system with the order laws: reals and IEEE doubles. *)
Theorem C01_samples_within_limits (N : Num) (O : NumOrder N) pl tl rl c0 c x c' d i f a :
  new_controls pl tl rl = Ok c0 -> reachable c0 c -> get_controls_lists x c = Ok (c', d) ->
  nth_error pl i = Some f -> nth_error (d_pulses d) i = Some a ->
  plain_basis f -> pf_shrink f = false -> ends_with_limit (pf_options f) ->
  nisnan (pf_lower f) = false -> nisnan (pf_upper f) = false ->
  forall y, In y (samples a) -> nisnan y = true \/ between (pf_lower f) (pf_upper f) y.
Proof. exact (samples_within_limits O pl tl rl c0 c x c' d i f a). Qed.

(** Exactly: the delivered samples are those delivered with the trailing limit_pulse removed, each cut at the
    limits (unchanged inside, NaN stays NaN). *)
Theorem C01_cut_exactly (N : Num) (O : NumOrder N) pl tl rl c0 c x c' d i f a pre post :
  new_controls pl tl rl = Ok c0 -> reachable c0 c -> get_controls_lists x c = Ok (c', d) ->
  nth_error pl i = Some f -> plain_basis f -> ignores_options f -> pf_shrink f = false ->
  nisnan (pf_lower f) = false -> nisnan (pf_upper f) = false ->
  names_of f = pre ++ "limit_pulse"%string :: post -> (forall s, In s post -> ~ In s known_options) ->
  nth_error (d_pulses d) i = Some a ->
  exists u cu du, get_controls_lists x (with_pulse_options i pre c) = Ok (cu, du) /\
    nth_error (d_pulses du) i = Some u /\ samples a = map (cut (pf_lower f) (pf_upper f)) (samples u).
Proof. exact (delivered_cut O pl tl rl c0 c x c' d i f a pre post). Qed.

(** 5 and -7 are cut to 1 and -1, NaN is delivered as NaN, 0.5 is unchanged. *)
Example C01_example : exists c0 c c' d,
  new_controls (N := F64) [ex_plain 4] [ex_time 1 0 2 false] [] = Ok c0 /\ reachable c0 c /\
  get_controls_lists (N := F64) [f64_of_Z 5; f64_of_Z (-7); f64_nan; f64_lit 1 (-1)] c = Ok (c', d) /\
  map samples (d_pulses d) = [[f64_of_Z 1; f64_of_Z (-1); f64_nan; f64_lit 1 (-1)]] /\
  plain_basis (N := F64) (ex_plain 4) /\ ignores_options (N := F64) (ex_plain 4) /\
  ends_with_limit (pf_options (N := F64) (ex_plain 4)) /\
  names_of (N := F64) (ex_plain 4) = firstn 4 default_names ++ "limit_pulse"%string :: [].
Proof.
  destruct (case_ok_exists (N := F64) [ex_plain 4] [ex_time 1 0 2 false] [] []
    [f64_of_Z 5; f64_of_Z (-7); f64_nan; f64_lit 1 (-1)]
    (fun _ _ d => pulses_are d [[f64_of_Z 1; f64_of_Z (-1); f64_nan; f64_lit 1 (-1)]])) as (c0 & c & c' & d & H1 & H2 & _ & H3 & H4).
  { vm_compute. reflexivity. }
  exists c0, c, c', d. repeat (split; [assumption|]). split; [now apply pulses_are_eq|].
  split; [apply shipped_plain|]. split; [apply shipped_ignores_options|]. split; [exact I|reflexivity].
Qed.

(** If limit_pulse is not last the limits can be exceeded. *)
Theorem C01_limit_not_last_refuted : exists f c0 c c' d y,
  pf_shrink f = false /\ pf_options f = Some ["limit_pulse"; "add_new_update_pulse"]%string /\ plain_basis f /\
  new_controls (N := F64) [f] [ex_time 1 0 2 false] [] = Ok c0 /\ reachable c0 c /\
  get_controls_lists (N := F64) [f64_of_Z 5] c = Ok (c', d) /\ map samples (d_pulses d) = [[y]] /\
  nisnan y = false /\ ~ between (pf_lower f) (pf_upper f) y.
Proof.
  exists (ex_pulse Piecewise 1 GOther SOther false (Some ["limit_pulse"; "add_new_update_pulse"]%string) false).
  destruct (case_ok_exists (N := F64) [ex_pulse Piecewise 1 GOther SOther false (Some ["limit_pulse"; "add_new_update_pulse"]%string) false]
    [ex_time 1 0 2 false] [] [] [f64_of_Z 5] (fun _ _ d => pulses_are d [[f64_of_Z 5]])) as (c0 & c & c' & d & H1 & H2 & _ & H3 & H4).
  { vm_compute. reflexivity. }
  exists c0, c, c', d, (f64_of_Z 5). split; [reflexivity|]. split; [reflexivity|]. split; [apply shipped_plain|].
  repeat (split; [assumption|]). split; [now apply pulses_are_eq|].
  split; [vm_compute; reflexivity|]. intros [[_ H]|[_ H]]; vm_compute in H; discriminate.
Qed.
Print Assumptions C01_samples_within_limits.
Print Assumptions C01_cut_exactly.
Print Assumptions C01_limit_not_last_refuted.

(** ** C02 *)
(** Shrinking, exact arithmetic: [u] is what the same pulse object delivers with the trailing limit removed. *)
Theorem C02_shrink pl tl rl c0 c x c' d i f a pre post :
  new_controls (N := Rnum) pl tl rl = Ok c0 -> reachable c0 c -> get_controls_lists x c = Ok (c', d) ->
  nth_error pl i = Some f -> plain_basis f -> ignores_options f -> pf_shrink f = true ->
  names_of f = pre ++ "limit_pulse"%string :: post -> (forall s, In s post -> ~ In s known_options) ->
  nth_error (d_pulses d) i = Some a ->
  let lo := Rmin (pf_lower f) (pf_upper f) in let hi := Rmax (pf_lower f) (pf_upper f) in
  exists u cu du, get_controls_lists x (with_pulse_options i pre c) = Ok (cu, du) /\
    nth_error (d_pulses du) i = Some (Ar u) /\
    (forall y, In y (samples a) -> (lo <= y <= hi)%R) /\
    ((forall y, In y u -> (lo <= y <= hi)%R) -> a = Ar u) /\
    ((exists y, In y u /\ (y < hi)%R) -> (exists y, In y u /\ (lo < y)%R) ->
       exists k b, (0 <= k <= 1)%R /\ ((lo < hi)%R -> (0 < k)%R) /\ a = Ar (map (fun y => k * y + b)%R u)) /\
    ((forall y, In y u -> (hi <= y)%R) -> a = Ar (map (fun _ => hi) u)) /\
    ((forall y, In y u -> (y <= lo)%R) -> a = Ar (map (fun _ => lo) u)).
Proof. exact (delivered_shrink_spec pl tl rl c0 c x c' d i f a pre post). Qed.

Lemma ex_R_delivery b bins shrink x : b <> Walsh -> bins <> 0%nat ->
  length x = basis_nctrl (N := Rnum) b (ex_basis 1) bins -> x <> [] ->
  exists c0 c' d, new_controls (N := Rnum) [ex_std b bins shrink] [ex_time 1 0 2 false] [] = Ok c0 /\
    get_controls_lists x c0 = Ok (c', d) /\ exists l, nth_error (d_pulses d) 0 = Some (Ar l) /\ length l = bins.
Proof.
  intros NW NB LX NX.
  assert (NC : exists c0, new_controls (N := Rnum) [ex_std b bins shrink] [ex_time 1 0 2 false] [] = Ok c0).
  { unfold new_controls. cbn [new_pulses]. unfold new_pulse. rewrite index_list_last.
    - cbn. eauto.
    - cbn [ex_std ex_pulse shipped pf_nctrl ex_common cs_bins]. rewrite <- LX. destruct x; [congruence|discriminate]. }
  destruct NC as (c0 & HC). exists c0.
  destruct (ex_usable [ex_std b bins shrink] [ex_time 1 0 2 false]) as [US AG].
  { intros f [<-|[]]. now apply ex_std_ready. } { now exists 1%Z, 0%Z, 2%Z, false. }
  destruct (delivery_total _ _ _ _ _ x HC (reach_refl c0) US AG NX) as (c' & d & HG & _ & _ & _ & HP).
  { rewrite number_eq. destruct (new_controls_sizes _ _ _ _ HC) as [S1 S2]. unfold sizes_of in S1. rewrite S1, S2. cbn. rewrite !Nat.add_0_r. exact LX. }
  exists c', d. split; [exact HC|]. split; [exact HG|]. exact (HP 0%nat _ eq_refl).
Qed.

Example C02_example : exists c0 c' d a,
  new_controls (N := Rnum) [ex_std Piecewise 2 true] [ex_time 1 0 2 false] [] = Ok c0 /\
  get_controls_lists [-3%R; 1%R] c0 = Ok (c', d) /\
  plain_basis (N := Rnum) (ex_std Piecewise 2 true) /\ ignores_options (N := Rnum) (ex_std Piecewise 2 true) /\
  names_of (N := Rnum) (ex_std Piecewise 2 true) = firstn 4 default_names ++ "limit_pulse"%string :: [] /\
  nth_error (d_pulses d) 0 = Some a.
Proof.
  destruct (ex_R_delivery Piecewise 2 true [-3%R; 1%R]) as (c0 & c' & d & H1 & H2 & l & H3 & _); try discriminate; [reflexivity|].
  exists c0, c', d, (Ar l). split; [exact H1|]. split; [exact H2|]. split; [apply shipped_plain|].
  split; [apply shipped_ignores_options|]. split; [reflexivity|exact H3].
Qed.

(** In IEEE arithmetic the upper limit 1 is exceeded by one unit in the last place:
    samples -0.7, 2.5 shrink to -0.7, 1.0000000000000002. *)
Theorem C02_rounding_refuted : exists c0 c c' d,
  new_controls (N := F64) [ex_std Piecewise 2 true] [ex_time 1 0 2 false] [] = Ok c0 /\ reachable c0 c /\
  get_controls_lists (N := F64) [f64_lit (-0x16666666666666) (-53); f64_lit 5 (-1)] c = Ok (c', d) /\
  exists y, In y (samples (N := F64) (nth 0 (d_pulses d) (Ar []))) /\ nltb (Num := F64) (f64_of_Z 1) y = true.
Proof.
  destruct (case_ok_exists (N := F64) [ex_std Piecewise 2 true] [ex_time 1 0 2 false] [] []
    [f64_lit (-0x16666666666666) (-53); f64_lit 5 (-1)]
    (fun _ _ d => nltb (Num := F64) (f64_of_Z 1) (nth 1 (samples (nth 0 (d_pulses d) (Ar []))) (f64_of_Z 0)))) as (c0 & c & c' & d & H1 & H2 & _ & H3 & H4).
  { vm_compute. reflexivity. }
  exists c0, c, c', d. repeat (split; [assumption|]).
  exists (nth 1 (samples (nth 0 (d_pulses d) (Ar []))) (f64_of_Z 0)). split; [|exact H4].
  destruct (Nat.lt_ge_cases 1 (length (samples (nth 0 (d_pulses d) (Ar []))))) as [L|L].
  - now apply nth_In.
  - exfalso. rewrite nth_overflow in H4 by exact L. vm_compute in H4. discriminate.
Qed.
Print Assumptions C02_shrink.
Print Assumptions C02_rounding_refuted.

(** ** C03 *)
(** The delivered pulse is the left-to-right effect of the recognised option names on the samples of guess,
    scaling, base pulse and update, starting from zero; it has one sample per bin. *)
Theorem C03_pipeline (N : Num) (O : NumOrder N) pl tl rl c0 c x c' d c'' us i f a g gs ss b bs u s :
  new_controls pl tl rl = Ok c0 -> reachable c0 c ->
  get_controls_lists x c = Ok (c', d) -> get_bare_controls_lists x c' = Ok (c'', us) ->
  nth_error pl i = Some f -> plain_basis f -> pf_shrink f = false ->
  nisnan (pf_lower f) = false -> nisnan (pf_upper f) = false ->
  nth_error (d_pulses d) i = Some a -> nth_error (d_timegrids d) i = Some g ->
  guess_samples f g = Some gs -> scaling_samples f g = Some ss ->
  base_of c i = Some b -> as_samples (pf_bins f) b = Some bs ->
  nth_error us i = Some u -> as_samples (pf_bins f) u = Some s ->
  a = Ar (pipeline f {| i_guess := gs; i_scaling := ss; i_base := bs; i_update := s |}) /\
  length (pipeline f {| i_guess := gs; i_scaling := ss; i_base := bs; i_update := s |}) = pf_bins f /\
  length g = pf_bins f.
Proof. exact (delivered_pipeline O pl tl rl c0 c x c' d c'' us i f a g gs ss b bs u s). Qed.

(** the default list, sample by sample: cut (scaling * (cut guess + base + update)) *)
Theorem C03_default (N : Num) (O : NumOrder N) pl tl rl c0 c x c' d c'' us i f a g gs ss b bs u s j gj sj bj uj :
  new_controls pl tl rl = Ok c0 -> reachable c0 c ->
  get_controls_lists x c = Ok (c', d) -> get_bare_controls_lists x c' = Ok (c'', us) ->
  nth_error pl i = Some f -> plain_basis f -> pf_shrink f = false -> pf_options f = None ->
  nisnan (pf_lower f) = false -> nisnan (pf_upper f) = false ->
  nth_error (d_pulses d) i = Some a -> nth_error (d_timegrids d) i = Some g ->
  guess_samples f g = Some gs -> scaling_samples f g = Some ss ->
  base_of c i = Some b -> as_samples (pf_bins f) b = Some bs ->
  nth_error us i = Some u -> as_samples (pf_bins f) u = Some s -> (j < pf_bins f)%nat ->
  nth_error gs j = Some gj -> nth_error ss j = Some sj -> nth_error bs j = Some bj -> nth_error s j = Some uj ->
  nth_error (samples a) j =
  Some (cut (pf_lower f) (pf_upper f) (sj * (cut (pf_lower f) (pf_upper f) gj + of_Z 0 + bj + uj)))%num.
Proof. exact (delivered_default O pl tl rl c0 c x c' d c'' us i f a g gs ss b bs u s j gj sj bj uj). Qed.

(** names that are not options change nothing *)
Theorem C03_unknown_names (N : Num) f l1 l2 s ing : ~ In s known_options ->
  pipeline (with_options (l1 ++ s :: l2) f) ing = pipeline (with_options (l1 ++ l2) f) ing.
Proof. exact (pipeline_unknown f l1 l2 s ing). Qed.

Example C03_example : exists c0 c c' d c'' us,
  new_controls (N := F64) [ex_plain 2] [ex_time 1 0 2 false] [] = Ok c0 /\ reachable c0 c /\
  get_controls_lists (N := F64) [f64_lit 1 (-1); f64_of_Z 9] c = Ok (c', d) /\
  get_bare_controls_lists (N := F64) [f64_lit 1 (-1); f64_of_Z 9] c' = Ok (c'', us) /\
  map samples (d_pulses d) = [[f64_lit 3 (-2); f64_of_Z 1]].
Proof.
  destruct (case_ok_exists (N := F64) [ex_plain 2] [ex_time 1 0 2 false] []
    [OUpdate (N := F64) [f64_lit 1 (-2); f64_of_Z 0]] [f64_lit 1 (-1); f64_of_Z 9]
    (fun _ c' d => pulses_are d [[f64_lit 3 (-2); f64_of_Z 1]] &&
       match get_bare_controls_lists (N := F64) [f64_lit 1 (-1); f64_of_Z 9] c' with Ok _ => true | Err _ => false end))
    as (c0 & c & c' & d & H1 & H2 & _ & H3 & H4).
  { vm_compute. reflexivity. }
  apply andb_prop in H4 as [H4 H5]. destruct (get_bare_controls_lists _ c') as [[c'' us]|] eqn:E; [|discriminate].
  exists c0, c, c', d, c'', us. repeat (split; [assumption|]). now apply pulses_are_eq.
Qed.
Print Assumptions C03_pipeline.
Print Assumptions C03_default.
Print Assumptions C03_unknown_names.

(** ** C04 *)
Theorem C04_boundaries_pinned pl tl rl c0 c x c' d i f a g gs ss j :
  new_controls (N := Rnum) pl tl rl = Ok c0 -> Forall plain_basis pl -> reachable c0 c ->
  get_controls_lists x c = Ok (c', d) -> nth_error pl i = Some f -> regular_update f -> pf_shrink f = false ->
  pf_options f = Some ["add_base_pulse"; "add_new_update_pulse"; "scale_pulse"; "add_initial_guess"; "limit_pulse"]%string ->
  nth_error (d_pulses d) i = Some a -> nth_error (d_timegrids d) i = Some g ->
  guess_samples f g = Some gs -> scaling_samples f g = Some ss -> nth_error ss j = Some 0%R ->
  exists y, nth_error gs j = Some y /\ nth_error (samples a) j = Some (cut (N := Rnum) (pf_lower f) (pf_upper f) y).
Proof. exact (pinned pl tl rl c0 c x c' d i f a g gs ss j). Qed.

Definition C04_pulse : pulse_cfg (N := Rnum) :=
  ex_pulse Piecewise 2 (GArr [7%R; 7%R]) (SArr [0%R; 1%R]) false
    (Some ["add_base_pulse"; "add_new_update_pulse"; "scale_pulse"; "add_initial_guess"; "limit_pulse"]%string) false.
Example C04_example : exists c0 c c' d a g,
  new_controls [C04_pulse] [ex_time 1 0 2 false] [] = Ok c0 /\ Forall plain_basis [C04_pulse] /\ reachable c0 c /\
  get_controls_lists [5%R; 6%R] c = Ok (c', d) /\ regular_update C04_pulse /\
  nth_error (d_pulses d) 0 = Some a /\ nth_error (d_timegrids d) 0 = Some g /\
  guess_samples C04_pulse g = Some [7%R; 7%R] /\ scaling_samples C04_pulse g = Some [0%R; 1%R].
Proof.
  assert (RD : ex_ready C04_pulse).
  { eexists _, _, _, _, _, _, _. split; [reflexivity|]. split; [discriminate|]. split; [discriminate|].
    split; [eexists; split; reflexivity|right; eexists; split; reflexivity]. }
  destruct (ex_usable [C04_pulse] [ex_time 1 0 2 false]) as [US AG].
  { intros f [<-|[]]. exact RD. } { now exists 1%Z, 0%Z, 2%Z, false. }
  destruct (new_controls [C04_pulse] [ex_time 1 0 2 false] []) as [c0|] eqn:HC; [|vm_compute in HC; discriminate].
  assert (NUM : forall c, reachable c0 c -> get_control_parameters_number c = 2%nat).
  { intros c RC. rewrite number_eq. destruct (new_controls_sizes _ _ _ _ HC) as [S1 S2].
    destruct (same_fix_sizes _ _ (reachable_fix _ _ (new_controls_wi _ _ _ _ HC (us_plain _ _ US)) RC)) as [S3 S4].
    unfold sizes_of in *. now rewrite S3, S4, S1, S2. }
  destruct (delivery_total _ _ _ _ _ [5%R; 6%R] HC (reach_refl c0) US AG) as (c' & d & HG & _ & LG & _ & HP); [discriminate|now rewrite NUM by constructor|].
  destruct (HP 0%nat _ eq_refl) as (l & El & Ll).
  destruct (d_timegrids d) as [|g gs] eqn:EG; [discriminate|].
  exists c0, c0, c', d, (Ar l), g. split; [reflexivity|]. split; [exact (us_plain _ _ US)|]. split; [constructor|].
  split; [exact HG|]. split; [apply shipped_regular; discriminate|]. split; [exact El|]. rewrite EG. auto.
Qed.
Print Assumptions C04_boundaries_pinned.

(** ** C05 *)
Theorem C05_time_grid pl tl rl c0 c x c' d i f g :
  new_controls (N := Rnum) pl tl rl = Ok c0 -> reachable c0 c -> get_controls_lists x c = Ok (c', d) ->
  nth_error pl i = Some f -> plain_basis f -> nth_error (d_timegrids d) i = Some g ->
  exists T, time_of (c_times c') (pf_time_name f) = Ok T /\
    length g = pf_bins f /\ equally_spaced T (pf_bins f) g /\
    (forall y, nth_error g 0 = Some y -> y = 0%R) /\
    ((2 <= pf_bins f)%nat -> nth_error g (pf_bins f - 1) = Some T) /\
    ((0 <= T)%R -> forall j k y z, (j <= k)%nat -> nth_error g j = Some y -> nth_error g k = Some z -> (y <= z)%R) /\
    ((0 <= T)%R -> forall y, In y g -> (0 <= y <= T)%R).
Proof. exact (time_grid pl tl rl c0 c x c' d i f g). Qed.

(** the last point is the duration itself also in floating point, and the pulse has as many samples *)
Theorem C05_grid_end (N : Num) pl tl rl c0 c x c' d i f g :
  new_controls pl tl rl = Ok c0 -> reachable c0 c -> get_controls_lists x c = Ok (c', d) ->
  nth_error pl i = Some f -> plain_basis f -> nth_error (d_timegrids d) i = Some g ->
  exists T, time_of (c_times c') (pf_time_name f) = Ok T /\ length g = pf_bins f /\
    ((2 <= pf_bins f)%nat -> nth_error g (pf_bins f - 1) = Some T) /\
    (usable pl tl -> Forall array_guess pl -> x <> [] -> length x = get_control_parameters_number c ->
     exists l, nth_error (d_pulses d) i = Some (Ar l) /\ length l = length g).
Proof. exact (grid_end pl tl rl c0 c x c' d i f g). Qed.

Example C05_example : exists c0 c' d g,
  new_controls (N := Rnum) [ex_std Fourier 3 false] [ex_time 1 0 2 false] [] = Ok c0 /\
  get_controls_lists [5%R; 6%R] c0 = Ok (c', d) /\ plain_basis (N := Rnum) (ex_std Fourier 3 false) /\
  nth_error (d_timegrids d) 0 = Some g.
Proof.
  destruct (ex_R_delivery Fourier 3 false [5%R; 6%R]) as (c0 & c' & d & H1 & H2 & l & H3 & _); try discriminate; [reflexivity|].
  destruct (delivered_pulse_full _ _ _ _ _ _ H2 H3) as (p & v & T & _ & _ & _ & E & _).
  exists c0, c', d, (linspace0 T (pc_bins (core p))). repeat (split; [assumption|]). split; [apply shipped_plain|exact E].
Qed.
Print Assumptions C05_time_grid.
Print Assumptions C05_grid_end.

(** ** C06 *)
Theorem C06_base_is_sum (N : Num) pl tl rl c0 us c i f :
  new_controls pl tl rl = Ok c0 -> Forall plain_basis pl -> nth_error pl i = Some f ->
  ignores_base f -> pf_overwrite f = false -> accepted c0 us c ->
  (forall u, In u us -> exists s, nth_error u i = Some (Ar s) /\ length s = pf_bins f) ->
  base_of c i = Some (Ar (fold_left (fun b u => match nth_error u i with Some (Ar s) => map2 nadd b s | _ => b end) us
                                    (repeat (of_Z 0) (pf_bins f)))) /\
  length (fold_left (fun b u => match nth_error u i with Some (Ar s) => map2 nadd b s | _ => b end) us
                                    (repeat (of_Z 0) (pf_bins f))) = pf_bins f.
Proof. exact (accepted_bases pl tl rl c0 us c i f). Qed.

Theorem C06_overwrite_keeps_last (N : Num) pl tl rl c0 us c i f u :
  new_controls pl tl rl = Ok c0 -> Forall plain_basis pl -> nth_error pl i = Some f ->
  ignores_base f -> pf_overwrite f = true -> accepted c0 (us ++ [u]) c -> base_of c i = nth_error u i.
Proof. exact (accepted_overwrite pl tl rl c0 us c i f u). Qed.

(** two super-iterations, in between a new selection and an evaluation *)
Definition C06_run : option (list (arr (N := F64)) * list (arr (N := F64)) * option (arr (N := F64))) :=
  match new_controls (N := F64) [ex_plain 1] [ex_time 1 0 2 false] [] with
  | Ok c0 => match update_base_controls (N := F64) [f64_of_Z 2] c0 with
    | Ok c1 => match get_bare_controls_lists (N := F64) [f64_of_Z 2] c1, select_basis (N := F64) (fun _ => f64_of_Z 0) 0 c1 with
      | Ok (_, u1), Ok (c2, _) => match update_base_controls (N := F64) [f64_of_Z 3] c2 with
        | Ok c3 => match get_bare_controls_lists (N := F64) [f64_of_Z 3] c3 with
          | Ok (_, u2) => Some (u1, u2, base_of c3 0) | _ => None end
        | _ => None end
      | _, _ => None end
    | _ => None end
  | _ => None end.
Example C06_example : exists c0 c u1 u2 b,
  new_controls (N := F64) [ex_plain 1] [ex_time 1 0 2 false] [] = Ok c0 /\ accepted c0 [u1; u2] c /\
  ignores_base (N := F64) (ex_plain 1) /\ base_of c 0 = Some b /\ samples b = [f64_of_Z 5].
Proof.
  assert (V : match C06_run with Some (_, _, Some b) => same_list (samples b) [f64_of_Z 5] | _ => false end = true) by (vm_compute; reflexivity).
  unfold C06_run in V.
  destruct (new_controls _ _ _) as [c0|] eqn:H0; [|discriminate].
  destruct (update_base_controls _ c0) as [c1|] eqn:H1; [|discriminate].
  destruct (get_bare_controls_lists _ c1) as [[c1' u1]|] eqn:H2; [|discriminate].
  destruct (select_basis _ _ c1) as [[c2 q]|] eqn:H3; [|discriminate].
  destruct (update_base_controls _ c2) as [c3|] eqn:H4; [|discriminate].
  destruct (get_bare_controls_lists _ c3) as [[c3' u2]|] eqn:H5; [|discriminate].
  destruct (base_of c3 0) as [b|] eqn:H6; [|discriminate].
  exists c0, c3, u1, u2, b. split; [reflexivity|]. split.
  - change [u1; u2] with ([u1] ++ [u2]). refine (acc_update _ _ _ _ _ _ _ _ H4 H5). refine (acc_select _ _ _ _ _ _ _ _ H3).
    change [u1] with ([] ++ [u1]). refine (acc_update _ _ _ _ _ _ _ _ H1 H2). constructor.
  - split; [apply shipped_ignores_base|]. split; [exact H6|now apply same_list_eq].
Qed.
Print Assumptions C06_base_is_sum.
Print Assumptions C06_overwrite_keeps_last.

(** ** C07 *)
(** [y] is the entry of the vector that belongs to the parameter, [v] the value handed to the figure of merit
    and remembered as the start value. *)
Theorem C07_parameter_limits (N : Num) (O : NumOrder N) pl tl rl c0 c x c' d i f v :
  new_controls pl tl rl = Ok c0 -> Forall plain_basis pl -> reachable c0 c ->
  get_controls_lists x c = Ok (c', d) -> nth_error rl i = Some f -> nth_error (d_parameters d) i = Some v ->
  Forall (fun g => length (pf_offset g) = pf_nctrl g) pl ->
  exists y, nth_error x (list_sum (map pf_nctrl pl) + i) = Some y /\
    (exists m, get_mean_value c' = Ok m /\ nth_error m (list_sum (map pf_nctrl pl) + i) = Some v) /\
    (nleb (rf_lower f) (rf_upper f) = true -> nisnan y = false ->
       nleb (rf_lower f) v = true /\ nleb v (rf_upper f) = true /\
       (nleb (rf_lower f) y = true -> nleb y (rf_upper f) = true ->
          v = y \/ (nleb y (rf_lower f) = true /\ v = rf_lower f))) /\
    (nltb (rf_upper f) (rf_lower f) = true -> nisnan y = false -> v = rf_upper f) /\
    (nisnan (rf_lower f) = false -> nisnan y = true -> v = y).
Proof. exact (parameter_limits O pl tl rl c0 c x c' d i f v). Qed.
(** in exact arithmetic: the delivered value is the proposed entry whenever that lies inside *)
Theorem C07_inside_unchanged pl tl rl c0 c x c' d i f v y :
  new_controls (N := Rnum) pl tl rl = Ok c0 -> Forall plain_basis pl -> reachable c0 c ->
  get_controls_lists x c = Ok (c', d) -> nth_error rl i = Some f -> nth_error (d_parameters d) i = Some v ->
  nth_error x (list_sum (map pf_nctrl pl) + i) = Some y -> (rf_lower f <= y <= rf_upper f)%R -> v = y.
Proof. exact (parameter_inside_R pl tl rl c0 c x c' d i f v y). Qed.

Example C07_example : exists c0 c c' d,
  new_controls (N := F64) [ex_plain 1] [ex_time 1 0 2 false] [ex_param 0 2; ex_param 2 0] = Ok c0 /\ reachable c0 c /\
  get_controls_lists (N := F64) [f64_of_Z 0; f64_of_Z 7; f64_of_Z 1] c = Ok (c', d) /\
  d_parameters d = [f64_of_Z 2; f64_of_Z 0].
Proof.
  destruct (case_ok_exists (N := F64) [ex_plain 1] [ex_time 1 0 2 false] [ex_param 0 2; ex_param 2 0] []
    [f64_of_Z 0; f64_of_Z 7; f64_of_Z 1] (fun _ _ d => same_list (d_parameters d) [f64_of_Z 2; f64_of_Z 0]))
    as (c0 & c & c' & d & H1 & H2 & _ & H3 & H4).
  { vm_compute. reflexivity. }
  exists c0, c, c', d. repeat (split; [assumption|]). now apply same_list_eq.
Qed.
Print Assumptions C07_parameter_limits.
Print Assumptions C07_inside_unchanged.

(** ** C08 *)
Theorem C08_duration_limits pl tl rl c0 c name T :
  new_controls (N := Rnum) pl tl rl = Ok c0 -> reachable c0 c -> time_of (c_times c) name = Ok T ->
  exists t, lookup_time tl name = Some t /\
    (tf_opt t = false -> T = tf_value t) /\
    (tf_opt t = true -> (tf_lower t < tf_upper t)%R -> (tf_lower t <= tf_value t <= tf_upper t)%R ->
       (tf_lower t <= T <= tf_upper t)%R).
Proof. exact (duration_range pl tl rl c0 c name T). Qed.
Theorem C08_initial_duration pl tl rl c0 name T :
  new_controls (N := Rnum) pl tl rl = Ok c0 -> time_of (c_times c0) name = Ok T ->
  exists t, lookup_time tl name = Some t /\ T = tf_value t.
Proof. exact (initial_duration pl tl rl c0 name T). Qed.
Theorem C08_equal_limits_raise pl tl rl t :
  In t tl -> tf_opt t = true -> tf_upper t = tf_lower t -> Forall (fun f => pf_nctrl f <> 0%nat) pl ->
  new_controls (N := Rnum) pl tl rl = Err ZeroDivisionError.
Proof. exact (equal_limits_raise pl tl rl t). Qed.
Example C08_example : exists c0 c c' T,
  new_controls (N := Rnum) [ex_std Piecewise 1 false] [ex_time 1 0 2 true] [] = Ok c0 /\ reachable c0 c /\
  (exists d, get_controls_lists [5%R] c = Ok (c', d)) /\ time_of (c_times c') "t"%string = Ok T.
Proof.
  destruct (ex_usable (N := Rnum) [ex_std Piecewise 1 false] [ex_time 1 0 2 true]) as [US AG].
  { intros f [<-|[]]. now apply ex_std_ready. } { now exists 1%Z, 0%Z, 2%Z, true. }
  assert (NC : exists c0, new_controls (N := Rnum) [ex_std Piecewise 1 false] [ex_time 1 0 2 true] [] = Ok c0).
  { unfold new_controls. cbn [new_pulses new_times]. unfold new_time. cbn [ex_time tf_opt tf_upper tf_lower].
    replace (neqb (Num := Rnum) _ _) with false; [cbn; eauto|]. symmetry. cbn. destruct (Core.Raux.Req_bool_spec (2 - 0) 0); [lra|reflexivity]. }
  destruct NC as (c0 & HC).
  destruct (delivery_total _ _ _ _ _ [5%R] HC (reach_refl c0) US AG) as (c' & d & HG & _ & LG & _ & HP); [discriminate| |].
  { rewrite number_eq. destruct (new_controls_sizes _ _ _ _ HC) as [S1 S2]. unfold sizes_of in S1. now rewrite S1, S2. }
  destruct (HP 0%nat _ eq_refl) as (l & El & _).
  destruct (delivered_pulse_full _ _ _ _ _ _ HG El) as (p & v & T & Ep & _ & HT & _).
  destruct (good_reachable _ _ _ _ (shipped_plain _ _ _ _) (reach_refl c0) (good_new _ _ _ _ 0%nat _ HC eq_refl)) as (p' & Ep' & [M _]).
  pose proof (eq_trans (eq_sym Ep) Ep') as E. injection E as <-. rewrite (cm_time_name _ _ M) in HT.
  exists c0, c0, c', T. split; [exact HC|]. split; [constructor|]. split; [eauto|exact HT].
Qed.
Print Assumptions C08_duration_limits.
Print Assumptions C08_initial_duration.
Print Assumptions C08_equal_limits_raise.

(** ** C09 *)
(** In configuration order the index lists of pulses and parameters are, concatenated, exactly 0..n-1. *)
Theorem C09_index_partition (N : Num) pl tl rl c0 c :
  new_controls pl tl rl = Ok c0 -> Forall plain_basis pl -> reachable c0 c ->
  concat (map (fun p => pc_indices (core p)) (c_pulses c) ++ map pa_indices (c_params c))
    = map Z.of_nat (seq 0 (get_control_parameters_number c)) /\
  get_control_parameters_number c = (list_sum (map pf_nctrl pl) + length rl)%nat /\
  map (fun p => length (pc_indices (core p))) (c_pulses c) = map pf_nctrl pl /\
  map (fun p => length (pa_indices p)) (c_params c) = map (fun _ => 1%nat) rl.
Proof. exact (index_partition pl tl rl c0 c). Qed.
(** a control without control parameters cannot be created *)
Theorem C09_no_parameters_raise (N : Num) pl tl rl : (exists f, In f pl /\ pf_nctrl f = 0%nat) ->
  new_controls pl tl rl = Err IndexError.
Proof. exact (no_parameters_raise pl tl rl). Qed.
(** a basis that changes its number of control parameters on selection breaks the partition: entry 1 is shared *)
Definition growing : pulse_cfg (N := F64) :=
  let f := ex_pulse (N := F64) Sinc 1 GOther SOther false None false in
  {| pf_name := pf_name f; pf_bins := pf_bins f; pf_time_name := pf_time_name f; pf_lower := pf_lower f;
     pf_upper := pf_upper f; pf_guess := pf_guess f; pf_scaling := pf_scaling f; pf_shrink := pf_shrink f;
     pf_options := pf_options f; pf_overwrite := pf_overwrite f; pf_nctrl := pf_nctrl f; pf_scale := pf_scale f;
     pf_offset := pf_offset f; pf_dist := pf_dist f; pf_shape := pf_shape f;
     pf_chop := fun c => {| pc_name := pc_name c; pc_bins := pc_bins c; pc_time_name := pc_time_name c; pc_lower := pc_lower c;
       pc_upper := pc_upper c; pc_guess := pc_guess c; pc_scaling := pc_scaling c; pc_shrink := pc_shrink c;
       pc_options := pc_options c; pc_overwrite := pc_overwrite c; pc_nctrl := 2;
       pc_indices := pc_indices c; pc_last := pc_last c; pc_scale := pc_scale c; pc_offset := pc_offset c;
       pc_opt := pc_opt c; pc_final_time := pc_final_time c; pc_time_grid := pc_time_grid c; pc_base := pc_base c;
       pc_dist := pc_dist c; pc_w := pc_w c |} |}.
Theorem C09_changing_number_refuted : exists f g c0 c,
  new_controls (N := F64) [f; g] [ex_time 1 0 2 false] [] = Ok c0 /\ reachable c0 c /\
  exists p q j, c_pulses c = [p; q] /\ In j (pc_indices (core p)) /\ In j (pc_indices (core q)).
Proof.
  assert (V : match new_controls (N := F64) [growing; ex_plain 1] [ex_time 1 0 2 false] [] with
    | Ok c0 => match select_basis (N := F64) (fun _ => f64_of_Z 0) 0 c0 with
      | Ok (c, _) => match c_pulses c with
        | [p; q] => (existsb (Z.eqb 1) (pc_indices (core p)) && existsb (Z.eqb 1) (pc_indices (core q)))%bool
        | _ => false end
      | _ => false end
    | _ => false end = true) by (vm_compute; reflexivity).
  exists growing, (ex_plain 1).
  destruct (new_controls _ _ _) as [c0|]; [|discriminate].
  destruct (select_basis _ _ c0) as [[c q0]|] eqn:S; [|discriminate].
  destruct (c_pulses c) as [|p [|q [|]]] eqn:E; try discriminate.
  apply andb_prop in V as [V1 V2]. apply existsb_exists in V1 as (j1 & I1 & J1). apply existsb_exists in V2 as (j2 & I2 & J2).
  apply Z.eqb_eq in J1, J2. subst j1 j2.
  exists c0, c. split; [reflexivity|]. split; [exact (reach_select _ _ _ _ _ _ (reach_refl c0) S)|]. exists p, q, 1%Z. auto.
Qed.
Example C09_example : exists c0 c,
  new_controls (N := Rnum) [ex_std Fourier 3 false; ex_std Sinc 2 false] [ex_time 1 0 2 false] [ex_param 0 2] = Ok c0 /\
  Forall plain_basis [ex_std (N := Rnum) Fourier 3 false; ex_std Sinc 2 false] /\ reachable c0 c /\
  get_control_parameters_number c = 4%nat.
Proof.
  eexists. eexists. split; [reflexivity|]. split; [repeat constructor|]. split; [apply reach_refl|reflexivity].
Qed.
Print Assumptions C09_index_partition.
Print Assumptions C09_no_parameters_raise.
Print Assumptions C09_changing_number_refuted.

(** ** C10 *)
Theorem C10_mean_value (N : Num) pl tl rl c0 c :
  new_controls pl tl rl = Ok c0 -> Forall plain_basis pl -> reachable c0 c ->
  Forall (fun f => length (pf_offset f) = pf_nctrl f) pl ->
  get_mean_value c = Ok (concat (map pf_offset pl) ++ map pa_value (c_params c)).
Proof. exact (mean_value pl tl rl c0 c). Qed.
Theorem C10_sigma_variation (N : Num) pl tl rl c0 c :
  new_controls pl tl rl = Ok c0 -> Forall plain_basis pl -> reachable c0 c ->
  Forall (fun f => length (pf_scale f) = pf_nctrl f) pl -> no_optimised_time tl ->
  get_sigma_variation c = Ok (concat (map pf_scale pl) ++ map rf_ampl rl).
Proof. exact (sigma_variation pl tl rl c0 c). Qed.
(** optimised durations write their width into entry 0, whatever control that entry belongs to *)
Theorem C10_optimised_time_overwrites_entry_0 (N : Num) pl tl rl c0 c :
  new_controls pl tl rl = Ok c0 -> Forall plain_basis pl -> reachable c0 c ->
  Forall (fun f => length (pf_scale f) = pf_nctrl f) pl -> (pl <> [] \/ rl <> []) ->
  (forall t, In t tl -> tf_map_index t = (-1)%Z) ->
  exists w, get_sigma_variation c = Ok w /\
    let plain := concat (map pf_scale pl) ++ map rf_ampl rl in
    length w = length plain /\ (forall j, j <> 0%nat -> nth_error w j = nth_error plain j) /\
    (optimised_times c <> [] -> exists t, In t tl /\ tf_opt t = true /\
       nth_error w 0 = Some (tf_ampl t / (tf_upper t - tf_lower t))%num).
Proof. exact (sigma_times pl tl rl c0 c). Qed.
Example C10_example : exists c0 w,
  new_controls (N := F64) [ex_plain 2] [ex_time 1 0 2 true] [ex_param 0 2] = Ok c0 /\ optimised_times c0 <> [] /\
  get_sigma_variation c0 = Ok w /\ w = [f64_lit 1 (-1); f64_of_Z 1; f64_of_Z 1].
Proof.
  assert (V : match new_controls (N := F64) [ex_plain 2] [ex_time 1 0 2 true] [ex_param 0 2] with
    | Ok c0 => match get_sigma_variation c0 with Ok w => same_list w [f64_lit 1 (-1); f64_of_Z 1; f64_of_Z 1] | _ => false end
               && match optimised_times c0 with [] => false | _ => true end
    | _ => false end = true) by (vm_compute; reflexivity).
  destruct (new_controls _ _ _) as [c0|]; [|discriminate]. apply andb_prop in V as [V1 V2].
  destruct (get_sigma_variation c0) as [w|] eqn:E; [|discriminate]. exists c0, w. split; [reflexivity|].
  split; [intros Z; rewrite Z in V2; discriminate|]. split; [exact E|now apply same_list_eq].
Qed.
Print Assumptions C10_mean_value.
Print Assumptions C10_sigma_variation.
Print Assumptions C10_optimised_time_overwrites_entry_0.

(** ** C11 *)
Theorem C11_pulse_depends_on_own_entries (N : Num) pl tl rl c0 c x y cx dx cy dy i f :
  new_controls pl tl rl = Ok c0 -> Forall plain_basis pl -> reachable c0 c ->
  get_controls_lists x c = Ok (cx, dx) -> get_controls_lists y c = Ok (cy, dy) ->
  nth_error pl i = Some f ->
  (forall j, (list_sum (map pf_nctrl (firstn i pl)) <= j < list_sum (map pf_nctrl (firstn i pl)) + pf_nctrl f)%nat ->
     nth_error x j = nth_error y j) ->
  no_optimised_time tl ->
  nth_error (d_pulses dx) i = nth_error (d_pulses dy) i /\ nth_error (d_timegrids dx) i = nth_error (d_timegrids dy) i.
Proof. exact (independence pl tl rl c0 c x y cx dx cy dy i f). Qed.
Theorem C11_parameter_depends_on_own_entry (N : Num) pl tl rl c0 c x y cx dx cy dy i f :
  new_controls pl tl rl = Ok c0 -> Forall plain_basis pl -> reachable c0 c ->
  get_controls_lists x c = Ok (cx, dx) -> get_controls_lists y c = Ok (cy, dy) ->
  nth_error rl i = Some f ->
  nth_error x (list_sum (map pf_nctrl pl) + i) = nth_error y (list_sum (map pf_nctrl pl) + i) ->
  nth_error (d_parameters dx) i = nth_error (d_parameters dy) i.
Proof. exact (independence_param pl tl rl c0 c x y cx dx cy dy i f). Qed.
(** with an optimised duration entry 0 (of the first pulse) changes the time grid of the second *)
Theorem C11_optimised_time_refuted : exists c0 cx dx cy dy g h,
  new_controls (N := F64) [ex_plain 2; ex_plain 2] [ex_time 1 0 2 true] [] = Ok c0 /\
  get_controls_lists (N := F64) [f64_lit 1 (-2); f64_of_Z 0; f64_of_Z 0; f64_of_Z 0] c0 = Ok (cx, dx) /\
  get_controls_lists (N := F64) [f64_of_Z 0; f64_of_Z 0; f64_of_Z 0; f64_of_Z 0] c0 = Ok (cy, dy) /\
  nth_error (d_timegrids dx) 1 = Some g /\ nth_error (d_timegrids dy) 1 = Some h /\ g <> h.
Proof.
  assert (V : match new_controls (N := F64) [ex_plain 2; ex_plain 2] [ex_time 1 0 2 true] [] with
    | Ok c0 => match get_controls_lists (N := F64) [f64_lit 1 (-2); f64_of_Z 0; f64_of_Z 0; f64_of_Z 0] c0,
                     get_controls_lists (N := F64) [f64_of_Z 0; f64_of_Z 0; f64_of_Z 0; f64_of_Z 0] c0 with
      | Ok (_, dx), Ok (_, dy) => match nth_error (d_timegrids dx) 1, nth_error (d_timegrids dy) 1 with
          | Some g, Some h => (same_list g [f64_of_Z 0; f64_lit 3 (-1)] && same_list h [f64_of_Z 0; f64_of_Z 1])%bool | _, _ => false end
      | _, _ => false end
    | _ => false end = true) by (vm_compute; reflexivity).
  destruct (new_controls _ _ _) as [c0|] eqn:E0; [|discriminate].
  destruct (get_controls_lists (N := F64) [f64_lit 1 (-2); _; _; _] c0) as [[cx dx]|] eqn:E1; [|discriminate].
  destruct (get_controls_lists (N := F64) [f64_of_Z 0; _; _; _] c0) as [[cy dy]|] eqn:E2; [|discriminate].
  destruct (nth_error (d_timegrids dx) 1) as [g|] eqn:E3; [|discriminate].
  destruct (nth_error (d_timegrids dy) 1) as [h|] eqn:E4; [|discriminate].
  apply andb_prop in V as [V1 V2]. apply same_list_eq in V1, V2.
  exists c0, cx, dx, cy, dy, g, h. repeat (split; [first [reflexivity|eassumption]|]).
  rewrite V1, V2. intros E. apply (f_equal (fun l => same_list l [f64_of_Z 0; f64_of_Z 1])) in E. vm_compute in E. discriminate E.
Qed.
Example C11_example : exists c0 c' d,
  new_controls (N := Rnum) [ex_std Fourier 3 false; ex_std Sinc 2 false] [ex_time 1 0 2 false] [] = Ok c0 /\
  get_controls_lists [1%R; 2%R; 3%R] c0 = Ok (c', d) /\ no_optimised_time (N := Rnum) [ex_time 1 0 2 false].
Proof.
  destruct (ex_usable (N := Rnum) [ex_std Fourier 3 false; ex_std Sinc 2 false] [ex_time 1 0 2 false]) as [US AG].
  { intros f [<-|[<-|[]]]; now apply ex_std_ready. } { now exists 1%Z, 0%Z, 2%Z, false. }
  destruct (new_controls (N := Rnum) [ex_std Fourier 3 false; ex_std Sinc 2 false] [ex_time 1 0 2 false] []) as [c0|] eqn:HC; [|cbn in HC; discriminate].
  destruct (delivery_total _ _ _ _ _ [1%R; 2%R; 3%R] HC (reach_refl c0) US AG) as (c' & d & HG & _); [discriminate| |].
  { rewrite number_eq. destruct (new_controls_sizes _ _ _ _ HC) as [S1 S2]. unfold sizes_of in S1. now rewrite S1, S2. }
  exists c0, c', d. split; [reflexivity|]. split; [exact HG|]. intros t [<-|[]]. reflexivity.
Qed.
Print Assumptions C11_pulse_depends_on_own_entries.
Print Assumptions C11_parameter_depends_on_own_entry.
Print Assumptions C11_optimised_time_refuted.

(** ** C12 *)
(** [d] was delivered at [x]; after further evaluations the base pulses are updated at [x] (end of the
    super-iteration) and a new basis is possibly selected: the start vector of the next super-iteration delivers [d]. *)
Theorem C12_best_controls_survive pl tl rl c0 c x c1 d c1' c2 c3 :
  new_controls (N := Rnum) pl tl rl = Ok c0 -> reachable c0 c ->
  (forall f, In f pl -> plain_basis f /\ pf_overwrite f = false /\ regular_update f /\ zero_at_offset f /\
                        base_beside_update (names_of f)) ->
  no_optimised_time tl -> (forall t, In t tl -> tf_value t <> 0%R) ->
  get_controls_lists x c = Ok (c1, d) -> evaluations c1 c1' -> update_base_controls x c1' = Ok c2 ->
  (c3 = c2 \/ exists rs q r, select_basis rs q c2 = Ok (c3, r)) ->
  exists m c4, get_mean_value c3 = Ok m /\ get_controls_lists m c3 = Ok (c4, d).
Proof. exact (survive Rnum_order Rnum_exact pl tl rl c0 c x c1 d c1' c2 c3). Qed.
(** every basis shipped with the library except Walsh meets the hypotheses on the basis *)
Theorem C12_shipped_bases (F : funs Rnum) b s u : b <> Walsh -> (0 < bs_k s)%nat ->
  plain_basis (shipped F b s u) /\ regular_update (shipped F b s u) /\ zero_at_offset (shipped F b s u).
Proof. exact (fun H1 H2 => conj (shipped_plain F b s u) (conj (shipped_regular F b s u H1) (shipped_zero F b s u H1 H2))). Qed.

(** with overwrite_base_pulse the second super-iteration loses the first: 1 + 1 = 2 was delivered, then 1 *)
Definition C12_over : pulse_cfg (N := F64) :=
  ex_pulse Piecewise 1 GOther SOther false (Some ["add_base_pulse"; "add_new_update_pulse"]%string) true.
Definition C12_lost (f : pulse_cfg (N := F64)) (ops : list (op (N := F64))) (x : list f64) (before after : f64) : bool :=
  case_ok (N := F64) [f] [ex_time 1 0 2 false] [] ops x (fun _ c1 d =>
    pulses_are d [[before]] &&
    match update_base_controls (N := F64) x c1 with
    | Ok c2 => match get_mean_value c2 with
               | Ok m => match get_controls_lists m c2 with Ok (_, d') => pulses_are d' [[after]] | Err _ => false end
               | Err _ => false end
    | Err _ => false end).
Lemma C12_lost_exists f ops x before after : C12_lost f ops x before after = true ->
  exists c0 c c1 d c2 m c3 d', new_controls (N := F64) [f] [ex_time 1 0 2 false] [] = Ok c0 /\ reachable c0 c /\
    get_controls_lists (N := F64) x c = Ok (c1, d) /\ update_base_controls (N := F64) x c1 = Ok c2 /\ get_mean_value c2 = Ok m /\
    get_controls_lists m c2 = Ok (c3, d') /\ map samples (d_pulses d) = [[before]] /\ map samples (d_pulses d') = [[after]].
Proof.
  intros V. unfold C12_lost in V. destruct (case_ok_exists _ _ _ _ _ _ V) as (c0 & c & c1 & d & H1 & H2 & _ & H3 & H4).
  apply andb_prop in H4 as [H4 H5].
  destruct (update_base_controls (N := F64) x c1) as [c2|] eqn:E1; [|discriminate].
  destruct (get_mean_value c2) as [m|] eqn:E2; [|discriminate].
  destruct (get_controls_lists m c2) as [[c3 d']|] eqn:E3; [|discriminate].
  exists c0, c, c1, d, c2, m, c3, d'. repeat (split; [assumption|]). split; now apply pulses_are_eq.
Qed.
Theorem C12_overwrite_refuted : exists c0 c c1 d c2 m c3 d',
  new_controls (N := F64) [C12_over] [ex_time 1 0 2 false] [] = Ok c0 /\ reachable c0 c /\
  get_controls_lists (N := F64) [f64_of_Z 1] c = Ok (c1, d) /\ update_base_controls (N := F64) [f64_of_Z 1] c1 = Ok c2 /\
  get_mean_value c2 = Ok m /\ get_controls_lists m c2 = Ok (c3, d') /\
  map samples (d_pulses d) = [[f64_of_Z 2]] /\ map samples (d_pulses d') = [[f64_of_Z 1]].
Proof. apply (C12_lost_exists C12_over [OUpdate (N := F64) [f64_of_Z 1]] [f64_of_Z 1]). vm_compute. reflexivity. Qed.
(** in floating point the sum is re-associated: (0.1 + 0.2) + 0.3 becomes 0.1 + (0.2 + 0.3) *)
Definition C12_guess : pulse_cfg (N := F64) :=
  ex_pulse Piecewise 1 (GArr (N := F64) [f64_lit 0x1999999999999a (-56)]) SOther false None false.
Theorem C12_rounding_refuted : exists c0 c c1 d c2 m c3 d',
  new_controls (N := F64) [C12_guess] [ex_time 1 0 2 false] [] = Ok c0 /\ reachable c0 c /\
  get_controls_lists (N := F64) [f64_lit 0x13333333333333 (-54)] c = Ok (c1, d) /\
  update_base_controls (N := F64) [f64_lit 0x13333333333333 (-54)] c1 = Ok c2 /\
  get_mean_value c2 = Ok m /\ get_controls_lists m c2 = Ok (c3, d') /\
  map samples (d_pulses d) = [[f64_lit 0x13333333333334 (-53)]] /\ map samples (d_pulses d') = [[f64_lit 0x13333333333333 (-53)]].
Proof.
  apply (C12_lost_exists C12_guess [OUpdate (N := F64) [f64_lit 0x1999999999999a (-55)]] [f64_lit 0x13333333333333 (-54)]).
  vm_compute. reflexivity.
Qed.
Example C12_example : exists c0 c1 d c2,
  new_controls (N := Rnum) [ex_std Fourier 3 false] [ex_time 1 0 2 false] [] = Ok c0 /\
  get_controls_lists [5%R; 6%R] c0 = Ok (c1, d) /\ update_base_controls [5%R; 6%R] c1 = Ok c2 /\
  pf_overwrite (N := Rnum) (ex_std Fourier 3 false) = false /\
  base_beside_update (names_of (N := Rnum) (ex_std Fourier 3 false)).
Proof.
  destruct (ex_R_delivery Fourier 3 false [5%R; 6%R]) as (c0 & c' & d & H1 & H2 & _); try discriminate; [reflexivity|].
  destruct (update_total _ _ _ _ _ [5%R; 6%R] H1 (reach_get _ _ _ _ _ (reach_refl c0) H2)) as (c2 & H3).
  { apply ex_usable. { intros f [<-|[]]. now apply ex_std_ready. } now exists 1%Z, 0%Z, 2%Z, false. }
  { discriminate. }
  { rewrite number_eq. destruct (new_controls_sizes _ _ _ _ H1) as [S1 S2]. destruct (same_fix_sizes _ _ (get_controls_fix _ _ _ _ H2)) as [S3 S4].
    unfold sizes_of in *. now rewrite S3, S4, S1, S2. }
  exists c0, c', d, c2. repeat (split; [assumption|]). split; [reflexivity|].
  exists ["add_initial_guess"%string], ["scale_pulse"; "limit_pulse"]%string. split; [left; reflexivity|split; cbn; intuition discriminate].
Qed.
Print Assumptions C12_best_controls_survive.
Print Assumptions C12_shipped_bases.
Print Assumptions C12_overwrite_refuted.
Print Assumptions C12_rounding_refuted.

(** ** C13 *)
(** k super-parameters on [a, b] from k draws of [0,1): number i lies in the i-th of k equal bins *)
Theorem C13_one_per_bin pl tl rl c0 c rs pos c' pos' i f k a b :
  new_controls (N := Rnum) pl tl rl = Ok c0 -> Forall plain_basis pl -> reachable c0 c ->
  select_basis rs pos c = Ok (c', pos') -> (forall n, 0 <= rs n < 1)%R ->
  nth_error pl i = Some f -> pf_dist f = Some (k, a, b) -> (a <= b)%R ->
  exists p, nth_error (c_pulses c') i = Some p /\ length (pc_w (core p)) = k /\
    forall i y, nth_error (pc_w (core p)) i = Some y ->
      (a + INR i * ((b - a) / INR k) <= y)%R /\ ((a < b)%R -> (y < a + INR (i + 1) * ((b - a) / INR k))%R).
Proof. exact (select_bins pl tl rl c0 c rs pos c' pos' i f k a b). Qed.
Theorem C13_increasing k (a b : R) r w : uniform_super_parameters (N := Rnum) k a b r = Ok w -> length r = k ->
  (a < b)%R -> (forall y, In y r -> (0 <= y < 1)%R) ->
  (forall y, In y w -> (a <= y < b)%R) /\
  (forall i j x y, (i < j)%nat -> nth_error w i = Some x -> nth_error w j = Some y -> (x < y)%R).
Proof. exact (uniform_increasing k a b r w). Qed.
Example C13_example : exists c0 c' q,
  new_controls (N := Rnum) [ex_std Fourier 3 false] [ex_time 1 0 2 false] [] = Ok c0 /\
  select_basis (N := Rnum) (fun _ => 0%R) 0 c0 = Ok (c', q) /\
  pf_dist (N := Rnum) (ex_std Fourier 3 false) = Some (1%nat, 0%R, 2%R).
Proof.
  destruct (ex_R_delivery Fourier 3 false [5%R; 6%R]) as (c0 & _ & _ & H1 & _); try discriminate; [reflexivity|].
  exists c0. pose proof H1 as H2. cbn in H2. injection H2 as <-.
  eexists. eexists. split; [exact H1|]. split; [reflexivity|reflexivity].
Qed.
Print Assumptions C13_one_per_bin.
Print Assumptions C13_increasing.

(** ** C14 *)
Theorem C14_zero_at_start (F : funs Rnum) b s u : b <> Walsh -> (0 < bs_k s)%nat -> zero_at_offset (shipped F b s u).
Proof. exact (shipped_zero F b s u). Qed.
Lemma walsh_zero_shrinking (F : funs Rnum) s u : cs_shrink u = true -> cs_bins u <> 0%nat ->
  (forall g, length g = cs_bins u -> guess_samples (shipped F Walsh s u) g <> None) -> array_guess (shipped F Walsh s u) ->
  zero_at_offset (shipped F Walsh s u).
Proof.
  intros SH NB GS AG. split; [cbn [pf_offset shipped pf_nctrl]; apply zeros_length|].
  intros c C EO _. cbn [pf_shape shipped basis_shape pf_bins pf_offset basis_nctrl] in *. unfold walsh_shape.
  assert (B := co_bins _ _ C). assert (GR := co_grid _ _ C). assert (LW := co_w _ _ C). cbn [pf_bins pf_dist shipped] in *.
  assert (G : gridded c) by (unfold gridded; congruence).
  assert (LO : length (pc_opt c) = (2 * bs_k s)%nat) by (rewrite EO; apply zeros_length).
  rewrite fourier_closed by (auto; lia). cbn [rbind].
  replace (map (fourier_sum F (bs_k s) (pc_final_time c) (pc_w c) (pc_opt c)) (pc_time_grid c)) with (repeat 0%R (cs_bins u)).
  2:{ symmetry. apply map_const; [|exact GR]. intros t. unfold fourier_sum.
      rewrite (rsum_ext _ (fun _ => 0%R)); [apply rsum_zero|]. intros i _. rewrite EO, !nth_zeros. lra. }
  assert (LU : (pc_lower c <= pc_upper c)%R).
  { rewrite (co_lower _ _ C), (co_upper _ _ C). destruct (nltb _ _) eqn:E; [apply Rltb_iff in E|apply Rltb_iff0 in E]; change (@num Rnum) with R in *; lra. }
  assert (GL : exists m, get_initial_guess c = Ok (Ar m) /\ length m = cs_bins u /\ forall y, In y m -> (pc_lower c <= y <= pc_upper c)%R).
  { specialize (GS (pc_time_grid c) GR). specialize (AG SH (pc_time_grid c) GR). cbn [pf_guess shipped] in AG.
    assert (R : exists l, length l = cs_bins u /\ match pc_guess c with GCall f => f (pc_time_grid c) | GArr l => Ok (Ar l) | GOther => Ok (Sc (of_Z 0)) end = Ok (Ar l)).
    { rewrite (co_guess _ _ C). cbn [pf_guess shipped]. unfold guess_samples in GS. cbn [pf_guess shipped pf_bins] in GS. destruct (cs_guess u) as [f|l|]; [| |destruct AG].
      - destruct AG as (l & E). change (@num Rnum) with R in *. rewrite E in GS |- *. cbn in GS. exists l. split; [|reflexivity].
        destruct (Nat.eq_dec (length l) (cs_bins u)); [assumption|exfalso; apply GS; rewrite (proj2 (Nat.eqb_neq _ _)) by assumption; reflexivity].
      - cbn in GS. exists l. split; [|reflexivity].
        destruct (Nat.eq_dec (length l) (cs_bins u)); [assumption|exfalso; apply GS; rewrite (proj2 (Nat.eqb_neq _ _)) by assumption; reflexivity]. }
    destruct R as (l & Ll & R). unfold get_initial_guess. rewrite R. cbn [rbind]. unfold get_limited_pulse. rewrite (co_shrink _ _ C). cbn [pf_shrink shipped]. rewrite SH.
    destruct (shrink_length (N := Rnum) (pc_lower c) (pc_upper c) l) as (m & Em & Lm); [intros ->; cbn in Ll; congruence|]. rewrite Em. cbn [rbind].
    exists m. split; [reflexivity|]. split; [rewrite Lm; exact Ll|]. exact (proj1 (shrink_list_spec _ _ _ _ LU Em)). }
  destruct GL as (m & Hm & Lm & IN). rewrite Hm. cbn [rbind].
  assert (Z : abin nadd (Ar m) (Ar (repeat 0%R (cs_bins u))) = Ok (Ar m)).
  { rewrite (abin_as_r _ _ _ (repeat 0%R (cs_bins u))).
    2:{ change (@num Rnum) with R in *. unfold as_samples. rewrite repeat_length. replace (Nat.eqb (cs_bins u) (length m)) with true by (symmetry; apply Nat.eqb_eq; symmetry; exact Lm). reflexivity. }
    do 2 f_equal. rewrite <- Lm. apply map2_plus_zeros. }
  change (@num Rnum) with R in *. rewrite Z. cbn [rbind]. unfold get_limited_pulse. rewrite (co_shrink _ _ C). cbn [pf_shrink shipped]. rewrite SH.
  destruct (shrink_list_total (pc_lower c) (pc_upper c) m) as (n & En); [intros ->; cbn in Lm; congruence|].
  rewrite En. cbn [rbind]. rewrite (proj1 (proj2 (shrink_list_spec _ _ _ _ LU En)) IN).
  rewrite (abin_as_r _ _ _ m); [|cbn; rewrite Nat.eqb_refl; reflexivity]. do 2 f_equal. rewrite <- Lm. apply map2_minus_self.
Qed.
(** Walsh, clipped or shrunk together with its guess *)
Theorem C14_walsh_zero (F : funs Rnum) s u : (cs_shrink u = true -> cs_bins u <> 0%nat) ->
  (forall g, length g = cs_bins u -> guess_samples (shipped F Walsh s u) g <> None) -> array_guess (shipped F Walsh s u) ->
  zero_at_offset (shipped F Walsh s u).
Proof.
  intros NB GS AG. destruct (cs_shrink u) eqn:SH; [now apply walsh_zero_shrinking; auto|now apply walsh_zero].
Qed.
Theorem C14_linear (F : funs Rnum) b s (c : pcore (N := Rnum)) a1 a2 x y sx sy :
  In b [Fourier; DummyBasis; Sinc; Sigmoid; Piecewise] -> length (pc_time_grid c) = pc_bins c ->
  (b <> Piecewise -> length (pc_w c) = bs_k s) ->
  length x = basis_nctrl (N := Rnum) b s (pc_bins c) -> length y = length x ->
  basis_shape F b s (set_opt x c) = Ok (Ar sx) -> basis_shape F b s (set_opt y c) = Ok (Ar sy) ->
  basis_shape F b s (set_opt (map2 (fun p q => a1 * p + a2 * q)%R x y) c)
    = Ok (Ar (map2 (fun p q => a1 * p + a2 * q)%R sx sy)).
Proof. exact (shipped_linear F b s c a1 a2 x y sx sy). Qed.
(** Chebyshev uses the arc cosine only on [-1, 1]: two arc cosines that agree there give the same pulse *)
Theorem C14_chebyshev_domain (F : funs Rnum) k (c : pcore (N := Rnum)) (F' : funs Rnum) :
  (0 < pc_final_time c)%R -> (forall t, In t (pc_time_grid c) -> (0 <= t <= pc_final_time c)%R) ->
  f_cos F' = f_cos F -> (forall v, (-1 <= v <= 1)%R -> f_acos F' v = f_acos F v) ->
  chebyshev_shape F' k c = chebyshev_shape F k c.
Proof. exact (cheb_acos_domain F k c F'). Qed.
(** sinc never divides by zero: the value given to x/0 does not matter *)
Theorem C14_sinc_no_zero_division d d' fsin fcos facos ferf fpi x :
  sinc (N := Rnum_div d) (mk_funs (Rnum_div d) fsin fcos facos ferf fpi) x =
  sinc (N := Rnum_div d') (mk_funs (Rnum_div d') fsin fcos facos ferf fpi) x.
Proof. exact (sinc_no_zero_division d d' fsin fcos facos ferf fpi x). Qed.
(** a pulse object in a state meeting [core_of], at its offset *)
Example C14_example : exists c0 c' d,
  new_controls (N := Rnum) [ex_std Chebyshev 3 false] [ex_time 1 0 2 false] [] = Ok c0 /\
  get_controls_lists [0%R; 0%R] c0 = Ok (c', d) /\ zero_at_offset (N := Rnum) (ex_std Chebyshev 3 false).
Proof.
  destruct (ex_R_delivery Chebyshev 3 false [0%R; 0%R]) as (c0 & c' & d & H1 & H2 & _); try discriminate; [reflexivity|].
  exists c0, c', d. split; [exact H1|]. split; [exact H2|]. apply shipped_zero; [discriminate|cbn; lia].
Qed.
(** Walsh around a guess that leaves its limits and is shrunk *)
Example C14_walsh_example (F : funs Rnum) s : zero_at_offset (shipped F Walsh s
  {| cs_name := "p"; cs_bins := 3; cs_time_name := "t"; cs_lower := (-1)%R; cs_upper := 1%R; cs_guess := GArr [0; 3; -5]%R; cs_scaling := SOther;
     cs_shrink := true; cs_options := None; cs_overwrite := false |}).
Proof. apply C14_walsh_zero; [discriminate|discriminate|]. intros _ g _. exact I. Qed.
Print Assumptions C14_zero_at_start.
Print Assumptions C14_walsh_zero.
Print Assumptions C14_linear.
Print Assumptions C14_chebyshev_domain.
Print Assumptions C14_sinc_no_zero_division.

(** ** C30 *)
(** get_best_bare_controls evaluates the bare update at the mean vector: all zeros, whatever was found. *)
Theorem C30_bare_controls_are_zero pl tl rl c0 c m c' us i f a :
  new_controls (N := Rnum) pl tl rl = Ok c0 -> reachable c0 c ->
  (forall f, In f pl -> plain_basis f /\ zero_at_offset f) -> nonzero_durations tl ->
  get_mean_value c = Ok m -> get_bare_controls_lists m c = Ok (c', us) ->
  nth_error pl i = Some f -> nth_error us i = Some a -> a = Ar (repeat 0%R (pf_bins f)).
Proof. exact (bare_at_mean pl tl rl c0 c m c' us i f a). Qed.
Example C30_example : exists c0 c m c' us,
  new_controls (N := F64) [ex_plain 1] [ex_time 1 0 2 false] [] = Ok c0 /\ reachable c0 c /\
  get_mean_value c = Ok m /\ get_bare_controls_lists m c = Ok (c', us) /\ map samples us = [[f64_of_Z 0]] /\
  exists b, base_of c 0 = Some b /\ samples b = [f64_lit 1 (-1)].
Proof.
  destruct (case_ok_exists (N := F64) [ex_plain 1] [ex_time 1 0 2 false] [] [OUpdate (N := F64) [f64_lit 1 (-1)]] [f64_of_Z 0]
    (fun c _ _ => match get_mean_value c with
       | Ok m => match get_bare_controls_lists m c with
         | Ok (_, [u]) => same_list (samples u) [f64_of_Z 0] &&
             match base_of c 0 with Some b => same_list (samples b) [f64_lit 1 (-1)] | None => false end
         | _ => false end
       | _ => false end)) as (c0 & c & c' & d & H1 & H2 & _ & _ & H4).
  { vm_compute. reflexivity. }
  destruct (get_mean_value c) as [m|] eqn:E1; [|discriminate].
  destruct (get_bare_controls_lists m c) as [[c2 [|u [|]]]|] eqn:E2; try discriminate.
  apply andb_prop in H4 as [H4 H5]. destruct (base_of c 0) as [b|] eqn:E3; [|discriminate].
  exists c0, c, m, c2, [u]. repeat (split; [assumption|]). split.
  - cbn [map]. f_equal. now apply same_list_eq.
  - exists b. split; [exact E3|now apply same_list_eq].
Qed.
Print Assumptions C30_bare_controls_are_zero.

(** ** C56 *)
Theorem C56_delivery_total (N : Num) pl tl rl c0 c x :
  new_controls pl tl rl = Ok c0 -> reachable c0 c -> usable pl tl -> Forall array_guess pl ->
  x <> [] -> length x = get_control_parameters_number c ->
  exists c' d, get_controls_lists x c = Ok (c', d) /\
    length (d_pulses d) = length pl /\ length (d_timegrids d) = length pl /\ length (d_parameters d) = length rl /\
    forall i f, nth_error pl i = Some f -> exists l, nth_error (d_pulses d) i = Some (Ar l) /\ length l = pf_bins f.
Proof. exact (delivery_total pl tl rl c0 c x). Qed.
Theorem C56_update_total (N : Num) pl tl rl c0 c x :
  new_controls pl tl rl = Ok c0 -> reachable c0 c -> usable pl tl ->
  x <> [] -> length x = get_control_parameters_number c -> exists c', update_base_controls x c = Ok c'.
Proof. exact (update_total pl tl rl c0 c x). Qed.
Theorem C56_shipped_bases (N : Num) (F : funs N) b s u : b <> Walsh -> (0 < bs_k s)%nat -> total_update (shipped F b s u).
Proof. exact (shipped_total F b s u). Qed.
Example C56_example : exists c0,
  new_controls (N := Rnum) [ex_std Fourier 3 false] [ex_time 1 0 2 false] [] = Ok c0 /\
  usable (N := Rnum) [ex_std Fourier 3 false] [ex_time 1 0 2 false] /\
  Forall array_guess [ex_std (N := Rnum) Fourier 3 false] /\ get_control_parameters_number c0 = 2%nat.
Proof.
  destruct (ex_R_delivery Fourier 3 false [5%R; 6%R]) as (c0 & _ & _ & H1 & _); try discriminate; [reflexivity|].
  exists c0. split; [exact H1|].
  destruct (ex_usable (N := Rnum) [ex_std Fourier 3 false] [ex_time 1 0 2 false]) as [US AG].
  { intros f [<-|[]]; now apply ex_std_ready. } { now exists 1%Z, 0%Z, 2%Z, false. }
  split; [exact US|]. split; [exact AG|].
  rewrite number_eq. destruct (new_controls_sizes _ _ _ _ H1) as [S1 S2]. unfold sizes_of in S1. now rewrite S1, S2.
Qed.
(** a scalar guess together with shrinking raises *)
Theorem C56_scalar_guess_refuted : exists f c0, pf_shrink f = true /\ pf_guess f = GOther /\
  new_controls (N := F64) [f] [ex_time 1 0 2 false] [] = Ok c0 /\ get_control_parameters_number c0 = 1%nat /\
  exists e, get_controls_lists (N := F64) [f64_of_Z 1] c0 = Err e.
Proof.
  exists (ex_pulse Piecewise 1 GOther SOther true None false).
  assert (V : match new_controls (N := F64) [ex_pulse Piecewise 1 GOther SOther true None false] [ex_time 1 0 2 false] [] with
    | Ok c0 => Nat.eqb (get_control_parameters_number c0) 1 && match get_controls_lists (N := F64) [f64_of_Z 1] c0 with Ok _ => false | Err _ => true end
    | Err _ => false end = true) by (vm_compute; reflexivity).
  destruct (new_controls _ _ _) as [c0|]; [|discriminate]. apply andb_prop in V as [V1 V2]. apply Nat.eqb_eq in V1.
  exists c0. repeat (split; [first [reflexivity|assumption]|]). destruct (get_controls_lists _ c0); [discriminate|]. eauto.
Qed.
Print Assumptions C56_delivery_total.
Print Assumptions C56_update_total.
Print Assumptions C56_shipped_bases.
Print Assumptions C56_scalar_guess_refuted.

(** ** C57 *)
Theorem C57_step_times_inside off T taus r : (off <= T - off)%R ->
  confine_taus (N := Rnum) off T taus = Ok r -> forall y, In y r -> (off <= y <= T - off)%R.
Proof. exact (confine_taus_inside off T taus r). Qed.
Example C57_example : exists r, confine_taus (N := Rnum) 1%R 4%R [9%R; (-3)%R; 2%R] = Ok r /\ length r = 3%nat.
Proof. destruct (confine_taus_total (N := Rnum) 1%R 4%R [9%R; (-3)%R; 2%R]) as (r & E & L); [discriminate|]. exists r. split; [exact E|exact L]. Qed.
Print Assumptions C57_step_times_inside.
