(** * C80 Shrinking in the arithmetic of the machine: a pulse leaves its limits by at most a few units in the last place of its greatest
    sample before shrinking, which is not a few units in the last place of its limits *)
From Coq Require Import String ZArith List Bool Lia Reals Lra.
From Flocq Require Import Core BinarySingleNaN.
From RecordUpdate Require Import RecordSet.
From Verif Require Import Num NumFacts NumQ Py PyFacts ModelPulse ModelBases ModelControls ModelLinalg ModelState ModelSearch ModelRun SpecControls SpecRun ModelImport SpecImport ModelJson
  ProofBases ProofIndex ProofBase ProofControls ProofTimes ProofCtl ProofSI ExampleControls ExampleRun ModelConfig SpecConfig SpecWhole ProofConfig PropControls PropConfig PropWhole SpecGrid64 ProofGrid64 ProofDuration64 ProofShrink64 PropGrid64.
Import ListNotations RecordSetNotations.
Open Scope string_scope.
Open Scope list_scope.
Open Scope nat_scope.

(** [v] is an acceptable result of shrinking [u] to the limits [lo] and [hi]: if nothing exceeds [A] in size, every sample is finite and inside
    the limits up to [slack A], and samples that were in order still are; and a pulse inside the limits is left as it is, bit by bit *)
Definition shrunk (lo hi : f64) (u v : list f64) : Prop :=
  (forall A, sized A u -> sized A [lo; hi] -> (A <= bpow radix2 999)%R ->
     length v = length u /\
     (forall y, In y v -> is_finite y = true /\ (Rmin (B2R lo) (B2R hi) - slack A <= B2R y <= Rmax (B2R lo) (B2R hi) + slack A)%R) /\
     (forall j k x y x' y', nth_error u j = Some x -> nth_error u k = Some y -> nth_error v j = Some x' -> nth_error v k = Some y' ->
        (B2R x <= B2R y -> B2R x' <= B2R y')%R)) /\
  (is_finite lo = true -> is_finite hi = true ->
     (forall y, In y u -> is_finite y = true /\ (Rmin (B2R lo) (B2R hi) <= B2R y <= Rmax (B2R lo) (B2R hi))%R) -> v = u).

Lemma slack_eps A : (4 * eps64 A = slack A)%R.
Proof.
  unfold eps64, slack. replace (bpow radix2 (-47)) with (64 * bpow radix2 (-53))%R by (change 64%R with (bpow radix2 6); rewrite <- bpow_plus; reflexivity).
  replace (bpow radix2 (-1072)) with (8 * bpow radix2 (-1075))%R by (change 8%R with (bpow radix2 3); rewrite <- bpow_plus; reflexivity). ring.
Qed.
Lemma shrunk_ok (lo hi : f64) u v :
  shrink_list (N := F64) (if nltb (Num := F64) hi lo then hi else lo) (if nltb (Num := F64) hi lo then lo else hi) u = Ok v -> shrunk lo hi u v.
Proof.
  intros S. assert (K : is_finite lo = true -> is_finite hi = true -> exists l h : f64, is_finite l = true /\ is_finite h = true /\ B2R l = Rmin (B2R lo) (B2R hi) /\ B2R h = Rmax (B2R lo) (B2R hi) /\ shrink_list (N := F64) l h u = Ok v /\
    ((l = lo /\ h = hi) \/ (l = hi /\ h = lo))).
  { intros Fl Fh. change (@nltb F64 hi lo) with (Bltb hi lo) in S. rewrite Bltb_finite in S by assumption. destruct (Rlt_bool_spec (B2R hi) (B2R lo)).
    - exists hi, lo. rewrite Rmin_right, Rmax_left by lra. auto 10.
    - exists lo, hi. rewrite Rmin_left, Rmax_right by lra. auto 10. }
  split.
  - intros A Su Sl A1. destruct (Sl lo (or_introl eq_refl)) as [Fl Al]. destruct (Sl hi (or_intror (or_introl eq_refl))) as [Fh Ah]. destruct (K Fl Fh) as (l & h & L1 & H1 & Q1 & Q2 & S' & W). clear K S.
    assert (Ff : finites u) by (apply List.Forall_forall; intros x X; apply Su, X). assert (Sm : small A u) by (intros x X; apply Su, X).
    assert (lh : (B2R l <= B2R h)%R) by (rewrite Q1, Q2; apply Rle_trans with (B2R lo); [apply Rmin_l|apply Rmax_l]).
    assert (Al' : (Rabs (B2R l) <= A)%R) by (destruct W as [[-> ->]|[-> ->]]; assumption). assert (Ah' : (Rabs (B2R h) <= A)%R) by (destruct W as [[-> ->]|[-> ->]]; assumption).
    destruct (shrink64_order l h u v A L1 H1 lh Ff Sm Al' Ah' A1 S') as (g & E & Mo). split; [rewrite E; apply map_length|]. split.
    + intros y Y. rewrite <- Q1, <- Q2, <- slack_eps. exact (shrink64 l h u v A L1 H1 lh Ff Sm Al' Ah' A1 S' y Y).
    + intros j k x y x' y' X Y X' Y' L. rewrite E, nth_error_map in X', Y'. rewrite X in X'. rewrite Y in Y'. injection X' as <-. injection Y' as <-. apply Mo; [exact (nth_error_In _ _ X)|exact (nth_error_In _ _ Y)|exact L].
  - intros Fl Fh Hi. destruct (K Fl Fh) as (l & h & L1 & H1 & Q1 & Q2 & S' & _). apply (shrink64_inside l h u v L1 H1); [apply List.Forall_forall; intros x X; apply Hi, X| |exact S'].
    intros x X. rewrite Q1, Q2. apply Hi, X.
Qed.

(** At the level of the delivered pulses, [u] being what would be delivered without the last limit. *)
Theorem C80_near_limits pl tl rl c0 c x c' d i f a pre post :
  new_controls (N := F64) pl tl rl = Ok c0 -> reachable c0 c -> get_controls_lists x c = Ok (c', d) ->
  nth_error pl i = Some f -> plain_basis f -> ignores_options f -> pf_shrink f = true ->
  SpecControls.names_of f = pre ++ "limit_pulse" :: post -> (forall s, In s post -> ~ In s known_options) ->
  nth_error (d_pulses d) i = Some a ->
  exists u v cu du, get_controls_lists x (with_pulse_options i pre c) = Ok (cu, du) /\ nth_error (d_pulses du) i = Some (Ar u) /\ a = Ar v /\
    shrunk (pf_lower f) (pf_upper f) u v.
Proof.
  intros HC RC HG Ef PB IG SH NM PO Ea.
  destruct (delivered_limited _ _ _ _ _ _ _ _ _ _ _ _ _ HC RC HG Ef PB IG NM PO Ea) as (b & cu & du & p & H1 & H2 & M & HA).
  unfold get_limited_pulse in HA. rewrite (cm_shrink _ _ M), SH in HA. destruct b as [|u]; [discriminate HA|]. apply rbind_ok in HA as (r & HR & E). injection E as <-.
  rewrite (cm_lower _ _ M), (cm_upper _ _ M) in HR. exists u, r, cu, du. repeat (split; [assumption||reflexivity|]). exact (shrunk_ok _ _ _ _ HR).
Qed.

(** From the dictionary: every pulse with "shrink_ampl_lim" that a run gives out is the shrunk form of what the controls of this run would
    give for the same numbers with the last "limit_pulse" taken out. *)
Theorem C80_run (F : funs F64) (E : env (N := F64)) d su W r s e dl i v a l h o :
  construct F E d = (true, Good su) -> optimise (su_settings su) W = Ok (r, s) -> In e (history s) -> gives e dl ->
  item_of (VDict d) "pulses" i v -> nth_error (d_pulses dl) i = Some a ->
  is_number (setting v ["lower_limit"] (float 0)) l -> is_number (setting v ["upper_limit"] (float 1)) h ->
  setting v ["shrink_ampl_lim"] (VBool false) = VBool true ->
  or_none is_names (setting v ["shaping_options"] VNone) o -> ends_with_limit o ->
  exists c0 c x c' pre cu du u w, new_controls (g_pulses (su_settings su)) (g_times (su_settings su)) (g_params (su_settings su)) = Ok c0 /\
    reachable c0 c /\ get_controls_lists x c = Ok (c', dl) /\
    get_controls_lists x (with_pulse_options i pre c) = Ok (cu, du) /\ nth_error (d_pulses du) i = Some (Ar u) /\ a = Ar w /\ shrunk l h u w.
Proof.
  intros H R I K J P Hl Hu Hs Ho Ends. destruct (C76_from_controls F E _ _ _ _ _ _ _ H R I K) as (c0 & c & x & c' & C & A & B & _).
  destruct (said_pulse F E _ _ _ _ H J) as (f & Ef & (Bs & b & bs & cs & _ & _ & _ & _ & _ & X0 & _ & _ & _ & _ & _ & _ & X1 & X2 & _ & X3 & _ & X4 & _)).
  rewrite (is_number_fun _ _ _ Hl X1) in *. rewrite (is_number_fun _ _ _ Hu X2) in *. rewrite (or_none_names_fun _ _ _ Ho X4) in Ends. rewrite Hs in X3. injection X3 as X3.
  assert (X : exists pre post, SpecControls.names_of f = pre ++ "limit_pulse" :: post /\ forall s, In s post -> ~ In s known_options).
  { subst f. unfold SpecControls.names_of. cbn [pf_options ModelBases.shipped]. destruct (cs_options cs) as [names|]; [exact Ends|]. exists ["add_initial_guess"; "add_base_pulse"; "add_new_update_pulse"; "scale_pulse"], []. split; [reflexivity|intros ? []]. }
  destruct X as (pre & post & X & Po).
  destruct (C80_near_limits _ _ _ _ _ _ _ _ _ _ _ pre post C A B Ef ltac:(subst f; apply shipped_plain) ltac:(subst f; apply shipped_ignores_options) ltac:(subst f; now symmetry) X Po P) as (u & w & cu & du & Y1 & Y2 & Y3 & Y4).
  exists c0, c, x, c', pre, cu, du, u, w. repeat (split; [assumption|]). subst f. exact Y4.
Qed.

(** ** Cases *)
Lemma small_int k A : (Z.abs k <= 2 ^ 53)%Z -> (IZR (Z.abs k) <= A)%R -> is_finite (f64_of_Z k) = true /\ (Rabs (B2R (f64_of_Z k)) <= A)%R.
Proof. intros H K. destruct (of_Z_exact k H) as [F R]. split; [exact F|]. rewrite R, <- abs_IZR. exact K. Qed.
(** samples -50 and 25 with the limits -1 and 1: the greatest sample of the result is above 1, by at most [slack 50] *)
Example C80_shrunk_example : exists u v, shrink_list (N := F64) (f64_of_Z (-1)) (f64_of_Z 1) u = Ok v /\ shrunk (f64_of_Z (-1)) (f64_of_Z 1) u v /\ length u = 2 /\
  sized 50 u /\ sized 50 [f64_of_Z (-1); f64_of_Z 1] /\ (50 <= bpow radix2 999)%R /\ exists y, In y v /\ Bltb (f64_of_Z 1) y = true.
Proof.
  set (u := [f64_of_Z (-50); f64_of_Z 25]).
  assert (X : match shrink_list (N := F64) (f64_of_Z (-1)) (f64_of_Z 1) u with Ok [_; y] => Bltb (f64_of_Z 1) y | _ => false end = true) by (vm_compute; reflexivity).
  destruct (shrink_list (N := F64) (f64_of_Z (-1)) (f64_of_Z 1) u) as [v|] eqn:S; [|discriminate X]. exists u, v. split; [exact S|].
  split. { apply shrunk_ok. replace (nltb (Num := F64) (f64_of_Z 1) (f64_of_Z (-1))) with false by (symmetry; vm_compute; reflexivity). exact S. }
  split; [reflexivity|]. split; [intros x [<-|[<-|[]]]; apply small_int; cbn; (lia || lra)|]. split; [intros x [<-|[<-|[]]]; apply small_int; cbn; (lia || lra)|].
  split. { apply Rle_trans with (bpow radix2 6); [cbn; lra|apply bpow_le; lia]. }
  destruct v as [|? [|y [|? ?]]]; try discriminate X. exists y. split; [right; now left|exact X].
Qed.

Definition sh_pulse : value (@num F64) := VDict (F := @num F64) ["pulse_name" :-> VStr "y"; "time_name" :-> VStr "t"; "lower_limit" :-> VInt (-1); "upper_limit" :-> VInt 1; "bins_number" :-> VInt 2; "basis" :-> VDict ["basis_name" :-> VStr "PiecewiseBasis"]; "shrink_ampl_lim" :-> VBool true].
Definition sh_world (a b : f64) : world (N := F64) := ex_world (N := F64) [] <|w_lbfgs := fun _ _ => Ask (N := F64) [a; b; f64_of_Z 1] (fun _ => Done)|>.
Definition evaluates (t : f64 -> f64 -> bool) (e : event (N := F64)) : bool := match e with EvEval _ d _ => match d_pulses d with [Ar [y; z]] => t y z | _ => false end | _ => false end.
Lemma sh_run (a b : f64) (t : f64 -> f64 -> bool) :
  match construct (N := F64) ex_funs wh_env (wh_dict (wh_grape []) sh_pulse) with
  | (true, Good su) => match optimise (su_settings su) (sh_world a b) with Ok (r, s) => existsb (evaluates t) (history s) | _ => false end
  | _ => false end = true ->
  exists su r s x dl q y z, construct (N := F64) ex_funs wh_env (wh_dict (wh_grape []) sh_pulse) = (true, Good su) /\ optimise (su_settings su) (sh_world a b) = Ok (r, s) /\
    In (EvEval x dl q) (history s) /\ d_pulses dl = [Ar [y; z]] /\ t y z = true.
Proof.
  destruct (construct (N := F64) ex_funs wh_env (wh_dict (wh_grape []) sh_pulse)) as [[|] [su|e|]]; try discriminate. destruct (optimise (su_settings su) (sh_world a b)) as [[r s]|] eqn:O; try discriminate.
  intros X. apply existsb_exists in X as (e & I & X). destruct e as [x dl q| | | | | | |]; try discriminate. cbn [evaluates] in X. destruct (d_pulses dl) as [|[|[|y [|z [|? ?]]]] [|? ?]] eqn:P; try discriminate. exists su, r, s, x, dl, q, y, z. repeat (split; [reflexivity || assumption|]). exact X.
Qed.
Definition shrink_promise (d : list (key * value (@num F64))) : Prop :=
  exists v, item_of (VDict d) "pulses" 0 v /\ setting v ["shaping_options"] VNone = VNone /\ setting v ["shrink_ampl_lim"] (VBool false) = VBool true /\
  is_number (setting v ["lower_limit"] (float 0)) (f64_of_Z (-1)) /\ is_number (setting v ["upper_limit"] (float 1)) (f64_of_Z 1).
Lemma sh_promise : shrink_promise (wh_dict (wh_grape []) sh_pulse).
Proof. exists sh_pulse. split; [do 2 eexists; split; [reflexivity|]; split; [left; reflexivity|reflexivity]|]. split; [reflexivity|]. split; [reflexivity|]. split; constructor. Qed.
(** the hypotheses of [C80_run] in a run that gives the user the shrunk form of -50 and 25 *)
Example C80_run_example : exists d su W r s x dl a y z, construct (N := F64) ex_funs wh_env d = (true, Good su) /\ optimise (su_settings su) W = Ok (r, s) /\
  In (EvEval x dl a) (history s) /\ d_pulses dl = [Ar [y; z]] /\ shrink_promise d /\ ends_with_limit None /\ (Bltb (f64_of_Z (-2)) y && Bltb y z && Bltb z (f64_of_Z 2))%bool = true.
Proof.
  destruct (sh_run (f64_of_Z (-50)) (f64_of_Z 25) (fun y z => Bltb (f64_of_Z (-2)) y && Bltb y z && Bltb z (f64_of_Z 2))%bool) as (su & r & s & x & dl & q & y & z & H1 & H2 & H3 & H4 & H5).
  { vm_compute. reflexivity. }
  do 10 eexists. split; [exact H1|]. split; [exact H2|]. split; [exact H3|]. split; [exact H4|]. split; [exact sh_promise|]. split; [exact I|exact H5].
Qed.

(** ** Where it ends *)
(** "Up to rounding" is not "up to rounding of the limits": the limits -1 and 1, and the user gets a pulse whose samples are both above 2^800. *)
Theorem C80_far_above_refuted : exists d su W r s x dl a y z, construct (N := F64) ex_funs wh_env d = (true, Good su) /\ optimise (su_settings su) W = Ok (r, s) /\
  In (EvEval x dl a) (history s) /\ d_pulses dl = [Ar [y; z]] /\ shrink_promise d /\ Bltb (f64_lit 1 800) y = true /\ Bltb (f64_lit 1 800) z = true.
Proof.
  destruct (sh_run (f64_lit (-960) 900) (f64_lit 398 900) (fun y z => Bltb (f64_lit 1 800) y && Bltb (f64_lit 1 800) z)%bool) as (su & r & s & x & dl & q & y & z & H1 & H2 & H3 & H4 & H5).
  { vm_compute. reflexivity. }
  apply andb_prop in H5 as [H5 H6]. do 10 eexists. split; [exact H1|]. split; [exact H2|]. split; [exact H3|]. split; [exact H4|]. split; [exact sh_promise|]. split; [exact H5|exact H6].
Qed.
(** Samples close to the greatest number: finite numbers asked for, and the user gets NaN. *)
Theorem C80_overflow_refuted : exists d su W r s x dl a y z, construct (N := F64) ex_funs wh_env d = (true, Good su) /\ optimise (su_settings su) W = Ok (r, s) /\
  In (EvEval x dl a) (history s) /\ d_pulses dl = [Ar [y; z]] /\ shrink_promise d /\ forallb is_finite x = true /\ is_nan z = true.
Proof.
  destruct (both_exist (construct (N := F64) ex_funs wh_env (wh_dict (wh_grape []) sh_pulse)) (sh_world (f64_lit (-3) 1022) (f64_lit 3 1022))
    (fun _ r s => existsb (fun e : event (N := F64) => match e with EvEval x _ _ => forallb (@is_finite 53 1024) x | _ => false end && evaluates (fun _ z => is_nan z) e)%bool (history s))) as (su & r & s & H1 & H2 & X).
  { vm_compute. reflexivity. }
  apply existsb_exists in X as (e & I & X). destruct e as [x dl q| | | | | | |]; try discriminate. apply andb_prop in X as [X1 X2]. cbn [evaluates] in X2.
  destruct (d_pulses dl) as [|[|[|y [|z [|? ?]]]] [|? ?]] eqn:P; try discriminate.
  do 10 eexists. split; [exact H1|]. split; [exact H2|]. split; [exact I|]. split; [exact P|]. split; [exact sh_promise|]. split; [exact X1|exact X2].
Qed.

Print Assumptions C80_near_limits.
Print Assumptions C80_run.
Print Assumptions C80_far_above_refuted.
Print Assumptions C80_overflow_refuted.
