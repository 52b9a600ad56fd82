(** * C79 Optimised durations in the arithmetic of the machine: outside their limits by a few units in the last place, so possibly negative *)
From Coq Require Import String ZArith List Bool Lia Reals Lra.
From Flocq Require Import Core BinarySingleNaN.
From RecordUpdate Require Import RecordSet.
From Verif Require Import Num NumFacts NumQ Py PyFacts ModelPulse ModelBases ModelControls ModelLinalg ModelState ModelSearch ModelRun SpecControls SpecRun ModelImport SpecImport ModelJson
  ProofBases ProofIndex ProofBase ProofControls ProofTimes ProofCtl ProofSI ExampleControls ExampleRun ModelConfig SpecConfig SpecWhole ProofConfig PropControls PropConfig PropWhole SpecGrid64 ProofGrid64 ProofDuration64 PropGrid64.
Import ListNotations RecordSetNotations.
Open Scope string_scope.
Open Scope list_scope.
Open Scope nat_scope.

Definition within_excess (lo hi T : f64) : Prop :=
  is_nan T = true \/ (is_finite T = true /\ (B2R lo - excess (B2R lo) (B2R hi) <= B2R T <= B2R hi + excess (B2R lo) (B2R hi))%R).

Lemma optimised_time (f : time_cfg (N := F64)) t : tmatch f t -> tf_opt f = true -> sane_limits (tf_lower f) (tf_value f) (tf_upper f) ->
  within_excess (tf_lower f) (tf_upper f) (get_time t).
Proof.
  intros M O (Fl & Fv & Fh & [H1 H2] & H3 & B1 & B2). pose proof (tm_alpha _ _ M) as A. unfold get_time. rewrite (tm_time _ _ M), (tm_var _ _ M).
  destruct (ti_alpha t) as [a|]; [|congruence]. destruct A as (_ & Al & Ah & _ & Av).
  change (within_excess (tf_lower f) (tf_upper f) (Bplus mode_NE (tf_value f) (Bmult mode_NE (pa_value a) (Bminus mode_NE (tf_upper f) (tf_lower f))))).
  change (pa_lower a = Bdiv mode_NE (Bminus mode_NE (tf_lower f) (tf_value f)) (Bminus mode_NE (tf_upper f) (tf_lower f))) in Al.
  change (pa_upper a = Bdiv mode_NE (Bminus mode_NE (tf_upper f) (tf_value f)) (Bminus mode_NE (tf_upper f) (tf_lower f))) in Ah.
  destruct (sides_ordered _ _ _ Fl Fv Fh H1 H2 H3 B1 B2) as (FL & FH & L1 & L2). rewrite <- Al in FL, L1. rewrite <- Ah in FH, L2.
  assert (K : forall y : f64, is_finite y = true -> (B2R (pa_lower a) <= B2R y <= B2R (pa_upper a))%R ->
    within_excess (tf_lower f) (tf_upper f) (Bplus mode_NE (tf_value f) (Bmult mode_NE y (Bminus mode_NE (tf_upper f) (tf_lower f))))).
  { intros y Fy Hy. right. rewrite Al, Ah in Hy. exact (between_sides _ _ _ Fl Fv Fh H1 H2 H3 B1 B2 y Fy Hy). }
  destruct Av as [-> | (x & ->)].
  - destruct (of_Z_exact 0 ltac:(lia)) as [F0 R0]. apply (K (f64_of_Z 0) F0). rewrite R0. lra.
  - unfold check_limits. destruct (is_nan x) eqn:Nx.
    + left. rewrite (param_nan F64_order (pa_lower a) (pa_upper a) x); [|destruct (pa_lower a); try discriminate FL; reflexivity|exact Nx]. destruct x; try discriminate Nx. destruct (tf_value f), (Bminus mode_NE (tf_upper f) (tf_lower f)); reflexivity.
    + assert (LU : @nleb F64 (pa_lower a) (pa_upper a) = true) by (change (Bleb (pa_lower a) (pa_upper a) = true); rewrite Bleb_finite by assumption; apply Rle_bool_true; lra).
      destruct (param_inside F64_order _ _ x LU Nx) as (Q1 & Q2 & _). cbv zeta in Q1, Q2. set (y := npmin (npmax (pa_lower a) x) (pa_upper a)) in *. change (Bleb (pa_lower a) y = true) in Q1. change (Bleb y (pa_upper a) = true) in Q2.
      assert (Fy : is_finite y = true).
      { destruct y as [s|s| |s m e b]; try reflexivity.
        - destruct s; [destruct (pa_lower a) as [|?| |? ? ? ?]; try discriminate FL; discriminate Q1|destruct (pa_upper a) as [|?| |? ? ? ?]; try discriminate FH; discriminate Q2].
        - destruct (pa_lower a) as [|?| |? ? ? ?]; discriminate Q1. }
      rewrite Bleb_finite in Q1, Q2 by assumption. apply K; [exact Fy|]. destruct (Rle_bool_spec (B2R (pa_lower a)) (B2R y)), (Rle_bool_spec (B2R y) (B2R (pa_upper a))); try discriminate. lra.
Qed.

(** An optimised duration is within its limits up to 2^-50 of their magnitudes, or is NaN. *)
Theorem C79_near_limits pl tl rl c0 c name T :
  new_controls (N := F64) pl tl rl = Ok c0 -> reachable c0 c -> time_of (c_times c) name = Ok T ->
  exists t, lookup_time tl name = Some t /\
    (tf_opt t = true -> sane_limits (tf_lower t) (tf_value t) (tf_upper t) -> within_excess (tf_lower t) (tf_upper t) T).
Proof.
  intros HC RC HT. destruct (time_of_cfg _ _ _ _ _ _ _ HC RC HT) as (t & s & L & _ & M & ->). exists t. split; [exact L|]. intros O S. exact (optimised_time _ _ M O S).
Qed.

(** From the dictionary: the time grids that a run gives out end at such a duration. *)
Theorem C79_run (F : funs F64) (E : env (N := F64)) d su W r s e dl i v g n name t t0 lo hi :
  construct F E d = (true, Good su) -> optimise (su_settings su) W = Ok (r, s) -> In e (history s) -> gives e dl ->
  item_of (VDict d) "pulses" i v -> nth_error (d_timegrids dl) i = Some g ->
  setting v ["bins_number"] (VInt 101) = VInt n -> setting v ["time_name"] (VStr "time") = VStr name -> duration_of (VDict d) name t ->
  is_number (setting t ["initial_value"] (float 1)) t0 -> is_number (setting t ["lower_limit"] (float 0)) lo -> is_number (setting t ["upper_limit"] (float 1)) hi ->
  setting t ["is_optimization"] (VBool false) = VBool true -> sane_limits lo t0 hi ->
  exists T, within_excess lo hi T /\ length g = Z.to_nat n /\ ((2 <= n)%Z -> nth_error g (Z.to_nat n - 1) = Some T) /\
    (long_enough T (Z.to_nat n) -> fine_grid T (Z.to_nat n) g).
Proof.
  intros H R I K J P Hn Ht Du H0 Hl Hu Ho Sa. destruct (C76_from_controls F E _ _ _ _ _ _ _ H R I K) as (c0 & c & x & c' & C & A & B & _).
  destruct (said_pulse F E _ _ _ _ H J) as (f & Ef & (Bs & b & bs & cs & _ & _ & _ & _ & _ & X0 & _ & _ & _ & _ & X1 & X2 & _)).
  destruct (said_duration F E _ _ _ _ H Du) as (w & Lw & (_ & _ & _ & Y1 & _ & Y2 & Y3 & Y4 & _)).
  rewrite Hn in X1. injection X1 as ->. rewrite Ht in X2. injection X2 as ->. rewrite Nat2Z.id in *.
  assert (PB : plain_basis f) by (subst f; apply shipped_plain).
  destruct (C78_delivered _ _ _ _ _ _ _ _ _ _ _ C A B Ef PB P) as (T & TT & Q). destruct (C05_grid_end F64 _ _ _ _ _ _ _ _ _ _ _ C A B Ef PB P) as (T' & TT' & L1 & L2 & _).
  rewrite TT in TT'. injection TT' as <-. subst f. cbn [pf_bins pf_time_name ModelBases.shipped] in *.
  destruct (C79_near_limits _ _ _ _ _ _ _ C (reach_get _ _ _ _ _ A B) TT) as (w' & Lw' & Fi). rewrite Lw in Lw'. injection Lw' as <-.
  rewrite Ho in Y2. injection Y2 as Y2. rewrite (is_number_fun _ _ _ H0 Y1) in *. rewrite (is_number_fun _ _ _ Hl Y3) in *. rewrite (is_number_fun _ _ _ Hu Y4) in *.
  exists T. split; [apply Fi; auto|]. split; [exact L1|]. split; [intros N2; apply L2; lia|exact Q].
Qed.

(** ** Where it ends *)
Definition d64_time : value (@num F64) := VDict ["time_name" :-> VStr "t"; "initial_value" :-> VInt 7; "lower_limit" :-> VInt 0; "upper_limit" :-> VInt 25; "is_optimization" :-> VBool true].
Definition d64_dict : list (key * value (@num F64)) :=
  ["algorithm_settings" :-> VDict (wh_grape []); "pulses" :-> VList [wh_pulse g64_steps]; "parameters" :-> VList [wh_parameter]; "times" :-> VList [d64_time]].
Definition d64_ends (p : f64 -> bool) (e : event (N := F64)) : bool :=
  match e with EvEval _ d _ => match d_timegrids d with [g] => match nth_error g 4 with Some T => p T | None => false end | _ => false end | _ => false end.
(** With the lower limit 0, the initial value 7 and the upper limit 25 a run gives the user a time grid that ends at -2^-50. *)
Theorem C79_negative_duration_refuted : exists su r s x dl a g v,
  construct (N := F64) ex_funs wh_env d64_dict = (true, Good su) /\ optimise (su_settings su) (wh_world None [[-9; -9; 1; 1; 1; -1]%Z]) = Ok (r, s) /\
  In (EvEval x dl a) (history s) /\ item_of (VDict d64_dict) "pulses" 0 v /\ nth_error (d_timegrids dl) 0 = Some g /\
  setting v ["bins_number"] (VInt 101) = VInt 5 /\ setting v ["time_name"] (VStr "time") = VStr "t" /\ duration_of (VDict d64_dict) "t" d64_time /\
  sane_limits (f64_of_Z 0) (f64_of_Z 7) (f64_of_Z 25) /\ exists T, nth_error g 4 = Some T /\ Bltb T (f64_of_Z 0) = true.
Proof.
  destruct (both_exist (N := F64) (construct (N := F64) ex_funs wh_env d64_dict) (wh_world None [[-9; -9; 1; 1; 1; -1]%Z])
    (fun _ r s => existsb (d64_ends (fun T => Bltb T (f64_of_Z 0))) (history s))) as (su & r & s & H1 & H2 & X).
  { vm_compute. reflexivity. }
  apply existsb_exists in X as (e & I & X). destruct e as [x dl a| | | | | | |]; try discriminate. unfold d64_ends in X. destruct (d_timegrids dl) as [|g [|? ?]] eqn:G; try discriminate.
  exists su, r, s, x, dl, a, g, (wh_pulse g64_steps). split; [exact H1|]. split; [exact H2|]. split; [exact I|].
  split; [do 2 eexists; split; [reflexivity|]; split; [left; reflexivity|reflexivity]|]. split; [now rewrite G|]. split; [reflexivity|]. split; [reflexivity|].
  split; [exists (VList [d64_time]), [], []; split; [reflexivity|]; split; [left; reflexivity|]; split; [reflexivity|intros ? []]|].
  split; [|destruct (nth_error g 4) as [T|]; [exists T; auto|discriminate]].
  destruct (of_Z_exact 0 ltac:(lia)) as [F0 R0]. destruct (of_Z_exact 7 ltac:(lia)) as [F7 R7]. destruct (of_Z_exact 25 ltac:(lia)) as [F25 R25].
  unfold sane_limits. rewrite R0, R7, R25. repeat (split; [assumption || (cbn; lra)|]). assert (25 <= bpow radix2 1021)%R by (apply Rle_trans with (bpow radix2 5); [cbn; lra|apply bpow_le; lia]).
  rewrite Rabs_R0, Rabs_pos_eq by lra. lra.
Qed.

(** the run above meets the hypotheses of [C79_run] *)
Example C79_run_example : is_number (setting d64_time ["initial_value"] (float 1)) (@of_Z F64 7) /\ is_number (setting d64_time ["lower_limit"] (float 0)) (@of_Z F64 0) /\
  is_number (setting d64_time ["upper_limit"] (float 1)) (@of_Z F64 25) /\ setting d64_time ["is_optimization"] (VBool false) = VBool true /\ (forall x dl a, gives (N := F64) (EvEval x dl a) dl).
Proof. repeat split; constructor. Qed.

Print Assumptions C79_near_limits.
Print Assumptions C79_run.
Print Assumptions C79_negative_duration_refuted.
