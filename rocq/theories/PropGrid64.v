(** * C78 The time grids that a run gives out, in the arithmetic of the machine *)
From Coq Require Import String ZArith List Bool Lia Reals Lra.
From Flocq Require Import Core BinarySingleNaN.
From RecordUpdate Require Import RecordSet.
From Verif Require Import Num NumFacts NumQ Py PyFacts ModelPulse ModelBases ModelControls ModelLinalg ModelState ModelSearch ModelRun SpecControls SpecRun ModelImport SpecImport ModelJson
  ProofBases ProofIndex ProofBase ProofControls ProofTimes ProofCtl ProofSI ExampleControls ExampleRun ModelConfig SpecConfig SpecWhole ProofConfig PropControls PropConfig PropWhole SpecGrid64 ProofGrid64.
Import ListNotations RecordSetNotations.
Open Scope string_scope.
Open Scope list_scope.
Open Scope nat_scope.

(** numpy.linspace(0, T, n) *)
Theorem C78_points (T : f64) n : long_enough T n -> fine_grid T n (linspace0 (N := F64) T n).
Proof.
  intros (FT & N2 & Nm & B). destruct n as [|d]; [lia|]. assert (D1 : 1 <= d) by lia. assert (Dm : (Z.of_nat d <= 2 ^ 51)%Z) by lia. replace (S d - 1) with d in B by lia.
  pose proof (linspace0_points T d FT D1 Dm B) as P. unfold fine_grid. replace (S d - 1) with d by lia.
  split; [apply (linspace0_length (N := F64))|]. split.
  { intros x E. destruct (P 0 x E) as (_ & Q & _). rewrite Q by lia. cbn [INR]. rewrite Rmult_0_l. apply rnd64_0. }
  split.
  { rewrite (linspace0_eq (N := F64) T d D1). apply set_nth_same. destruct (neqb _ _); rewrite !map_length, seq_length; lia. }
  split.
  { intros x I. apply In_nth_error in I as (j & I). apply (P j x I). }
  split.
  - intros j k x y L Ex Ey. destruct (P j x Ex) as (Fx & Qx & _ & Lx). destruct (P k y Ey) as (Fy & Qy & Zy & Ly). rewrite Bltb_finite by assumption. apply Rlt_bool_true.
    rewrite Qx by lia. destruct (Nat.eq_dec k d) as [->|E]; [rewrite (Zy eq_refl); apply (point_last _ _ D1 Dm B); lia|]. rewrite Qy by lia.
    apply (strict_up (fun j => rnd64 (INR j * rnd64 (B2R T / INR d))) (d - 1)); [|lia]. intros i Hi. apply (point_lt _ _ D1 Dm B); lia.
  - intros j x E. destruct (P j x E) as (_ & Q & Z & L). destruct (Nat.eq_dec j d) as [->|Ne]; [|rewrite Q by lia; apply (point_near _ _ D1 B); lia].
    rewrite (Z eq_refl). pose proof (d_pos d D1). pose proof (T_pos _ _ D1 B). replace (INR d * (B2R T / INR d))%R with (B2R T) by (field; lra). rewrite Rminus_diag_eq by reflexivity. rewrite Rabs_R0.
    apply Rmult_le_pos; [apply bpow_ge_0|lra].
Qed.
Lemma long_integer k n : (1 <= k <= 2 ^ 53)%Z -> 2 <= n -> (Z.of_nat n <= 2 ^ 51)%Z -> long_enough (f64_of_Z k) n.
Proof.
  intros K A B. destruct (of_Z_exact k ltac:(lia)) as [F R]. split; [exact F|]. split; [exact A|]. split; [exact B|]. rewrite R. apply Rle_trans with (bpow radix2 51 * bpow radix2 (-1022))%R.
  - apply Rmult_le_compat_r; [apply bpow_ge_0|]. change (bpow radix2 51) with (IZR (2 ^ 51)). rewrite INR_IZR_INZ. apply IZR_le. lia.
  - rewrite <- bpow_plus. apply Rle_trans with (bpow radix2 0); [apply bpow_le; lia|]. cbn. apply IZR_le. lia.
Qed.
Example C78_points_example : long_enough (f64_of_Z 7) 5 /\ long_enough (f64_of_Z 3) 1000 /\
  same_list (linspace0 (N := F64) (f64_of_Z 7) 5) (map (fun k => f64_lit k (-2)) [0; 7; 14; 21; 28]%Z) = true.
Proof. split; [apply long_integer; lia|]. split; [apply long_integer; lia|]. vm_compute. reflexivity. Qed.

Lemma zero_over x : (0 / x = 0)%R.
Proof. unfold Rdiv. apply Rmult_0_l. Qed.

(** A pulse of no duration has all its points at 0. *)
Theorem C78_no_duration (T : f64) n : is_finite T = true -> B2R T = 0%R -> (Z.of_nat n <= 2 ^ 53)%Z ->
  forall x, In x (linspace0 (N := F64) T n) -> is_finite x = true /\ B2R x = 0%R.
Proof.
  intros FT ZT Nm x I. destruct (of_Z_exact 0 ltac:(lia)) as [F0 R0]. destruct (minus_0 T FT) as [Fd Rd]. rewrite ZT in Rd.
  assert (M : forall y : f64, is_finite y = true -> let z := Bplus mode_NE (Bmult mode_NE y (Bminus mode_NE T (f64_of_Z 0))) (f64_of_Z 0) in is_finite z = true /\ B2R z = 0%R).
  { intros y Fy z. destruct (mult_small y _ Fy Fd) as [F1 R1]; [rewrite Rd, Rmult_0_r, rnd64_0, Rabs_R0; apply bpow_gt_0|]. rewrite Rd, Rmult_0_r, rnd64_0 in R1.
    destruct (plus_0 _ F1) as [F2 R2]. unfold z. rewrite R2, R1. auto. }
  destruct n as [|[|d]]; [destruct I| |].
  - destruct I as [<-|[]]. apply M. reflexivity.
  - rewrite (linspace0_eq (N := F64) T (S d) ltac:(lia)) in I. apply In_nth_error in I as (j & E).
    set (dv := f64_of_Z (Z.of_nat (S d))) in *. destruct (of_Z_exact (Z.of_nat (S d)) ltac:(lia)) as [Fv Rv]. fold dv in Fv, Rv. assert (P : (1 <= B2R dv)%R) by (rewrite Rv; apply IZR_le; lia).
    destruct (div_small (Bminus mode_NE T (f64_of_Z 0)) dv Fd ltac:(lra)) as [Fs Rs]; [rewrite Rd, zero_over, rnd64_0, Rabs_R0; apply bpow_gt_0|]. rewrite Rd, zero_over, rnd64_0 in Rs.
    replace (@neqb F64 (@ndiv F64 (@nsub F64 T (@of_Z F64 0)) (@of_Z F64 (Z.of_nat (S d)))) (@of_Z F64 0)) with true in E.
    2: { symmetry. change (Beqb (Bdiv mode_NE (Bminus mode_NE T (f64_of_Z 0)) dv) (f64_of_Z 0) = true). rewrite Beqb_correct, Rs, R0 by assumption. now apply Req_bool_true. }
    destruct (Nat.eq_dec j (S d)) as [->|Ne].
    + rewrite set_nth_same in E by (rewrite !map_length, seq_length; lia). injection E as <-. auto.
    + rewrite set_nth_other in E by congruence. rewrite !nth_error_map in E. destruct (nth_error (seq 0 (S (S d))) j) as [k|] eqn:Es; [|discriminate]. cbn [option_map] in E. injection E as <-.
      assert (Lj : j < S (S d)) by (rewrite <- (seq_length (S (S d)) 0); apply nth_error_Some; congruence). rewrite nth_error_seq_lt in Es by exact Lj. injection Es as <-.
      apply M. destruct (of_Z_exact (Z.of_nat (0 + j)) ltac:(lia)) as [Fj Rj]. apply (div_small (f64_of_Z (Z.of_nat (0 + j))) dv Fj ltac:(lra)).
      assert (Q : (0 <= B2R (f64_of_Z (Z.of_nat (0 + j))) / B2R dv <= 1)%R).
      { rewrite Rj, Rv. split; [apply Rmult_le_pos; [apply IZR_le; lia|apply Rlt_le, Rinv_0_lt_compat; rewrite <- Rv; lra]|].
        apply Rmult_le_reg_r with (IZR (Z.of_nat (S d))); [rewrite <- Rv; lra|]. unfold Rdiv. rewrite Rmult_assoc, Rinv_l by (rewrite <- Rv; lra). rewrite Rmult_1_r, Rmult_1_l. apply IZR_le. lia. }
      assert (A : (0 <= rnd64 (B2R (f64_of_Z (Z.of_nat (0 + j))) / B2R dv) <= 1)%R).
      { split; [rewrite <- rnd64_0; now apply rnd64_le|]. rewrite <- (rnd64_id 1) by (apply (integer_format 1); lia). now apply rnd64_le. }
      rewrite Rabs_pos_eq by apply A. apply Rle_lt_trans with 1%R; [apply A|]. change 1%R with (bpow radix2 0). apply bpow_lt. lia.
Qed.
Example C78_no_duration_example : B2R (f64_of_Z 0) = 0%R /\ is_finite (f64_of_Z 0) = true /\ same_list (linspace0 (N := F64) (f64_of_Z 0) 3) (map f64_of_Z [0; 0; 0]%Z) = true.
Proof. split; [apply (of_Z_exact 0); lia|]. split; vm_compute; reflexivity. Qed.

(** A time grid delivered by the controls in any state that they can come to. *)
Theorem C78_delivered pl tl rl c0 c x c' d i f g :
  new_controls (N := F64) pl tl rl = Ok c0 -> reachable c0 c -> get_controls_lists x c = Ok (c', d) ->
  nth_error pl i = Some f -> plain_basis f -> nth_error (d_timegrids d) i = Some g ->
  exists T, time_of (c_times c') (pf_time_name f) = Ok T /\ (long_enough T (pf_bins f) -> fine_grid T (pf_bins f) g).
Proof.
  intros HC RC HG Ef PB Eg. destruct (delivered_grid_nth _ _ _ _ _ _ HG Eg) as (p & t & Ep & Et & ->).
  destruct (good_reachable _ _ _ _ PB RC (good_new _ _ _ _ _ _ HC Ef)) as (p' & Ep' & [M _]).
  rewrite Ep in Ep'. injection Ep' as <-. rewrite (cm_time_name _ _ M) in Et. exists (get_time t). split; [unfold time_of; now rewrite Et|].
  rewrite (cm_bins _ _ M). apply C78_points.
Qed.
(** A duration that is not optimised is in any arithmetic what was configured. *)
Theorem C78_fixed_duration (N : Num) pl tl rl c0 c name T :
  new_controls pl tl rl = Ok c0 -> reachable c0 c -> time_of (c_times c) name = Ok T ->
  exists t, lookup_time tl name = Some t /\ (tf_opt t = false -> T = tf_value t).
Proof.
  intros HC RC HT. destruct (time_of_cfg _ _ _ _ _ _ _ HC RC HT) as (t & s & L & _ & M & ->). exists t. split; [exact L|]. intros O.
  pose proof (tm_alpha _ _ M) as A. unfold get_time. destruct (ti_alpha s); [destruct A; congruence|]. apply (tm_time _ _ M).
Qed.

(** From the dictionary: everything that a run gives out has for each pulse the grid of "bins_number" points from 0 to the "initial_value" of
    its duration. *)
Theorem C78_run (F : funs F64) (E : env (N := F64)) d su W r s e dl i v g n name t t0 :
  construct F E d = (true, Good su) -> optimise (su_settings su) W = Ok (r, s) -> In e (history s) -> gives e dl ->
  item_of (VDict d) "pulses" i v -> nth_error (d_timegrids dl) i = Some g ->
  setting v ["bins_number"] (VInt 101) = VInt n -> setting v ["time_name"] (VStr "time") = VStr name -> duration_of (VDict d) name t ->
  is_number (setting t ["initial_value"] (float 1)) t0 -> setting t ["is_optimization"] (VBool false) = VBool false ->
  long_enough t0 (Z.to_nat n) -> fine_grid t0 (Z.to_nat n) g.
Proof.
  intros H R I K J P Hn Ht Du H0 Ho Le. destruct (C76_from_controls F E _ _ _ _ _ _ _ H R I K) as (c0 & c & x & c' & C & A & B & _).
  destruct (said_pulse F E _ _ _ _ H J) as (f & Ef & (Bs & b & bs & cs & _ & _ & _ & _ & _ & X0 & _ & _ & _ & _ & X1 & X2 & _)).
  destruct (said_duration F E _ _ _ _ H Du) as (w & Lw & (_ & _ & _ & Y1 & _ & Y2 & _)).
  rewrite Hn in X1. injection X1 as ->. rewrite Ht in X2. injection X2 as ->. rewrite Nat2Z.id in *.
  destruct (C78_delivered _ _ _ _ _ _ _ _ _ _ _ C A B Ef ltac:(subst f; apply shipped_plain) P) as (T & TT & Q). subst f. cbn [pf_bins pf_time_name ModelBases.shipped] in *.
  destruct (C78_fixed_duration F64 _ _ _ _ _ _ _ C (reach_get _ _ _ _ _ A B) TT) as (w' & Lw' & Fi). rewrite Lw in Lw'. injection Lw' as <-.
  rewrite Ho in Y2. injection Y2 as Y2. rewrite (Fi (eq_sym Y2)) in Q. rewrite (is_number_fun _ _ _ H0 Y1) in *. apply Q, Le.
Qed.

Definition g64_steps : list (key * value (@num F64)) := ["bins_number" :-> VInt 5; "basis" :-> VDict ["basis_name" :-> VStr "PiecewiseBasis"]].
Definition g64_dict := wh_dict (N := F64) (wh_grape []) (wh_pulse g64_steps).
Definition g64_seen (e : event (N := F64)) : bool :=
  match e with EvEval _ d _ => match d_timegrids d with [g] => same_list g (map (fun k => f64_lit k (-2)) [0; 7; 14; 21; 28]%Z) | _ => false end | _ => false end.
Example C78_run_example : exists su r s x dl a g v t,
  construct (N := F64) ex_funs wh_env g64_dict = (true, Good su) /\ optimise (su_settings su) (wh_world None [[9; -9; 1; 1; 1; 1]%Z]) = Ok (r, s) /\
  In (EvEval x dl a) (history s) /\ gives (EvEval x dl a) dl /\ item_of (VDict g64_dict) "pulses" 0 v /\ nth_error (d_timegrids dl) 0 = Some g /\
  setting v ["bins_number"] (VInt 101) = VInt 5 /\ setting v ["time_name"] (VStr "time") = VStr "t" /\ duration_of (VDict g64_dict) "t" t /\
  is_number (setting t ["initial_value"] (float 1)) (of_Z 7) /\ setting t ["is_optimization"] (VBool false) = VBool false /\ long_enough (f64_of_Z 7) 5 /\
  same_list g (map (fun k => f64_lit k (-2)) [0; 7; 14; 21; 28]%Z) = true.
Proof.
  destruct (both_exist (N := F64) (construct (N := F64) ex_funs wh_env g64_dict) (wh_world None [[9; -9; 1; 1; 1; 1]%Z])
    (fun _ r s => existsb g64_seen (history s))) as (su & r & s & H1 & H2 & X).
  { vm_compute. reflexivity. }
  apply existsb_exists in X as (e & I & X). destruct e as [x dl a| | | | | | |]; try discriminate. unfold g64_seen in X. destruct (d_timegrids dl) as [|g [|? ?]] eqn:G; try discriminate.
  exists su, r, s, x, dl, a, g, (wh_pulse g64_steps), (wh_time 7). split; [exact H1|]. split; [exact H2|]. split; [exact I|]. split; [constructor|].
  split; [do 2 eexists; split; [reflexivity|]; split; [left; reflexivity|reflexivity]|]. split; [now rewrite G|]. split; [reflexivity|]. split; [reflexivity|].
  split; [exists (VList [wh_time 5; wh_time 7]), [wh_time 5], []; split; [reflexivity|]; split; [left; reflexivity|]; split; [reflexivity|intros ? []]|].
  split; [constructor|]. split; [reflexivity|]. split; [|exact X].
  apply long_integer; lia.
Qed.

(** ** Where it ends *)
(** Below the normal numbers the spacing is rounded up: with the duration 6 2^-1074 and eleven points the last point lies before the one
    before it. *)
Theorem C78_tiny_duration_refuted : exists (T : f64) x y, is_finite T = true /\ Bltb (f64_of_Z 0) T = true /\
  nth_error (linspace0 (N := F64) T 11) 9 = Some x /\ nth_error (linspace0 (N := F64) T 11) 10 = Some y /\ Bltb x y = false /\ Bltb T x = true.
Proof.
  assert (Q : is_finite (f64_lit 6 (-1074)) && Bltb (f64_of_Z 0) (f64_lit 6 (-1074)) &&
    match nth_error (linspace0 (N := F64) (f64_lit 6 (-1074)) 11) 9, nth_error (linspace0 (N := F64) (f64_lit 6 (-1074)) 11) 10 with
    | Some x, Some y => negb (Bltb x y) && Bltb (f64_lit 6 (-1074)) x | _, _ => false end = true) by (vm_compute; reflexivity).
  revert Q. generalize (f64_lit 6 (-1074)). intros T Q. apply andb_prop in Q as [Q Q3]. apply andb_prop in Q as [Q1 Q2]. exists T.
  destruct (nth_error (linspace0 (N := F64) T 11) 9) as [x|]; [|discriminate]. destruct (nth_error (linspace0 (N := F64) T 11) 10) as [y|]; [|discriminate].
  apply andb_prop in Q3 as [Q3 Q4]. exists x, y. repeat (split; [assumption || reflexivity|]). split; [now apply negb_true_iff|exact Q4].
Qed.

Print Assumptions C78_points.
Print Assumptions C78_no_duration.
Print Assumptions C78_delivered.
Print Assumptions C78_fixed_duration.
Print Assumptions C78_run.
Print Assumptions C78_tiny_duration_refuted.
