(** * C61 Candidates of CMA-ES. *)
From Coq Require Import Reals Lra Lia Psatz FunctionalExtensionality.
From Flocq Require Import Core.Raux.
From Verif Require Import ModelCma SpecCma ProofCmaAdapt ProofCmaLaw.
Open Scope R_scope.

(** Candidates are mean + sigma * A z with A A^T = C0, the covariance matrix when it was last decomposed, and the matrix used to judge the length of a
    step is the inverse root of the same C0: the step to a candidate has the length of the normal numbers it was made of. *)
Theorem C61_law n mu l_pop x0 sigma_v C0 S : (1 <= n)%nat -> (1 <= mu)%nat -> (4 * mu <= (n + 2) * (n + 2))%nat ->
  (forall i, (i < n)%nat -> 0 < sigma_v i) -> tuned n mu l_pop x0 sigma_v C0 S ->
  exists A, (forall z i, cma_sample n S z i = c_mean S i + c_sigma S * rsum n (fun k => A i k * z k)) /\
    covariance_root n C0 A /\ inverse_root n C0 (c_inv S) /\
    forall z, rnorm n (rapply n (c_inv S) (fun i => (cma_sample n S z i - c_mean S i) / c_sigma S)) = rnorm n z.
Proof.
  intros A B R SG T. destruct (tuned_lawful n mu l_pop A B (rates_below_1 n mu A B R) x0 sigma_v SG C0 S T) as [L1 L2 L3 L4 L5].
  pose proof (adapted_sigma n mu l_pop x0 sigma_v S (tuned_adapted n mu l_pop x0 sigma_v C0 S T)) as SP.
  exists (fun i k => c_B S i k * c_D S k). split; [|split; [|split]].
  - intros z i. unfold cma_sample, rapply. do 2 f_equal. apply rsum_ext. intros k K. ring.
  - exact (law_root n (c_B S) (c_D S) C0 L4).
  - exact (law_inverse n (c_B S) (c_D S) C0 (c_inv S) L1 L2 L3 L4 L5).
  - intros z. rewrite <- (law_norm n (c_B S) (c_D S) (c_inv S) L1 L3 L5 z). f_equal. f_equal. apply functional_extensionality. intros i.
    unfold cma_sample. field. lra.
Qed.
(** Once the matrix has been decomposed it is decomposed in every later generation, and C0 is then the current covariance matrix. *)
Theorem C61_current n mu l_pop x0 sigma_v C0 S counteval counteval' eigh best : (1 <= n)%nat -> (1 <= mu)%nat -> (4 * mu <= (n + 2) * (n + 2))%nat ->
  (forall i, (i < n)%nat -> 0 < sigma_v i) -> tuned n mu l_pop x0 sigma_v C0 S -> due n mu l_pop counteval -> (counteval <= counteval')%nat ->
  let S' := cma_step n mu l_pop eigh best counteval' S in
  eigenpairs n (c_C S') (fst (eigh (c_C S'))) (snd (eigh (c_C S'))) ->
  exists A, (forall z i, cma_sample n S' z i = c_mean S' i + c_sigma S' * rsum n (fun k => A i k * z k)) /\ covariance_root n (c_C S') A /\ inverse_root n (c_C S') (c_inv S').
Proof.
  intros A B R SG T D L S' E. assert (due n mu l_pop counteval') as D' by (unfold due in *; apply le_INR in L; lra).
  destruct (C61_law n mu l_pop x0 sigma_v (c_C S') S' A B R SG) as (M & H1 & H2 & H3 & _); [|now exists M].
  exact (tu_decomposed n mu l_pop x0 sigma_v eigh best counteval' C0 S T D' E).
Qed.
(** Moving the start point and the selected candidates moves the mean and all later candidates and changes nothing else. *)
Theorem C61_moved n mu l_pop t : (1 <= mu)%nat ->
  (forall x0 sigma_v, cma_start (fun i => x0 i + t i) sigma_v = moved t (cma_start x0 sigma_v)) /\
  (forall eigh best counteval S, cma_step n mu l_pop eigh (fun k i => best k i + t i) counteval (moved t S) = moved t (cma_step n mu l_pop eigh best counteval S)) /\
  (forall S z i, cma_sample n (moved t S) z i = cma_sample n S z i + t i).
Proof.
  intros M. split; [reflexivity|]. split; [intros; now apply step_moved|]. intros S z i. unfold cma_sample. cbn [moved c_mean c_sigma c_B c_D]. ring.
Qed.

(** Before the first decomposition the candidates are drawn with the start matrix while the covariance matrix has changed: 20 parameters, population 2. *)
Lemma late_rates : mueff 1 = 1 /\ rate_cmu 20 1 = 0 /\ 0 < rate_c1 20 1 < 1 / 200.
Proof.
  assert (mueff 1 = 1) as M by (pose proof (mueff_ge_1 1 (le_n 1)); pose proof (mueff_le_mu 1 (le_n 1)); simpl INR in *; lra).
  assert (INR 20 = 20) as N by (rewrite INR_IZR_INZ; reflexivity).
  assert (0 < rate_c1 20 1 < 1 / 200) as C by (unfold rate_c1; rewrite M, N; lra).
  split; [exact M|]. split; [|exact C]. unfold rate_cmu. rewrite M, N. rewrite Rmin_right; lra.
Qed.
Theorem C61_stale_refuted : exists C0 S i, (i < 20)%nat /\ tuned 20 1 2 (fun _ => 0) (fun _ => 1) C0 S /\ C0 i i = 1 /\ c_C S i i < 1 /\
  forall z, cma_sample 20 S z i = c_mean S i + c_sigma S * z i.
Proof.
  destruct late_rates as (M & U & C1).
  assert (INR 20 = 20) as N by (rewrite INR_IZR_INZ; reflexivity). assert (INR 2 = 2) as N2 by reflexivity.
  assert (~ due 20 1 2 2) as ND.
  { unfold due. rewrite U, N, N2. apply Rle_not_lt. rewrite Rplus_0_r. unfold Rdiv.
    apply Rmult_le_reg_r with (20 * 10); [lra|]. replace (2 * / rate_c1 20 1 * / 20 * / 10 * (20 * 10)) with (2 * / rate_c1 20 1) by (field; lra).
    assert (200 <= / rate_c1 20 1); [|lra]. rewrite <- (Rinv_involutive 200) by lra. apply Rinv_le_contravar; lra. }
  set (S0 := cma_start (fun _ => 0) (fun _ => 1)). set (S := cma_step 20 1 2 (fun _ => (fun _ => 0, identity)) (fun _ _ => 0) 2 S0).
  exists (c_C S0), S, 0%nat. split; [lia|]. split; [apply tu_kept; [apply tu_start|exact ND]|]. split; [cbn; unfold identity, diagonal; cbn; ring|].
  destruct (step_not_due 20 1 2 (fun _ => (fun _ => 0, identity)) (fun _ _ => 0) 2 S0 ND) as (E1 & E2 & _). fold S in E1, E2. split.
  - assert (rsum 1 (fun k => 0 * weight 1 k) - 0 = 0) as Y by (cbn [rsum]; ring).
    assert (c_C S 0%nat 0%nat = 1 - rate_c1 20 1) as ->; [|lra]. unfold S, cma_step. cbv zeta.
    rewrite (Rlt_bool_false (INR 2 / (rate_c1 20 1 + rate_cmu 20 1) / INR 20 / 10)) by (apply Rnot_lt_le; exact ND). cbn [c_C].
    match goal with |- context [if Rlt_bool ?h (14 / 10 + ?b) then 1 else 0] => assert (h = 0) as ->; [|rewrite (Rlt_bool_true 0 (14 / 10 + b))] end.
    { unfold rnorm. rewrite rsum_null; [rewrite sqrt_0; unfold Rdiv; ring|]. intros i I. cbn [c_ps S0 cma_start c_mean c_sigma c_inv]. unfold rapply.
      rewrite rsum_null; [unfold Rdiv; ring|]. intros j J. rewrite Y. ring. }
    { cbn [S0 c_C c_pc c_sigma c_mean cma_start]. rewrite U, Y. unfold identity, diagonal. cbn [Nat.eqb]. unfold Rdiv. ring. }
    { rewrite N. lra. }
  - intros z. unfold cma_sample, rapply. rewrite E1, E2. cbn [c_B c_D S0 cma_start].
    do 2 f_equal. unfold identity. rewrite (rsum_pick 20 0 (fun k => 1 * z k)) by lia. ring.
Qed.

(** Two parameters, four candidates, two selected on the first axis: the matrix is decomposed in the first generation and both variances differ. *)
Definition axis_solver (C : rmat) : rvec * rmat := (fun i => C i i, identity).
Definition axis_step : cma := cma_step 2 2 4 axis_solver (fun k i => match i with O => 1 | _ => 0 end) 4 (cma_start (fun _ => 0) (fun _ => 1)).
Lemma axis_due : due 2 2 4 4.
Proof.
  pose proof (mueff_ge_1 2 ltac:(lia)). pose proof (mueff_le_mu 2 ltac:(lia)). pose proof (cmu_range 2 2 ltac:(lia) ltac:(lia)) as [U _].
  assert (INR 4 = 4) as N4 by (rewrite INR_IZR_INZ; reflexivity). simpl (INR 2) in *. replace (1 + 1) with 2 in * by ring.
  assert (1 / 10 < rate_c1 2 2) as C.
  { unfold rate_c1. simpl (INR 2). replace (1 + 1) with 2 by ring. apply Rmult_lt_reg_r with ((2 + 13 / 10) * (2 + 13 / 10) + mueff 2); [lra|].
    replace (2 / ((2 + 13 / 10) * (2 + 13 / 10) + mueff 2) * ((2 + 13 / 10) * (2 + 13 / 10) + mueff 2)) with 2 by (field; lra). lra. }
  unfold due. rewrite N4. simpl (INR 2). replace (1 + 1) with 2 by ring. set (r := rate_c1 2 2 + rate_cmu 2 2). assert (1 / 10 < r) by (unfold r; lra).
  unfold Rdiv. assert (/ r < 10); [|lra]. rewrite <- (Rinv_involutive 10) by lra. apply Rinv_lt_contravar; [|lra]. apply Rmult_lt_0_compat; lra.
Qed.
Example C61_case : tuned 2 2 4 (fun _ => 0) (fun _ => 1) (c_C axis_step) axis_step /\ (4 * 2 <= (2 + 2) * (2 + 2))%nat /\
  c_C axis_step 1%nat 1%nat < c_C axis_step 0%nat 0%nat.
Proof.
  set (S0 := cma_start (fun _ => 0) (fun _ => 1)). set (best := fun (k i : nat) => match i with O => 1 | _ => 0 end).
  assert (exists p q, 0 <= p /\ 0 < q /\ forall i j, (i < 2)%nat -> (j < 2)%nat -> c_C axis_step i j =
    if Nat.eqb i j then match i with O => q + p + rate_cmu 2 2 | _ => q end else 0) as (p & q & P & Q & E).
  { pose proof (weight_sum 2 ltac:(lia)) as WS. pose proof (cmu_range 2 2 ltac:(lia) ltac:(lia)). pose proof (c1_range 2 2 ltac:(lia) ltac:(lia)). pose proof (cc_range 2 2 ltac:(lia) ltac:(lia)).
    pose proof (rates_below_1 2 2 ltac:(lia) ltac:(lia) ltac:(lia)) as R1.
    unfold axis_step, cma_step. cbv zeta. rewrite (Rlt_bool_true (INR 4 / (rate_c1 2 2 + rate_cmu 2 2) / INR 2 / 10)) by exact axis_due.
    cbn [axis_solver c_C]. match goal with |- context [if Rlt_bool ?h (14 / 10 + ?b) then 1 else 0] => set (hs := if Rlt_bool h (14 / 10 + b) then 1 else 0) end.
    assert (hs = 0 \/ hs = 1) as HS by (unfold hs; destruct (Rlt_bool _ _); auto). clearbody hs.
    set (s := sqrt (rate_cc 2 2 * (2 - rate_cc 2 2) * mueff 2)).
    exists (rate_c1 2 2 * (hs * s * (hs * s))), (1 - rate_c1 2 2 - rate_cmu 2 2 + rate_c1 2 2 * ((1 - hs) * rate_cc 2 2 * (2 - rate_cc 2 2))).
    split; [apply Rmult_le_pos; [lra|apply Rle_0_sqr]|]. split.
    { assert (0 <= rate_c1 2 2 * ((1 - hs) * rate_cc 2 2 * (2 - rate_cc 2 2))); [|lra]. apply Rmult_le_pos; [lra|]. destruct HS as [->| ->]; nra. }
    cbn [rsum] in WS. intros i j I J. destruct i as [|[|i]]; [| |lia]; (destruct j as [|[|j]]; [| |lia]); cbn [Nat.leb Nat.eqb rsum S0 c_C c_pc c_mean c_sigma cma_start];
      unfold identity, diagonal; cbn [Nat.eqb]; field_simplify_eq; try lra.
    all: replace (weight 2 1) with (1 - weight 2 0) by lra; ring. }
  assert (definite 2 (c_C axis_step)) as PD.
  { apply (adapted_definite 2 2 4 ltac:(lia) ltac:(lia) (fun _ => 0) (fun _ => 1)); [now apply rates_below_1; lia|intros; lra|]. apply ad_step, ad_start. }
  split; [|split; [lia|]].
  - apply (tu_decomposed 2 2 4 (fun _ => 0) (fun _ => 1) axis_solver best 4 (c_C S0) S0); [apply tu_start|exact axis_due|]. fold axis_step.
    change (eigenpairs 2 (c_C axis_step) (fun i => c_C axis_step i i) identity).
    constructor; unfold identity.
    + intros k l K L. destruct k as [|[|k]]; [| |lia]; (destruct l as [|[|l]]; [| |lia]); cbn; ring.
    + intros k l K L. destruct k as [|[|k]]; [| |lia]; (destruct l as [|[|l]]; [| |lia]); cbn; ring.
    + intros i j I J. destruct i as [|[|i]]; [| |lia]; (destruct j as [|[|j]]; [| |lia]); cbn [rsum Nat.eqb]; try ring; rewrite (E 0%nat 1%nat) || rewrite (E 1%nat 0%nat); try lia; cbn [Nat.eqb]; ring.
  - rewrite !E by lia. cbn [Nat.eqb]. pose proof (cmu_range 2 2 ltac:(lia) ltac:(lia)).
    assert (0 < rate_cmu 2 2); [|lra].
    assert (1 < mueff 2) as M.
    { pose proof (weight_sum 2 ltac:(lia)) as WS. pose proof (weight_pos 2 ltac:(lia) 0 ltac:(lia)). pose proof (weight_pos 2 ltac:(lia) 1 ltac:(lia)). unfold mueff. cbn [rsum] in *.
      set (a := weight 2 0) in *. set (b := weight 2 1) in *. replace (0 + a * a + b * b) with (1 - 2 * (a * b)) by (replace b with (1 - a) by lra; ring).
      assert (0 < a * b) by (apply Rmult_lt_0_compat; lra). assert (0 < 1 - 2 * (a * b)) by (replace b with (1 - a) in * by lra; nra).
      apply Rmult_lt_reg_r with (1 - 2 * (a * b)); [assumption|]. replace (1 / (1 - 2 * (a * b)) * (1 - 2 * (a * b))) with 1 by (field; lra). lra. }
    unfold rate_cmu. pose proof (c1_range 2 2 ltac:(lia) ltac:(lia)). apply Rmin_glb_lt; [lra|]. simpl (INR 2). set (m := mueff 2) in *.
    replace (2 * (m - 2 + 1 / m)) with (2 * ((m - 1) * (m - 1)) / m) by (field; lra).
    apply Rdiv_lt_0_compat; [apply Rdiv_lt_0_compat; [nra|lra]|nra].
Qed.
Print Assumptions C61_law.
Print Assumptions C61_current.
Print Assumptions C61_moved.
Print Assumptions C61_stale_refuted.
