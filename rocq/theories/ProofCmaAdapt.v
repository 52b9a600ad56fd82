(** Weights, rates and covariance matrix of CMA-ES. *)
From Coq Require Import Reals Lra Lia Psatz.
From Flocq Require Import Core.Raux.
From Verif Require Import ModelCma SpecCma.
Open Scope R_scope.

(** ** sums *)
Lemma rsum_ext k f g : (forall i, (i < k)%nat -> f i = g i) -> rsum k f = rsum k g.
Proof. induction k as [|k IH]; intros H; [reflexivity|]. cbn. rewrite IH by (intros; apply H; lia). rewrite H by lia. reflexivity. Qed.
Lemma rsum_plus k f g : rsum k (fun i => f i + g i) = rsum k f + rsum k g.
Proof. induction k as [|k IH]; cbn; [lra|]. rewrite IH. lra. Qed.
Lemma rsum_scal k c f : rsum k (fun i => c * f i) = c * rsum k f.
Proof. induction k as [|k IH]; cbn; [lra|]. rewrite IH. lra. Qed.
Lemma rsum_scal_r k c f : rsum k (fun i => f i * c) = rsum k f * c.
Proof. induction k as [|k IH]; cbn; [lra|]. rewrite IH. lra. Qed.
Lemma rsum_le k f g : (forall i, (i < k)%nat -> f i <= g i) -> rsum k f <= rsum k g.
Proof.
  induction k as [|k IH]; intros H; cbn; [lra|]. assert (rsum k f <= rsum k g) by (apply IH; intros; apply H; lia).
  specialize (H k ltac:(lia)). lra.
Qed.
Lemma rsum_zero k : rsum k (fun _ => 0) = 0.
Proof. induction k as [|k IH]; cbn; [lra|]. rewrite IH. lra. Qed.
Lemma rsum_null k f : (forall i, (i < k)%nat -> f i = 0) -> rsum k f = 0.
Proof. intros H. rewrite <- (rsum_zero k). now apply rsum_ext. Qed.
Lemma rsum_const k c : rsum k (fun _ => c) = INR k * c.
Proof. induction k as [|k IH]; [cbn; lra|]. rewrite S_INR. cbn [rsum]. rewrite IH. lra. Qed.
Lemma rsum_nonneg k f : (forall i, (i < k)%nat -> 0 <= f i) -> 0 <= rsum k f.
Proof. intros H. rewrite <- (rsum_zero k). now apply rsum_le. Qed.
Lemma rsum_term k f i : (forall j, (j < k)%nat -> 0 <= f j) -> (i < k)%nat -> f i <= rsum k f.
Proof.
  induction k as [|k IH]; intros H L; [lia|]. cbn.
  assert (0 <= rsum k f) by (apply rsum_nonneg; intros; apply H; lia).
  destruct (Nat.eq_dec i k) as [->|D]; [lra|].
  assert (f i <= rsum k f) by (apply IH; [intros; apply H; lia|lia]). specialize (H k ltac:(lia)). lra.
Qed.
Lemma rsum_pos k f i : (forall j, (j < k)%nat -> 0 <= f j) -> (i < k)%nat -> 0 < f i -> 0 < rsum k f.
Proof. intros H L P. pose proof (rsum_term k f i H L). lra. Qed.
Lemma rsum_swap k l (f : nat -> nat -> R) : rsum k (fun i => rsum l (f i)) = rsum l (fun j => rsum k (fun i => f i j)).
Proof.
  induction k as [|k IH]; cbn; [now rewrite rsum_zero|]. rewrite IH. now rewrite <- rsum_plus.
Qed.
Lemma rsum_mult k l f g : rsum k f * rsum l g = rsum k (fun i => rsum l (fun j => f i * g j)).
Proof.
  rewrite <- rsum_scal_r. apply rsum_ext. intros i _. now rewrite rsum_scal.
Qed.

(** ** weights *)
Section Weights.
  Variable mu : nat.
  Hypothesis M : (1 <= mu)%nat.
  Lemma raw_pos k : (k < mu)%nat -> 0 < raw_weight mu k.
  Proof.
    intros L. unfold raw_weight. assert (0 < INR (S k)) as P by (apply lt_0_INR; lia).
    assert (INR (S k) <= INR mu) as Q by (apply le_INR; lia).
    assert (ln (INR (S k)) < ln (INR mu + / 2)) by (apply ln_increasing; lra). lra.
  Qed.
  Lemma raw_sum_pos : 0 < rsum mu (raw_weight mu).
  Proof. apply rsum_pos with (i := 0%nat); [intros j L; left; now apply raw_pos|lia|apply raw_pos; lia]. Qed.
  Lemma weight_pos k : (k < mu)%nat -> 0 < weight mu k.
  Proof. intros L. unfold weight. apply Rdiv_lt_0_compat; [now apply raw_pos|apply raw_sum_pos]. Qed.
  Lemma weight_decreasing k l : (k < l)%nat -> weight mu l < weight mu k.
  Proof.
    intros L. unfold weight, Rdiv. apply Rmult_lt_compat_r; [apply Rinv_0_lt_compat, raw_sum_pos|].
    unfold raw_weight. assert (ln (INR (S k)) < ln (INR (S l))) by (apply ln_increasing; [apply lt_0_INR; lia|apply lt_INR; lia]). lra.
  Qed.
  Lemma weight_sum : rsum mu (weight mu) = 1.
  Proof.
    unfold weight, Rdiv. rewrite rsum_scal_r. apply Rinv_r. pose proof raw_sum_pos. lra.
  Qed.
  Lemma weight_le_1 k : (k < mu)%nat -> weight mu k <= 1.
  Proof. intros L. rewrite <- weight_sum. apply rsum_term; [|assumption]. intros j J. left. now apply weight_pos. Qed.
  Lemma squares_pos : 0 < rsum mu (fun k => weight mu k * weight mu k).
  Proof.
    apply rsum_pos with (i := 0%nat); [|lia|].
    - intros j J. pose proof (weight_pos j J). nra.
    - pose proof (weight_pos 0 ltac:(lia)). nra.
  Qed.
  Lemma squares_le_1 : rsum mu (fun k => weight mu k * weight mu k) <= 1.
  Proof.
    rewrite <- weight_sum. apply rsum_le. intros k L. pose proof (weight_pos k L). pose proof (weight_le_1 k L). nra.
  Qed.
  Lemma mueff_ge_1 : 1 <= mueff mu.
  Proof.
    unfold mueff. pose proof squares_pos as P. pose proof squares_le_1 as Q.
    apply Rmult_le_reg_r with (1 := P). unfold Rdiv. rewrite Rmult_1_l, Rmult_1_l, Rinv_l by lra. lra.
  Qed.
  Lemma mueff_le_mu : mueff mu <= INR mu.
  Proof.
    assert (0 < INR mu) as MP by (apply lt_0_INR; lia).
    assert (0 <= rsum mu (fun k => (weight mu k - / INR mu) * (weight mu k - / INR mu))) as A
      by (apply rsum_nonneg; intros; apply Rle_0_sqr).
    rewrite rsum_ext with (g := fun k => weight mu k * weight mu k + ((-2 * / INR mu) * weight mu k + / INR mu * / INR mu)) in A
      by (intros; ring).
    rewrite !rsum_plus, rsum_scal, weight_sum, rsum_const in A.
    assert (INR mu * (/ INR mu * / INR mu) = / INR mu) as E by (field; lra). rewrite E in A.
    assert (/ INR mu <= rsum mu (fun k => weight mu k * weight mu k)) as B by lra.
    unfold mueff, Rdiv. rewrite Rmult_1_l. rewrite <- (Rinv_inv (INR mu)). apply Rinv_le; [now apply Rinv_0_lt_compat|exact B].
  Qed.
End Weights.

(** ** rates *)
Section Rates.
  Variables n mu : nat.
  Hypothesis Hn : (1 <= n)%nat.
  Hypothesis Hmu : (1 <= mu)%nat.
  Let N1 : 1 <= INR n. Proof. change 1 with (INR 1). now apply le_INR. Qed.
  Let M1 : 1 <= mueff mu. Proof. now apply mueff_ge_1. Qed.
  Lemma cc_range : 0 < rate_cc n mu < 1.
  Proof.
    unfold rate_cc. set (q := mueff mu / INR n). replace (2 * mueff mu / INR n) with (2 * q) by (unfold q; field; lra).
    assert (0 < q) by (apply Rdiv_lt_0_compat; lra). split.
    - apply Rdiv_lt_0_compat; lra.
    - apply Rmult_lt_reg_r with (INR n + 4 + 2 * q); [lra|]. unfold Rdiv. rewrite Rmult_assoc, Rinv_l by lra. lra.
  Qed.
  Lemma cs_range : 0 < rate_cs n mu < 1.
  Proof.
    unfold rate_cs. split.
    - apply Rdiv_lt_0_compat; lra.
    - apply Rmult_lt_reg_r with (INR n + mueff mu + 5); [lra|]. unfold Rdiv. rewrite Rmult_assoc, Rinv_l by lra. lra.
  Qed.
  Lemma c1_range : 0 < rate_c1 n mu < 1.
  Proof.
    unfold rate_c1. assert (2 < (INR n + 13 / 10) * (INR n + 13 / 10) + mueff mu) as B by nra. split.
    - apply Rdiv_lt_0_compat; lra.
    - apply Rmult_lt_reg_r with ((INR n + 13 / 10) * (INR n + 13 / 10) + mueff mu); [lra|]. unfold Rdiv. rewrite Rmult_assoc, Rinv_l by lra. lra.
  Qed.
  Lemma cmu_range : 0 <= rate_cmu n mu <= 1 - rate_c1 n mu.
  Proof.
    unfold rate_cmu. pose proof c1_range as [A B]. split; [|apply Rmin_l].
    apply Rmin_glb; [lra|]. apply Rmult_le_pos; [|left; apply Rinv_0_lt_compat; nra].
    assert (mueff mu - 2 + 1 / mueff mu = (mueff mu - 1) * (mueff mu - 1) / mueff mu) as -> by (field; lra).
    apply Rmult_le_pos; [lra|]. apply Rmult_le_pos; [nra|]. left. apply Rinv_0_lt_compat. lra.
  Qed.
  Lemma damps_ge : 1 < damps n mu.
  Proof. unfold damps. pose proof cs_range. pose proof (Rmax_l 0 (sqrt ((mueff mu - 1) / (INR n + 1)) - 1)). lra. Qed.
  Lemma chi_pos : 0 < chi_n n.
  Proof.
    unfold chi_n. apply Rmult_lt_0_compat; [apply sqrt_lt_R0; lra|].
    assert (1 / (4 * INR n) <= 1 / 4).
    { unfold Rdiv. rewrite !Rmult_1_l. apply Rinv_le; lra. }
    assert (0 < 1 / (21 * (INR n * INR n))) by (apply Rdiv_lt_0_compat; nra). lra.
  Qed.
  Lemma horizon_pos l_pop counteval : (1 <= l_pop)%nat -> (1 <= counteval)%nat ->
    0 < 1 - Rpower (1 - rate_cs n mu) (2 * INR counteval / INR l_pop) < 1.
  Proof.
    intros L K. pose proof cs_range as [A B].
    assert (0 < 2 * INR counteval / INR l_pop) as P.
    { apply Rdiv_lt_0_compat; [|apply lt_0_INR; lia]. assert (0 < INR counteval) by (apply lt_0_INR; lia). lra. }
    unfold Rpower. assert (ln (1 - rate_cs n mu) < 0) as Q by (rewrite <- ln_1; apply ln_increasing; lra).
    assert (exp (2 * INR counteval / INR l_pop * ln (1 - rate_cs n mu)) < 1) as E.
    { apply Rlt_le_trans with (exp 0); [|rewrite exp_0; lra]. apply exp_increasing. assert (0 < (2 * INR counteval / INR l_pop) * - ln (1 - rate_cs n mu)) by (apply Rmult_lt_0_compat; lra). lra. }
    pose proof (exp_pos (2 * INR counteval / INR l_pop * ln (1 - rate_cs n mu))). lra.
  Qed.
End Rates.

(** ** quadratic forms *)
Section Quadratic.
  Variable n : nat.
  Lemma quadratic_ext A B v : (forall i j, (i < n)%nat -> (j < n)%nat -> A i j = B i j) -> quadratic n A v = quadratic n B v.
  Proof. intros H. apply rsum_ext. intros i I. apply rsum_ext. intros j J. now rewrite H. Qed.
  Lemma quadratic_plus A B v : quadratic n (fun i j => A i j + B i j) v = quadratic n A v + quadratic n B v.
  Proof.
    unfold quadratic. rewrite <- rsum_plus. apply rsum_ext. intros i _. rewrite <- rsum_plus. apply rsum_ext. intros j _. ring.
  Qed.
  Lemma quadratic_scal c A v : quadratic n (fun i j => c * A i j) v = c * quadratic n A v.
  Proof.
    unfold quadratic. rewrite <- rsum_scal. apply rsum_ext. intros i _. rewrite <- rsum_scal. apply rsum_ext. intros j _. ring.
  Qed.
  Lemma quadratic_outer p v : quadratic n (fun i j => p i * p j) v = rsum n (fun i => v i * p i) * rsum n (fun i => v i * p i).
  Proof.
    unfold quadratic. rewrite rsum_mult. apply rsum_ext. intros i _. apply rsum_ext. intros j _. ring.
  Qed.
  Lemma quadratic_sum mu (A : nat -> rmat) v : quadratic n (fun i j => rsum mu (fun k => A k i j)) v = rsum mu (fun k => quadratic n (A k) v).
  Proof.
    induction mu as [|m IH]; cbn.
    - apply rsum_null. intros i _. apply rsum_null. intros j _. ring.
    - rewrite quadratic_plus, IH. reflexivity.
  Qed.
  Lemma semidefinite_plus A B : semidefinite n A -> semidefinite n B -> semidefinite n (fun i j => A i j + B i j).
  Proof. intros HA HB v. rewrite quadratic_plus. specialize (HA v). specialize (HB v). lra. Qed.
  Lemma semidefinite_scal c A : 0 <= c -> semidefinite n A -> semidefinite n (fun i j => c * A i j).
  Proof. intros HC HA v. rewrite quadratic_scal. now apply Rmult_le_pos. Qed.
  Lemma semidefinite_outer p : semidefinite n (fun i j => p i * p j).
  Proof. intros v. rewrite quadratic_outer. apply Rle_0_sqr. Qed.
  Lemma semidefinite_weighted mu w (a : nat -> nat -> R) : (forall k, (k < mu)%nat -> 0 <= w k) ->
    semidefinite n (fun i j => rsum mu (fun k => a i k * (w k * a j k))).
  Proof.
    intros H v. rewrite (quadratic_sum mu (fun k i j => a i k * (w k * a j k))). apply rsum_nonneg. intros k K.
    rewrite quadratic_ext with (B := fun i j => w k * ((fun i => a i k) i * (fun i => a i k) j)) by (intros; cbn; ring).
    rewrite quadratic_scal. apply Rmult_le_pos; [now apply H|]. apply semidefinite_outer.
  Qed.
  Lemma quadratic_start x0 sg v : quadratic n (c_C (cma_start x0 sg)) v = rsum n (fun i => (v i * sg i) * (v i * sg i)).
  Proof.
    unfold quadratic. apply rsum_ext. intros i I. cbn [c_C cma_start].
    assert (forall k, (i < k)%nat -> rsum k (fun j => v i * (identity i j * diagonal (fun i => sg i * sg i) i j * identity j i) * v j)
      = v i * sg i * (v i * sg i)) as H.
    { induction k as [|k IH]; intros L; [lia|]. cbn [rsum]. unfold identity, diagonal in *. destruct (Nat.eq_dec i k) as [->|D].
      - rewrite !Nat.eqb_refl.
        assert (rsum k (fun j : nat => v k * ((if Nat.eqb k j then 1 else 0) * (if Nat.eqb k j then sg k * sg k else 0) * (if Nat.eqb j k then 1 else 0)) * v j) = 0) as ->.
        { apply rsum_null. intros j J. replace (Nat.eqb k j) with false by (symmetry; apply Nat.eqb_neq; lia). ring. }
        ring.
      - rewrite IH by lia. replace (Nat.eqb i k) with false by (symmetry; apply Nat.eqb_neq; lia). ring. }
    now apply H.
  Qed.
End Quadratic.

(** ** invariants of the adaptation *)
Section Step.
  Variables (n mu l_pop : nat).
  Hypothesis Hn : (1 <= n)%nat.
  Hypothesis Hmu : (1 <= mu)%nat.
  Variables x0 sigma_v : rvec.

  (** covariance matrix before it is mirrored *)
  Definition updated (pc : rvec) (hsig : R) (art : nat -> nat -> R) (C : rmat) : rmat := fun i j =>
    (1 - rate_c1 n mu - rate_cmu n mu) * C i j + rate_c1 n mu * (pc i * pc j + (1 - hsig) * rate_cc n mu * (2 - rate_cc n mu) * C i j) +
      rate_cmu n mu * rsum mu (fun k => art i k * (weight mu k * art j k)).
  Definition mirrored (C : rmat) : rmat := fun i j => if Nat.leb i j then C i j else C j i.

  Lemma step_C eigh best counteval S : exists pc hsig art, (hsig = 0 \/ hsig = 1) /\
    (c_C (cma_step n mu l_pop eigh best counteval S) = mirrored (updated pc hsig art (c_C S)) \/
     c_C (cma_step n mu l_pop eigh best counteval S) = updated pc hsig art (c_C S)).
  Proof.
    unfold cma_step. cbv zeta.
    match goal with |- context [if Rlt_bool ?h (14 / 10 + ?b) then 1 else 0] => set (hs := if Rlt_bool h (14 / 10 + b) then 1 else 0) end.
    exists (fun i => (1 - rate_cc n mu) * c_pc S i + hs * sqrt (rate_cc n mu * (2 - rate_cc n mu) * mueff mu) *
      (rsum mu (fun k => best k i * weight mu k) - c_mean S i) / c_sigma S), hs, (fun i k => 1 / c_sigma S * (best k i - c_mean S i)).
    split; [unfold hs; destruct (Rlt_bool _ (14 / 10 + _)); [right|left]; reflexivity|].
    destruct (Rlt_bool (INR l_pop / _ / _ / _) _).
    - left. match goal with |- c_C (let (_, _) := ?e in _) = _ => destruct e as [lv B] end. reflexivity.
    - right. reflexivity.
  Qed.
  Lemma updated_symmetric pc h art C : symmetric n C -> symmetric n (updated pc h art C).
  Proof.
    intros HC i j I J. unfold updated. rewrite (HC i j I J).
    rewrite (rsum_ext mu (fun k => art i k * (weight mu k * art j k)) (fun k => art j k * (weight mu k * art i k))) by (intros; ring). ring.
  Qed.
  Lemma mirrored_same C : symmetric n C -> forall i j, (i < n)%nat -> (j < n)%nat -> mirrored C i j = C i j.
  Proof. intros HC i j I J. unfold mirrored. destruct (Nat.leb i j); [reflexivity|now apply HC]. Qed.
  Lemma updated_semi pc h art C : h = 0 \/ h = 1 -> semidefinite n C -> semidefinite n (updated pc h art C).
  Proof.
    intros Hh HC. pose proof (c1_range n mu Hn Hmu). pose proof (cmu_range n mu Hn Hmu). pose proof (cc_range n mu Hn Hmu).
    unfold updated. apply semidefinite_plus; [apply semidefinite_plus|].
    - apply semidefinite_scal; [lra|assumption].
    - apply semidefinite_scal; [lra|]. apply semidefinite_plus; [apply semidefinite_outer|]. apply semidefinite_scal; [|assumption].
      destruct Hh as [->| ->]; nra.
    - apply semidefinite_scal; [lra|]. apply semidefinite_weighted. intros k K. left. now apply weight_pos.
  Qed.
  Lemma updated_definite pc h art C : h = 0 \/ h = 1 -> rate_c1 n mu + rate_cmu n mu < 1 -> definite n C -> definite n (updated pc h art C).
  Proof.
    intros Hh R HC v V. pose proof (c1_range n mu Hn Hmu). pose proof (cmu_range n mu Hn Hmu). pose proof (cc_range n mu Hn Hmu).
    assert (0 < quadratic n C v) as P by now apply HC.
    rewrite (quadratic_ext n _ (fun i j => ((1 - rate_c1 n mu - rate_cmu n mu) + rate_c1 n mu * ((1 - h) * rate_cc n mu * (2 - rate_cc n mu))) * C i j +
        (rate_c1 n mu * (pc i * pc j) + rate_cmu n mu * rsum mu (fun k => art i k * (weight mu k * art j k))))) by (intros; unfold updated; ring).
    rewrite quadratic_plus, quadratic_plus, !quadratic_scal.
    assert (0 <= quadratic n (fun i j => pc i * pc j) v) by apply semidefinite_outer.
    assert (0 <= quadratic n (fun i j => rsum mu (fun k => art i k * (weight mu k * art j k))) v).
    { apply semidefinite_weighted. intros k K. left. now apply weight_pos. }
    assert (0 <= (1 - h) * rate_cc n mu * (2 - rate_cc n mu)) by (destruct Hh as [->| ->]; nra).
    assert (0 < (1 - rate_c1 n mu - rate_cmu n mu + rate_c1 n mu * ((1 - h) * rate_cc n mu * (2 - rate_cc n mu)))) by nra.
    assert (0 <= rate_c1 n mu * quadratic n (fun i j => pc i * pc j) v) by (apply Rmult_le_pos; lra).
    assert (0 <= rate_cmu n mu * quadratic n (fun i j => rsum mu (fun k => art i k * (weight mu k * art j k))) v) by (apply Rmult_le_pos; lra).
    nra.
  Qed.
  Lemma quadratic_same A B : (forall i j, (i < n)%nat -> (j < n)%nat -> A i j = B i j) ->
    (semidefinite n B -> semidefinite n A) /\ (definite n B -> definite n A) /\ (symmetric n B -> symmetric n A).
  Proof.
    intros E. split; [|split].
    - intros H v. rewrite (quadratic_ext n A B) by assumption. apply H.
    - intros H v. rewrite (quadratic_ext n A B) by assumption. apply H.
    - intros H i j I J. rewrite !E by assumption. now apply H.
  Qed.

  Lemma adapted_semi S : adapted n mu l_pop x0 sigma_v S -> symmetric n (c_C S) /\ semidefinite n (c_C S).
  Proof.
    induction 1 as [|eigh best counteval S A [I1 I2]].
    - split.
      + intros i j _ _. cbn. unfold identity, diagonal. rewrite (Nat.eqb_sym j i). destruct (Nat.eqb_spec i j) as [->|]; ring.
      + intros v. rewrite quadratic_start. apply rsum_nonneg. intros. apply Rle_0_sqr.
    - destruct (step_C eigh best counteval S) as (pc & h & art & Hh & [E|E]); rewrite E.
      + destruct (quadratic_same (mirrored (updated pc h art (c_C S))) (updated pc h art (c_C S))) as (Q1 & _ & Q2).
        { intros. now apply mirrored_same; [apply updated_symmetric|..]. }
        split; [apply Q2; now apply updated_symmetric|apply Q1; now apply updated_semi].
      + split; [now apply updated_symmetric|now apply updated_semi].
  Qed.
  Lemma adapted_definite S : rate_c1 n mu + rate_cmu n mu < 1 -> (forall i, (i < n)%nat -> sigma_v i <> 0) ->
    adapted n mu l_pop x0 sigma_v S -> definite n (c_C S).
  Proof.
    intros R SG. induction 1 as [|eigh best counteval S A I].
    - intros v (i & L & V). rewrite quadratic_start. apply rsum_pos with (i := i); [|assumption|].
      + intros. apply Rle_0_sqr.
      + specialize (SG i L). assert (v i * sigma_v i <> 0) by (apply Rmult_integral_contrapositive; now split). apply (Rsqr_pos_lt _ H).
    - pose proof (adapted_semi S A) as [I1 _].
      destruct (step_C eigh best counteval S) as (pc & h & art & Hh & [E|E]); rewrite E.
      + destruct (quadratic_same (mirrored (updated pc h art (c_C S))) (updated pc h art (c_C S))) as (_ & Q1 & _).
        { intros. now apply mirrored_same; [apply updated_symmetric|..]. }
        apply Q1. now apply updated_definite.
      + now apply updated_definite.
  Qed.
  Lemma adapted_sigma S : adapted n mu l_pop x0 sigma_v S -> 0 < c_sigma S.
  Proof.
    induction 1 as [|eigh best counteval S A I]; [cbn; lra|].
    unfold cma_step. cbv zeta. destruct (Rlt_bool (INR l_pop / _ / _ / _) _).
    - match goal with |- 0 < c_sigma (let (_, _) := ?e in _) => destruct e as [lv B] end. cbn [c_sigma].
      apply Rmult_lt_0_compat; [assumption|apply exp_pos].
    - cbn [c_sigma]. apply Rmult_lt_0_compat; [assumption|apply exp_pos].
  Qed.
  Lemma step_mean eigh best counteval S i : c_mean (cma_step n mu l_pop eigh best counteval S) i = rsum mu (fun k => best k i * weight mu k).
  Proof.
    unfold cma_step. cbv zeta. destruct (Rlt_bool (INR l_pop / _ / _ / _) _); [|reflexivity].
    match goal with |- c_mean (let (_, _) := ?e in _) _ = _ => destruct e as [lv B] end. reflexivity.
  Qed.
  Lemma mean_between eigh best counteval S i lo hi : (forall k, (k < mu)%nat -> lo <= best k i <= hi) ->
    lo <= c_mean (cma_step n mu l_pop eigh best counteval S) i <= hi.
  Proof.
    intros H. rewrite step_mean. split.
    - replace lo with (rsum mu (fun k => lo * weight mu k)) by (rewrite rsum_scal, weight_sum by assumption; ring).
      apply rsum_le. intros k K. apply Rmult_le_compat_r; [left; now apply weight_pos|now apply H].
    - replace hi with (rsum mu (fun k => hi * weight mu k)) by (rewrite rsum_scal, weight_sum by assumption; ring).
      apply rsum_le. intros k K. apply Rmult_le_compat_r; [left; now apply weight_pos|now apply H].
  Qed.
End Step.

Lemma rates_below_1 n mu : (1 <= n)%nat -> (1 <= mu)%nat -> (4 * mu <= (n + 2) * (n + 2))%nat -> rate_c1 n mu + rate_cmu n mu < 1.
Proof.
  intros A B C.
  assert (1 <= INR n) as N1 by (change 1 with (INR 1); now apply le_INR).
  pose proof (mueff_ge_1 mu B) as M1. pose proof (mueff_le_mu mu B) as M2.
  assert (4 * INR mu <= (INR n + 2) * (INR n + 2)) as C'.
  { apply le_INR in C. rewrite !mult_INR, !plus_INR in C. simpl (INR 4) in C. simpl (INR 2) in C. lra. }
  assert (rate_c1 n mu <= 2 / 6) as D1.
  { unfold rate_c1, Rdiv. apply Rmult_le_compat_l; [lra|]. apply Rinv_le; nra. }
  assert (rate_cmu n mu <= 1 / 2) as D2.
  { unfold rate_cmu. eapply Rle_trans; [apply Rmin_r|]. set (m := mueff mu) in *. set (q := (INR n + 2) * (INR n + 2)) in *.
    assert (0 < q + m) as P by nra.
    apply Rmult_le_reg_r with (1 := P). unfold Rdiv at 1. rewrite Rmult_assoc, Rinv_l by lra.
    assert (1 / m <= 1). { unfold Rdiv. rewrite Rmult_1_l. rewrite <- Rinv_1. apply Rinv_le; lra. }
    lra. }
  lra.
Qed.
