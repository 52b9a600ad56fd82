(** Law of the candidates of CMA-ES. *)
From Coq Require Import Reals Lra Lia Psatz FunctionalExtensionality.
From Flocq Require Import Core.Raux.
From Verif Require Import ModelCma SpecCma ProofCmaAdapt.
Open Scope R_scope.

Lemma rsum_pick n i f : (i < n)%nat -> rsum n (fun k => (if Nat.eqb i k then 1 else 0) * f k) = f i.
Proof.
  induction n as [|n IH]; intros L; [lia|]. cbn [rsum]. destruct (Nat.eqb_spec i n) as [->|D].
  - rewrite rsum_null; [ring|]. intros k K. destruct (Nat.eqb_spec n k); [lia|ring].
  - rewrite IH by lia. ring.
Qed.

Section Law.
  Variables (n : nat) (B : rmat) (D : rvec) (C W : rmat).
  Hypothesis columns : forall k l, (k < n)%nat -> (l < n)%nat -> rsum n (fun i => B i k * B i l) = if Nat.eqb k l then 1 else 0.
  Hypothesis rows : forall i j, (i < n)%nat -> (j < n)%nat -> rsum n (fun k => B i k * B j k) = if Nat.eqb i j then 1 else 0.
  Hypothesis D_pos : forall k, (k < n)%nat -> 0 < D k.
  Hypothesis C_sum : forall i j, (i < n)%nat -> (j < n)%nat -> C i j = rsum n (fun k => B i k * (D k * D k) * B j k).
  Hypothesis W_sum : forall i j, (i < n)%nat -> (j < n)%nat -> W i j = rsum n (fun k => B i k * (1 / D k * B j k)).

  Lemma law_root : covariance_root n C (fun i k => B i k * D k).
  Proof. intros i j I J. rewrite C_sum by assumption. apply rsum_ext. intros k K. ring. Qed.
  (** W (B D) = B *)
  Lemma law_white i m : (i < n)%nat -> (m < n)%nat -> rsum n (fun j => W i j * (B j m * D m)) = B i m.
  Proof.
    intros I M.
    rewrite (rsum_ext n _ (fun j => rsum n (fun k => B i k * (1 / D k * B j k) * (B j m * D m))))
      by (intros j J; rewrite W_sum by assumption; now rewrite <- rsum_scal_r).
    rewrite rsum_swap.
    rewrite (rsum_ext n _ (fun k => (if Nat.eqb m k then 1 else 0) * (B i k * (1 / D k) * D m))).
    - rewrite rsum_pick by assumption. field. apply Rgt_not_eq, D_pos. assumption.
    - intros k K. rewrite (rsum_ext n _ (fun j => B j m * B j k * (B i k * (1 / D k) * D m))) by (intros; ring).
      rewrite rsum_scal_r, columns by assumption. reflexivity.
  Qed.
  Lemma law_symmetric : symmetric n W.
  Proof. intros i j I J. rewrite !W_sum by assumption. apply rsum_ext. intros k K. ring. Qed.
  Lemma law_semidefinite : semidefinite n W.
  Proof.
    intros v. unfold quadratic.
    rewrite (rsum_ext n _ (fun i => rsum n (fun j => rsum n (fun k => 1 / D k * ((v i * B i k) * (v j * B j k)))))).
    - rewrite (rsum_ext n _ (fun i => rsum n (fun k => rsum n (fun j => 1 / D k * ((v i * B i k) * (v j * B j k)))))) by (intros; apply rsum_swap).
      rewrite rsum_swap. apply rsum_nonneg. intros k K.
      rewrite (rsum_ext n _ (fun i => 1 / D k * rsum n (fun j => (v i * B i k) * (v j * B j k)))) by (intros; now rewrite rsum_scal).
      rewrite rsum_scal, <- rsum_mult. apply Rmult_le_pos; [|apply Rle_0_sqr].
      pose proof (D_pos k K). unfold Rdiv. rewrite Rmult_1_l. left. now apply Rinv_0_lt_compat.
    - intros i I. apply rsum_ext. intros j J. rewrite W_sum by assumption. rewrite <- rsum_scal, <- rsum_scal_r.
      apply rsum_ext. intros k K. ring.
  Qed.
  Lemma law_inverse : inverse_root n C W.
  Proof.
    split; [exact law_symmetric|]. split; [exact law_semidefinite|]. intros i l I L.
    rewrite (rsum_ext n _ (fun j => rsum n (fun k => rsum n (fun m => (W i j * (B j m * D m)) * (W l k * (B k m * D m)))))).
    - rewrite (rsum_ext n _ (fun j => rsum n (fun m => rsum n (fun k => (W i j * (B j m * D m)) * (W l k * (B k m * D m)))))) by (intros; apply rsum_swap).
      rewrite rsum_swap. rewrite <- (rows i l I L). apply rsum_ext. intros m M. rewrite <- rsum_mult, !law_white by assumption. reflexivity.
    - intros j J. apply rsum_ext. intros k K. rewrite C_sum by assumption. rewrite (law_symmetric k l) by assumption.
      rewrite <- rsum_scal, <- rsum_scal_r. apply rsum_ext. intros m M. ring.
  Qed.
  Lemma law_isometry z : rsum n (fun i => rapply n B z i * rapply n B z i) = rsum n (fun k => z k * z k).
  Proof.
    unfold rapply. rewrite (rsum_ext n _ (fun i => rsum n (fun k => rsum n (fun l => (B i k * z k) * (B i l * z l))))) by (intros; apply rsum_mult).
    rewrite rsum_swap. apply rsum_ext. intros k K. rewrite rsum_swap.
    rewrite (rsum_ext n _ (fun l => (if Nat.eqb k l then 1 else 0) * (z k * z l))); [now apply rsum_pick|].
    intros l L. rewrite (rsum_ext n _ (fun i => B i k * B i l * (z k * z l))) by (intros; ring). now rewrite rsum_scal_r, columns.
  Qed.
  Lemma law_norm z : rnorm n (rapply n W (rapply n B (fun k => D k * z k))) = rnorm n z.
  Proof.
    unfold rnorm. f_equal. rewrite <- (law_isometry z). apply rsum_ext. intros i I.
    assert (rapply n W (rapply n B (fun k => D k * z k)) i = rapply n B z i) as ->; [|reflexivity].
    unfold rapply. rewrite (rsum_ext n _ (fun j => rsum n (fun k => W i j * (B j k * D k) * z k))).
    - rewrite rsum_swap. apply rsum_ext. intros k K. rewrite rsum_scal_r, law_white by assumption. reflexivity.
    - intros j J. rewrite <- rsum_scal. apply rsum_ext. intros k K. ring.
  Qed.
End Law.

(** ** states *)
Record lawful (n : nat) (C0 : rmat) (S : cma) : Prop := mk_lawful {
  lw_columns : forall k l, (k < n)%nat -> (l < n)%nat -> rsum n (fun i => c_B S i k * c_B S i l) = if Nat.eqb k l then 1 else 0;
  lw_rows : forall i j, (i < n)%nat -> (j < n)%nat -> rsum n (fun k => c_B S i k * c_B S j k) = if Nat.eqb i j then 1 else 0;
  lw_pos : forall k, (k < n)%nat -> 0 < c_D S k;
  lw_C : forall i j, (i < n)%nat -> (j < n)%nat -> C0 i j = rsum n (fun k => c_B S i k * (c_D S k * c_D S k) * c_B S j k);
  lw_W : forall i j, (i < n)%nat -> (j < n)%nat -> c_inv S i j = rsum n (fun k => c_B S i k * (1 / c_D S k * c_B S j k))
}.
Section States.
  Variables (n mu l_pop : nat).
  Hypothesis Hn : (1 <= n)%nat.
  Hypothesis Hmu : (1 <= mu)%nat.
  Hypothesis Hrates : rate_c1 n mu + rate_cmu n mu < 1.
  Variables x0 sigma_v : rvec.
  Hypothesis Hsigma : forall i, (i < n)%nat -> 0 < sigma_v i.

  Lemma tuned_adapted C0 S : tuned n mu l_pop x0 sigma_v C0 S -> adapted n mu l_pop x0 sigma_v S.
  Proof. induction 1; constructor; assumption. Qed.
  Lemma eigenvalues_pos C lv B : eigenpairs n C lv B -> definite n C -> forall k, (k < n)%nat -> 0 < lv k.
  Proof.
    intros [E1 E2 E3] P k K.
    assert (quadratic n C (fun i => B i k) = lv k) as <-.
    { unfold quadratic.
      rewrite (rsum_ext n _ (fun i => rsum n (fun j => rsum n (fun l => lv l * ((B i k * B i l) * (B j k * B j l)))))).
      - rewrite (rsum_ext n _ (fun i => rsum n (fun l => rsum n (fun j => lv l * ((B i k * B i l) * (B j k * B j l)))))) by (intros; apply rsum_swap).
        rewrite rsum_swap. rewrite (rsum_ext n _ (fun l => (if Nat.eqb k l then 1 else 0) * lv l)); [now apply rsum_pick|].
        intros l L. rewrite (rsum_ext n _ (fun i => lv l * rsum n (fun j => (B i k * B i l) * (B j k * B j l)))) by (intros; now rewrite rsum_scal).
        rewrite rsum_scal, <- rsum_mult, E1 by assumption. destruct (Nat.eqb k l); ring.
      - intros i I. apply rsum_ext. intros j J. rewrite E3 by assumption. rewrite <- rsum_scal, <- rsum_scal_r. apply rsum_ext. intros l L. ring. }
    apply P. destruct (Req_dec (rsum n (fun i => B i k * B i k)) 0) as [Z|Z].
    - rewrite E1, Nat.eqb_refl in Z by assumption. lra.
    - clear - Z. induction n as [|m IH]; [cbn in Z; lra|]. cbn in Z. destruct (Req_dec (B m k) 0) as [Y|Y].
      + destruct IH as (i & I & Q); [rewrite Y in Z; lra|]. exists i. split; [lia|exact Q].
      + exists m. split; [lia|exact Y].
  Qed.
  Lemma start_lawful : lawful n (c_C (cma_start x0 sigma_v)) (cma_start x0 sigma_v).
  Proof.
    assert (forall k l, (k < n)%nat -> (l < n)%nat -> rsum n (fun i => identity i k * identity i l) = if Nat.eqb k l then 1 else 0) as E.
    { intros k l K L. unfold identity. rewrite (rsum_ext n _ (fun i => (if Nat.eqb k i then 1 else 0) * (if Nat.eqb i l then 1 else 0))) by (intros i I; now rewrite (Nat.eqb_sym i k)).
      now rewrite rsum_pick. }
    constructor; cbn [c_B c_D c_C c_inv cma_start].
    - exact E.
    - intros i j I J. rewrite (rsum_ext n _ (fun k => identity k i * identity k j)); [now apply E|].
      intros k K. unfold identity. now rewrite (Nat.eqb_sym i k), (Nat.eqb_sym j k).
    - exact Hsigma.
    - intros i j I J. unfold identity at 3 4. rewrite (rsum_ext n _ (fun k => (if Nat.eqb i k then 1 else 0) * ((sigma_v k * sigma_v k) * (if Nat.eqb j k then 1 else 0)))) by (intros; ring).
      rewrite rsum_pick by assumption. unfold identity, diagonal. rewrite (Nat.eqb_sym j i). destruct (Nat.eqb_spec i j); ring.
    - intros i j I J. unfold identity at 3 4. rewrite rsum_pick by assumption. unfold identity, diagonal. rewrite (Nat.eqb_sym j i).
      unfold Rdiv. destruct (Nat.eqb_spec i j); ring.
  Qed.
  Lemma step_due eigh best counteval S : due n mu l_pop counteval ->
    let S' := cma_step n mu l_pop eigh best counteval S in
    c_B S' = snd (eigh (c_C S')) /\ (forall k, c_D S' k = sqrt (fst (eigh (c_C S')) k)) /\
    forall i j, c_inv S' i j = rsum n (fun k => c_B S' i k * (1 / c_D S' k * c_B S' j k)).
  Proof.
    intros H. unfold cma_step. cbv zeta. rewrite (Rlt_bool_true (INR l_pop / (rate_c1 n mu + rate_cmu n mu) / INR n / 10)) by exact H.
    match goal with |- context [let (_, _) := eigh ?c in _] => set (C1 := c) end. destruct (eigh C1) as [lv B] eqn:E. cbn [c_B c_D c_C c_inv]. rewrite E.
    split; [reflexivity|]. split; reflexivity.
  Qed.
  Lemma step_not_due eigh best counteval S : ~ due n mu l_pop counteval ->
    let S' := cma_step n mu l_pop eigh best counteval S in c_B S' = c_B S /\ c_D S' = c_D S /\ c_inv S' = c_inv S.
  Proof.
    intros H. unfold cma_step. cbv zeta. rewrite (Rlt_bool_false (INR l_pop / (rate_c1 n mu + rate_cmu n mu) / INR n / 10)) by (apply Rnot_lt_le; exact H).
    repeat split.
  Qed.
  Lemma tuned_lawful C0 S : tuned n mu l_pop x0 sigma_v C0 S -> lawful n C0 S.
  Proof.
    induction 1 as [|eigh best counteval C0 S T L ND|eigh best counteval C0 S T L DU S' E].
    - exact start_lawful.
    - destruct (step_not_due eigh best counteval S ND) as (E1 & E2 & E3). destruct L. constructor; rewrite ?E1, ?E2, ?E3; assumption.
    - destruct (step_due eigh best counteval S DU) as (E1 & E2 & E3). fold S' in E1, E2, E3.
      assert (definite n (c_C S')) as P.
      { apply (adapted_definite n mu l_pop Hn Hmu x0 sigma_v); [exact Hrates|intros i I; specialize (Hsigma i I); lra|]. constructor. exact (tuned_adapted _ _ T). }
      pose proof (eigenvalues_pos _ _ _ E P) as Q. destruct E as [F1 F2 F3]. constructor.
      + rewrite E1. exact F1.
      + rewrite E1. exact F2.
      + intros k K. rewrite E2. apply sqrt_lt_R0. now apply Q.
      + intros i j I J. rewrite F3 by assumption. rewrite E1. apply rsum_ext. intros k K. rewrite E2, sqrt_sqrt; [reflexivity|]. left. now apply Q.
      + intros i j I J. apply E3.
  Qed.
  (** the step as a function of the new mean, its change and the steps of the candidates *)
  Definition step_from (xmean y : rvec) (artmp : nat -> nat -> R) (eigh : rmat -> rvec * rmat) (counteval : nat) (S : cma) : cma :=
    let cc := rate_cc n mu in let cs := rate_cs n mu in
    let c1 := rate_c1 n mu in let cmu := rate_cmu n mu in
    let m := mueff mu in
    let z := rapply n (c_inv S) y in
    let ps := fun i => (1 - cs) * c_ps S i + sqrt (cs * (2 - cs) * m) * z i / c_sigma S in
    let h := rnorm n ps / sqrt (1 - Rpower (1 - cs) (2 * INR counteval / INR l_pop)) / chi_n n in
    let hsig := if Rlt_bool h (14 / 10 + 2 / (INR n + 1)) then 1 else 0 in
    let pc := fun i => (1 - cc) * c_pc S i + hsig * sqrt (cc * (2 - cc) * m) * y i / c_sigma S in
    let C := fun i j =>
      (1 - c1 - cmu) * c_C S i j + c1 * (pc i * pc j + (1 - hsig) * cc * (2 - cc) * c_C S i j) +
      cmu * rsum mu (fun k => artmp i k * (weight mu k * artmp j k)) in
    let sigma := c_sigma S * exp (cs / damps n mu * (rnorm n ps / chi_n n - 1)) in
    if Rlt_bool (INR l_pop / (c1 + cmu) / INR n / 10) (INR counteval) then
      let C := fun i j => if Nat.leb i j then C i j else C j i in
      let (lv, B) := eigh C in
      let D := fun i => sqrt (lv i) in
      {| c_mean := xmean; c_sigma := sigma; c_pc := pc; c_ps := ps; c_B := B; c_D := D; c_C := C;
         c_inv := fun i j => rsum n (fun k => B i k * (1 / D k * B j k)) |}
    else
      {| c_mean := xmean; c_sigma := sigma; c_pc := pc; c_ps := ps; c_B := c_B S; c_D := c_D S; c_C := C;
         c_inv := c_inv S |}.
  Lemma step_moved t eigh best counteval S :
    cma_step n mu l_pop eigh (fun k i => best k i + t i) counteval (moved t S) = moved t (cma_step n mu l_pop eigh best counteval S).
  Proof.
    assert ((fun i => rsum mu (fun k => (best k i + t i) * weight mu k)) = (fun i => rsum mu (fun k => best k i * weight mu k) + t i)) as EM.
    { apply functional_extensionality. intros i. rewrite (rsum_ext mu _ (fun k => best k i * weight mu k + t i * weight mu k)) by (intros; ring).
      rewrite rsum_plus, rsum_scal, (weight_sum mu Hmu). ring. }
    assert ((fun i => rsum mu (fun k => (best k i + t i) * weight mu k) - (c_mean S i + t i)) = (fun i => rsum mu (fun k => best k i * weight mu k) - c_mean S i)) as EY.
    { apply functional_extensionality. intros i. apply (f_equal (fun f => f i)) in EM. cbv beta in EM. rewrite EM. ring. }
    assert ((fun i k => 1 / c_sigma S * (best k i + t i - (c_mean S i + t i))) = (fun i k => 1 / c_sigma S * (best k i - c_mean S i))) as EA.
    { apply functional_extensionality. intros i. apply functional_extensionality. intros k. f_equal. ring. }
    change (step_from (fun i => rsum mu (fun k => (best k i + t i) * weight mu k))
      (fun i => rsum mu (fun k => (best k i + t i) * weight mu k) - (c_mean S i + t i))
      (fun i k => 1 / c_sigma S * (best k i + t i - (c_mean S i + t i))) eigh counteval S =
      moved t (step_from (fun i => rsum mu (fun k => best k i * weight mu k)) (fun i => rsum mu (fun k => best k i * weight mu k) - c_mean S i)
      (fun i k => 1 / c_sigma S * (best k i - c_mean S i)) eigh counteval S)).
    rewrite EY, EA, EM. unfold step_from. cbv zeta.
    destruct (Rlt_bool (INR l_pop / _ / _ / _) _); [|reflexivity].
    match goal with |- (let (_, _) := ?e in _) = _ => destruct e end. reflexivity.
  Qed.
End States.
