(** The adaptation of CMA-ES in other units. *)
From Coq Require Import Reals Lra Lia Arith FunctionalExtensionality.
From Flocq Require Import Core.Raux.
From Verif Require Import ModelCma SpecCma ProofCmaAdapt.
Open Scope R_scope.

Section Parts.
  Variables (n mu l_pop : nat) (eigh : rmat -> rvec * rmat).
  Let cc := rate_cc n mu. Let cs := rate_cs n mu. Let c1 := rate_c1 n mu. Let cmu := rate_cmu n mu. Let m := mueff mu.
  (** the lines of the adaptation one by one *)
  Definition p_mean (best : nat -> rvec) : rvec := fun i => rsum mu (fun k => best k i * weight mu k).
  Definition p_y best (S : cma) : rvec := fun i => p_mean best i - c_mean S i.
  Definition p_ps best (S : cma) : rvec := fun i =>
    (1 - cs) * c_ps S i + sqrt (cs * (2 - cs) * m) * rapply n (c_inv S) (p_y best S) i / c_sigma S.
  Definition p_hsig best counteval (S : cma) : R :=
    if Rlt_bool (rnorm n (p_ps best S) / sqrt (1 - Rpower (1 - cs) (2 * INR counteval / INR l_pop)) / chi_n n) (14 / 10 + 2 / (INR n + 1)) then 1 else 0.
  Definition p_pc best counteval (S : cma) : rvec := fun i =>
    (1 - cc) * c_pc S i + p_hsig best counteval S * sqrt (cc * (2 - cc) * m) * p_y best S i / c_sigma S.
  Definition p_tmp (best : nat -> rvec) (S : cma) : nat -> nat -> R := fun i k => 1 / c_sigma S * (best k i - c_mean S i).
  Definition p_C best counteval (S : cma) : rmat := fun i j =>
    (1 - c1 - cmu) * c_C S i j + c1 * (p_pc best counteval S i * p_pc best counteval S j + (1 - p_hsig best counteval S) * cc * (2 - cc) * c_C S i j) +
    cmu * rsum mu (fun k => p_tmp best S i k * (weight mu k * p_tmp best S j k)).
  Definition p_sigma best (S : cma) : R := c_sigma S * exp (cs / damps n mu * (rnorm n (p_ps best S) / chi_n n - 1)).
  Definition p_sym (C : rmat) : rmat := fun i j => if Nat.leb i j then C i j else C j i.
  Lemma step_parts best counteval S : cma_step n mu l_pop eigh best counteval S =
    if Rlt_bool (INR l_pop / (c1 + cmu) / INR n / 10) (INR counteval) then
      let C := p_sym (p_C best counteval S) in
      {| c_mean := p_mean best; c_sigma := p_sigma best S; c_pc := p_pc best counteval S; c_ps := p_ps best S; c_B := snd (eigh C);
         c_D := fun i => sqrt (fst (eigh C) i); c_C := C;
         c_inv := fun i j => rsum n (fun k => snd (eigh C) i k * (1 / sqrt (fst (eigh C) k) * snd (eigh C) j k)) |}
    else
      {| c_mean := p_mean best; c_sigma := p_sigma best S; c_pc := p_pc best counteval S; c_ps := p_ps best S; c_B := c_B S; c_D := c_D S;
         c_C := p_C best counteval S; c_inv := c_inv S |}.
  Proof.
    unfold cma_step. cbv zeta. unfold c1, cmu. destruct (Rlt_bool (INR l_pop / _ / _ / _) _); [|reflexivity].
    match goal with |- (let (_, _) := ?e in _) = _ => change e with (eigh (p_sym (p_C best counteval S))) end.
    destruct (eigh (p_sym (p_C best counteval S))) as [lv B]. reflexivity.
  Qed.

  Variable c : R.
  Hypothesis Hc : 0 < c.
  Hypothesis EU : unit_free eigh.
  Let big (best : nat -> rvec) : nat -> rvec := fun k i => c * best k i.
  Lemma big_mean best : p_mean (big best) = fun i => c * p_mean best i.
  Proof. apply functional_extensionality. intros i. unfold p_mean, big. rewrite <- rsum_scal. apply rsum_ext. intros. ring. Qed.
  Lemma big_y best S : p_y (big best) (enlarged c S) = fun i => c * p_y best S i.
  Proof. apply functional_extensionality. intros i. unfold p_y. rewrite big_mean. cbn. ring. Qed.
  Lemma big_ps best S : p_ps (big best) (enlarged c S) = p_ps best S.
  Proof.
    apply functional_extensionality. intros i. unfold p_ps. rewrite big_y. cbn [enlarged c_ps c_inv c_sigma].
    replace (rapply n (fun i j => / c * c_inv S i j) (fun j => c * p_y best S j) i) with (rapply n (c_inv S) (p_y best S) i); [reflexivity|].
    unfold rapply. apply rsum_ext. intros. field. lra.
  Qed.
  Lemma big_hsig best counteval S : p_hsig (big best) counteval (enlarged c S) = p_hsig best counteval S.
  Proof. unfold p_hsig. now rewrite big_ps. Qed.
  Lemma big_pc best counteval S : p_pc (big best) counteval (enlarged c S) = fun i => c * p_pc best counteval S i.
  Proof.
    apply functional_extensionality. intros i. unfold p_pc. rewrite big_y, big_hsig. cbn [enlarged c_pc c_sigma]. unfold Rdiv. ring.
  Qed.
  Lemma big_C best counteval S : p_C (big best) counteval (enlarged c S) = fun i j => c * c * p_C best counteval S i j.
  Proof.
    apply functional_extensionality. intros i. apply functional_extensionality. intros j. unfold p_C. rewrite big_pc, big_hsig. cbn [enlarged c_C].
    replace (rsum mu (fun k => p_tmp (big best) (enlarged c S) i k * (weight mu k * p_tmp (big best) (enlarged c S) j k)))
      with (c * c * rsum mu (fun k => p_tmp best S i k * (weight mu k * p_tmp best S j k))); [ring|].
    rewrite <- rsum_scal. apply rsum_ext. intros k _. unfold p_tmp, big. cbn [enlarged c_sigma c_mean]. ring.
  Qed.
  Lemma sym_scal a C : p_sym (fun i j => a * C i j) = fun i j => a * p_sym C i j.
  Proof. apply functional_extensionality. intros i. apply functional_extensionality. intros j. unfold p_sym. now destruct (Nat.leb i j). Qed.
  Lemma sqrt_big x : sqrt (c * c * x) = c * sqrt x.
  Proof. rewrite sqrt_mult_alt by nra. now rewrite sqrt_square by lra. Qed.
  Lemma step_enlarged best counteval S :
    cma_step n mu l_pop eigh (big best) counteval (enlarged c S) = enlarged c (cma_step n mu l_pop eigh best counteval S).
  Proof.
    rewrite !step_parts. unfold p_sigma. rewrite big_mean, big_pc, big_ps, big_C.
    destruct (Rlt_bool (INR l_pop / _ / _ / _) _); [|reflexivity]. cbv zeta. rewrite sym_scal, EU by nra. cbn [fst snd].
    unfold enlarged. cbn [c_mean c_sigma c_pc c_ps c_B c_D c_C c_inv]. f_equal.
    - apply functional_extensionality. intros i. apply sqrt_big.
    - apply functional_extensionality. intros i. apply functional_extensionality. intros j. rewrite <- rsum_scal. apply rsum_ext. intros k _.
      rewrite sqrt_big. unfold Rdiv. rewrite Rinv_mult. ring.
  Qed.
End Parts.
Lemma start_enlarged c x0 sigma_v :
  cma_start (fun i => c * x0 i) (fun i => c * sigma_v i) = enlarged c (cma_start x0 sigma_v).
Proof.
  unfold cma_start, enlarged. cbn. f_equal.
  - apply functional_extensionality. intros i. ring.
  - apply functional_extensionality. intros i. apply functional_extensionality. intros j. unfold diagonal, identity. rewrite (Nat.eqb_sym j i).
    destruct (Nat.eqb i j); ring.
  - apply functional_extensionality. intros i. apply functional_extensionality. intros j. unfold diagonal, identity. rewrite (Nat.eqb_sym j i).
    destruct (Nat.eqb i j); [rewrite Rinv_mult|]; ring.
Qed.
Lemma sample_enlarged n c S z i : cma_sample n (enlarged c S) z i = c * cma_sample n S z i.
Proof.
  unfold cma_sample, rapply. cbn [enlarged c_mean c_sigma c_B c_D].
  replace (rsum n (fun j => c_B S i j * (c * c_D S j * z j))) with (c * rsum n (fun j => c_B S i j * (c_D S j * z j))); [ring|].
  rewrite <- rsum_scal. apply rsum_ext. intros. ring.
Qed.
