(** * C69 Rosenbrock problem. *)
From Coq Require Import ZArith List Bool Reals Lra Lia Psatz.
From Coquelicot Require Import Coquelicot.
From Verif Require Import Num Py ModelRosen.
Import ListNotations.
Open Scope list_scope.
Open Scope R_scope.

(** ** Specification: the Rosenbrock function of the coordinates [x 0], ..., [x (n-1)] *)
Definition rosenbrock_function (n : nat) (x : nat -> R) : R :=
  fold_right Rplus 0 (map (fun i => 100 * (x (S i) - x i ^ 2) ^ 2 + (1 - x i) ^ 2) (seq 0 (n - 1))).

(** ** Exact numbers *)
Definition R_rosen (x : list R) : R := @rosen Rnum x.
Definition R_FoM (P : @rosenbrock Rnum) (x : list R) (rand : R) : R * R := @get_FoM Rnum P x rand.
Definition noisy_problem (factor : R) : @rosenbrock Rnum := @Rosenbrock Rnum true factor.
Definition quiet_problem (factor : R) : @rosenbrock Rnum := @Rosenbrock Rnum false factor.

(** ** Lemmas *)
Definition rterm (a b : R) : R := 100 * ((b - a * a) * (b - a * a)) + (1 - a) * (1 - a).
Fixpoint rsum (x : list R) : R := match x with a :: ((b :: _) as rest) => rterm a b + rsum rest | _ => 0 end.
Lemma R_fold l : forall s, fold_left Rplus l s = s + fold_right Rplus 0 l.
Proof. induction l as [|a l IH]; intro s; cbn; [lra|]. rewrite IH. lra. Qed.
Lemma terms_sum (x : list R) : fold_right Rplus 0 (@rosen_terms Rnum x) = rsum x.
Proof. induction x as [|a [|b x] IH]; [reflexivity|reflexivity|]. change (rterm a b + fold_right Rplus 0 (@rosen_terms Rnum (b :: x)) = rterm a b + rsum (b :: x)). now rewrite IH. Qed.
Lemma rosen_sum x : R_rosen x = rsum x.
Proof. unfold R_rosen, rosen. change (fold_left Rplus (@rosen_terms Rnum x) 0 = rsum x). rewrite R_fold, terms_sum. lra. Qed.
Lemma term_nonneg a b : 0 <= rterm a b.
Proof. unfold rterm. pose proof (Rle_0_sqr (b - a * a)) as H. pose proof (Rle_0_sqr (1 - a)) as H'. unfold Rsqr in *. lra. Qed.
Lemma term_zero a b : rterm a b = 0 -> a = 1 /\ b = 1.
Proof.
  unfold rterm. pose proof (Rle_0_sqr (b - a * a)) as H. pose proof (Rle_0_sqr (1 - a)) as H'. unfold Rsqr in *. intros E.
  assert (A : 1 - a = 0) by (apply Rsqr_0_uniq; unfold Rsqr; lra). assert (B : b - a * a = 0) by (apply Rsqr_0_uniq; unfold Rsqr; lra).
  assert (a = 1) by lra. subst a. split; lra.
Qed.
Lemma sum_nonneg x : 0 <= rsum x.
Proof. induction x as [|a [|b x] IH]; [cbn; lra|cbn; lra|]. change (0 <= rterm a b + rsum (b :: x)). pose proof (term_nonneg a b). lra. Qed.
Lemma sum_zero x : (2 <= length x)%nat -> rsum x = 0 -> List.Forall (fun a => a = 1) x.
Proof.
  induction x as [|a [|b x] IH]; cbn [length]; intros L H; [lia|lia|]. change (rterm a b + rsum (b :: x) = 0) in H.
  pose proof (term_nonneg a b). pose proof (sum_nonneg (b :: x)). destruct (term_zero a b ltac:(lra)) as [-> ->]. constructor; [reflexivity|].
  destruct x as [|c x]; [repeat constructor|]. apply IH; [cbn; lia|lra].
Qed.
Lemma sum_ones x : List.Forall (fun a => a = 1) x -> rsum x = 0.
Proof.
  induction x as [|a [|b x] IH]; intros H; [reflexivity|reflexivity|]. change (rterm a b + rsum (b :: x) = 0). inversion_clear H. rewrite IH by assumption. inversion_clear H1. subst. unfold rterm. lra.
Qed.

(** ** C69 *)
Theorem C69_function (x : list R) : R_rosen x = rosenbrock_function (length x) (fun i => nth i x 0).
Proof.
  rewrite rosen_sum. unfold rosenbrock_function. induction x as [|a [|b x] IH]; [reflexivity|reflexivity|].
  change (rsum (a :: b :: x)) with (rterm a b + rsum (b :: x)). rewrite IH. cbn [length Nat.sub]. rewrite Nat.sub_0_r. cbn [seq map fold_right nth]. f_equal; [unfold rterm; ring|].
  f_equal. rewrite <- seq_shift, map_map. reflexivity.
Qed.
Theorem C69_minimum (x : list R) : 0 <= R_rosen x /\ ((2 <= length x)%nat -> (R_rosen x = 0 <-> List.Forall (fun a => a = 1) x)).
Proof. rewrite rosen_sum. split; [apply sum_nonneg|]. intros L. split; [now apply sum_zero|apply sum_ones]. Qed.
(** with one parameter there is nothing to optimise *)
Theorem C69_one_parameter_refuted (a : R) : R_rosen [a] = 0 /\ R_rosen [] = 0.
Proof. rewrite !rosen_sum. split; reflexivity. Qed.
Theorem C69_quiet factor x rand : R_FoM (quiet_problem factor) x rand = (R_rosen x, 0).
Proof. reflexivity. Qed.
Definition noise (factor rand : R) : R := factor * (1 - 2 * rand).
Lemma noisyE factor x rand : R_FoM (noisy_problem factor) x rand = (R_rosen x + noise factor rand, factor * 0.6827).
Proof.
  assert (A : R_FoM (noisy_problem factor) x rand = (R_rosen x + (factor * 2 * (1 / 2 - rand)), factor * (6827 / 10000))) by reflexivity.
  rewrite A. unfold noise. apply f_equal2; lra.
Qed.
Theorem C69_noise factor x rand : 0 <= factor -> 0 <= rand <= 1 ->
  let '(FoM, std) := R_FoM (noisy_problem factor) x rand in
  Rabs (FoM - R_rosen x) <= factor /\ std = factor * 0.6827 /\ (0 < factor -> (Rabs (FoM - R_rosen x) <= std <-> 0.15865 <= rand <= 0.84135)).
Proof.
  intros F [L U]. rewrite noisyE. replace (R_rosen x + noise factor rand - R_rosen x) with (noise factor rand) by ring. unfold noise.
  split; [apply Rabs_le; nra|]. split; [reflexivity|]. intros P. split.
  - intros H. apply Rabs_le_between in H. split; nra.
  - intros H. apply Rabs_le. split; nra.
Qed.
Lemma int01 (F f : R -> R) v : (forall u, is_derive F u (f u)) -> (forall u, continuous f u) -> F 1 - F 0 = v -> is_RInt f 0 1 v.
Proof. intros D C <-. exact (is_RInt_derive F f 0 1 (fun u _ => D u) (fun u _ => C u)). Qed.
(** mean and variance of the figure of merit for a random number distributed uniformly in [0, 1] *)
Theorem C69_moments factor x :
  is_RInt (fun u => fst (R_FoM (noisy_problem factor) x u)) 0 1 (R_rosen x) /\
  is_RInt (fun u => (fst (R_FoM (noisy_problem factor) x u) - R_rosen x) ^ 2) 0 1 (factor ^ 2 / 3).
Proof.
  split.
  - apply (is_RInt_ext (fun u => R_rosen x + noise factor u)); [intros u _; now rewrite noisyE|].
    apply (int01 (fun u => R_rosen x * u + factor * (u - u ^ 2))); [| |ring].
    + intros u. unfold noise. auto_derive; [trivial|ring].
    + intros u. unfold noise. apply (ex_derive_continuous (fun u => R_rosen x + factor * (1 - 2 * u))). auto_derive. trivial.
  - apply (is_RInt_ext (fun u => noise factor u ^ 2)); [intros u _; rewrite noisyE; cbn [fst]; f_equal; ring|].
    apply (int01 (fun u => factor ^ 2 * (u - 2 * u ^ 2 + 4 / 3 * u ^ 3))); [| |field].
    + intros u. unfold noise. auto_derive; [trivial|field].
    + intros u. unfold noise. apply (ex_derive_continuous (fun u => (factor * (1 - 2 * u)) ^ 2)). auto_derive. trivial.
Qed.
(** the entry "std" is not the standard deviation: it is too large, for every factor *)
Theorem C69_std_refuted factor x rand variance : 0 < factor ->
  is_RInt (fun u => (fst (R_FoM (noisy_problem factor) x u) - R_rosen x) ^ 2) 0 1 variance -> sqrt variance < snd (R_FoM (noisy_problem factor) x rand).
Proof.
  intros F V. pose proof (is_RInt_unique _ _ _ _ V) as E. rewrite (is_RInt_unique _ _ _ _ (proj2 (C69_moments factor x))) in E. subst variance.
  rewrite noisyE. cbn [snd]. rewrite <- (sqrt_pow2 (factor * 0.6827)) by lra. apply sqrt_lt_1_alt. split; [nra|]. nra.
Qed.
(** the value recorded can lie below the minimum of the function *)
Theorem C69_below_minimum_refuted : exists factor x rand, 0 <= rand < 1 /\ ~ List.Forall (fun a => a = 1) x /\ fst (R_FoM (noisy_problem factor) x rand) < 0.
Proof.
  exists 0.05, [1; 1.001], 0.9. rewrite noisyE, rosen_sum. cbn [fst rsum]. unfold rterm, noise. split; [lra|]. split; [|lra].
  intros H. inversion_clear H as [|? ? _ H']. inversion_clear H' as [|? ? H _]. lra.
Qed.
Theorem C69_construct (noisy : option bool) (factor : option R) :
  @construct Rnum None = Err AttributeError /\
  exists P d, @construct Rnum (Some (@Args Rnum noisy factor)) = Ok (P, d) /\
    @arg_noisy Rnum d = Some (@is_noisy Rnum P) /\ @arg_factor Rnum d = Some (@noise_factor Rnum P) /\
    @is_noisy Rnum P = match noisy with Some b => b | None => false end /\ @noise_factor Rnum P = match factor with Some f => f | None => 0.05 end.
Proof.
  split; [reflexivity|]. unfold construct. cbn [arg_noisy arg_factor].
  destruct noisy as [b|], factor as [f|]; cbn; eexists; eexists; split; try reflexivity; cbn; repeat split; lra.
Qed.
Example C69_ex : R_rosen [1; 1; 1] = 0 /\ R_rosen [0; 1; 2] = 201 /\ fst (R_FoM (noisy_problem 0.05) [1; 1] 0.5) = 0.
Proof. rewrite noisyE, !rosen_sum. cbn [rsum fst]. unfold rterm, noise. repeat split; lra. Qed.

Print Assumptions C69_function.
Print Assumptions C69_minimum.
Print Assumptions C69_one_parameter_refuted.
Print Assumptions C69_quiet.
Print Assumptions C69_noise.
Print Assumptions C69_moments.
Print Assumptions C69_std_refuted.
Print Assumptions C69_below_minimum_refuted.
Print Assumptions C69_construct.
