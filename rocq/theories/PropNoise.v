(** * C67 Ornstein-Uhlenbeck noise. *)
From Coq Require Import ZArith List Bool Reals Lra Lia Psatz.
From Flocq Require Import Core BinarySingleNaN.
From Verif Require Import Num Py ModelNoise SpecNoise.
Import ListNotations.
Open Scope list_scope.
Open Scope R_scope.

(** ** Lemmas *)
Section Walk.
  Context {N : Num} (randn : nat -> num) (mu root : num).
  Lemma walk_used n : forall x used, snd (walk randn mu root n x used) = (used + n)%nat.
  Proof. induction n as [|n IH]; intros x used; cbn; [lia|]. specialize (IH (x * mu + root * randn used)%num (S used)). destruct (walk _ _ _ _ _ _) as [l u]. cbn in *. lia. Qed.
  Lemma walk_length n : forall x used, length (fst (walk randn mu root n x used)) = n.
  Proof. induction n as [|n IH]; intros x used; cbn; [reflexivity|]. specialize (IH (x * mu + root * randn used)%num (S used)). destruct (walk _ _ _ _ _ _) as [l u]. cbn in *. lia. Qed.
  (** sample number [i] *)
  Fixpoint value (x : num) (used i : nat) : num := match i with O => x | S i => (value x used i * mu + root * randn (used + i))%num end.
  Lemma value_shift x used i : value (x * mu + root * randn used)%num (S used) i = value x used (S i).
  Proof. induction i as [|i IH]; cbn; [now rewrite Nat.add_0_r|]. cbn in IH. rewrite IH. now rewrite Nat.add_succ_r. Qed.
  Lemma walk_nth n : forall x used d i, (i <= n)%nat -> nth i (x :: fst (walk randn mu root n x used)) d = value x used i.
  Proof.
    induction n as [|n IH]; intros x used d i I; [now replace i with 0%nat by lia|]. cbn [walk].
    specialize (IH (x * mu + root * randn used)%num (S used) d). destruct (walk _ _ _ n _ _) as [l u]. cbn [fst] in *.
    destruct i as [|i]; [reflexivity|]. change (nth (S i) (x :: ?a) d) with (nth i a d). cbn [nth]. rewrite <- value_shift. apply IH. lia.
  Qed.
End Walk.

(** exact numbers *)
Definition Rint_floor (x : R) : res Z := Ok (Int_part x).
Definition noise (tau c x0 dt : R) (randn : nat -> R) (T : R) (used : nat) : res (list R) * nat := get_noise_realization (N := Rnum) exp Rint_floor randn (OU (N := Rnum) tau c x0 dt) T used.
Definition ensemble (tau c x0 dt : R) (randn : nat -> R) (T : R) (n : Z) (used : nat) : res (list (list R)) * nat :=
  get_ensemble_noise_realization (N := Rnum) exp Rint_floor randn (OU (N := Rnum) tau c x0 dt) T n used.

Lemma exp_INR i (x : R) : exp (INR i * x) = exp x ^ i.
Proof. induction i as [|i IH]; [cbn; now rewrite Rmult_0_l, exp_0|]. rewrite S_INR, Rmult_plus_distr_r, Rmult_1_l, exp_plus, IH. cbn. ring. Qed.
Lemma Int_part_bound x n : IZR n <= x < IZR n + 1 -> Int_part x = n.
Proof.
  intros H. destruct (base_Int_part x) as [A B]. assert (IZR (Int_part x) < IZR (n + 1)) by (rewrite plus_IZR; lra). assert (IZR n < IZR (Int_part x + 1)) by (rewrite plus_IZR; lra).
  apply lt_IZR in H0, H1. lia.
Qed.

Section Runs.
  Variables (tau c x0 dt : R) (randn : nat -> R) (T : R).
  Let s : R := c * tau / 2 * (1 - exp (-2 / tau * dt)).
  Lemma noise_eq used : dt <> 0 -> tau <> 0 -> (0 < Int_part (T / dt))%Z ->
    noise tau c x0 dt randn T used = let '(l, used) := walk (N := Rnum) randn (exp (- (dt / tau))) (sqrt s) (Z.to_nat (Int_part (T / dt) - 1)) x0 used in (Ok (x0 :: l), used).
  Proof.
    intros D Ta I. unfold noise, get_noise_realization, n_slices, pdiv. cbn [neqb Rnum of_Z].
    assert (B : forall y, y <> 0 -> Req_bool y 0 = false) by (intros y Y; destruct (Req_bool_spec y 0); [contradiction|reflexivity]).
    cbn [ModelNoise.dt ModelNoise.tau ModelNoise.c ModelNoise.x0]. rewrite !B by assumption. cbn [rbind Rint_floor ndiv Rnum].
    unfold Rint_floor. destruct (Z.ltb_spec (Int_part (T / dt)) 0); [lia|]. destruct (Z.eqb_spec (Int_part (T / dt)) 0); [lia|].
    cbn [nmul nsub nsqrt Rnum]. replace (-1 * (1 / tau) * dt) with (- (dt / tau)) by (field; assumption). reflexivity.
  Qed.
End Runs.

(** ** One realisation *)
(** The number of samples is T / dt rounded down; the first is x0; sample i decays from x0 and collects the random numbers used so far:
    x0 e^(-i dt/tau) + sqrt(sigma) sum_(k < i) e^(-(i-1-k) dt/tau) z_k with sigma = c tau / 2 (1 - e^(-2 dt/tau)). *)
Definition sample (tau c x0 dt : R) (z : nat -> R) (i : nat) : R :=
  let mu := exp (- (dt / tau)) in let sigma := c * tau / 2 * (1 - exp (-2 * (dt / tau))) in
  x0 * exp (- (INR i * (dt / tau))) + sqrt sigma * sum_f_R0 (fun k => if Nat.ltb k i then exp (- (INR (i - 1 - k) * (dt / tau))) * z k else 0) i.
Lemma sum_step (f g : nat -> R) (m : R) n : (forall k, (k <= n)%nat -> f k = m * g k) -> sum_f_R0 f n = m * sum_f_R0 g n.
Proof. intros H. rewrite (sum_eq f (fun k => g k * m)); [now rewrite <- scal_sum|]. intros k K. rewrite H by exact K. ring. Qed.
Lemma value_sample (tau c x0 dt : R) (z : nat -> R) used i : tau <> 0 ->
  value (N := Rnum) z (exp (- (dt / tau))) (sqrt (c * tau / 2 * (1 - exp (-2 / tau * dt)))) (x0) used i = sample tau c x0 dt (fun k => z (used + k)%nat) i.
Proof.
  intros Ta. assert (E2 : -2 / tau * dt = -2 * (dt / tau)) by (field; exact Ta). rewrite E2. unfold sample. set (r := dt / tau). set (q := sqrt _).
  induction i as [|i IH]; [cbn; rewrite Rmult_0_l, Ropp_0, exp_0; ring|].
  cbn [value]. rewrite IH. cbn [nadd nmul Rnum]. clear IH. match goal with |- @eq _ ?a ?b => change (@eq R a b) end.
  assert (X : forall j, exp (- (INR (S j) * r)) = exp (- (INR j * r)) * exp (- r)) by (intros j; rewrite <- exp_plus; f_equal; rewrite S_INR; ring).
  rewrite X. rewrite tech5. rewrite Nat.ltb_irrefl. destruct i as [|i].
  - cbn [sum_f_R0 Nat.ltb Nat.leb Nat.sub INR]. rewrite Rmult_0_l, Ropp_0, exp_0. ring.
  - rewrite (tech5 _ i). rewrite Nat.ltb_irrefl. rewrite (tech5 (fun k => if Nat.ltb k (S (S i)) then _ else _) i).
    replace (Nat.ltb (S i) (S (S i))) with true by (symmetry; apply Nat.ltb_lt; lia). replace (S (S i) - 1 - S i)%nat with 0%nat by lia.
    cbn [INR]. rewrite Rmult_0_l, Ropp_0, exp_0.
    rewrite (sum_step (fun k => if Nat.ltb k (S (S i)) then exp (- (INR (S (S i) - 1 - k) * r)) * z (used + k)%nat else 0) (fun k => if Nat.ltb k (S i) then exp (- (INR (S i - 1 - k) * r)) * z (used + k)%nat else 0) (exp (- r))).
    + ring.
    + intros k K. replace (Nat.ltb k (S (S i))) with true by (symmetry; apply Nat.ltb_lt; lia). replace (Nat.ltb k (S i)) with true by (symmetry; apply Nat.ltb_lt; lia).
      replace (S (S i) - 1 - k)%nat with (S (S i - 1 - k)) by lia. rewrite X. ring.
Qed.
Theorem C67_realization (tau c x0 dt : R) (z : nat -> R) (T : R) (used : nat) : 0 < dt -> dt <= T -> tau <> 0 ->
  exists n l, INR n * dt <= T < (INR n + 1) * dt /\ noise tau c x0 dt z T used = (Ok l, (used + (n - 1))%nat) /\ length l = n /\
    forall i, (i < n)%nat -> nth i l 0 = sample tau c x0 dt (fun k => z (used + k)%nat) i.
Proof.
  intros D DT Ta. set (m := Int_part (T / dt)). destruct (base_Int_part (T / dt)) as [A B]. fold m in A, B.
  assert (Q : 1 <= T / dt) by (apply (Rmult_le_reg_r (dt)); [exact D|]; unfold Rdiv; rewrite Rmult_assoc, Rinv_l by lra; lra).
  assert (M : (0 < m)%Z) by (apply lt_IZR; lra). assert (IN : INR (Z.to_nat m) = IZR m) by (rewrite INR_IZR_INZ, Z2Nat.id by lia; reflexivity).
  assert (TE : T = T / dt * dt) by (field; lra).
  destruct (walk (N := Rnum) z (exp (- (dt / tau))) (sqrt (c * tau / 2 * (1 - exp (-2 / tau * dt)))) (Z.to_nat (m - 1)) x0 used) as [l u] eqn:W.
  exists (Z.to_nat m), (x0 :: l). split; [rewrite IN; split; [rewrite TE; apply Rmult_le_compat_r; lra|rewrite TE at 1; apply Rmult_lt_compat_r; lra]|].
  rewrite noise_eq; [|lra|exact Ta|exact M]. fold m. rewrite W.
  pose proof (walk_used (N := Rnum) z (exp (- (dt / tau))) (sqrt (c * tau / 2 * (1 - exp (-2 / tau * dt)))) (Z.to_nat (m - 1)) x0 used) as U.
  pose proof (walk_length (N := Rnum) z (exp (- (dt / tau))) (sqrt (c * tau / 2 * (1 - exp (-2 / tau * dt)))) (Z.to_nat (m - 1)) x0 used) as L.
  pose proof (fun i => walk_nth (N := Rnum) z (exp (- (dt / tau))) (sqrt (c * tau / 2 * (1 - exp (-2 / tau * dt)))) (Z.to_nat (m - 1)) x0 used 0 i) as V.
  rewrite W in U, L, V. cbn [fst snd] in *. split; [f_equal; lia|]. assert (L' : @length R l = Z.to_nat (m - 1)) by exact L. split; [cbn [length]; lia|].
  intros i I. rewrite V by lia. now apply value_sample.
Qed.
(** A total time shorter than the time step raises IndexError, a negative one ValueError. *)
Theorem C67_short (tau c x0 dt : R) (z : nat -> R) (T : R) (used : nat) : 0 < dt ->
  (0 <= T < dt -> noise tau c x0 dt z T used = (Err IndexError, used)) /\ (T < 0 -> noise tau c x0 dt z T used = (Err ValueError, used)).
Proof.
  intros D. assert (B : Req_bool (dt) 0 = false) by (destruct (Req_bool_spec (dt) 0); [lra|reflexivity]).
  unfold noise, get_noise_realization, n_slices, pdiv. cbn [neqb Rnum of_Z ModelNoise.dt]. rewrite B. cbn [rbind Rint_floor ndiv Rnum]. unfold Rint_floor.
  assert (TE : T = T / dt * dt) by (field; lra). split; intros H.
  - rewrite (Int_part_bound (T / dt) 0); [reflexivity|]. assert (0 <= T / dt < 1); [|lra].
    split; [apply Rmult_le_pos; [lra|left; now apply Rinv_0_lt_compat]|]. apply (Rmult_lt_reg_r (dt)); lra.
  - assert (T / dt < 0) by (apply (Rmult_lt_reg_r (dt)); lra). destruct (base_Int_part (T / dt)) as [A _].
    assert (Int_part (T / dt) < 0)%Z by (apply lt_IZR; lra). destruct (Z.ltb_spec (Int_part (T / dt)) 0); [reflexivity|lia].
Qed.

(** ** Moments *)
Section Moments.
  Context {Omega : Type} (E : (Omega -> R) -> R) (HE : expectation E).
  Lemma E_scal a X : E (fun w => a * X w) = a * E X.
  Proof. rewrite (E_ext E HE _ (fun w => a * X w + 0 * X w)) by (intros; ring). rewrite (E_lin E HE). ring. Qed.
  Lemma E_const a : E (fun _ => a) = a.
  Proof. rewrite (E_ext E HE _ (fun w => a * 1)) by (intros; ring). rewrite E_scal, (E_one E HE). ring. Qed.
  Lemma cov_sym X Y : cov E X Y = cov E Y X.
  Proof. apply (E_ext E HE). intros; ring. Qed.
  Lemma cov_alt X Y : cov E X Y = E (fun w => X w * Y w) - E X * E Y.
  Proof.
    unfold cov. rewrite (E_ext E HE _ (fun w => 1 * (X w * Y w) + 1 * ((- E Y) * X w + 1 * ((- E X) * Y w + (E X * E Y) * 1)))) by (intros; ring).
    rewrite !(E_lin E HE), (E_one E HE). ring.
  Qed.
  Lemma cov_ext X X' Y Y' : (forall w, X w = X' w) -> (forall w, Y w = Y' w) -> cov E X Y = cov E X' Y'.
  Proof. intros A B. rewrite !cov_alt. rewrite (E_ext E HE X X' A), (E_ext E HE Y Y' B). f_equal. apply (E_ext E HE). intros w. now rewrite A, B. Qed.
  Lemma cov_lin a b X Y Z : cov E (fun w => a * X w + b * Y w) Z = a * cov E X Z + b * cov E Y Z.
  Proof.
    rewrite !cov_alt, (E_lin E HE). rewrite (E_ext E HE (fun w => (a * X w + b * Y w) * Z w) (fun w => a * (X w * Z w) + b * (Y w * Z w))) by (intros; ring).
    rewrite (E_lin E HE). ring.
  Qed.
  Lemma cov_const a X : cov E (fun _ => a) X = 0.
  Proof. rewrite cov_alt, E_const, E_scal. ring. Qed.
  Variables (K : nat) (z : nat -> Omega -> R) (HZ : white E K z).
  Variables (mu q x : R).
  (** the recursion *)
  Fixpoint path (i : nat) (w : Omega) : R := match i with O => x | S i => mu * path i w + q * z i w end.
  Lemma path_mean i : (i <= K)%nat -> E (path i) = x * mu ^ i.
  Proof.
    induction i as [|i IH]; intros I; [cbn; rewrite E_const; ring|]. cbn [path]. rewrite (E_lin E HE), IH by lia.
    destruct (HZ i ltac:(lia)) as [-> _]. cbn. ring.
  Qed.
  Lemma cov_z j k : (j < K)%nat -> (k < K)%nat -> cov E (z j) (z k) = if Nat.eqb j k then 1 else 0.
  Proof. intros J J'. rewrite cov_alt. destruct (HZ j J) as [A B], (HZ k J') as [A' _]. rewrite A, A', (B k J'). ring. Qed.
  Lemma path_z i : forall k, (i <= k)%nat -> (k < K)%nat -> cov E (path i) (z k) = 0.
  Proof.
    induction i as [|i IH]; intros k I J; [apply cov_const|]. cbn [path]. rewrite cov_lin, IH by lia. rewrite cov_z by lia.
    replace (Nat.eqb i k) with false by (symmetry; apply Nat.eqb_neq; lia). ring.
  Qed.
  Lemma path_var i : (i <= K)%nat -> (1 - mu ^ 2) * cov E (path i) (path i) = q ^ 2 * (1 - mu ^ (2 * i)).
  Proof.
    induction i as [|i IH]; intros I; [cbn [path]; rewrite cov_const; cbn; ring|]. cbn [path]. rewrite cov_lin, (cov_sym (path i)), (cov_sym (z i)), !cov_lin.
    rewrite (cov_sym (z i) (path i)), path_z, cov_z, Nat.eqb_refl by lia. replace (2 * S i)%nat with (S (S (2 * i))) by lia.
    cbn [pow]. specialize (IH ltac:(lia)). cbn [pow] in IH.
    transitivity (mu * mu * ((1 - mu * (mu * 1)) * cov E (path i) (path i)) + q * q * (1 - mu * mu)); [ring|]. rewrite IH. ring.
  Qed.
  Lemma path_cov i n : (i + n <= K)%nat -> cov E (path i) (path (i + n)) = mu ^ n * cov E (path i) (path i).
  Proof.
    induction n as [|n IH]; intros I; [rewrite Nat.add_0_r; cbn; ring|]. rewrite Nat.add_succ_r. cbn [path]. rewrite cov_sym, cov_lin.
    rewrite (cov_sym _ (path i)), (cov_sym (z (i + n)%nat)). rewrite IH, path_z by lia. cbn. ring.
  Qed.
  (** combinations of later numbers *)
  Lemma path_far (y : Omega -> R) : (forall k, (k < K)%nat -> cov E y (z k) = 0) -> forall i, (i <= K)%nat -> cov E y (path i) = 0.
  Proof.
    intros H. induction i as [|i IH]; intros I; [cbn [path]; rewrite cov_sym; apply cov_const|]. cbn [path]. rewrite cov_sym, cov_lin, cov_sym, IH by lia.
    rewrite cov_sym, H by lia. ring.
  Qed.
End Moments.

Lemma slices_unique (dt T : R) n m : 0 < dt -> INR n * dt <= T < (INR n + 1) * dt -> INR m * dt <= T < (INR m + 1) * dt -> n = m.
Proof.
  intros D A B. assert (INR n < INR (m + 1)) by (rewrite plus_INR; cbn [INR]; apply (Rmult_lt_reg_r dt); [exact D|lra]).
  assert (INR m < INR (n + 1)) by (rewrite plus_INR; cbn [INR]; apply (Rmult_lt_reg_r dt); [exact D|lra]). apply INR_lt in H, H0. lia.
Qed.
Lemma list_nth (l : list R) n (f : nat -> R) : length l = n -> (forall i, (i < n)%nat -> nth i l 0 = f i) -> l = map f (seq 0 n).
Proof.
  intros L H. apply nth_ext with 0 (f 0%nat); [now rewrite map_length, seq_length|]. intros i I. rewrite map_nth, seq_nth by lia. cbn. apply H. lia.
Qed.
Section Ensemble.
  Variables (tau c x0 dt T : R) (n : nat).
  Hypotheses (D : 0 < dt) (Ta : tau <> 0) (n1 : (1 <= n)%nat) (HT : INR n * dt <= T < (INR n + 1) * dt).
  Lemma one_run z used : noise tau c x0 dt z T used = (Ok (map (sample tau c x0 dt (fun k => z (used + k)%nat)) (seq 0 n)), (used + (n - 1))%nat).
  Proof.
    assert (1 <= INR n) by (apply (le_INR 1); exact n1).
    destruct (C67_realization tau c x0 dt z T used D) as [m [l [HM [-> [L V]]]]]; [nra|exact Ta|].
    pose proof (slices_unique _ _ _ _ D HT HM) as <-. f_equal. f_equal. now apply list_nth.
  Qed.
  Lemma all_rows (z : nat -> R) N : forall used, rows (N := Rnum) exp Rint_floor z (OU (N := Rnum) tau c x0 dt) T N used =
    (Ok (map (fun r => map (sample tau c x0 dt (fun k => z (used + r * (n - 1) + k)%nat)) (seq 0 n)) (seq 0 N)), (used + N * (n - 1))%nat).
  Proof.
    induction N as [|N IH]; intros used; cbn [rows]; [now rewrite Nat.add_0_r|].
    pose proof (one_run z used) as E. unfold noise in E. rewrite E, IH.
    cbn [seq map]. f_equal; [|lia]. f_equal. f_equal; [now rewrite Nat.add_0_r|]. rewrite <- seq_shift, map_map. apply map_ext. intros r.
    apply map_ext. intros i. unfold sample. f_equal. f_equal. apply sum_eq. intros k _. replace (used + (n - 1) + r * (n - 1) + k)%nat with (used + S r * (n - 1) + k)%nat by lia. reflexivity.
  Qed.
End Ensemble.

Section Rows.
  Context {Omega : Type} (E : (Omega -> R) -> R) (HE : expectation E) (K : nat) (z : nat -> Omega -> R) (HZ : white E K z) (mu q x : R).
  Lemma white_part a L : (a + L <= K)%nat -> white E L (fun k => z (a + k)%nat).
  Proof.
    intros A j J. destruct (HZ (a + j)%nat ltac:(lia)) as [Z V]. split; [exact Z|]. intros k KK. rewrite V by lia.
    destruct (Nat.eqb_spec (a + j) (a + k)), (Nat.eqb_spec j k); try lia; reflexivity.
  Qed.
  (** a path is uncorrelated with the numbers it does not use *)
  Lemma path_outside a m : (m < K)%nat -> forall i, (a + i <= K)%nat -> (m < a \/ a + i <= m)%nat -> cov E (path (fun k => z (a + k)%nat) mu q x i) (z m) = 0.
  Proof.
    intros M. induction i as [|i IH]; intros I O; [apply (cov_const E HE)|]. cbn [path]. rewrite (cov_lin E HE), IH by lia.
    rewrite (cov_z E HE K z HZ) by lia. destruct (Nat.eqb_spec (a + i) m); [lia|ring].
  Qed.
  Lemma path_rows a b i j : (a + i <= K)%nat -> (b + j <= K)%nat -> (a + i <= b \/ b + j <= a)%nat ->
    cov E (path (fun k => z (a + k)%nat) mu q x i) (path (fun k => z (b + k)%nat) mu q x j) = 0.
  Proof.
    intros A B O. apply (path_far E HE j (fun k => z (b + k)%nat)); [|lia]. intros k KK. apply path_outside; lia.
  Qed.
End Rows.
Lemma value_path {Omega} (z : nat -> Omega -> R) (mu q x : R) used i w :
  value (N := Rnum) (fun k => z k w) mu q x used i = path (fun k => z (used + k)%nat) mu q x i w.
Proof. induction i as [|i IH]; [reflexivity|]. cbn [value path]. rewrite IH. cbn [nadd nmul Rnum]. match goal with |- @eq _ ?a ?b => change (@eq R a b) end. ring. Qed.
Lemma sample_path {Omega} tau c x0 dt (z : nat -> Omega -> R) used i w : tau <> 0 ->
  sample tau c x0 dt (fun k => z (used + k)%nat w) i =
  path (fun k => z (used + k)%nat) (exp (- (dt / tau))) (sqrt (c * tau / 2 * (1 - exp (-2 / tau * dt)))) x0 i w.
Proof. intros Ta. rewrite <- value_path. symmetry. exact (value_sample tau c x0 dt (fun k => z k w) used i Ta). Qed.

(** ** An ensemble: every row is a realisation from its own random numbers.  With uncorrelated random numbers of mean 0 and variance 1, sample i
    of a row has mean x0 e^(-i dt/tau), the covariance of samples i and i + k of a row is e^(-k dt/tau) c tau / 2 (1 - e^(-2 i dt/tau)),
    and samples of different rows are uncorrelated. *)
Theorem C67_ensemble {Omega} (E : (Omega -> R) -> R) (z : nat -> Omega -> R) (tau c x0 dt T : R) (n N used : nat) :
  expectation E -> 0 < dt -> 0 < tau -> 0 <= c -> (1 <= n)%nat -> INR n * dt <= T < (INR n + 1) * dt ->
  white E (N * (n - 1)) (fun k => z (used + k)%nat) ->
  exists X : nat -> nat -> Omega -> R,
    (forall w, fst (ensemble tau c x0 dt (fun k => z k w) T (Z.of_nat N) used) = Ok (map (fun r => map (fun i => X r i w) (seq 0 n)) (seq 0 N))) /\
    (forall r i, (r < N)%nat -> (i < n)%nat -> E (X r i) = x0 * exp (- (INR i * dt / tau))) /\
    (forall r i k, (r < N)%nat -> (i + k < n)%nat -> cov E (X r i) (X r (i + k)%nat) = exp (- (INR k * dt / tau)) * (c * tau / 2 * (1 - exp (- (2 * INR i * dt / tau))))) /\
    (forall r r' i j, (r < N)%nat -> (r' < N)%nat -> r <> r' -> (i < n)%nat -> (j < n)%nat -> cov E (X r i) (X r' j) = 0).
Proof.
  intros HE D Tp Cp n1 HT HZ. assert (Ta : tau <> 0) by lra.
  set (mu := exp (- (dt / tau))). set (sigma := c * tau / 2 * (1 - exp (-2 / tau * dt))).
  set (a := fun r => (r * (n - 1))%nat).
  exists (fun r => path (fun k => z (used + (a r + k))%nat) mu (sqrt sigma) x0).
  assert (B : forall r, (r < N)%nat -> (a r + (n - 1) <= N * (n - 1))%nat) by (intros r R; unfold a; nia).
  assert (W : forall r, (r < N)%nat -> white E (n - 1) (fun k => z (used + (a r + k))%nat)).
  { intros r R. exact (white_part E _ _ HZ (a r) (n - 1) (B r R)). }
  assert (MU : forall k, mu ^ k = exp (- (INR k * dt / tau))) by (intros k; unfold mu; rewrite <- exp_INR; f_equal; field; exact Ta).
  assert (M2 : mu ^ 2 = exp (-2 / tau * dt)) by (rewrite MU; f_equal; cbn; field; exact Ta).
  assert (M1 : exp (-2 / tau * dt) < 1).
  { rewrite <- exp_0. apply exp_increasing. replace (-2 / tau * dt) with (- (2 * dt / tau)) by (field; exact Ta). assert (0 < 2 * dt / tau) by (apply Rdiv_lt_0_compat; lra). lra. }
  assert (S2 : sqrt sigma ^ 2 = sigma) by (rewrite <- Rsqr_pow2; apply Rsqr_sqrt; unfold sigma; apply Rmult_le_pos; [|lra]; apply Rmult_le_pos; [|lra]; apply Rmult_le_pos; lra).
  assert (N0 : exists m, n = S m) by (destruct n; [lia|eauto]).
  split; [|split; [|split]].
  - intros w. unfold ensemble, get_ensemble_noise_realization.
    assert (I : n_slices (N := Rnum) Rint_floor (OU (N := Rnum) tau c x0 dt) T = Ok (Z.of_nat n)).
    { unfold n_slices, pdiv. cbn [neqb Rnum of_Z ModelNoise.dt]. destruct (Req_bool_spec dt 0); [lra|]. cbn [rbind ndiv Rnum]. unfold Rint_floor. f_equal. apply Int_part_bound. rewrite <- INR_IZR_INZ.
      assert (TE : T = T / dt * dt) by (field; lra). split; [apply (Rmult_le_reg_r dt); lra|apply (Rmult_lt_reg_r dt); lra]. }
    rewrite I. replace (Z.of_nat N <? 0)%Z with false by (symmetry; apply Z.ltb_ge; lia). replace (Z.of_nat n <? 0)%Z with false by (symmetry; apply Z.ltb_ge; lia). cbn [orb].
    rewrite Nat2Z.id. rewrite (all_rows tau c x0 dt T n D Ta n1 HT). cbn [fst]. f_equal. apply map_ext. intros r. apply map_ext. intros i.
    rewrite (sample_path tau c x0 dt z (used + r * (n - 1)) i w Ta). fold mu sigma. unfold a.
    clear. induction i as [|i IH]; [reflexivity|]. cbn [path]. rewrite IH, Nat.add_assoc. reflexivity.
  - intros r i R I. rewrite (path_mean E HE (n - 1) _ (W r R)) by lia. now rewrite MU.
  - intros r i k R I. rewrite (path_cov E HE (n - 1) _ (W r R)) by lia. rewrite MU. f_equal.
    pose proof (path_var E HE (n - 1) _ (W r R) mu (sqrt sigma) x0 i ltac:(lia)) as V. rewrite S2, M2 in V.
    assert (M2i : mu ^ (2 * i) = exp (- (2 * INR i * dt / tau))) by (rewrite MU, mult_INR; reflexivity). rewrite M2i in V.
    apply (Rmult_eq_reg_l (1 - exp (-2 / tau * dt))); [|lra]. rewrite V. unfold sigma. ring.
  - intros r r' i j R R' NE I J. apply (path_rows E HE _ (fun k => z (used + k)%nat) HZ mu (sqrt sigma) x0 (a r) (a r')).
    + specialize (B r R). lia.
    + specialize (B r' R'). lia.
    + unfold a. destruct (Nat.lt_ge_cases r r'); [left|right]; nia.
Qed.

(** the same for one realisation *)
Theorem C67_moments {Omega} (E : (Omega -> R) -> R) (z : nat -> Omega -> R) (tau c x0 dt T : R) (n used : nat) :
  expectation E -> 0 < dt -> 0 < tau -> 0 <= c -> (1 <= n)%nat -> INR n * dt <= T < (INR n + 1) * dt ->
  white E (n - 1) (fun k => z (used + k)%nat) ->
  exists X : nat -> Omega -> R,
    (forall w, fst (noise tau c x0 dt (fun k => z k w) T used) = Ok (map (fun i => X i w) (seq 0 n))) /\
    (forall i, (i < n)%nat -> E (X i) = x0 * exp (- (INR i * dt / tau))) /\
    (forall i k, (i + k < n)%nat -> cov E (X i) (X (i + k)%nat) = exp (- (INR k * dt / tau)) * (c * tau / 2 * (1 - exp (- (2 * INR i * dt / tau))))).
Proof.
  intros HE D Tp Cp n1 HT HZ. replace (n - 1)%nat with (1 * (n - 1))%nat in HZ by lia.
  destruct (C67_ensemble E z tau c x0 dt T n 1 used HE D Tp Cp n1 HT HZ) as [X [A [B [V _]]]]. exists (X 0%nat).
  split; [|split; [intros i I; apply B; lia|intros i k I; apply V; lia]].
  intros w. specialize (A w). rewrite (one_run tau c x0 dt T n D ltac:(lra) n1 HT). cbn [fst].
  unfold ensemble, get_ensemble_noise_realization in A. destruct (n_slices _ _ _) as [m|e]; [|discriminate]. destruct ((_ || _)%bool); [discriminate|].
  cbn [Z.to_nat Z.of_nat Pos.to_nat Pos.iter_op Pos.of_succ_nat] in A. rewrite (all_rows tau c x0 dt T n D ltac:(lra) n1 HT) in A. cbn [fst seq map] in A.
  injection A as A. rewrite <- A. f_equal. apply map_ext. intros i. unfold sample. f_equal. f_equal. apply sum_eq. intros k _.
  cbn [Nat.mul]. now rewrite Nat.add_0_r.
Qed.
(** The process starts at x0 and approaches its stationary variance c tau / 2 from below: the variance of sample i is never above it
    and, however small eps, within eps of it from some sample on. *)
Theorem C67_stationary (tau c dt : R) : 0 < dt -> 0 < tau -> 0 <= c ->
  let V i := c * tau / 2 * (1 - exp (- (2 * INR i * dt / tau))) in
  V 0%nat = 0 /\ (forall i, 0 <= V i <= c * tau / 2) /\ (forall i, V i <= V (S i)) /\ forall eps, 0 < eps -> exists n, forall i, (n <= i)%nat -> c * tau / 2 - eps < V i.
Proof.
  intros D Tp Cp V. assert (A : 0 <= c * tau / 2) by (apply Rmult_le_pos; [apply Rmult_le_pos; lra|lra]). assert (r0 : 0 < 2 * dt / tau) by (apply Rdiv_lt_0_compat; lra).
  assert (EV : forall i, V i = c * tau / 2 * (1 - exp (- (2 * dt / tau)) ^ i)).
  { intros i. unfold V. rewrite <- exp_INR. do 3 f_equal. field. lra. }
  set (m := exp (- (2 * dt / tau))) in *. assert (M0 : 0 < m) by apply exp_pos. assert (M1 : m < 1) by (unfold m; rewrite <- exp_0; apply exp_increasing; lra).
  assert (P : forall i, 0 <= m ^ i <= 1).
  { intros i. induction i as [|i [I J]]; [cbn; lra|]. cbn. split; [apply Rmult_le_pos; lra|]. replace 1 with (1 * 1) by ring. apply Rmult_le_compat; lra. }
  split; [|split; [|split]].
  - rewrite EV. cbn. ring.
  - intros i. rewrite EV. specialize (P i). split; [apply Rmult_le_pos; lra|]. rewrite <- (Rmult_1_r (c * tau / 2)) at 2. apply Rmult_le_compat_l; lra.
  - intros i. rewrite !EV. apply Rmult_le_compat_l; [exact A|]. cbn. specialize (P i). nra.
  - intros eps He. destruct (pow_lt_1_zero m ltac:(rewrite Rabs_right; lra) (eps / (c * tau / 2 + 1))) as [n Hn]; [apply Rdiv_lt_0_compat; lra|].
    exists n. intros i I. rewrite EV. specialize (Hn i I). specialize (P i). rewrite Rabs_right in Hn by lra.
    assert (c * tau / 2 * m ^ i <= (c * tau / 2 + 1) * m ^ i) by (apply Rmult_le_compat_r; lra).
    assert ((c * tau / 2 + 1) * m ^ i < eps); [|lra]. replace eps with ((c * tau / 2 + 1) * (eps / (c * tau / 2 + 1))) by (field; lra). apply Rmult_lt_compat_l; lra.
Qed.

(** ** Findings *)
(** In binary64, 0.3 / 0.1 is below 3: for a total time of 0.3 and a time step of 0.1 two samples are returned instead of three. *)
Definition f64_floor (x : @num F64) : res Z :=
  if is_finite x then let t := Btrunc x in Ok (if nltb x (of_Z t) then t - 1 else t)%Z else Err ValueError.
Definition tenths (k : Z) : @num F64 := (of_Z k / of_Z 10)%num.
Theorem C67_floor_refuted : forall nexp randn tau c x0 used, neqb tau (of_Z 0) = false ->
  exists l, fst (get_noise_realization (N := F64) nexp f64_floor randn (OU tau c x0 (tenths 1)) (tenths 3) used) = Ok l /\ length l = 2%nat.
Proof.
  intros nexp randn tau c x0 used H. unfold get_noise_realization.
  assert (F : n_slices (N := F64) f64_floor (OU tau c x0 (tenths 1)) (tenths 3) = Ok 2%Z) by (vm_compute; reflexivity). rewrite F.
  replace (2 <? 0)%Z with false by reflexivity. replace (2 =? 0)%Z with false by reflexivity. unfold pdiv. cbn [ModelNoise.tau]. rewrite H.
  match goal with |- context [walk ?r ?m ?q ?n ?x ?u] => pose proof (walk_length r m q n x u) as L; destruct (walk r m q n x u) as [l' u'] end.
  eexists. split; [reflexivity|]. cbn [fst length] in *. rewrite L. reflexivity.
Qed.
Example C67_ex_floor : f64_floor (tenths 29) = Ok 2%Z /\ f64_floor (tenths (-29)) = Ok (-3)%Z /\ f64_floor (of_Z 3) = Ok 3%Z.
Proof. vm_compute. auto. Qed.

(** ** Example: three samples from two coin tosses *)
Definition coins : ((bool * bool) -> R) -> R := fun X => (X (true, true) + X (true, false) + X (false, true) + X (false, false)) / 4.
Definition coin (b : bool) : R := if b then 1 else -1.
Definition tosses (k : nat) (w : bool * bool) : R := coin (if Nat.eqb k 0 then fst w else snd w).
Example C67_ex_coins : expectation coins /\ white coins 2 tosses /\ white coins (2 * (2 - 1)) tosses.
Proof.
  assert (W : white coins 2 tosses).
  { intros j J. split; [|intros k K]; destruct j as [|[|j]]; try lia; try (destruct k as [|[|k]]; try lia); unfold coins, tosses, coin; cbn; lra. }
  split; [|split; exact W]. constructor.
  - intros X Y H. unfold coins. now rewrite !H.
  - intros. unfold coins. field.
  - unfold coins. lra.
Qed.
Example C67_ex_moments : exists X : nat -> bool * bool -> R,
  (forall w, fst (noise 2 1 5 1 (fun k => tosses k w) 3 0) = Ok [X 0%nat w; X 1%nat w; X 2%nat w]) /\ coins (X 2%nat) = 5 * exp (-1) /\ cov coins (X 1%nat) (X 2%nat) = exp (- (1 / 2)) * (1 - exp (-1)).
Proof.
  destruct C67_ex_coins as [HE [W _]].
  destruct (C67_moments coins tosses 2 1 5 1 3 3 0 HE ltac:(lra) ltac:(lra) ltac:(lra) ltac:(lia) ltac:(cbn; lra) W) as [X [A [B V]]]. exists X. split; [exact A|]. split.
  - rewrite B by lia. do 2 f_equal. cbn. field.
  - transitivity (cov coins (X 1%nat) (X (1 + 1)%nat)); [reflexivity|]. rewrite (V 1%nat 1%nat) by lia. replace (INR 1) with 1 by reflexivity.
    replace (1 * 1 / 2) with (1 / 2) by field. replace (2 * 1 * 1 / 2) with 1 by field. replace (- (1)) with (-1) by lra. lra.
Qed.
Print Assumptions C67_realization.
Print Assumptions C67_short.
Print Assumptions C67_ensemble.
Print Assumptions C67_moments.
Print Assumptions C67_stationary.
Print Assumptions C67_floor_refuted.
