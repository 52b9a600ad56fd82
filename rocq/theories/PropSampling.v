(** * C73, continued: which sample of the pulse acts when. *)
From Coq Require Import Reals ZArith List Lia Lra.
From Flocq Require Import Core.
From Verif Require Import ModelSampling.
Local Open Scope R_scope.

Lemma jax_nth_in {A} (x0 : A) l (j : nat) : (j < length l)%nat -> jax_nth x0 l (Z.of_nat j) = nth j l x0.
Proof.
  intros L. unfold jax_nth. destruct (Z.ltb_spec (Z.of_nat j) 0); [lia|]. f_equal. lia.
Qed.
Lemma jax_nth_over {A} (x0 : A) l i : (l <> nil) -> (Z.of_nat (length l) <= i)%Z -> jax_nth x0 l i = last l x0.
Proof.
  intros E L. unfold jax_nth. destruct (Z.ltb_spec i 0); [lia|]. rewrite Z.min_r by lia.
  destruct (exists_last E) as [m [y ->]]. rewrite last_last, app_length. cbn [length].
  rewrite Z.max_r by lia. replace (Z.to_nat _) with (length m) by lia. now rewrite app_nth2, Nat.sub_diag by lia.
Qed.
Lemma sample_of n T t (j : nat) : (1 < n)%nat -> 0 < T -> INR j * (T / (INR n - 1)) <= t < (INR j + 1) * (T / (INR n - 1)) -> sample_index n T t = Z.of_nat j.
Proof.
  intros N HT [L U]. unfold sample_index. apply Zfloor_imp. rewrite plus_IZR, <- INR_IZR_INZ.
  assert (P : 0 < INR n - 1) by (apply lt_INR in N; cbn in N; lra).
  replace t with (t / (T / (INR n - 1)) * (T / (INR n - 1))) in L, U by (field; lra).
  assert (Q : 0 < T / (INR n - 1)) by (apply Rdiv_lt_0_compat; lra).
  apply Rmult_le_reg_r in L; [|exact Q]. apply Rmult_lt_reg_r in U; [|exact Q].
  replace (t / T * (INR n - 1)) with (t / (T / (INR n - 1))) by (field; lra). split; assumption.
Qed.

(** the grid of n points from 0 to T: from point j to the next, sample j acts *)
Theorem C73_sample pulse n T t (j : nat) : 0 < T -> (S j < n)%nat -> (n <= length pulse)%nat ->
  INR j * (T / (INR n - 1)) <= t < (INR j + 1) * (T / (INR n - 1)) -> pulse_at pulse n T t = nth j pulse 0.
Proof.
  intros HT J L H. unfold pulse_at. rewrite (sample_of n T t j) by (auto; lia). apply jax_nth_in. lia.
Qed.
(** at every time from 0 to T there is such a sample; the last one acts at T only and, should the solver look further, later *)
Theorem C73_last_sample pulse n T t : 0 < T -> (1 < n)%nat -> length pulse = n -> 0 <= t ->
  (t < T -> exists j, (S j < n)%nat /\ INR j * (T / (INR n - 1)) <= t < (INR j + 1) * (T / (INR n - 1)) /\ pulse_at pulse n T t = nth j pulse 0)
  /\ (T <= t -> pulse_at pulse n T t = nth (n - 1) pulse 0).
Proof.
  intros HT N L T0. assert (P : 0 < INR n - 1) by (apply lt_INR in N; cbn in N; lra).
  assert (Q : 0 < T / (INR n - 1)) by (apply Rdiv_lt_0_compat; lra). set (h := T / (INR n - 1)) in *.
  assert (E : t / T * (INR n - 1) = t / h) by (unfold h; field; lra). assert (Eh : T / h = INR n - 1) by (unfold h; field; lra).
  assert (Q0 : 0 <= t / h) by (apply Rmult_le_pos; [lra|left; apply Rinv_0_lt_compat; lra]).
  assert (F := Zfloor_lb (t / h)). assert (G := Zfloor_ub (t / h)).
  assert (Z0 : (0 <= Zfloor (t / h))%Z) by (apply Zfloor_lub; exact Q0). split; intros HH.
  - set (j := Z.to_nat (Zfloor (t / h))). assert (Ej : INR j = IZR (Zfloor (t / h))) by (unfold j; rewrite INR_IZR_INZ, Z2Nat.id by exact Z0; reflexivity).
    assert (B : INR j * h <= t < (INR j + 1) * h).
    { rewrite Ej. replace t with (t / h * h) at 2 3 by (field; lra). split; [apply Rmult_le_compat_r|apply Rmult_lt_compat_r]; lra. }
    assert (J : (S j < n)%nat).
    { apply INR_lt. rewrite S_INR, Ej. assert (t / h < T / h) by (apply Rmult_lt_compat_r; [apply Rinv_0_lt_compat; exact Q|exact HH]). lra. }
    exists j. split; [exact J|]. split; [exact B|]. apply C73_sample; auto. lia.
  - unfold pulse_at, sample_index. rewrite E.
    assert (K : (Z.of_nat (n - 1) <= Zfloor (t / h))%Z).
    { apply Zfloor_lub. rewrite <- INR_IZR_INZ, minus_INR by lia. cbn [INR]. rewrite <- Eh. apply Rmult_le_compat_r; [left; apply Rinv_0_lt_compat; exact Q|exact HH]. }
    destruct (Z.eq_dec (Zfloor (t / h)) (Z.of_nat (n - 1))) as [->|D]; [apply jax_nth_in; lia|].
    assert (NE : pulse <> nil) by (intros ->; cbn in L; lia).
    rewrite jax_nth_over; [|exact NE|lia]. destruct (exists_last NE) as [m [y ->]]. rewrite last_last. rewrite app_length in L. cbn in L.
    rewrite app_nth2 by lia. replace (n - 1 - length m)%nat with 0%nat by lia. reflexivity.
Qed.
(** so pulses that differ in the last sample only are the same at every time before T *)
Theorem C73_last_unused pulse x y n T t : 0 < T -> (1 < n)%nat -> length pulse = (n - 1)%nat -> 0 <= t < T ->
  pulse_at (pulse ++ x :: nil) n T t = pulse_at (pulse ++ y :: nil) n T t.
Proof.
  intros HT N L [T0 TT]. assert (LL : forall z, length (pulse ++ z :: nil) = n) by (intros z; rewrite app_length; cbn; lia).
  destruct (proj1 (C73_last_sample _ n T t HT N (LL x) T0) TT) as [j [J [B ->]]].
  rewrite (C73_sample _ n T t j HT J) by (try rewrite LL; auto). rewrite !app_nth1 by lia. reflexivity.
Qed.
(** a case: three samples up to T = 2 *)
Example C73_example_sampling : pulse_at (5 :: 6 :: 7 :: nil) 3 2 (1/2) = 5 /\ pulse_at (5 :: 6 :: 7 :: nil) 3 2 (3/2) = 6 /\ pulse_at (5 :: 6 :: 7 :: nil) 3 2 2 = 7.
Proof.
  split; [|split].
  - apply (C73_sample (5 :: 6 :: 7 :: nil) 3 2 (1/2) 0); cbn; try lia; lra.
  - apply (C73_sample (5 :: 6 :: 7 :: nil) 3 2 (3/2) 1); cbn; try lia; lra.
  - apply (proj2 (C73_last_sample (5 :: 6 :: 7 :: nil) 3 2 2 ltac:(lra) ltac:(lia) eq_refl ltac:(lra))); lra.
Qed.
Print Assumptions C73_sample.
Print Assumptions C73_last_sample.
Print Assumptions C73_last_unused.
