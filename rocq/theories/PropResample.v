(** * C68 Resampling of pulses. *)
From Coq Require Import ZArith List Bool Reals Lra Lia Psatz.
From Flocq Require Import Core.
From Verif Require Import Num Py PyFacts ModelResample.
Import ListNotations.
Open Scope list_scope.
Open Scope R_scope.

(** ** Specification: sample [k] (at time k dt) is the closest of [n] samples to time [t], the earlier one if two are equally close *)
Definition closest (dt : R) (n : nat) (t : R) (k : nat) : Prop :=
  (k < n)%nat /\ forall j, (j < n)%nat -> Rabs (t - INR k * dt) <= Rabs (t - INR j * dt) /\ ((j < k)%nat -> Rabs (t - INR k * dt) < Rabs (t - INR j * dt)).
Lemma closest_unique dt n t k k' : closest dt n t k -> closest dt n t k' -> k = k'.
Proof.
  intros [K H] [K' H']. destruct (Nat.lt_trichotomy k k') as [L|[E|L]]; [|exact E|].
  - destruct (H' k K) as [_ S]. specialize (S L). destruct (H k' K') as [S' _]. lra.
  - destruct (H k' K') as [_ S]. specialize (S L). destruct (H' k K) as [S' _]. lra.
Qed.

(** ** Lemmas *)
Definition R_resample (dt : R) (n : nat) (columns : list (list R)) (axis : list R) : res (list (list R)) := resample_pulse (N := Rnum) dt n columns axis.
Lemma cumsum_times (dt : R) m : forall i, cumsum (N := Rnum) (INR i * dt) (@repeat (@num Rnum) dt m) = map (fun j => INR j * dt) (seq (S i) m).
Proof.
  induction m as [|m IH]; intros i; [reflexivity|]. cbn [repeat cumsum seq map].
  assert (E : INR i * dt + dt = INR (S i) * dt) by (rewrite S_INR; ring).
  change (@nadd Rnum (INR i * dt) dt) with (INR i * dt + dt). rewrite E. f_equal. apply IH.
Qed.
Lemma times (dt : R) n : original_time (N := Rnum) dt n = map (fun j => INR j * dt) (seq 0 n).
Proof.
  unfold original_time. destruct n as [|m]; [reflexivity|]. cbn [repeat map seq].
  pose proof (cumsum_times dt m 1) as C. change (INR 1) with 1 in C. rewrite Rmult_1_l in C. rewrite C.
  f_equal; [change (dt - dt = 0 * dt); ring|]. rewrite map_map, <- (seq_shift m 1), map_map, <- (seq_shift m 0), !map_map.
  apply map_ext. intros j. change (INR (S (S j)) * dt - dt = INR (S j) * dt). rewrite S_INR. ring.
Qed.
Lemma mids (dt : R) n : forall a, midpoints (N := Rnum) (map (fun j => INR j * dt) (seq a (S n))) = map (fun j => (INR j + / 2) * dt) (seq a n).
Proof.
  induction n as [|n IH]; intros a; [reflexivity|]. specialize (IH (S a)). cbn [seq map] in *. cbn [midpoints]. cbn [midpoints] in IH. rewrite IH. f_equal.
  change (INR (S a) * dt / 2 + INR a * dt / 2 = (INR a + / 2) * dt). rewrite S_INR. field.
Qed.
Lemma search (dt t : R) n : 0 < dt -> forall a, let k := searchsorted (N := Rnum) (map (fun j => (INR j + / 2) * dt) (seq a n)) t in
  (k <= n)%nat /\ (forall i, (i < k)%nat -> (INR (a + i) + / 2) * dt < t) /\ ((k < n)%nat -> t <= (INR (a + k) + / 2) * dt).
Proof.
  intros D. induction n as [|n IH]; intros a; cbn [seq map searchsorted]; [repeat split; lia|].
  change (@nltb Rnum ?x ?y) with (Rlt_bool x y). destruct (Rlt_bool_spec ((INR a + / 2) * dt) t) as [L|L].
  - destruct (IH (S a)) as [A [B C]]. set (k := searchsorted _ t) in *. split; [lia|]. split.
    + intros [|i] I; [now rewrite Nat.add_0_r|]. rewrite Nat.add_succ_r. apply (B i). lia.
    + intros I. rewrite Nat.add_succ_r. apply C. lia.
  - split; [lia|]. split; [lia|]. intros _. now rewrite Nat.add_0_r.
Qed.
Lemma closest_mid (dt t : R) n k : 0 < dt -> (k < n)%nat -> (k = 0%nat \/ (INR k - / 2) * dt < t) -> (k = (n - 1)%nat \/ t <= (INR k + / 2) * dt) -> closest dt n t k.
Proof.
  intros D K A B. split; [exact K|]. intros j J.
  assert (S1 : (j < k)%nat -> Rabs (t - INR k * dt) < Rabs (t - INR j * dt)).
  { intros L. destruct A as [->|A]; [lia|]. assert (INR j + 1 <= INR k) by (rewrite <- S_INR; apply le_INR; lia).
    rewrite (Rabs_right (t - INR j * dt)) by nra. apply Rabs_def1; nra. }
  split; [|exact S1]. destruct (Nat.lt_trichotomy j k) as [L|[->|L]]; [left; auto|right; reflexivity|].
  destruct B as [->|B]; [lia|]. assert (INR k + 1 <= INR j) by (rewrite <- S_INR; apply le_INR; lia).
  rewrite (Rabs_left1 (t - INR j * dt)) by nra. apply Rabs_le. split; nra.
Qed.
Lemma last_map (f : nat -> R) a n d : last (map f (seq a (S n))) d = f (a + n)%nat.
Proof. rewrite seq_S, map_app. cbn [map]. apply last_last. Qed.
Lemma nearest_closest (dt t : R) (col : list R) n : 0 < dt -> length col = S n ->
  exists k, closest dt (S n) t k /\ nearest (N := Rnum) (original_time (N := Rnum) dt (S n)) col (nth 0 col 0) (nth n col 0) t = Ok (nth k col 0).
Proof.
  intros D L. unfold nearest. rewrite times.
  assert (LM : @last (@num Rnum) (map (fun j => INR j * dt) (seq 0 (S n))) t = INR n * dt) by exact (last_map (fun j => INR j * dt) 0 n t).
  assert (LL : @length (@num Rnum) (map (fun j => INR j * dt) (seq 0 (S n))) = S n) by (etransitivity; [apply map_length|apply seq_length]).
  rewrite LM, LL, mids.
  cbn [seq map]. change (@nltb Rnum ?x ?y) with (Rlt_bool x y).
  destruct (Rlt_bool_spec t (INR 0 * dt)) as [A|A]; [exists 0%nat; split; [apply closest_mid; [exact D|lia|now left|right; cbn in *; lra]|reflexivity]|].
  destruct (Rlt_bool_spec (INR n * dt) t) as [B|B].
  - exists n. split; [|reflexivity]. apply closest_mid; [exact D|lia|right; nra|left; lia].
  - destruct (search dt t n D 0) as [S1 [S2 S3]]. set (k := searchsorted _ t) in *. replace (Nat.min k (S n - 1)) with k by lia.
    exists k. split.
    + apply closest_mid; [exact D|lia| |].
      * destruct k as [|k]; [now left|right]. specialize (S2 k ltac:(lia)). cbn [Nat.add] in S2. rewrite S_INR. lra.
      * destruct (Nat.eq_dec k n) as [E|E]; [left; lia|right; apply S3; lia].
    + unfold py_nth. replace (Z.of_nat k <? 0)%Z with false by (symmetry; apply Z.ltb_ge; lia).
      replace (Z.of_nat k <? 0)%Z with false by (symmetry; apply Z.ltb_ge; lia). unfold num, Rnum. rewrite L.
      replace (Z.of_nat (S n) <=? Z.of_nat k)%Z with false by (symmetry; apply Z.leb_gt; lia). cbn [orb]. rewrite Nat2Z.id.
      rewrite (nth_error_nth' col 0) by lia. reflexivity.
Qed.
Lemma rmap_map {A B} (f : A -> res B) (g : A -> B) l : (forall a, In a l -> f a = Ok (g a)) -> rmap f l = Ok (map g l).
Proof. induction l as [|a l IH]; intros H; [reflexivity|]. cbn. rewrite H by now left. cbn. rewrite IH by (intros; apply H; now right). reflexivity. Qed.
Lemma rmap_apply {A B T} (h : A -> T -> res B) (g : A -> B) (t : T) l : (forall a, In a l -> h a t = Ok (g a)) -> rmap (fun f => f t) (map h l) = Ok (map g l).
Proof. induction l as [|a l IH]; intros H; [reflexivity|]. cbn. rewrite H by now left. cbn. rewrite IH by (intros; apply H; now right). reflexivity. Qed.
Lemma rmap_cons {A B} (f : A -> res B) a b l bs : f a = Ok b -> rmap f l = Ok bs -> rmap f (a :: l) = Ok (b :: bs).
Proof. intros H K. cbn. now rewrite H, K. Qed.

(** ** Theorems: [n + 1] samples at distance [dt] *)
Section C68.
  Variables (dt : R) (n : nat) (columns : list (list R)).
  Hypotheses (D : 0 < dt) (HC : Forall (fun col => length col = S n) columns).
  (** Every new row consists of the samples closest in time, the same for all pulses. *)
  Theorem C68_nearest axis : exists rows, R_resample dt (S n) columns axis = Ok rows /\
    Forall2 (fun t row => exists k, closest dt (S n) t k /\ row = map (fun col => nth k col 0) columns) axis rows.
  Proof.
    unfold R_resample, resample_pulse.
    assert (F : forall (g : _ -> _ -> _), rmap (fun col : list (@num Rnum) => e0 <-! py_nth col 0; e1 <-! py_nth col (-1); Ok (g col e0 e1)) columns =
                @Ok (list (@num Rnum -> res (@num Rnum))) (map (fun col : list R => g col (nth 0 col 0) (nth n col 0)) columns)).
    { intros g. apply rmap_map. intros col I. rewrite Forall_forall in HC. specialize (HC col I). destruct col as [|a l]; [discriminate|]. injection HC as L. unfold py_nth.
      assert (L' : @length (@num Rnum) l = n) by exact L. cbn [length]. rewrite L'. cbn [Z.ltb Z.compare].
      replace (0 <? 0)%Z with false by reflexivity. replace (Z.of_nat (S n) <=? 0)%Z with false by (symmetry; apply Z.leb_gt; lia). cbn [orb rbind Z.to_nat nth_error].
      replace (-1 + Z.of_nat (S n))%Z with (Z.of_nat n) by lia. replace (Z.of_nat n <? 0)%Z with false by (symmetry; apply Z.ltb_ge; lia).
      replace (Z.of_nat (S n) <=? Z.of_nat n)%Z with false by (symmetry; apply Z.leb_gt; lia). cbn [orb]. rewrite Nat2Z.id.
      assert (NE : @nth_error (@num Rnum) (a :: l) n = Some (nth n (a :: l) 0)) by (apply (nth_error_nth' (a :: l) 0); cbn [length]; unfold num, Rnum in *; lia).
      cbn [nth_error] in NE |- *. rewrite NE. reflexivity. }
    rewrite F. cbn [rbind]. clear F.
    induction axis as [|t axis [rows [IH1 IH2]]]; [exists []; split; [reflexivity|constructor]|].
    assert (K : exists k, closest dt (S n) t k /\ rmap (fun f => f t) (map (fun col => nearest (N := Rnum) (original_time (N := Rnum) dt (S n)) col (nth 0 col 0) (nth n col 0)) columns) = Ok (map (fun col => nth k col 0) columns)).
    { clear IH1 IH2 rows. assert (EX : exists k, closest dt (S n) t k).
      { destruct (nearest_closest dt t (repeat 0 (S n)) n D (repeat_length _ _)) as [k [CK _]]. eauto. }
      destruct EX as [k CK]. exists k. split; [exact CK|]. apply (rmap_apply (fun col => nearest (N := Rnum) (original_time (N := Rnum) dt (S n)) col (nth 0 col 0) (nth n col 0)) (fun col => nth k col 0)).
      intros col I. rewrite Forall_forall in HC. destruct (nearest_closest dt t col n D (HC col I)) as [k' [CK' E]].
      rewrite (closest_unique _ _ _ _ _ CK' CK) in E. exact E. }
    destruct K as [k [CK E]]. exists (map (fun col => nth k col 0) columns :: rows). split; [|constructor; [eauto|exact IH2]].
    apply rmap_cons; [exact E|exact IH1].
  Qed.
  (** On its own time axis a pulse does not change; a finer axis that contains the old times keeps all samples, so resampling back gives the pulse. *)
  Definition own_axis : list R := map (fun i => INR i * dt) (seq 0 (S n)).
  Lemma closest_self k : (k <= n)%nat -> closest dt (S n) (INR k * dt) k.
  Proof. intros K. apply closest_mid; [exact D|lia|right; lra|right; lra]. Qed.
  Lemma rows_at axis rows : Forall2 (fun t row => exists k, closest dt (S n) t k /\ row = map (fun col => nth k col 0) columns) axis rows ->
    forall i k, (i < length axis)%nat -> nth i axis 0 = INR k * dt -> (k <= n)%nat -> nth i rows [] = map (fun col => nth k col 0) columns.
  Proof.
    induction 1 as [|t row axis rows [k' [C E]] H IH]; intros i k I T K; [cbn in I; lia|]. destruct i as [|i].
    - cbn in T. subst t row. cbn. now rewrite (closest_unique _ _ _ _ _ C (closest_self k K)).
    - cbn in *. apply IH; [lia|exact T|exact K].
  Qed.
  Theorem C68_own_axis : R_resample dt (S n) columns own_axis = Ok (map (fun i => map (fun col => nth i col 0) columns) (seq 0 (S n))).
  Proof.
    destruct (C68_nearest own_axis) as [rows [E H]]. rewrite E. f_equal. pose proof (Forall2_length _ _ _ H) as L. unfold own_axis in L. rewrite map_length, seq_length in L.
    apply nth_ext with [] (map (fun col => nth 0 col 0) columns); [now rewrite map_length, seq_length|]. intros i I.
    rewrite (map_nth (fun i => map (fun col => nth i col 0) columns)), seq_nth by lia. apply (rows_at _ _ H); [unfold own_axis; rewrite map_length, seq_length; lia| |lia].
    unfold own_axis. rewrite (nth_indep _ 0 (INR 0 * dt)) by (rewrite map_length, seq_length; lia). rewrite (map_nth (fun i => INR i * dt)), seq_nth by lia. reflexivity.
  Qed.
  (** Before the first and after the last sample the pulse is continued by these samples. *)
  Theorem C68_outside axis : exists rows, R_resample dt (S n) columns axis = Ok rows /\
    Forall2 (fun t row => (t <= 0 -> row = map (fun col => nth 0 col 0) columns) /\ (INR n * dt <= t -> row = map (fun col => nth n col 0) columns)) axis rows.
  Proof.
    destruct (C68_nearest axis) as [rows [E H]]. exists rows. split; [exact E|]. clear E. induction H as [|t row axis rows [k [C ->]] H IH]; constructor; [|exact IH].
    split; intros T.
    - rewrite (closest_unique _ _ _ _ 0%nat C); [reflexivity|]. apply closest_mid; [exact D|lia|now left|right; cbn; nra].
    - rewrite (closest_unique _ _ _ _ n C); [reflexivity|]. apply closest_mid; [exact D|lia|right; nra|left; lia].
  Qed.
  (** No new values: amplitude limits are kept, whatever the new axis. *)
  Theorem C68_limits axis lo hi : Forall (Forall (fun x => lo <= x <= hi)) columns ->
    exists rows, R_resample dt (S n) columns axis = Ok rows /\ length rows = length axis /\ Forall (fun row => length row = length columns /\ Forall (fun x => lo <= x <= hi) row) rows.
  Proof.
    intros B. destruct (C68_nearest axis) as [rows [E H]]. exists rows. split; [exact E|]. split; [symmetry; exact (Forall2_length _ _ _ H)|]. clear E. induction H as [|t row axis rows [k [[C _] ->]] H IH]; constructor; [|exact IH].
    split; [apply map_length|]. apply Forall_forall. intros x I. apply in_map_iff in I. destruct I as [col [<- J]]. rewrite Forall_forall in B, HC. specialize (B col J). rewrite Forall_forall in B. apply B.
    apply nth_In. rewrite (HC col J). exact C.
  Qed.
End C68.

(** There and back: a pulse resampled [m] times finer and resampled again on its old axis is the old pulse. *)
Theorem C68_round_trip (dt : R) (n m : nat) (columns : list (list R)) : 0 < dt -> (1 <= m)%nat -> Forall (fun col => length col = S n) columns ->
  exists rows, R_resample dt (S n) columns (own_axis (dt / INR m) (n * m)) = Ok rows /\
  R_resample (dt / INR m) (S (n * m)) (map (fun c => map (fun row => nth c row 0) rows) (seq 0 (length columns))) (own_axis dt n) =
    Ok (map (fun i => map (fun col => nth i col 0) columns) (seq 0 (S n))).
Proof.
  intros D M HC. assert (Mp : 1 <= INR m) by (apply (le_INR 1); exact M). assert (D' : 0 < dt / INR m) by (apply Rdiv_lt_0_compat; lra).
  destruct (C68_nearest dt n columns D HC (own_axis (dt / INR m) (n * m))) as [rows [E H]]. exists rows. split; [exact E|].
  pose proof (Forall2_length _ _ _ H) as L. unfold own_axis in L at 1. rewrite map_length, seq_length in L.
  set (cols := map (fun c => map (fun row => nth c row 0) rows) (seq 0 (length columns))).
  assert (HC' : Forall (fun col => length col = S (n * m)) cols).
  { apply Forall_forall. intros col I. apply in_map_iff in I. destruct I as [c [<- _]]. now rewrite map_length. }
  destruct (C68_nearest (dt / INR m) (n * m) cols D' HC' (own_axis dt n)) as [rows' [E' H']]. rewrite E'. f_equal.
  pose proof (Forall2_length _ _ _ H') as L'. unfold own_axis in L' at 1. rewrite map_length, seq_length in L'.
  assert (NA : forall d k i, (i <= k)%nat -> nth i (own_axis d k) 0 = INR i * d).
  { intros d k i I. unfold own_axis. rewrite (nth_indep _ 0 (INR 0 * d)) by (rewrite map_length, seq_length; lia). rewrite (map_nth (fun i => INR i * d)), seq_nth by lia. reflexivity. }
  assert (LA : forall d k, length (own_axis d k) = S k) by (intros; unfold own_axis; now rewrite map_length, seq_length).
  apply nth_ext with [] (map (fun col => nth 0 col 0) columns); [now rewrite map_length, seq_length|]. intros i I.
  rewrite (map_nth (fun i => map (fun col => nth i col 0) columns)), seq_nth by lia. cbn [Nat.add].
  rewrite (rows_at (dt / INR m) (n * m) cols D' _ _ H' i (i * m)%nat); [|rewrite LA; lia|rewrite NA by lia; rewrite mult_INR; field; lra|nia].
  unfold cols. rewrite map_map. 
  assert (R1 : nth (i * m) rows [] = map (fun col => nth i col 0) columns).
  { apply (rows_at dt n columns D _ _ H); [rewrite LA; nia| |lia]. rewrite NA by nia. rewrite mult_INR. field. lra. }
  apply nth_ext with 0 0; [now rewrite !map_length, seq_length|]. intros c Ic. rewrite map_length, seq_length in Ic.
  rewrite (nth_indep _ 0 ((fun x => nth (i * m) (map (fun row => nth x row 0) rows) 0) 0%nat)) by (rewrite map_length, seq_length; lia).
  rewrite (map_nth (fun x => nth (i * m) (map (fun row => nth x row 0) rows) 0)), seq_nth by lia. cbn [Nat.add].
  rewrite (nth_indep _ 0 ((fun row => nth c row 0) [])) by (rewrite map_length; nia). rewrite (map_nth (fun row => nth c row 0)), R1. reflexivity.
Qed.

(** An array without rows raises IndexError. *)
Theorem C68_empty (dt : R) col columns axis : R_resample dt 0 ([] :: col :: columns) axis = Err IndexError /\ R_resample dt 0 [[]] axis = Err IndexError.
Proof. split; reflexivity. Qed.

Example C68_ex : exists rows, R_resample 1 3 [[10; 20; 30]; [1; 2; 3]] [-5; 1/2; 3/5; 7] = Ok rows /\ rows = [[10; 1]; [10; 1]; [20; 2]; [30; 3]].
Proof.
  destruct (C68_nearest 1 2 [[10; 20; 30]; [1; 2; 3]] ltac:(lra) ltac:(repeat constructor) [-5; 1/2; 3/5; 7]) as [rows [E H]]. exists rows. split; [exact E|].
  assert (C : forall t k k', closest 1 3 t k -> (k' < 3)%nat -> (k' = 0%nat \/ INR k' - / 2 < t) -> (k' = 2%nat \/ t <= INR k' + / 2) -> k = k').
  { intros t k k' C K A B. apply (closest_unique 1 3 t); [exact C|]. apply closest_mid; [lra|exact K|destruct A; [now left|right; lra]|destruct B; [left; lia|right; lra]]. }
  repeat match goal with H : Forall2 _ (_ :: _) _ |- _ => inversion H; clear H; subst end.
  match goal with H : Forall2 _ [] _ |- _ => inversion H; subst end.
  repeat match goal with H : exists k, _ |- _ => destruct H as [? [? ?]] end. subst.
  rewrite (C (-5) _ 0%nat ltac:(eassumption) ltac:(lia) ltac:(now left) ltac:(right; cbn; lra)).
  rewrite (C (1/2) _ 0%nat ltac:(eassumption) ltac:(lia) ltac:(now left) ltac:(right; cbn; lra)).
  rewrite (C (3/5) _ 1%nat ltac:(eassumption) ltac:(lia) ltac:(right; cbn; lra) ltac:(right; cbn; lra)).
  rewrite (C 7 _ 2%nat ltac:(eassumption) ltac:(lia) ltac:(right; cbn; lra) ltac:(now left)). reflexivity.
Qed.
Print Assumptions C68_nearest.
Print Assumptions C68_own_axis.
Print Assumptions C68_outside.
Print Assumptions C68_limits.
Print Assumptions C68_round_trip.
Print Assumptions C68_empty.
