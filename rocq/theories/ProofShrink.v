(** Shrinking of pulses (exact reals) and the IEEE counter-example. *)
From Coq Require Import String ZArith List Bool Lia Reals Lra.
From Flocq Require Import Core BinarySingleNaN.
From Verif Require Import Num NumFacts Py PyFacts ModelPulse ModelControls SpecControls ProofControls ProofLimits.
Import ListNotations.
Open Scope list_scope.
Open Scope R_scope.

Lemma Rltb_iff (a b : R) : nltb (Num := Rnum) a b = true <-> a < b.
Proof. cbn. destruct (Rlt_bool_spec a b); split; intros; try lra; try easy. Qed.
Lemma Rleb_iff (a b : R) : nleb (Num := Rnum) a b = true <-> a <= b.
Proof. cbn. destruct (Rle_bool_spec a b); split; intros; try lra; try easy. Qed.
Lemma Rltb_iff0 (a b : R) : nltb (Num := Rnum) a b = false <-> b <= a.
Proof. cbn. destruct (Rlt_bool_spec a b); split; intros; try lra; try easy. Qed.
Lemma Rleb_iff0 (a b : R) : nleb (Num := Rnum) a b = false <-> b < a.
Proof. cbn. destruct (Rle_bool_spec a b); split; intros; try lra; try easy. Qed.
Lemma Reqb_iff (a b : R) : neqb (Num := Rnum) a b = true <-> a = b.
Proof. cbn. destruct (Req_bool_spec a b); split; intros; try lra; try easy. Qed.

Lemma R_npmin a b : npmin (N := Rnum) a b = Rmin a b.
Proof. unfold npmin; cbn. destruct (Rle_bool_spec a b); unfold Rmin; destruct Rle_dec; lra. Qed.
Lemma R_npmax a b : npmax (N := Rnum) a b = Rmax a b.
Proof. unfold npmax; cbn. destruct (Rle_bool_spec b a); unfold Rmax; destruct Rle_dec; lra. Qed.

Lemma fold_max_spec (l : list R) (x : R) :
  let m := fold_left (npmax (N := Rnum)) l x in
  x <= m /\ (forall y, In y l -> y <= m) /\ (m = x \/ In m l).
Proof.
  revert x; induction l as [|y l IH]; intros x; cbn [fold_left].
  - cbn; repeat split; auto; [lra|intros ? []].
  - specialize (IH (npmax (N := Rnum) x y)). cbn zeta in *. destruct IH as (A & B & C).
    set (m := fold_left (npmax (N:=Rnum)) l (npmax (N:=Rnum) x y)) in *.
    rewrite R_npmax in A, C. pose proof (Rmax_l x y). pose proof (Rmax_r x y).
    repeat split.
    + lra.
    + intros z [<-|Hz]; [lra|auto].
    + destruct C as [C|C]; [|right; now right].
      destruct (Rle_dec x y); [rewrite Rmax_right in C by lra; right; left; lra|rewrite Rmax_left in C by lra; left; lra].
Qed.
Lemma fold_min_spec (l : list R) (x : R) :
  let m := fold_left (npmin (N := Rnum)) l x in
  m <= x /\ (forall y, In y l -> m <= y) /\ (m = x \/ In m l).
Proof.
  revert x; induction l as [|y l IH]; intros x; cbn [fold_left].
  - cbn; repeat split; auto; [lra|intros ? []].
  - specialize (IH (npmin (N := Rnum) x y)). cbn zeta in *. destruct IH as (A & B & C).
    set (m := fold_left (npmin (N:=Rnum)) l (npmin (N:=Rnum) x y)) in *.
    rewrite R_npmin in A, C. pose proof (Rmin_l x y). pose proof (Rmin_r x y).
    repeat split.
    + lra.
    + intros z [<-|Hz]; [lra|auto].
    + destruct C as [C|C]; [|right; now right].
      destruct (Rle_dec x y); [rewrite Rmin_left in C by lra; left; lra|rewrite Rmin_right in C by lra; right; left; lra].
Qed.

Lemma amax_spec (l : list R) (m : R) : amax (N := Rnum) l = Ok m -> In m l /\ forall y, In y l -> y <= m.
Proof.
  destruct l as [|x l]; cbn [amax]; [discriminate|]. intros H; injection H as <-.
  destruct (fold_max_spec l x) as (A & B & C). split.
  - destruct C as [C|C]; [left; symmetry; exact C|right; exact C].
  - intros y [<-|Hy]; auto.
Qed.
Lemma amin_spec (l : list R) (m : R) : amin (N := Rnum) l = Ok m -> In m l /\ forall y, In y l -> m <= y.
Proof.
  destruct l as [|x l]; cbn [amin]; [discriminate|]. intros H; injection H as <-.
  destruct (fold_min_spec l x) as (A & B & C). split.
  - destruct C as [C|C]; [left; symmetry; exact C|right; exact C].
  - intros y [<-|Hy]; auto.
Qed.
Lemma amax_ok (l : list R) : l <> [] -> exists m, amax (N := Rnum) l = Ok m.
Proof. destruct l; [congruence|]; cbn; eauto. Qed.
Lemma amin_ok (l : list R) : l <> [] -> exists m, amin (N := Rnum) l = Ok m.
Proof. destruct l; [congruence|]; cbn; eauto. Qed.

Lemma clip_R lo hi x : lo <= hi -> clip (N := Rnum) lo hi x = Rmax lo (Rmin x hi).
Proof. intros. unfold clip. rewrite R_npmax, R_npmin. apply Rmax_comm. Qed.

(** one shrinking step towards an upper bound, seen from the minimum [tmin] *)
Lemma corr_range (a b c : R) : c < b -> c <= a -> a < b ->
  let k := (if Rlt_bool 1 (Rabs (a - c) / Rabs (b - c)) then 1 else Rabs (a - c) / Rabs (b - c)) in
  k = (a - c) / (b - c) /\ 0 <= k <= 1.
Proof.
  intros H1 H2 H3.
  rewrite (Rabs_right (a - c)) by lra. rewrite (Rabs_right (b - c)) by lra.
  assert (0 <= (a - c) / (b - c) <= 1).
  { split.
    - apply Rmult_le_pos; [lra|]. left. apply Rinv_0_lt_compat. lra.
    - apply Rmult_le_reg_r with (b - c); [lra|]. unfold Rdiv. rewrite Rmult_assoc, Rinv_l by lra. lra. }
  destruct (Rlt_bool_spec 1 ((a - c) / (b - c))); [lra|]. auto.
Qed.

Lemma shrink_list_total (lb ub : R) (u : list R) : u <> [] -> exists v, shrink_list (N := Rnum) lb ub u = Ok v.
Proof.
  intros NE. unfold shrink_list.
  destruct (amax_ok u NE) as (M & ->). destruct (amin_ok u NE) as (m & ->). cbn [rbind].
  destruct (_ || _)%bool; [eauto|].
  match goal with |- context [amax ?u1] => set (u' := u1) end.
  assert (NE' : u' <> []).
  { unfold u'. destruct (nltb (Num := Rnum) ub M); [|assumption]. destruct u; [congruence|]. cbn; congruence. }
  destruct (amax_ok u' NE') as (M1 & ->). destruct (amin_ok u' NE') as (m1 & ->). cbn [rbind].
  destruct (nltb (Num := Rnum) m1 lb); eauto.
Qed.

Lemma map_id_ext {A} (f : A -> A) l : (forall x, In x l -> f x = x) -> map f l = l.
Proof. induction l; cbn; intros H; [reflexivity|]. rewrite H by now left. f_equal. apply IHl. auto. Qed.

Theorem shrink_list_spec (lb ub : R) (u v : list R) :
  lb <= ub -> shrink_list (N := Rnum) lb ub u = Ok v ->
  (forall y, In y v -> lb <= y <= ub) /\
  ((forall x, In x u -> lb <= x <= ub) -> v = u) /\
  ((forall x, In x u -> ub <= x) -> v = map (fun _ => ub) u) /\
  ((forall x, In x u -> x <= lb) -> v = map (fun _ => lb) u) /\
  (~ (forall x, In x u -> ub <= x) -> ~ (forall x, In x u -> x <= lb) ->
     exists a b, 0 <= a <= 1 /\ (lb < ub -> 0 < a) /\ v = map (fun x => a * x + b) u).
Proof.
  intros LU. unfold shrink_list.
  destruct (amax (N := Rnum) u) as [M|] eqn:EM; cbn [rbind]; [|discriminate].
  destruct (amin (N := Rnum) u) as [m|] eqn:Em; cbn [rbind]; [|discriminate].
  destruct (amax_spec _ _ EM) as [IM UM]. destruct (amin_spec _ _ Em) as [Im Um].
  assert (mM : m <= M) by auto.
  destruct (((nleb (Num := Rnum) ub M && nleb (Num := Rnum) ub m) || (nleb (Num := Rnum) M lb && nleb (Num := Rnum) m lb))%bool) eqn:C.
  - intros H; injection H as <-.
    assert (CL : forall x, npmax (N := Rnum) (npmin (N := Rnum) x ub) lb = Rmax lb (Rmin x ub)).
    { intros x. now rewrite R_npmax, R_npmin, Rmax_comm. }
    assert (IN : forall x, lb <= Rmax lb (Rmin x ub) <= ub).
    { intros x. pose proof (Rmax_l lb (Rmin x ub)). pose proof (Rmin_r x ub). split; [lra|]. apply Rmax_lub; lra. }
    split; [|split; [|split; [|split]]].
    + intros y Hy. apply in_map_iff in Hy as (x & <- & Hx). rewrite CL. apply IN.
    + intros H. apply map_id_ext. intros x Hx. rewrite CL. specialize (H x Hx). rewrite Rmin_left, Rmax_right by lra. reflexivity.
    + intros H. apply map_ext_in. intros x Hx. rewrite CL. specialize (H x Hx). rewrite Rmin_right, Rmax_right by lra. reflexivity.
    + intros H. apply map_ext_in. intros x Hx. rewrite CL. specialize (H x Hx). rewrite Rmin_left, Rmax_left by lra. reflexivity.
    + intros H1 H2. exfalso. apply orb_prop in C as [C|C]; apply andb_prop in C as [C1 C2].
      * rewrite !Rleb_iff in *. apply H1. intros x Hx. specialize (Um x Hx). lra.
      * rewrite !Rleb_iff in *. apply H2. intros x Hx. specialize (UM x Hx). lra.
  - apply orb_false_elim in C as [C1 C2].
    assert (D1 : m < ub).
    { destruct (Rlt_dec m ub); [assumption|]. exfalso.
      apply not_true_iff_false in C1. apply C1. apply andb_true_intro; rewrite !Rleb_iff; lra. }
    assert (D2 : lb < M).
    { destruct (Rlt_dec lb M); [assumption|]. exfalso.
      apply not_true_iff_false in C2. apply C2. apply andb_true_intro; rewrite !Rleb_iff; lra. }
    match goal with |- context [amax ?u1] => set (u' := u1) end.
    assert (S1 : exists a b, 0 < a <= 1 /\ u' = map (fun x => a * x + b) u /\ a * m + b = m /\ a * M + b = Rmin M ub /\ (M <= ub -> a = 1 /\ b = 0)).
    { unfold u'. destruct (nltb (Num := Rnum) ub M) eqn:E.
      - rewrite Rltb_iff in E.
        destruct (corr_range ub M m) as [K1 K2]; try lra.
        cbn [nsub nabs ndiv nltb of_Z nmul nadd Rnum].
        set (k := if Rlt_bool 1 (Rabs (ub - m) / Rabs (M - m)) then 1 else Rabs (ub - m) / Rabs (M - m)) in *.
        exists k, (m - k * m).
        assert (0 < k). { rewrite K1. apply Rmult_lt_0_compat; [lra|]. apply Rinv_0_lt_compat; lra. }
        split; [lra|split; [|split; [|split]]].
        + apply map_ext. intros x. change ((x - m) * k + m = k * x + (m - k * m)). ring.
        + ring.
        + rewrite Rmin_right by lra. rewrite K1. field. lra.
        + lra.
      - rewrite Rltb_iff0 in E. exists 1, 0. split; [lra|split; [|split; [|split]]].
        + symmetry. apply map_id_ext. intros; lra.
        + ring.
        + rewrite Rmin_left by lra. lra.
        + auto. }
    destruct S1 as (a & b & Ha & Hu' & Hm & HM & Hid). clearbody u'. subst u'.
    set (u' := map (fun x => a * x + b) u).
    destruct (amax (N := Rnum) u') as [M1|] eqn:EM1; cbn [rbind]; [|discriminate].
    destruct (amin (N := Rnum) u') as [m1|] eqn:Em1; cbn [rbind]; [|discriminate].
    destruct (amax_spec _ _ EM1) as [IM1 UM1]. destruct (amin_spec _ _ Em1) as [Im1 Um1].
    assert (M1e : M1 = Rmin M ub).
    { rewrite <- HM. apply in_map_iff in IM1 as (x & <- & Hx). specialize (UM x Hx).
      assert (a * M + b <= a * x + b) by (apply UM1, in_map_iff; eauto).
      assert (a * x <= a * M) by (apply Rmult_le_compat_l; lra). lra. }
    assert (m1e : m1 = m).
    { rewrite <- Hm. apply in_map_iff in Im1 as (x & <- & Hx). specialize (Um x Hx).
      assert (a * x + b <= a * m + b) by (apply Um1, in_map_iff; eauto).
      assert (a * m <= a * x) by (apply Rmult_le_compat_l; lra). lra. }
    assert (HMu : Rmin M ub <= ub) by apply Rmin_r.
    assert (HMl : lb <= Rmin M ub) by (apply Rmin_glb; lra).
    destruct (nltb (Num := Rnum) m1 lb) eqn:E2; intros H; injection H as <-.
    + rewrite Rltb_iff in E2. subst m1 M1.
      set (X := Rmin M ub) in *.
      assert (HMm : m < X) by lra.
      cbn [nsub nabs ndiv nltb of_Z nmul nadd Rnum].
      destruct (corr_range (X - lb) (X - m) 0) as [K1 K2]; try lra.
      replace (Rabs (X - lb - 0)) with (Rabs (X - lb)) in * by (f_equal; ring).
      replace (Rabs (X - m - 0)) with (Rabs (X - m)) in * by (f_equal; ring).
      set (k := if Rlt_bool 1 (Rabs (X - lb) / Rabs (X - m)) then 1 else Rabs (X - lb) / Rabs (X - m)) in *.
      assert (Kv : (m - X) * k + X = lb). { rewrite K1. field. lra. }
      assert (BND : forall y, In y u' -> lb <= (y - X) * k + X <= ub).
      { intros y Hy. specialize (UM1 y Hy). specialize (Um1 y Hy). split.
        - rewrite <- Kv. apply Rplus_le_compat_r. apply Rmult_le_compat_r; lra.
        - assert ((y - X) * k <= 0) by (assert (0 <= (X - y) * k) by (apply Rmult_le_pos; lra); lra). lra. }
      split; [|split; [|split; [|split]]].
      * intros y Hy. apply in_map_iff in Hy as (x & <- & Hx). apply BND; assumption.
      * intros H. exfalso. specialize (H m Im). lra.
      * intros H. exfalso. specialize (H m Im). lra.
      * intros H. exfalso. specialize (H M IM). lra.
      * intros _ _. exists (a * k), (b * k - X * k + X). split; [|split].
        -- split; [apply Rmult_le_pos; lra|]. assert (a * k <= 1 * 1) by (apply Rmult_le_compat; lra). lra.
        -- intros LU'. apply Rmult_lt_0_compat; [lra|].
           rewrite K1. apply Rmult_lt_0_compat; [|apply Rinv_0_lt_compat; lra].
           assert (lb < X) by (apply Rmin_glb_lt; lra). lra.
        -- unfold u'. rewrite map_map. apply map_ext. intros x. ring.
    + rewrite Rltb_iff0 in E2. subst m1 M1.
      split; [|split; [|split; [|split]]].
      * intros y Hy. specialize (UM1 y Hy). specialize (Um1 y Hy). lra.
      * intros H. apply map_id_ext. intros x Hx.
        specialize (H M IM). rewrite Rmin_left in HM by lra.
        destruct (Hid ltac:(lra)) as [-> ->]. lra.
      * intros H. exfalso. specialize (H m Im). lra.
      * intros H. exfalso. specialize (H M IM). lra.
      * intros _ _. exists a, b. split; [lra|split; [intros; lra|reflexivity]].
Qed.
