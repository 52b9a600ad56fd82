(** * Nelder-Mead in other coordinates: the run in the image of an affine map is the image of the run. *)
From Coq Require Import String ZArith List Bool Permutation Reals Lia Lra.
From Verif Require Import Num NumFacts Py PyFacts ModelPulse ModelControls ModelLinalg ModelState ModelSearch SpecRun SpecSearch SpecStop SpecCoords ProofNM ProofStop ProofOrder ProofSimRun.
Import ListNotations.
Open Scope list_scope.
Open Scope run_scope.

(** ** Vectors *)
Lemma map2_len {A B C} (g : A -> B -> C) l m n : length l = n -> length m = n -> length (map2 g l m) = n.
Proof. revert m n. induction l as [|a l IH]; intros [|b m] n E F; cbn in *; subst; try discriminate; [reflexivity|]. f_equal. apply IH; [reflexivity|lia]. Qed.
Lemma mix_len t x y n : length x = n -> length y = n -> length (mix t x y) = n. Proof. apply map2_len. Qed.

Ltac pointwise x y := revert y; induction x as [|a x IH]; intros [|b y] L; cbn in *; try discriminate; try reflexivity; apply f_equal2; [first [reflexivity|ring|lra]|apply IH; lia].
Lemma ahead_mix (r : R) (x y : list R) : length x = length y -> vsub (N := Rnum) (vscale (N := Rnum) (1 + r)%R x) (vscale (N := Rnum) r y) = mix (- r) x y.
Proof. unfold mix, vsub, vscale. pointwise x y. Qed.
Lemma inside_mix (r : R) (x y : list R) : length x = length y -> vadd (N := Rnum) (vscale (N := Rnum) (1 - r)%R x) (vscale (N := Rnum) r y) = mix r x y.
Proof. unfold mix, vadd, vscale. pointwise x y. Qed.
Lemma towards_mix (r : R) (x y : list R) : length x = length y -> vadd (N := Rnum) x (vscale (N := Rnum) r (vsub (N := Rnum) y x)) = mix r x y.
Proof. unfold mix, vadd, vscale, vsub. pointwise x y. Qed.

Section Mean.
  Context (n : nat) (f : list R -> list R) (AF : affine n f).
  Notation total r rows := (fold_left (vadd (N := Rnum)) rows r).
  Lemma total_len r rows : length r = n -> (forall x, In x rows -> length x = n) -> length (total r rows) = n.
  Proof. revert r. induction rows as [|y rows IH]; intros r R H; cbn; [exact R|]. apply IH; [apply map2_len; auto with datatypes|auto with datatypes]. Qed.
  Lemma div_len (x : list R) c : length x = n -> length (vdiv (N := Rnum) x c) = n. Proof. unfold vdiv. now rewrite map_length. Qed.
  (** the mean of one more row is on the line from the mean so far to that row *)
  Lemma mean_step (x y : list R) (k : nat) : length x = length y -> (0 < k)%nat ->
    vdiv (N := Rnum) (vadd (N := Rnum) x y) (INR (S k)) = mix (1 / INR (S k)) (vdiv (N := Rnum) x (INR k)) y.
  Proof.
    intros L K. assert (INR k <> 0%R) by (apply not_0_INR; lia). assert (INR (S k) <> 0%R) by (apply not_0_INR; lia).
    unfold mix, vadd, vdiv. revert y L. induction x as [|a x IH]; intros [|b y] L; cbn [length] in L; try discriminate; [reflexivity|].
    cbn [map2 map]. f_equal; [|apply IH; lia]. change (((a + b) / INR (S k))%R = ((1 - 1 / INR (S k)) * (a / INR k) + 1 / INR (S k) * b)%R). rewrite S_INR in *. field. split; assumption.
  Qed.
  Lemma one_mean (x : list R) : vdiv (N := Rnum) x (INR 1) = x.
  Proof. unfold vdiv. induction x as [|a x IH]; cbn; [reflexivity|]. f_equal; [unfold Rdiv; now rewrite Rinv_1, Rmult_1_r|exact IH]. Qed.
  Lemma mean_affine r rows : length r = n -> (forall x, In x rows -> length x = n) ->
    f (vdiv (N := Rnum) (total r rows) (INR (S (length rows)))) = vdiv (N := Rnum) (total (f r) (map f rows)) (INR (S (length rows))).
  Proof.
    intros R. induction rows as [|y rows IH] using rev_ind; intros H; [cbn [fold_left map length]; now rewrite !one_mean|].
    rewrite map_app, !fold_left_app, app_length. cbn [fold_left map length]. rewrite Nat.add_1_r.
    assert (H1 : forall x, In x rows -> length x = n) by (intros; apply H, in_or_app; now left). assert (LY : length y = n) by (apply H, in_or_app; right; now left).
    destruct AF as [A1 A2]. assert (LT : length (total r rows) = n) by now apply total_len.
    assert (LF : length (total (f r) (map f rows)) = n). { apply total_len; [now apply A1|]. intros x I. apply in_map_iff in I as (w & <- & I). auto. }
    rewrite (mean_step _ _ (S (length rows))) by (first [exact (eq_trans LT (eq_sym LY))|lia]). rewrite A2 by (try apply div_len; assumption). refine (eq_trans (f_equal (fun w => mix _ w (f y)) (IH H1)) _).
    symmetry. apply mean_step; [|lia]. exact (eq_trans LF (eq_sym (A1 _ LY))).
  Qed.
End Mean.

(** ** Two computations with the same effect, the results related *)
Section Alike.
  Context {N : Num}.
  Definition alike {A} (P : A -> A -> Prop) (m1 m2 : M A) : Prop := forall s,
    match m1 s, m2 s with
    | (Ok a, s1), (Ok b, s2) => P a b /\ s1 = s2
    | (Err e, s1), (Err e', s2) => e = e' /\ s1 = s2
    | _, _ => False
    end.
  Lemma alike_bind {A B} (P : A -> A -> Prop) (Q : B -> B -> Prop) m1 m2 k1 k2 :
    alike P m1 m2 -> (forall a b, P a b -> alike Q (k1 a) (k2 b)) -> alike Q (bind m1 k1) (bind m2 k2).
  Proof.
    intros H K s. unfold bind. specialize (H s). destruct (m1 s) as [[a|e] s1], (m2 s) as [[b|e'] s2]; try contradiction; [|exact H].
    destruct H as [H ->]. now apply K.
  Qed.
  Lemma alike_refl {A} (m : M A) : alike eq m m.
  Proof. intros s. destruct (m s) as [[a|e] s']; auto. Qed.
  Lemma alike_seq {A B} (Q : B -> B -> Prop) (m : M A) k1 k2 : (forall a, alike Q (k1 a) (k2 a)) -> alike Q (bind m k1) (bind m k2).
  Proof. intros K. eapply alike_bind; [apply alike_refl|]. intros a b ->. apply K. Qed.
  Lemma alike_ret {A} (P : A -> A -> Prop) a b : P a b -> alike P (ret a) (ret b).
  Proof. intros H s. now split. Qed.
  Lemma alike_raise {A} (P : A -> A -> Prop) e : alike P (raise e) (raise e).
  Proof. intros s. now split. Qed.
  (** a value read from a list and from its image *)
  Lemma alike_map {A} (Q : A -> Prop) (g : A -> A) (r r' : res A) : r' = match r with Ok a => Ok (g a) | Err e => Err e end ->
    (forall a, r = Ok a -> Q a) -> alike (fun a b => b = g a /\ Q a) (lift r) (lift r').
  Proof. intros -> H s. unfold lift. destruct r as [a|e]; split; auto. Qed.
  (** the same value read twice, with something known about it *)
  Lemma alike_known {A} (Q : A -> Prop) (r : res A) : (forall a, r = Ok a -> Q a) -> alike (fun a b => b = a /\ Q a) (lift r) (lift r).
  Proof. intros H s. unfold lift. destruct r as [a|e]; auto. Qed.
End Alike.

Section Coordinates.
  Context (G : settings (N := Rnum)) (W : world (N := Rnum)) (SO : sorts W).
  Context (n : nat) (pos : (0 < n)%nat) (f : list R -> list R) (AF : affine n f).
  Context (func1 func2 : list R -> nat -> option R -> M (N := Rnum) R).
  Context (HF : forall x it v s, length x = n -> func2 (f x) it v s = func1 x it v s).
  Context (HX : forall sim : list (list R), length sim = S n -> (forall x, In x sim -> length x = n) ->
    (small_simplex (N := Rnum) (g_xatol G) (map f sim) <-> small_simplex (N := Rnum) (g_xatol G) sim)).
  Context (rho chi psi sigma dmin : R) (davg : Z).
  Notation wide x := (length x = n).

  Definition moved (L : nm (N := Rnum)) : nm (N := Rnum) := mk_nm (map f (n_sim L)) (n_fsim L) (n_calls L) (n_it L) (n_drift L).
  Definition shaped (L : nm (N := Rnum)) : Prop := length (n_sim L) = S n /\ Forall (fun x => wide x) (n_sim L) /\ length (n_fsim L) = S n.
  Definition to (a b : nm (N := Rnum)) : Prop := b = moved a /\ shaped a.
  Definition go (a b : outcome (N := Rnum)) : Prop :=
    match a, b with Broke a, Broke b => to a b | Goes a, Goes b => to a b | _, _ => False end.

  Lemma alike_call x it v calls : wide x -> alike eq (call func1 x it v calls) (call func2 (f x) it v calls).
  Proof.
    intros L. unfold call. eapply alike_bind; [|intros a b ->; now apply alike_ret]. intros s. rewrite HF by exact L. destruct (func1 x it v s) as [[a|e] s']; auto.
  Qed.
  Lemma alike_rows rows it calls : Forall (fun x => wide x) rows ->
    alike (fun a b => b = a /\ length (fst a) = length rows) (eval_rows func1 rows it calls) (eval_rows func2 (map f rows) it calls).
  Proof.
    intros F. revert calls. induction F as [|x rows L F IH]; intros calls; cbn [eval_rows map]; [now apply alike_ret|].
    eapply alike_bind; [now apply alike_call|]. intros [y c] _ <-. eapply alike_bind; [apply IH|]. intros [ys c2] _ [-> E]. apply alike_ret. split; [reflexivity|]. cbn in *. congruence.
  Qed.
  Lemma alike_sort L : shaped L -> alike to (sort_simplex W L) (sort_simplex W (moved L)).
  Proof.
    intros (S1 & S2 & S3). unfold sort_simplex. cbn [moved n_sim n_fsim n_calls n_it n_drift].
    assert (LI : length (w_argsort W (n_fsim L)) = S n).
    { destruct (SO (n_fsim L)) as [P _]. now rewrite (Permutation_length P), seq_length. }
    eapply alike_bind; [apply (alike_map (fun l : list (list R) => length l = S n /\ Forall (fun x => wide x) l)); [apply gather_through|]|].
    { intros a E. split; [|now apply (gather_in _ _ _ _ S2 E)]. rewrite <- LI, <- (map_length Z.of_nat). exact (rmap_length _ _ _ E). }
    intros sim _ [-> [K1 K2]]. eapply alike_bind; [apply (alike_known (fun l : list R => length l = S n))|].
    { intros a E. rewrite <- LI, <- (map_length Z.of_nat). exact (rmap_length _ _ _ E). }
    intros fs _ [-> K3]. apply alike_ret. split; [reflexivity|]. now repeat split.
  Qed.
  Lemma alike_put x v calls L : shaped L -> wide x -> alike go (put_last x v calls L) (put_last (f x) v calls (moved L)).
  Proof.
    intros (S1 & S2 & S3) LX. unfold put_last. cbn [moved n_sim n_fsim n_calls n_it n_drift].
    eapply alike_bind; [apply (alike_map (fun l : list (list R) => length l = S n /\ Forall (fun x => wide x) l)); [apply py_set_map|]|].
    { intros a E. split; [now rewrite (py_set_length _ _ _ _ E)|]. exact (py_set_in _ _ _ _ _ S2 LX E). }
    intros sim _ [-> [K1 K2]]. eapply alike_bind; [apply (alike_known (fun l : list R => length l = S n))|].
    { intros a E. now rewrite (py_set_length _ _ _ _ E). }
    intros fs _ [-> K3]. apply alike_ret. split; [reflexivity|]. now repeat split.
  Qed.
  Lemma alike_shrink_rows js L : shaped L -> alike to (shrink_rows G W func1 sigma js L) (shrink_rows G W func2 sigma js (moved L)).
  Proof.
    revert L. induction js as [|j js IH]; intros L (S1 & S2 & S3); cbn [shrink_rows]; [apply alike_ret; split; [reflexivity|now repeat split]|].
    cbn [moved n_sim n_fsim n_calls n_it n_drift].
    eapply alike_bind; [apply (alike_map (fun x : list R => wide x)); [apply py_nth_map|intros a; exact (py_nth_in (fun x : list R => length x = n) _ _ a S2)]|]. intros s0 _ [-> L0].
    eapply alike_bind; [apply (alike_map (fun x : list R => wide x)); [apply py_nth_map|intros a; exact (py_nth_in (fun x : list R => length x = n) _ _ a S2)]|]. intros sj _ [-> Lj].
    destruct AF as [A1 A2]. assert (E : vadd (N := Rnum) (f s0) (vscale (N := Rnum) sigma (vsub (N := Rnum) (f sj) (f s0))) = f (vadd (N := Rnum) s0 (vscale (N := Rnum) sigma (vsub (N := Rnum) sj s0)))).
    { rewrite !towards_mix; [symmetry; now apply A2|congruence|rewrite !A1 by assumption; reflexivity]. }
    change (vec (N := Rnum)) with (list R) in *. rewrite E. clear E.
    assert (LX : wide (vadd (N := Rnum) s0 (vscale (N := Rnum) sigma (vsub (N := Rnum) sj s0)))) by (rewrite towards_mix by congruence; now apply mix_len).
    revert LX. generalize (vadd (N := Rnum) s0 (vscale (N := Rnum) sigma (vsub (N := Rnum) sj s0))). intros x LX. cbv zeta.
    eapply alike_bind; [apply (alike_map (fun l : list (list R) => length l = S n /\ Forall (fun x => wide x) l)); [apply py_set_map|]|].
    { intros a E. split; [now rewrite (py_set_length _ _ _ _ E)|]. exact (py_set_in _ _ _ _ _ S2 LX E). }
    intros sim _ [-> [K1 K2]]. apply alike_seq. intros [|]; [apply alike_ret; split; [reflexivity|now repeat split]|].
    eapply alike_bind; [now apply alike_call|]. intros [y c] _ <-.
    eapply alike_bind; [apply (alike_known (fun l : list R => length l = S n))|]. { intros a E. now rewrite (py_set_length _ _ _ _ E). }
    intros fs _ [-> K3]. apply (IH (mk_nm sim fs c (n_it L) (n_drift L))). now repeat split.
  Qed.
  Lemma alike_shrink calls L : shaped L -> alike go (shrink G W func1 sigma n calls L) (shrink G W func2 sigma n calls (moved L)).
  Proof.
    intros S. unfold shrink. eapply alike_bind; [apply (alike_shrink_rows (seq 1 n) (mk_nm (n_sim L) (n_fsim L) calls (n_it L) (n_drift L))); exact S|].
    intros a b H. now apply alike_ret.
  Qed.
  Definition mid (sim : list (list R)) : list R :=
    vdiv (N := Rnum) (match removelast sim with [] => zeros (N := Rnum) n | r :: rows => fold_left (vadd (N := Rnum)) rows r end) (IZR (Z.of_nat n)).
  Lemma middle (sim : list (list R)) : length sim = S n -> Forall (fun x => wide x) sim -> mid (map f sim) = f (mid sim) /\ wide (mid sim).
  Proof.
    intros S1 S2. unfold mid. rewrite <- INR_IZR_INZ.
    assert (ER : removelast (map f sim) = map f (removelast sim)).
    { clear S1 S2. induction sim as [|a [|b l] IH]; [reflexivity|reflexivity|]. change (f a :: removelast (map f (b :: l)) = f a :: map f (removelast (b :: l))). now rewrite IH. }
    rewrite ER. assert (LR : length (removelast sim) = n).
    { destruct sim as [|a l]; [discriminate|]. rewrite (app_removelast_last a (l := a :: l)) in S1 by discriminate. rewrite app_length in S1. cbn [length] in S1. lia. }
    assert (FR : forall x, In x (removelast sim) -> wide x).
    { intros x I. rewrite Forall_forall in S2. apply S2. destruct sim as [|a l]; [contradiction|]. rewrite (app_removelast_last a (l := a :: l)) by discriminate. apply in_or_app. now left. }
    destruct (removelast sim) as [|r rows]; [cbn in LR; lia|]. cbn [map]. cbn [length] in LR. assert (EN : INR n = INR (S (length rows))) by now rewrite LR. rewrite EN. split.
    - symmetry. apply (mean_affine n f AF); auto with datatypes.
    - apply div_len. apply total_len; auto with datatypes.
  Qed.
  Lemma alike_move L : shaped L -> alike go (nm_move G W func1 rho chi psi sigma n L) (nm_move G W func2 rho chi psi sigma n (moved L)).
  Proof.
    intros S. pose proof S as (S1 & S2 & S3). destruct (middle (n_sim L) S1 S2) as [E LB]. unfold nm_move. cbn [moved n_sim n_fsim n_calls n_it n_drift of_Z Rnum]. cbv zeta.
    repeat match goal with |- context [vdiv (N := ?K) ?a ?b] => first [change (vdiv (N := K) a b) with (mid (n_sim L))|change (vdiv (N := K) a b) with (mid (map f (n_sim L)))] end.
    rewrite E.
    revert LB. generalize (mid (n_sim L)). intros xbar LB. change (vec (N := Rnum)) with (list R) in *. change (@num Rnum) with R in *.
    eapply alike_bind; [apply (alike_map (fun x : list R => wide x)); [apply py_nth_map|intros a; exact (py_nth_in (fun x : list R => length x = n) _ _ a S2)]|]. intros last _ [-> LL].
    destruct AF as [A1 A2].
    assert (AH : forall r : R, vsub (N := Rnum) (vscale (N := Rnum) (1 + r)%R (f xbar)) (vscale (N := Rnum) r (f last)) = f (vsub (N := Rnum) (vscale (N := Rnum) (1 + r)%R xbar) (vscale (N := Rnum) r last))
              /\ wide (vsub (N := Rnum) (vscale (N := Rnum) (1 + r)%R xbar) (vscale (N := Rnum) r last))).
    { intros r. rewrite !ahead_mix; [|congruence|rewrite !A1 by assumption; reflexivity]. split; [symmetry; now apply A2|now apply mix_len]. }
    assert (IN : vadd (N := Rnum) (vscale (N := Rnum) (1 - psi)%R (f xbar)) (vscale (N := Rnum) psi (f last)) = f (vadd (N := Rnum) (vscale (N := Rnum) (1 - psi)%R xbar) (vscale (N := Rnum) psi last))
              /\ wide (vadd (N := Rnum) (vscale (N := Rnum) (1 - psi)%R xbar) (vscale (N := Rnum) psi last))).
    { rewrite !inside_mix; [|congruence|rewrite !A1 by assumption; reflexivity]. split; [symmetry; now apply A2|now apply mix_len]. }
    destruct (AH rho) as [E1 W1]. destruct (AH (rho * chi)%R) as [E2 W2]. destruct (AH (psi * rho)%R) as [E3 W3]. destruct IN as [E4 W4].
    cbn [nadd nmul nsub Rnum]. change (@num Rnum) with R in *. rewrite E1, E2, E3, E4.
    eapply alike_bind; [now apply alike_call|]. intros [fxr calls] _ <-. apply alike_seq. intros f0. destruct (nltb fxr f0).
    - apply alike_seq. intros [|]; [apply alike_ret; split; [reflexivity|now repeat split]|]. eapply alike_bind; [now apply alike_call|]. intros [fxe c2] _ <-. destruct (nltb fxe fxr); now apply alike_put.
    - apply alike_seq. intros f2. destruct (nltb fxr f2); [now apply alike_put|]. apply alike_seq. intros fl. destruct (nltb fxr fl).
      + apply alike_seq. intros [|]; [apply alike_ret; split; [reflexivity|now repeat split]|]. eapply alike_bind; [now apply alike_call|]. intros [fxc c2] _ <-. destruct (nleb fxc fxr); [now apply alike_put|now apply alike_shrink].
      + apply alike_seq. intros [|]; [apply alike_ret; split; [reflexivity|now repeat split]|]. eapply alike_bind; [now apply alike_call|]. intros [fxc c2] _ <-. destruct (nltb fxc fl); [now apply alike_put|now apply alike_shrink].
  Qed.
  Lemma alike_sums k x it acc calls : wide x -> alike eq (sum_calls func1 k x it acc calls) (sum_calls func2 k (f x) it acc calls).
  Proof.
    intros L. revert acc calls. induction k as [|k IH]; intros acc calls; cbn [sum_calls]; [now apply alike_ret|].
    eapply alike_bind; [now apply alike_call|]. intros [y c] _ <-. apply IH.
  Qed.
  Lemma alike_drift L : shaped L -> alike to (nm_drift G W func1 dmin davg L) (nm_drift G W func2 dmin davg (moved L)).
  Proof.
    intros S. pose proof S as (S1 & S2 & S3). unfold nm_drift. cbn [moved n_sim n_fsim n_calls n_it n_drift].
    destruct (negb _); [apply alike_ret; split; [reflexivity|exact S]|]. apply alike_seq. intros [|]; [apply alike_ret; split; [reflexivity|exact S]|].
    apply alike_seq. intros t. destruct (negb _); [apply alike_ret; split; [reflexivity|exact S]|]. apply alike_seq. intros prev.
    eapply alike_bind; [apply (alike_map (fun x : list R => wide x)); [apply py_nth_map|intros a; exact (py_nth_in (fun x : list R => length x = n) _ _ a S2)]|]. intros x0 _ [-> L0].
    eapply alike_bind; [now apply alike_sums|]. intros [total calls] _ <-. destruct (davg =? 0)%Z; [apply alike_raise|]. cbv zeta. apply alike_seq. intros t2.
    eapply alike_bind; [now apply alike_call|]. intros [y c] _ <-. apply alike_ret. split; [reflexivity|]. split; [exact S1|]. split; [exact S2|].
    cbn [n_fsim]. destruct (n_fsim L); [exact S3|]. cbn [length] in *. now rewrite map_length.
  Qed.
  Lemma alike_small L : shaped L -> check_simplex G (map f (n_sim L)) = check_simplex G (n_sim L).
  Proof.
    intros (S1 & S2 & S3). rewrite Forall_forall in S2. destruct n as [|m]; [lia|].
    assert (M1 : simplex_of (N := Rnum) (S m) (n_sim L) (n_fsim L)) by now constructor.
    assert (M2 : simplex_of (N := Rnum) (S m) (map f (n_sim L)) (n_fsim L)).
    { constructor; [now rewrite map_length|intros x I; apply in_map_iff in I as (y & <- & I); apply (proj1 AF); auto|assumption]. }
    destruct (check_simplex_ok G _ _ _ M1) as (b1 & r1 & E1). destruct (check_simplex_ok G _ _ _ M2) as (b2 & r2 & E2).
    destruct (check_simplex_small Rnum_order G _ _ _ E1) as [I1 ->]. destruct (check_simplex_small Rnum_order G _ _ _ E2) as [I2 ->]. rewrite E1, E2. do 2 f_equal.
    pose proof (HX (n_sim L) S1 S2) as H. destruct b1, b2; try reflexivity; intuition discriminate.
  Qed.
  Lemma alike_iter L : shaped L -> alike go (nm_iter G W func1 rho chi psi sigma n dmin davg L) (nm_iter G W func2 rho chi psi sigma n dmin davg (moved L)).
  Proof.
    intros S. unfold nm_iter. eapply alike_bind; [now apply alike_move|]. intros [a|a] [b|b] H; try contradiction; [now apply alike_ret|].
    destruct H as [-> H]. eapply alike_bind; [now apply alike_sort|]. intros c _ [-> C]. eapply alike_bind; [now apply alike_drift|]. intros d _ [-> D].
    cbv zeta. cbn [moved n_sim n_fsim n_calls n_it n_drift]. apply alike_seq. intros r. apply alike_seq. intros _.
    unfold check_stopping_nm. rewrite (alike_small d D). apply alike_seq. intros _. apply alike_ret. split; [reflexivity|exact D].
  Qed.
  Lemma alike_loop fuel L : shaped L -> alike to (nm_loop G W func1 rho chi psi sigma n dmin davg fuel L) (nm_loop G W func2 rho chi psi sigma n dmin davg fuel (moved L)).
  Proof.
    revert L. induction fuel as [|k IH]; intros L S; cbn [nm_loop]; [apply alike_raise|]. apply alike_seq. intros [|]; [apply alike_ret; now split|].
    eapply alike_bind; [now apply alike_iter|]. intros [a|a] [b|b] H; try contradiction; [now apply alike_ret|]. destruct H as [-> H]. now apply IH.
  Qed.
End Coordinates.

(** the whole search *)
Lemma alike_nm G W n f func1 func2 adaptive x0 sim dmin davg : sorts (N := Rnum) W -> (0 < n)%nat -> affine n f ->
  (forall x it v s, length x = n -> func2 (f x) it v s = func1 x it v s) ->
  (forall sim : list (list R), length sim = S n -> (forall x, In x sim -> length x = n) -> (small_simplex (N := Rnum) (g_xatol G) (map f sim) <-> small_simplex (N := Rnum) (g_xatol G) sim)) ->
  length x0 = n -> length sim = S n -> (forall x, In x sim -> length x = n) ->
  alike (fun a b => b = mk_result (r_fval a) (f (r_x a)) (r_nit a) (r_calls a) (r_reason a) /\ length (r_x a) = n)
    (run_nm G W func1 adaptive x0 (Some sim) dmin davg) (run_nm G W func2 adaptive (f x0) (Some (map f sim)) dmin davg).
Proof.
  intros SO P AF HF HX L0 LS LR. assert (FS : Forall (fun x : list R => length x = n) sim) by now rewrite Forall_forall.
  assert (L0' : length (f x0) = n) by now apply (proj1 AF). unfold run_nm. change (@num Rnum) with R in *. rewrite L0, L0'. cbv zeta.
  apply alike_seq. intros _. apply alike_seq. intros _. apply alike_seq. intros _. apply alike_seq. intros t. apply alike_seq. intros [[[rho chi] psi] sigma].
  eapply alike_bind; [exact (alike_rows n f func1 func2 HF sim 0 0 FS)|]. intros [fs calls] _ [-> LF].
  eapply alike_bind; [apply (alike_sort W SO n f (mk_nm sim fs calls 1 t)); cbn in LF; split; [exact LS|split; [exact FS|cbn; congruence]]|]. intros a _ [-> A].
  eapply alike_bind; [exact (alike_loop G W SO n P f AF func1 func2 HF HX rho chi psi sigma dmin davg (w_fuel W) a A)|]. intros L _ [-> B].
  cbn [moved n_sim n_fsim n_calls n_it n_drift]. destruct B as (B1 & B2 & B3).
  eapply alike_bind; [apply (alike_map (fun x : list R => length x = n)); [apply py_nth_map|intros x; exact (py_nth_in (fun x : list R => length x = n) _ _ x B2)]|]. intros x _ [-> LX].
  apply alike_seq. intros v. apply alike_seq. intros s. apply alike_ret. split; [reflexivity|exact LX].
Qed.
