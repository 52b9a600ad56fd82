(** * Nelder-Mead stays in every flat that contains its start simplex, and fills it. *)
From Coq Require Import String ZArith List Bool Permutation Reals Lia Lra.
From Verif Require Import Num NumFacts Py PyFacts ModelPulse ModelControls ModelLinalg ModelCma ModelState ModelSearch SpecRun SpecSearch SpecStop SpecCoords SpecSimplex SpecFlat
  ProofNM ProofStop ProofOrder ProofSimRun ProofCmaAdapt ProofSimplex ProofCoords.
Import ListNotations.
Open Scope list_scope.
Open Scope run_scope.

(** ** Vectors *)
Lemma mix_nth t : forall x y i, length x = length y -> coord (mix t x y) i = ((1 - t) * coord x i + t * coord y i)%R.
Proof.
  unfold coord, mix. induction x as [|a x IH]; intros [|b y] i L; try discriminate; cbn [map2].
  - destruct i; cbn; lra.
  - destruct i as [|i]; [reflexivity|]. cbn [nth]. apply IH. now injection L.
Qed.
Lemma rsum_two k f g a b : (rsum k (fun i => a * f i + b * g i) = a * rsum k f + b * rsum k g)%R.
Proof. induction k as [|k IH]; cbn [rsum]; [ring|]. rewrite IH. ring. Qed.
Lemma rsum_same k f g : (forall i, f i = g i) -> rsum k f = rsum k g.
Proof. intros H. induction k as [|k IH]; cbn [rsum]; [reflexivity|]. now rewrite IH, H. Qed.
Lemma inner_mix n a t x y : length x = length y -> inner n a (mix t x y) = ((1 - t) * inner n a x + t * inner n a y)%R.
Proof.
  intros L. unfold inner. rewrite <- rsum_two. apply rsum_same. intros i. rewrite mix_nth by exact L. ring.
Qed.
Lemma flat_equation n a b : flat n (fun x => length x = n /\ inner n a x = b).
Proof.
  split; [now intros x [H _]|]. intros t x y [L1 E1] [L2 E2]. split; [now apply mix_len|]. rewrite inner_mix by congruence. rewrite E1, E2. ring.
Qed.

(** the mean of points of a flat is in the flat *)
Lemma mean_flat n (P : list R -> Prop) r rows : flat n P -> P r -> (forall x, In x rows -> P x) ->
  P (vdiv (N := Rnum) (fold_left (vadd (N := Rnum)) rows r) (INR (S (length rows)))).
Proof.
  intros [FL FM] R. induction rows as [|y rows IH] using rev_ind; intros H; [cbn [fold_left length]; now rewrite one_mean|].
  rewrite fold_left_app, app_length. cbn [fold_left length]. rewrite Nat.add_1_r.
  assert (H1 : forall x, In x rows -> P x) by (intros; apply H, in_or_app; now left). assert (PY : P y) by (apply H, in_or_app; right; now left).
  assert (LT : length (fold_left (vadd (N := Rnum)) rows r) = n) by (apply total_len; auto).
  rewrite (mean_step _ _ (S (length rows))) by (first [exact (eq_trans LT (eq_sym (FL _ PY)))|lia]). apply FM; [|exact PY]. exact (IH H1).
Qed.
Lemma mid_flat n (P : list R -> Prop) (sim : list (list R)) : flat n P -> (0 < n)%nat -> length sim = S n -> Forall P (removelast sim) -> P (mid n sim).
Proof.
  intros FP pos S1 F. unfold mid. rewrite <- INR_IZR_INZ. assert (LR : length (removelast sim) = n).
  { destruct sim as [|a l]; [discriminate|]. rewrite (app_removelast_last a (l := a :: l)) in S1 by discriminate. rewrite app_length in S1. cbn [length] in S1. lia. }
  rewrite Forall_forall in F. destruct (removelast sim) as [|r rows]; [cbn in LR; lia|]. cbn [length] in LR. rewrite <- LR. apply (mean_flat n P r rows FP); auto with datatypes.
Qed.
Lemma set_split {A} (l : list A) j x y : nth_error l j = Some y -> exists a b, l = a ++ y :: b /\ set_nth l j x = a ++ x :: b /\ length a = j.
Proof.
  intros H. apply nth_error_split in H as (a & b & -> & <-). exists a, b. repeat split. clear. induction a as [|c a IH]; cbn; [reflexivity|now rewrite IH].
Qed.

Section Flat.
  Context (G : settings (N := Rnum)) (W : world (N := Rnum)) (SO : sorts W).
  Context (n : nat) (pos : (0 < n)%nat) (P : list R -> Prop) (FP : flat n P).
  Context (func1 func2 : list R -> nat -> option R -> M (N := Rnum) R).
  Context (HF : forall x it v s, P x -> func2 x it v s = func1 x it v s).
  Context (rho chi psi sigma dmin : R) (davg : Z).
  (** an equation of all vertices is one of those in [E]; used if the coefficients are not zero *)
  Context (E : list R -> R -> Prop) (nonzero : bool).
  Context (HZ : nonzero = true -> (rho <> 0 /\ chi <> 0 /\ psi <> 0 /\ sigma <> 0)%R).

  Definition only (sim : list (list R)) : Prop := nonzero = true -> forall a b, equation n a b sim -> E a b.
  Definition inside (L : nm (N := Rnum)) : Prop := length (n_sim L) = S n /\ Forall P (n_sim L) /\ length (n_fsim L) = S n /\ only (n_sim L).
  Definition at_ (a b : nm (N := Rnum)) : Prop := b = a /\ inside a.
  Definition out (a b : outcome (N := Rnum)) : Prop :=
    match a, b with Broke a, Broke b => at_ a b | Goes a, Goes b => at_ a b | _, _ => False end.

  Lemma flat_call x it v calls : P x -> alike eq (call func1 x it v calls) (call func2 x it v calls).
  Proof.
    intros L. unfold call. eapply alike_bind; [|intros a b ->; now apply alike_ret]. intros s. rewrite HF by exact L. destruct (func1 x it v s) as [[a|e] s']; auto.
  Qed.
  Lemma flat_rows rows it calls : Forall P rows ->
    alike (fun a b => b = a /\ length (fst a) = length rows) (eval_rows func1 rows it calls) (eval_rows func2 rows it calls).
  Proof.
    intros F. revert calls. induction F as [|x rows L F IH]; intros calls; cbn [eval_rows]; [now apply alike_ret|].
    eapply alike_bind; [now apply flat_call|]. intros [y c] _ <-. eapply alike_bind; [apply IH|]. intros [ys c2] _ [-> Q]. apply alike_ret. split; [reflexivity|]. cbn in *. congruence.
  Qed.
  Lemma only_perm l l' : Permutation l l' -> only l -> only l'.
  Proof. intros Q H Z a b K. apply (H Z). intros x I. apply K. now apply (Permutation_in x Q). Qed.
  Lemma flat_sort L : inside L -> alike at_ (sort_simplex W L) (sort_simplex W L).
  Proof.
    intros (S1 & S2 & S3 & S4). unfold sort_simplex. destruct (SO (n_fsim L)) as [Q _].
    assert (LI : length (w_argsort W (n_fsim L)) = S n) by now rewrite (Permutation_length Q), seq_length.
    eapply alike_bind; [apply (alike_known (fun l : list (list R) => length l = S n /\ Forall P l /\ only l))|].
    { intros a H. split; [|split; [now apply (gather_in _ _ _ _ S2 H)|]].
      - rewrite <- LI, <- (map_length Z.of_nat). exact (rmap_length _ _ _ H).
      - apply (gather_map []) in H. subst a. refine (only_perm _ _ _ S4). symmetry.
        rewrite S3, <- S1 in Q. etransitivity; [apply Permutation_map; exact Q|]. rewrite map_nth_seq. reflexivity. }
    intros sim _ [-> (K1 & K2 & K4)]. eapply alike_bind; [apply (alike_known (fun l : list R => length l = S n))|].
    { intros a H. rewrite <- LI, <- (map_length Z.of_nat). exact (rmap_length _ _ _ H). }
    intros fs _ [-> K3]. apply alike_ret. split; [reflexivity|]. now repeat split.
  Qed.
  (** a new last vertex on the line through the mean of the others and the old one *)
  Lemma only_last sim last t : length sim = S n -> Forall P sim -> sim = removelast sim ++ [last] -> (nonzero = true -> t <> 0%R) -> only sim ->
    only (removelast sim ++ [mix t (mid n sim) last]).
  Proof.
    intros S1 S2 EL T H Z a b K. apply (H Z). intros x I. rewrite EL in I. apply in_app_or in I as [I|[<-|[]]]; [apply K, in_or_app; now left|].
    assert (LS : Forall (fun x => length x = n) sim) by (revert S2; apply Forall_impl; exact (proj1 FP)).
    assert (LL : length last = n) by (rewrite Forall_forall in LS; apply LS; rewrite EL; apply in_or_app; right; now left).
    assert (M : length (mid n sim) = n /\ inner n a (mid n sim) = b).
    { apply (mid_flat n _ sim (flat_equation n a b) pos S1). rewrite Forall_forall. intros y J. split; [|apply K, in_or_app; now left].
      rewrite Forall_forall in LS. apply LS. rewrite EL. apply in_or_app. now left. }
    destruct M as [M1 M2]. assert (Q : inner n a (mix t (mid n sim) last) = b) by (apply K, in_or_app; right; now left).
    rewrite inner_mix in Q by congruence. rewrite M2 in Q. specialize (T Z). apply (Rmult_eq_reg_l t); [lra|exact T].
  Qed.
  Lemma flat_put x v calls L : inside L -> P x -> only (removelast (n_sim L) ++ [x]) -> alike out (put_last x v calls L) (put_last x v calls L).
  Proof.
    intros (S1 & S2 & S3 & S4) LX OX. unfold put_last.
    eapply alike_bind; [apply (alike_known (fun l : list (list R) => length l = S n /\ Forall P l /\ only l))|].
    { intros a H. split; [now rewrite (py_set_length _ _ _ _ H)|]. split; [exact (py_set_in _ _ _ _ _ S2 LX H)|]. apply py_set_last in H as [_ ->]. exact OX. }
    intros sim _ [-> (K1 & K2 & K4)]. eapply alike_bind; [apply (alike_known (fun l : list R => length l = S n))|].
    { intros a H. now rewrite (py_set_length _ _ _ _ H). }
    intros fs _ [-> K3]. apply alike_ret. split; [reflexivity|]. now repeat split.
  Qed.
  Lemma only_row (sim : list (list R)) j s0 sj : Forall P sim -> (1 <= j)%nat -> nth_error sim 0 = Some s0 -> nth_error sim j = Some sj -> only sim -> only (set_nth sim j (mix sigma s0 sj)).
  Proof.
    intros S2 J N0 Nj H Z a b K. apply (H Z). destruct (set_split sim j (mix sigma s0 sj) sj Nj) as (l & r & EL & ES & LL). rewrite ES in K.
    rewrite Forall_forall in S2. destruct FP as [FL _].
    assert (L0 : length s0 = n) by (apply FL, S2, (nth_error_In _ 0 N0)). assert (Lj : length sj = n) by (apply FL, S2, (nth_error_In _ j Nj)).
    assert (I0 : In s0 l). { destruct l as [|c l]; [cbn in LL; lia|]. rewrite EL in N0. cbn in N0. injection N0 as ->. now left. }
    assert (Q : inner n a (mix sigma s0 sj) = b) by (apply K, in_or_app; right; now left). rewrite inner_mix in Q by congruence.
    rewrite (K s0) in Q by (apply in_or_app; now left). destruct (HZ Z) as (_ & _ & _ & T).
    intros x I. rewrite EL in I. apply in_app_or in I as [I|[<-|I]]; [apply K, in_or_app; now left| |apply K, in_or_app; right; now right].
    apply (Rmult_eq_reg_l sigma); [lra|exact T].
  Qed.
  Lemma flat_shrink_rows js L : Forall (fun j => (1 <= j)%nat) js -> inside L -> alike at_ (shrink_rows G W func1 sigma js L) (shrink_rows G W func2 sigma js L).
  Proof.
    intros HJ. revert L. induction HJ as [|j js J1 HJ IH]; intros L (S1 & S2 & S3 & S4); cbn [shrink_rows]; [apply alike_ret; split; [reflexivity|now repeat split]|].
    eapply alike_bind; [apply (alike_known (fun x : list R => P x /\ nth_error (n_sim L) 0 = Some x))|].
    { intros a H. split; [exact (py_nth_in P _ _ a S2 H)|]. exact (py_nth_nat _ 0 a H). }
    intros s0 _ [-> [P0 N0]].
    eapply alike_bind; [apply (alike_known (fun x : list R => P x /\ nth_error (n_sim L) j = Some x))|].
    { intros a H. split; [exact (py_nth_in P _ _ a S2 H)|]. exact (py_nth_nat _ j a H). }
    intros sj _ [-> [Pj Nj]].
    assert (LL : length s0 = length sj) by exact (eq_trans (proj1 FP _ P0) (eq_sym (proj1 FP _ Pj))).
    change (vec (N := Rnum)) with (list R) in *. change (@num Rnum) with R in *. rewrite (towards_mix sigma s0 sj LL).
    assert (PX : P (mix sigma s0 sj)) by now apply (proj2 FP). pose proof (only_row _ _ _ _ S2 J1 N0 Nj S4) as OX. cbv zeta.
    eapply alike_bind; [apply (alike_known (fun l : list (list R) => length l = S n /\ Forall P l /\ only l))|].
    { intros a H. split; [now rewrite (py_set_length _ _ _ _ H)|]. split; [exact (py_set_in _ _ _ _ _ S2 PX H)|]. apply py_set_nat in H as [-> _]. exact OX. }
    intros sim _ [-> (K1 & K2 & K4)]. apply alike_seq. intros [|]; [apply alike_ret; split; [reflexivity|now repeat split]|].
    eapply alike_bind; [now apply flat_call|]. intros [y c] _ <-.
    eapply alike_bind; [apply (alike_known (fun l : list R => length l = S n))|]. { intros a H. now rewrite (py_set_length _ _ _ _ H). }
    intros fs _ [-> K3]. apply (IH (mk_nm sim fs c (n_it L) (n_drift L))). now repeat split.
  Qed.
  Lemma flat_shrink calls L : inside L -> alike out (shrink G W func1 sigma n calls L) (shrink G W func2 sigma n calls L).
  Proof.
    intros S. unfold shrink. eapply alike_bind; [apply (flat_shrink_rows (seq 1 n) (mk_nm (n_sim L) (n_fsim L) calls (n_it L) (n_drift L))); [|exact S]|].
    - rewrite Forall_forall. intros j J. apply in_seq in J. lia.
    - intros a b H. now apply alike_ret.
  Qed.
  Lemma flat_move L : inside L -> alike out (nm_move G W func1 rho chi psi sigma n L) (nm_move G W func2 rho chi psi sigma n L).
  Proof.
    intros S. pose proof S as (S1 & S2 & S3 & S4). unfold nm_move. cbn [of_Z Rnum]. cbv zeta.
    repeat match goal with |- context [vdiv (N := ?K) ?a ?b] => change (vdiv (N := K) a b) with (mid n (n_sim L)) end.
    assert (PB : P (mid n (n_sim L))).
    { apply (mid_flat n P _ FP pos S1). rewrite Forall_forall in S2 |- *. intros x I. apply S2. destruct (n_sim L) as [|a l]; [contradiction|]. rewrite (app_removelast_last a (l := a :: l)) by discriminate. apply in_or_app. now left. }
    assert (OL := fun last t => only_last (n_sim L) last t S1 S2). revert PB OL. generalize (mid n (n_sim L)). intros xbar PB OL.
    change (vec (N := Rnum)) with (list R) in *. change (@num Rnum) with R in *.
    eapply alike_bind; [apply (alike_known (fun x : list R => P x /\ n_sim L = removelast (n_sim L) ++ [x]))|].
    { intros a H. split; [exact (py_nth_in P _ _ a S2 H)|]. now apply py_nth_last. }
    intros last _ [-> [PL EL]]. assert (LL : length xbar = length last) by exact (eq_trans (proj1 FP _ PB) (eq_sym (proj1 FP _ PL))).
    specialize (OL last).
    cbn [nadd nmul nsub Rnum]. change (@num Rnum) with R in *.
    rewrite (ahead_mix rho _ _ LL), (ahead_mix (rho * chi) _ _ LL), (ahead_mix (psi * rho) _ _ LL), (inside_mix psi _ _ LL).
    assert (X : forall t, P (mix t xbar last)) by (intros t; now apply (proj2 FP)).
    assert (O1 : only (removelast (n_sim L) ++ [mix (- rho) xbar last])). { apply OL; auto. intros Z. destruct (HZ Z) as (A & B & C & D). lra. }
    assert (O2 : only (removelast (n_sim L) ++ [mix (- (rho * chi)) xbar last])). { apply OL; auto. intros Z. destruct (HZ Z) as (A & B & C & D). apply Ropp_neq_0_compat. now apply Rmult_integral_contrapositive. }
    assert (O3 : only (removelast (n_sim L) ++ [mix (- (psi * rho)) xbar last])). { apply OL; auto. intros Z. destruct (HZ Z) as (A & B & C & D). apply Ropp_neq_0_compat. now apply Rmult_integral_contrapositive. }
    assert (O4 : only (removelast (n_sim L) ++ [mix psi xbar last])). { apply OL; auto. intros Z. apply (HZ Z). }
    eapply alike_bind; [now apply flat_call|]. intros [fxr calls] _ <-. apply alike_seq. intros f0. destruct (nltb fxr f0).
    - apply alike_seq. intros [|]; [apply alike_ret; split; [reflexivity|now repeat split]|]. eapply alike_bind; [now apply flat_call|]. intros [fxe c2] _ <-. destruct (nltb fxe fxr); now apply flat_put.
    - apply alike_seq. intros f2. destruct (nltb fxr f2); [now apply flat_put|]. apply alike_seq. intros fl. destruct (nltb fxr fl).
      + apply alike_seq. intros [|]; [apply alike_ret; split; [reflexivity|now repeat split]|]. eapply alike_bind; [now apply flat_call|]. intros [fxc c2] _ <-. destruct (nleb fxc fxr); [now apply flat_put|now apply flat_shrink].
      + apply alike_seq. intros [|]; [apply alike_ret; split; [reflexivity|now repeat split]|]. eapply alike_bind; [now apply flat_call|]. intros [fxc c2] _ <-. destruct (nltb fxc fl); [now apply flat_put|now apply flat_shrink].
  Qed.
  Lemma flat_sums k x it acc calls : P x -> alike eq (sum_calls func1 k x it acc calls) (sum_calls func2 k x it acc calls).
  Proof.
    intros L. revert acc calls. induction k as [|k IH]; intros acc calls; cbn [sum_calls]; [now apply alike_ret|].
    eapply alike_bind; [now apply flat_call|]. intros [y c] _ <-. apply IH.
  Qed.
  Lemma flat_drift L : inside L -> alike at_ (nm_drift G W func1 dmin davg L) (nm_drift G W func2 dmin davg L).
  Proof.
    intros S. pose proof S as (S1 & S2 & S3 & S4). unfold nm_drift.
    destruct (negb _); [apply alike_ret; split; [reflexivity|exact S]|]. apply alike_seq. intros [|]; [apply alike_ret; split; [reflexivity|exact S]|].
    apply alike_seq. intros t. destruct (negb _); [apply alike_ret; split; [reflexivity|exact S]|]. apply alike_seq. intros prev.
    eapply alike_bind; [apply (alike_known P); intros a; exact (py_nth_in P _ _ a S2)|]. intros x0 _ [-> L0].
    eapply alike_bind; [now apply flat_sums|]. intros [total calls] _ <-. destruct (davg =? 0)%Z; [apply alike_raise|]. cbv zeta. apply alike_seq. intros t2.
    eapply alike_bind; [now apply flat_call|]. intros [y c] _ <-. apply alike_ret. split; [reflexivity|]. split; [exact S1|]. split; [exact S2|]. split; [|exact S4].
    cbn [n_fsim]. destruct (n_fsim L); [exact S3|]. cbn [length] in *. now rewrite map_length.
  Qed.
  Lemma flat_iter L : inside L -> alike out (nm_iter G W func1 rho chi psi sigma n dmin davg L) (nm_iter G W func2 rho chi psi sigma n dmin davg L).
  Proof.
    intros S. unfold nm_iter. eapply alike_bind; [now apply flat_move|]. intros [a|a] [b|b] H; try contradiction; [now apply alike_ret|].
    destruct H as [-> H]. eapply alike_bind; [now apply flat_sort|]. intros c _ [-> C]. eapply alike_bind; [now apply flat_drift|]. intros d _ [-> D].
    cbv zeta. apply alike_seq. intros r. apply alike_seq. intros _. apply alike_seq. intros _. apply alike_ret. split; [reflexivity|exact D].
  Qed.
  Lemma flat_loop fuel L : inside L -> alike at_ (nm_loop G W func1 rho chi psi sigma n dmin davg fuel L) (nm_loop G W func2 rho chi psi sigma n dmin davg fuel L).
  Proof.
    revert L. induction fuel as [|k IH]; intros L S; cbn [nm_loop]; [apply alike_raise|]. apply alike_seq. intros [|]; [apply alike_ret; now split|].
    eapply alike_bind; [now apply flat_iter|]. intros [a|a] [b|b] H; try contradiction; [now apply alike_ret|]. destruct H as [-> H]. now apply IH.
  Qed.
End Flat.

(** the whole search *)
Lemma flat_nm G W n P func1 func2 adaptive x0 sim dmin davg : sorts (N := Rnum) W -> (0 < n)%nat -> flat n P ->
  (forall x it v s, P x -> func2 x it v s = func1 x it v s) -> length x0 = n -> length sim = S n -> Forall P sim ->
  alike (fun a b => b = a /\ P (r_x a)) (run_nm G W func1 adaptive x0 (Some sim) dmin davg) (run_nm G W func2 adaptive x0 (Some sim) dmin davg).
Proof.
  intros SO pos FP HF L0 LS FS. unfold run_nm. change (@num Rnum) with R in *. rewrite L0. cbv zeta.
  assert (HN : forall a b c d : R, false = true -> (a <> 0 /\ b <> 0 /\ c <> 0 /\ d <> 0)%R) by discriminate.
  apply alike_seq. intros _. apply alike_seq. intros _. apply alike_seq. intros _. apply alike_seq. intros t. apply alike_seq. intros [[[rho chi] psi] sigma].
  eapply alike_bind; [exact (flat_rows P func1 func2 HF sim 0 0 FS)|]. intros [fs calls] _ [-> LF].
  eapply alike_bind; [apply (flat_sort W SO n P (fun _ _ => True) false (mk_nm sim fs calls 1 t)); cbn in LF; split; [exact LS|split; [exact FS|split; [cbn; congruence|discriminate]]]|]. intros a _ [-> A].
  eapply alike_bind; [exact (flat_loop G W SO n pos P FP func1 func2 HF rho chi psi sigma dmin davg (fun _ _ => True) false (HN _ _ _ _) (w_fuel W) a A)|]. intros L _ [-> (B1 & B2 & B3 & _)].
  eapply alike_bind; [apply (alike_known P); intros x; exact (py_nth_in P _ _ x B2)|]. intros x _ [-> LX].
  apply alike_seq. intros v. apply alike_seq. intros s. apply alike_ret. split; [reflexivity|exact LX].
Qed.

(** loop heads: every equation of all vertices is one of the start simplex and conversely *)
Lemma alike_ok {N : Num} {A} (Q : A -> A -> Prop) (m : M A) s a s' : alike Q m m -> m s = (Ok a, s') -> Q a a.
Proof. intros H E. specialize (H s). rewrite E in H. apply H. Qed.
Lemma head_inside G W n func adaptive x0 sim dmin davg s0 L s : sorts (N := Rnum) W -> (0 < n)%nat -> length x0 = n -> length sim = S n -> (forall x, In x sim -> length x = n) ->
  (forall rho chi psi sigma, nm_parameters (N := Rnum) adaptive n = Ok (rho, chi, psi, sigma) -> (rho <> 0 /\ chi <> 0 /\ psi <> 0 /\ sigma <> 0)%R) ->
  boundary G W func adaptive x0 (Some sim) dmin davg s0 L s ->
  inside n (fun x => length x = n /\ forall a b, equation n a b sim -> inner n a x = b) (fun a b => equation n a b sim) true L.
Proof.
  intros SO pos L0 LS LX HZ. set (P := fun x => length x = n /\ forall a b, equation n a b sim -> inner n a x = b).
  assert (FP : flat n P).
  { split; [now intros x [H _]|]. intros t x y [A1 A2] [B1 B2]. split; [now apply mix_len|]. intros a b K. rewrite inner_mix by congruence. rewrite (A2 a b K), (B2 a b K). ring. }
  assert (FS : Forall P sim). { rewrite Forall_forall. intros x I. split; [now apply LX|]. intros a b K. now apply K. }
  assert (HF : forall (x : list R) (it : nat) (v : option R) (s : st (N := Rnum)), P x -> func x it v s = func x it v s) by reflexivity.
  induction 1 as [t s1 fsim calls s2 L s3 H1 H2 H3|L s s1 rho chi psi sigma L' s2 B IH H1 H2 H3].
  - pose proof (alike_ok _ _ _ _ _ (flat_rows P func func HF sim 0 0 FS) H2) as [_ LF]. cbn in LF.
    refine (proj2 (alike_ok _ _ _ _ _ (flat_sort W SO n P (fun a b => equation n a b sim) true (mk_nm sim fsim calls 1 t) _) H3)).
    split; [exact LS|]. split; [exact FS|]. split; [exact (eq_trans LF LS)|]. intros _ a b K. exact K.
  - rewrite L0 in *. pose proof (HZ _ _ _ _ H2) as Z.
    exact (proj2 (alike_ok _ _ _ _ _ (flat_iter G W SO n pos P FP func func HF rho chi psi sigma dmin davg (fun a b => equation n a b sim) true (fun _ => Z) L IH) H3)).
Qed.
