(** Gram-Schmidt and the start simplex. *)
From Coq Require Import ZArith List Bool Lia Reals Lra Psatz.
From Flocq Require Import Core.Raux.
From Verif Require Import Num NumFacts Py PyFacts ModelLinalg ModelCma SpecSimplex ProofCmaAdapt.
Import ListNotations.
Open Scope R_scope.

Lemma rsum_first k f : rsum (S k) f = f 0%nat + rsum k (fun i => f (S i)).
Proof. induction k as [|k IH]; [cbn; lra|]. cbn [rsum] in *. rewrite IH. lra. Qed.
Lemma rsum_delta k i f : (i < k)%nat -> rsum k (fun j => if Nat.eqb j i then f j else 0) = f i.
Proof.
  induction k as [|k IH]; intros L; [lia|]. cbn. destruct (Nat.eqb_spec k i) as [->|D].
  - rewrite (rsum_null i); [lra|]. intros j J. replace (Nat.eqb j i) with false by (symmetry; apply Nat.eqb_neq; lia). reflexivity.
  - rewrite IH by lia. lra.
Qed.
Lemma rsum_delta_out k i f : (k <= i)%nat -> rsum k (fun j => if Nat.eqb j i then f j else 0) = 0.
Proof. intros L. apply rsum_null. intros j J. replace (Nat.eqb j i) with false by (symmetry; apply Nat.eqb_neq; lia). reflexivity. Qed.
Lemma rsum_zero_squares k f : (forall i, (i < k)%nat -> 0 <= f i) -> rsum k f = 0 -> forall i, (i < k)%nat -> f i = 0.
Proof. intros H E i L. pose proof (rsum_term k f i H L). specialize (H i L). lra. Qed.

(** ** a square matrix with orthonormal columns has orthonormal rows *)
Section Square.
  Variables (n : nat) (Q : nat -> nat -> R).
  Hypothesis HQ : forall k l, (k < n)%nat -> (l < n)%nat -> rsum n (fun i => Q k i * Q l i) = if Nat.eqb k l then 1 else 0.
  Let S i j := rsum n (fun k => Q k i * Q k j).
  Let delta (i j : nat) : R := if Nat.eqb i j then 1 else 0.
  Lemma trace_S : rsum n (fun i => S i i) = INR n.
  Proof.
    unfold S. rewrite rsum_swap. rewrite (rsum_ext n _ (fun _ => 1)); [rewrite rsum_const; ring|].
    intros k K. rewrite HQ by assumption. now rewrite Nat.eqb_refl.
  Qed.
  Lemma square_S : rsum n (fun i => rsum n (fun j => S i j * S i j)) = INR n.
  Proof.
    transitivity (rsum n (fun k => rsum n (fun l => (rsum n (fun i => Q k i * Q l i)) * (rsum n (fun j => Q k j * Q l j))))).
    - transitivity (rsum n (fun i => rsum n (fun k => rsum n (fun l => Q k i * Q l i * rsum n (fun j => Q k j * Q l j))))).
      + apply rsum_ext. intros i _. unfold S.
        transitivity (rsum n (fun j => rsum n (fun k => rsum n (fun l => (Q k i * Q k j) * (Q l i * Q l j))))).
        { apply rsum_ext. intros j _. apply rsum_mult. }
        rewrite rsum_swap. apply rsum_ext. intros k _. rewrite rsum_swap. apply rsum_ext. intros l _.
        rewrite <- rsum_scal. apply rsum_ext. intros j _. ring.
      + rewrite rsum_swap. apply rsum_ext. intros k _. rewrite rsum_swap. apply rsum_ext. intros l _. apply rsum_scal_r.
    - transitivity (rsum n (fun _ => 1)); [|rewrite rsum_const; ring]. apply rsum_ext. intros k K.
      transitivity (rsum n (fun l => if Nat.eqb l k then 1 else 0)).
      + apply rsum_ext. intros l L. rewrite !HQ by assumption. rewrite (Nat.eqb_sym k l). destruct (Nat.eqb l k); ring.
      + now apply (rsum_delta n k (fun _ => 1)).
  Qed.
  Lemma rows_orthonormal i j : (i < n)%nat -> (j < n)%nat -> rsum n (fun k => Q k i * Q k j) = if Nat.eqb i j then 1 else 0.
  Proof.
    assert (rsum n (fun i => rsum n (fun j => (delta i j - S i j) * (delta i j - S i j))) = 0) as Z.
    { transitivity (rsum n (fun i => rsum n (fun j => (if Nat.eqb j i then 1 - 2 * S i j else 0) + S i j * S i j))).
      - apply rsum_ext. intros a _. apply rsum_ext. intros b _. unfold delta. rewrite (Nat.eqb_sym b a). destruct (Nat.eqb a b); ring.
      - transitivity (rsum n (fun i => (1 - 2 * S i i) + rsum n (fun j => S i j * S i j))).
        + apply rsum_ext. intros a A. rewrite rsum_plus. now rewrite (rsum_delta n a (fun j => 1 - 2 * S a j)).
        + rewrite rsum_plus, square_S.
          transitivity (rsum n (fun i => 1 + (-2) * S i i) + INR n); [f_equal; apply rsum_ext; intros; ring|].
          rewrite rsum_plus, rsum_scal, rsum_const, trace_S. ring. }
    intros I J.
    pose proof (rsum_zero_squares n _ (fun i _ => rsum_nonneg n _ (fun j _ => Rle_0_sqr (delta i j - S i j))) Z i I) as Z1.
    pose proof (rsum_zero_squares n _ (fun j _ => Rle_0_sqr (delta i j - S i j)) Z1 j J) as Z2. cbn beta in Z2.
    apply Rsqr_0_uniq in Z2. unfold delta, S in Z2. lra.
  Qed.
End Square.

(** ** the vectors of the model *)
Notation rv := (list R).
Lemma nth_vsub n (a b : vec (N := Rnum)) i : length a = n -> length b = n -> coord (vsub a b) i = coord a i - coord b i.
Proof.
  revert n b i. induction a as [|x a IH]; intros n b i A B; [destruct b; cbn in *; subst; [|discriminate]; destruct i; cbn; lra|].
  destruct b as [|y b]; [cbn in *; congruence|]. destruct i as [|i]; [reflexivity|]. destruct n as [|n]; [discriminate|]. cbn in A, B.
  exact (IH n b i (eq_add_S _ _ A) (eq_add_S _ _ B)).
Qed.
Lemma nth_vadd n (a b : vec (N := Rnum)) i : length a = n -> length b = n -> coord (vadd a b) i = coord a i + coord b i.
Proof.
  revert n b i. induction a as [|x a IH]; intros n b i A B; [destruct b; cbn in *; subst; [|discriminate]; destruct i; cbn; lra|].
  destruct b as [|y b]; [cbn in *; congruence|]. destruct i as [|i]; [reflexivity|]. destruct n as [|n]; [discriminate|]. cbn in A, B.
  exact (IH n b i (eq_add_S _ _ A) (eq_add_S _ _ B)).
Qed.
Lemma nth_vmul n (a b : vec (N := Rnum)) i : length a = n -> length b = n -> coord (map2 nmul a b) i = coord a i * coord b i.
Proof.
  revert n b i. induction a as [|x a IH]; intros n b i A B; [destruct b; cbn in *; subst; [|discriminate]; destruct i; cbn; lra|].
  destruct b as [|y b]; [cbn in *; congruence|]. destruct i as [|i]; [reflexivity|]. destruct n as [|n]; [discriminate|]. cbn in A, B.
  exact (IH n b i (eq_add_S _ _ A) (eq_add_S _ _ B)).
Qed.
Lemma nth_map0 (f : R -> R) (a : rv) i : f 0 = 0 -> coord (map f a) i = f (coord a i).
Proof. intros E. revert i. induction a as [|x a IH]; intros [|i]; cbn; auto. apply IH. Qed.
Lemma coord_seq (f : nat -> R) n i : (i < n)%nat -> coord (map f (seq 0 n)) i = f i.
Proof.
  intros I. unfold coord. rewrite (nth_indep _ 0 (f 0%nat)) by (rewrite map_length, seq_length; assumption).
  rewrite (map_nth f), seq_nth by assumption. reflexivity.
Qed.
Lemma len_map2 {A B C} (f : A -> B -> C) l m : length l = length m -> length (map2 f l m) = length l.
Proof. revert m. induction l as [|a l IH]; intros [|b m] H; try discriminate; [reflexivity|]. cbn. f_equal. apply IH. now injection H. Qed.

Lemma fold_sum (l : rv) a : fold_left (nadd (Num := Rnum)) l a = a + rsum (length l) (coord l).
Proof.
  revert a. induction l as [|x l IH]; intros a; [cbn; lra|]. cbn [fold_left length]. rewrite IH, rsum_first.
  change (a + x + rsum (length l) (coord l) = a + (x + rsum (length l) (coord l))). lra.
Qed.
Lemma dot_inner n (u v : vec (N := Rnum)) : length u = n -> length v = n -> dot u v = inner n u v.
Proof.
  intros U V. unfold dot, nsum. change (of_Z (Num := Rnum) 0) with 0. 
  transitivity (0 + rsum (length (map2 (nmul (Num := Rnum)) u v)) (coord (map2 (nmul (Num := Rnum)) u v))); [apply fold_sum|].
  rewrite len_map2 by congruence. unfold inner. rewrite U, Rplus_0_l. apply rsum_ext. intros i _. now apply (nth_vmul n).
Qed.
Lemma inner_comm n u v : inner n u v = inner n v u.
Proof. apply rsum_ext. intros; ring. Qed.
Lemma inner_self n u : 0 <= inner n u u.
Proof. apply rsum_nonneg. intros. apply Rle_0_sqr. Qed.
Lemma norm_sq n (u : vec (N := Rnum)) : length u = n -> norm u * norm u = inner n u u.
Proof.
  intros U. unfold norm. rewrite (dot_inner n) by assumption. change (nsqrt (Num := Rnum)) with sqrt. apply sqrt_sqrt, inner_self.
Qed.
Lemma norm_nonneg (u : vec (N := Rnum)) : 0 <= norm u.
Proof. unfold norm. change (nsqrt (Num := Rnum)) with sqrt. apply sqrt_pos. Qed.

Section GramSchmidt.
  Variable n : nat.

  Lemma gs_sub_spec (v u : rv) : length v = n -> length u = n -> inner n u u = 1 ->
    length (gs_sub (N := Rnum) v u) = n /\ forall i, coord (gs_sub (N := Rnum) v u) i = coord v i - inner n u v * coord u i.
  Proof.
    intros V U O. unfold gs_sub. rewrite (norm_sq n) by assumption. rewrite O, (dot_inner n) by assumption.
    set (f := fun y : @num Rnum => (inner n u v * y / 1)%num).
    assert (length (map f u) = n) as L by (now rewrite map_length).
    split; [exact (eq_trans (len_map2 _ _ _ (eq_trans V (eq_sym L))) V)|].
    intros i. rewrite (nth_vsub n) by assumption. rewrite (nth_map0 f); unfold f; [|change ((inner n u v * 0 / 1) = 0); lra].
    change (coord v i - inner n u v * coord u i / 1 = coord v i - inner n u v * coord u i). lra.
  Qed.

  Lemma span_ext vs x y : (forall i, (i < n)%nat -> coord x i = coord y i) -> in_span n vs x -> in_span n vs y.
  Proof. intros E [c C]. exists c. intros i I. rewrite <- E by assumption. now apply C. Qed.
  Lemma span_sub vs x y a z : in_span n vs x -> in_span n vs y -> (forall i, (i < n)%nat -> coord z i = coord x i + a * coord y i) -> in_span n vs z.
  Proof.
    intros [c C] [d D] E. exists (fun k => c k + a * d k). intros i I. rewrite E, C, D by assumption.
    rewrite <- rsum_scal, <- rsum_plus. apply rsum_ext. intros; ring.
  Qed.
  Lemma span_more vs w x : in_span n vs x -> in_span n (vs ++ [w]) x.
  Proof.
    intros [c C]. exists (fun k => if (k <? length vs)%nat then c k else 0). intros i I. rewrite C by assumption.
    rewrite app_length. cbn [length]. rewrite Nat.add_1_r. cbn [rsum]. rewrite Nat.ltb_irrefl, Rmult_0_l, Rplus_0_r.
    apply rsum_ext. intros k K. replace (k <? length vs)%nat with true by (symmetry; now apply Nat.ltb_lt). now rewrite app_nth1.
  Qed.
  Lemma span_last vs w x a : (exists y, in_span n vs y /\ forall i, (i < n)%nat -> coord x i = coord y i + a * coord w i) ->
    in_span n (vs ++ [w]) x.
  Proof.
    intros (y & [c C] & E). exists (fun k => if (k <? length vs)%nat then c k else a). intros i I. rewrite E, C by assumption.
    rewrite app_length. cbn [length]. rewrite Nat.add_1_r. cbn [rsum]. rewrite Nat.ltb_irrefl. rewrite app_nth2, Nat.sub_diag by lia. cbn [nth].
    f_equal. apply rsum_ext. intros k K. replace (k <? length vs)%nat with true by (symmetry; now apply Nat.ltb_lt). now rewrite app_nth1.
  Qed.
  Lemma span_zero vs x : (forall i, (i < n)%nat -> coord x i = 0) -> in_span n vs x.
  Proof. intros H. exists (fun _ => 0). intros i I. rewrite H by assumption. symmetry. apply rsum_null. intros; ring. Qed.

  (** subtracting the projections on orthonormal vectors *)
  Lemma fold_gs us : forall ds v, orthonormal n (ds ++ us) -> length v = n -> (forall d, In d ds -> inner n d v = 0) ->
    let w := fold_left (gs_sub (N := Rnum)) us v in
    length w = n /\ (forall d, In d (ds ++ us) -> inner n d w = 0) /\
    forall vs, (forall u, In u us -> in_span n vs u) -> exists y, in_span n vs y /\ forall i, (i < n)%nat -> coord w i = coord v i + coord y i.
  Proof.
    induction us as [|u us IH]; intros ds v O V D; cbn zeta; cbn [fold_left].
    - rewrite app_nil_r. split; [assumption|]. split; [assumption|]. intros vs _. exists []. split.
      + apply span_zero. intros i _. unfold coord. now destruct i.
      + intros i _. unfold coord at 3. destruct i; cbn; lra.
    - destruct O as [OL O].
      assert (length u = n) as U by (apply OL, in_or_app; right; now left).
      assert (nth_error (ds ++ u :: us) (length ds) = Some u) as NU by (rewrite nth_error_app2, Nat.sub_diag by lia; reflexivity).
      assert (inner n u u = 1) as U1 by (rewrite (O _ _ _ _ NU NU), Nat.eqb_refl; reflexivity).
      destruct (gs_sub_spec v u V U U1) as [L C].
      assert (forall d, inner n d (gs_sub (N := Rnum) v u) = inner n d v - inner n u v * inner n d u) as IN.
      { intros d. unfold inner at 1. rewrite (rsum_ext n _ (fun i => coord d i * coord v i + (- inner n u v) * (coord d i * coord u i)))
          by (intros; rewrite C; ring). rewrite rsum_plus, rsum_scal. unfold inner. ring. }
      destruct (IH (ds ++ [u]) (gs_sub (N := Rnum) v u)) as (A1 & A2 & A3).
      + rewrite <- app_assoc. split; assumption.
      + assumption.
      + intros d I. rewrite IN. apply in_app_or in I as [I|[<-|[]]].
        * rewrite (D d I). apply In_nth_error in I as [k K]. assert (k < length ds)%nat as KL by (apply nth_error_Some; congruence).
          assert (nth_error (ds ++ u :: us) k = Some d) as K' by (now rewrite nth_error_app1).
          rewrite (O _ _ _ _ K' NU). replace (Nat.eqb k (length ds)) with false by (symmetry; apply Nat.eqb_neq; lia). ring.
        * rewrite U1. ring.
      + rewrite <- app_assoc in A2. cbn [app] in A2. split; [exact A1|]. split; [exact A2|]. intros vs S.
        destruct (A3 vs) as (y & Y & E); [intros; apply S; now right|].
        exists (map (fun i => coord y i + (- inner n u v) * coord u i) (seq 0 n)). split.
        * apply (span_sub vs y u (- inner n u v)); [assumption|apply S; now left|]. intros i I. now rewrite coord_seq by assumption.
        * intros i I. rewrite E, C by assumption. rewrite coord_seq by assumption. lra.
  Qed.

  Lemma inner_scaled (d w : rv) c : length w = n -> c <> 0 -> inner n d (vdiv (N := Rnum) w c) = inner n d w / c.
  Proof.
    intros W C. unfold inner. rewrite (rsum_ext n _ (fun i => coord d i * coord w i * / c)).
    - rewrite rsum_scal_r. reflexivity.
    - intros i _. unfold vdiv. rewrite (nth_map0 (fun y => ndiv (Num := Rnum) y c)).
      + change (ndiv (Num := Rnum) (coord w i) c) with (coord w i / c). field. assumption.
      + change (0 / c = 0). field. assumption.
  Qed.
  Lemma gs_from prev done cols : (forall v, In v (prev ++ cols) -> length v = n) ->
    independent n (prev ++ cols) -> orthonormal n done -> length done = length prev -> (forall k u, nth_error done k = Some u -> in_span n (firstn (S k) prev) u) ->
    let qs := gram_schmidt_from (N := Rnum) done cols in
    orthonormal n qs /\ length qs = length (prev ++ cols) /\ forall k u, nth_error qs k = Some u -> in_span n (firstn (S k) (prev ++ cols)) u.
  Proof.
    revert prev done. induction cols as [|v cols IH]; intros prev done HL IND O LD SP; cbn zeta; cbn [gram_schmidt_from].
    - rewrite app_nil_r in *. split; [assumption|]. split; [assumption|]. exact SP.
    - assert (length v = n) as V by (apply HL, in_or_app; right; now left).
      destruct (fold_gs done [] v O V) as (L & P & HS); [easy|]. cbn [app] in P.
      assert (forall u, In u done -> in_span n prev u) as SP'.
      { intros u U. apply In_nth_error in U as [k K]. specialize (SP k u K). clear - SP.
        assert (forall l1 l2 x, in_span n l1 x -> in_span n (l1 ++ l2) x) as A.
        { intros l1 l2. revert l1. induction l2 as [|a l2 IH]; intros l1 x X; [now rewrite app_nil_r|].
          replace (l1 ++ a :: l2) with ((l1 ++ [a]) ++ l2) by (now rewrite <- app_assoc). apply IH. now apply span_more. }
        rewrite <- (firstn_skipn (S k) prev). now apply A. }
      destruct (HS prev SP') as (y & Y & E). set (w := fold_left (gs_sub (N := Rnum)) done v) in *.
      assert (nth_error (prev ++ v :: cols) (length prev) = Some v) as NV by (rewrite nth_error_app2, Nat.sub_diag by lia; reflexivity).
      assert (norm (N := Rnum) w <> 0) as NZ.
      { intros Z. apply (IND _ _ NV). rewrite firstn_app, Nat.sub_diag, firstn_all. cbn. rewrite app_nil_r.
        assert (inner n w w = 0) as ZZ by (rewrite <- (norm_sq n) by assumption; rewrite Z; ring).
        unfold inner in ZZ. assert (forall i, (i < n)%nat -> coord w i = 0) as WZ.
        { intros i I. pose proof (rsum_zero_squares n (fun i => coord w i * coord w i) (fun i _ => Rle_0_sqr (coord w i)) ZZ i I) as Q.
          now apply Rsqr_0_uniq in Q. }
        apply (span_sub prev y y (-2)); [assumption|assumption|]. intros i I. specialize (E i I). rewrite WZ in E by assumption. lra. }
      assert (length (gs_col (N := Rnum) done v) = n) as QL by (unfold gs_col, vdiv; rewrite map_length; exact L).
      assert (forall d, inner n d (gs_col (N := Rnum) done v) = inner n d w / norm (N := Rnum) w) as QI.
      { intros d. unfold gs_col. apply inner_scaled; assumption. }
      assert (inner n (gs_col (N := Rnum) done v) (gs_col (N := Rnum) done v) = 1) as Q1.
      { rewrite QI, inner_comm, QI. rewrite <- (norm_sq n) by assumption. field. assumption. }
      replace (prev ++ v :: cols) with ((prev ++ [v]) ++ cols) in * by (now rewrite <- app_assoc).
      apply IH; [assumption|assumption|..].
      + split.
        * intros x X. apply in_app_or in X as [X|[<-|[]]]; [now apply O|exact QL].
        * intros i j a b A B.
          assert (forall k c, nth_error (done ++ [gs_col (N := Rnum) done v]) k = Some c ->
            ((k < length done)%nat /\ nth_error done k = Some c) \/ (k = length done /\ c = gs_col (N := Rnum) done v)) as CS.
          { intros k c C. destruct (Nat.lt_ge_cases k (length done)) as [H|H]; [left; split; [assumption|]; now rewrite nth_error_app1 in C|].
            right. rewrite nth_error_app2 in C by assumption. destruct (k - length done)%nat as [|m] eqn:K.
            - cbn in C. injection C as <-. split; [lia|reflexivity].
            - cbn in C. now destruct m. }
          destruct (CS _ _ A) as [[A1 A2]|[-> ->]]; destruct (CS _ _ B) as [[B1 B2]|[-> ->]].
          -- now apply O.
          -- rewrite QI. rewrite (P a) by (now apply nth_error_In in A2). replace (Nat.eqb i (length done)) with false by (symmetry; apply Nat.eqb_neq; lia). field. assumption.
          -- rewrite inner_comm, QI. rewrite (P b) by (now apply nth_error_In in B2). replace (Nat.eqb (length done) j) with false by (symmetry; apply Nat.eqb_neq; lia). field. assumption.
          -- now rewrite Nat.eqb_refl.
      + rewrite !app_length. cbn [length]. exact (f_equal (fun k => (k + 1)%nat) LD).
      + intros k u U. destruct (Nat.lt_ge_cases k (length done)) as [H|H].
        * rewrite nth_error_app1 in U by assumption. rewrite firstn_app. replace (S k - length prev)%nat with 0%nat by lia. cbn [firstn].
          rewrite app_nil_r. now apply SP.
        * rewrite nth_error_app2 in U by assumption. change (nth_error [gs_col (N := Rnum) done v : list R] (k - @length (list R) done) = Some u) in U. destruct (k - length done)%nat as [|m] eqn:K; [|exfalso; destruct m; discriminate U].
          cbn in U. injection U as <-. rewrite firstn_all2 by (rewrite app_length; cbn; lia).
          apply (span_last prev v _ (/ norm (N := Rnum) w)).
          exists (map (fun i => coord y i * / norm (N := Rnum) w) (seq 0 n)).
          assert (forall i, (i < n)%nat -> coord (map (fun i => coord y i * / norm (N := Rnum) w) (seq 0 n)) i = coord y i * / norm (N := Rnum) w) as EE.
          { intros i I. now rewrite coord_seq by assumption. }
          split.
          -- apply (span_sub prev y y (/ norm (N := Rnum) w - 1)); [assumption|assumption|]. intros i I. rewrite EE by assumption. ring.
          -- intros i I. rewrite EE by assumption. unfold gs_col, vdiv. fold w. rewrite (nth_map0 (fun y => ndiv (Num := Rnum) y (norm (N := Rnum) w))).
             ++ change (coord w i / norm (N := Rnum) w = coord y i * / norm (N := Rnum) w + / norm (N := Rnum) w * coord v i). rewrite E by assumption. field. assumption.
             ++ change (0 / norm (N := Rnum) w = 0). field. assumption.
  Qed.
  Lemma gram_schmidt_spec (cols : list rv) : (forall v, In v cols -> length v = n) -> independent n cols ->
    orthonormal n (gram_schmidt (N := Rnum) cols) /\ length (gram_schmidt (N := Rnum) cols) = length cols /\
    forall k u, nth_error (gram_schmidt (N := Rnum) cols) k = Some u -> in_span n (firstn (S k) cols) u.
  Proof.
    intros HL IND. apply (gs_from [] [] cols); try assumption; [|reflexivity|].
    - split; [easy|]. intros i j u v U. now destruct i.
    - intros k u U. now destruct k.
  Qed.
End GramSchmidt.

(** ** the rows handed to Gram-Schmidt *)
Section Simplex.
  Variables (n : nat) (mean sigma r : rv).
  Hypotheses (HM : length mean = n) (HS : length sigma = n) (HR : length r = n) (HN : (0 < n)%nat).
  Let rows : list rv := simplex_rows (N := Rnum) n r.
  Definition tilt (i : nat) : R := sqrt 3 * (coord r i - 1 / 2) * 2.
  Hypothesis nz : 1 + tilt 0 <> 0.

  Lemma unit_len i : length (unit_row (N := Rnum) n i) = n.
  Proof. unfold unit_row. now rewrite map_length, seq_length. Qed.
  Lemma unit_coord k i : (i < n)%nat -> coord (unit_row (N := Rnum) n k) i = if Nat.eqb k i then 1 else 0.
  Proof. intros I. unfold unit_row. exact (coord_seq (fun j => if Nat.eqb k j then 1 else 0) n i I). Qed.
  Lemma rows_nth k : (k < n)%nat -> nth_error rows k = Some (nth k rows []).
  Proof. intros K. apply nth_error_nth'. unfold rows, simplex_rows. now rewrite map_length, seq_length. Qed.
  Lemma rows_is k : (k < n)%nat -> nth k rows [] =
    if Nat.eqb k 0 then vadd (N := Rnum) (unit_row (N := Rnum) n k) (map (fun y => sqrt 3 * (y - 1 / 2) * 2) r) else unit_row (N := Rnum) n k.
  Proof.
    intros K. apply nth_error_nth. unfold rows, simplex_rows. 
    rewrite (map_nth_error _ k (seq 0 n) (d := k)); [reflexivity|].
    rewrite (nth_error_nth' _ 0%nat) by (now rewrite seq_length). now rewrite seq_nth.
  Qed.
  Lemma rows_len : length rows = n.
  Proof. unfold rows, simplex_rows. now rewrite map_length, seq_length. Qed.
  Lemma rows_size v : In v rows -> length v = n.
  Proof.
    intros I. apply In_nth_error in I as [k K]. assert (k < n)%nat as L by (rewrite <- rows_len; apply nth_error_Some; congruence).
    rewrite rows_nth in K by assumption. injection K as <-. rewrite rows_is by assumption. destruct (Nat.eqb k 0); [|apply unit_len].
    refine (eq_trans (len_map2 _ _ _ _) (unit_len k)). refine (eq_trans (unit_len k) _). symmetry. refine (eq_trans (map_length _ _) _). exact HR.
  Qed.
  Lemma rows_coord k i : (k < n)%nat -> (i < n)%nat ->
    coord (nth k rows []) i = (if Nat.eqb k i then 1 else 0) + (if Nat.eqb k 0 then tilt i else 0).
  Proof.
    intros K I. rewrite rows_is by assumption. destruct (Nat.eqb k 0).
    - rewrite (nth_vadd n); [|apply unit_len|exact (eq_trans (map_length _ _) HR)]. rewrite unit_coord by assumption. f_equal.
      unfold tilt, coord. apply nth_error_nth. apply map_nth_error with (f := fun y => sqrt 3 * (y - 1 / 2) * 2).
      apply nth_error_nth'. now rewrite HR.
    - rewrite unit_coord by assumption. lra.
  Qed.
  Lemma rows_independent : independent n rows.
  Proof.
    intros k v K. assert (k < n)%nat as L by (rewrite <- rows_len; apply nth_error_Some; congruence).
    rewrite rows_nth in K by assumption. injection K as <-. intros [c C].
    rewrite firstn_length_le in C by (rewrite rows_len; lia).
    assert (forall i, (i < n)%nat -> coord (nth k rows []) i = rsum k (fun m => c m * ((if Nat.eqb m i then 1 else 0) + (if Nat.eqb m 0 then tilt i else 0)))) as C'.
    { intros i I. rewrite C by assumption. apply rsum_ext. intros m M. f_equal. rewrite <- rows_coord by lia. f_equal.
      rewrite <- (firstn_skipn k rows) at 2. rewrite app_nth1; [reflexivity|]. rewrite firstn_length_le by (rewrite rows_len; lia). assumption. }
    clear C. destruct k as [|k].
    - specialize (C' 0%nat L). rewrite rows_coord in C' by assumption. cbn in C'. lra.
    - assert (c 0%nat = 0) as C0.
      { specialize (C' 0%nat HN). rewrite rows_coord in C' by assumption. rewrite rsum_first in C'. cbn [Nat.eqb] in C'.
        rewrite rsum_null in C' by (intros; cbn; ring). assert (c 0%nat * (1 + tilt 0) = 0) as E by lra.
        apply Rmult_integral in E as [E|E]; [assumption|contradiction]. }
      specialize (C' (S k) L). rewrite rows_coord in C' by assumption. rewrite Nat.eqb_refl in C'. cbn [Nat.eqb] in C'.
      rewrite rsum_null in C'; [lra|]. intros m M. replace (Nat.eqb m (S k)) with false by (symmetry; apply Nat.eqb_neq; lia).
      destruct m as [|m]; [rewrite C0; ring|cbn; ring].
  Qed.

  Let cols : list rv := gram_schmidt (N := Rnum) rows.
  Lemma cols_ortho : orthonormal n cols /\ length cols = n.
  Proof.
    destruct (gram_schmidt_spec n rows rows_size rows_independent) as (A & B & _). split; [exact A|]. unfold cols. etransitivity; [exact B|]. apply rows_len.
  Qed.
  Definition drow (i : nat) : rv := row_of (N := Rnum) cols i.
  Lemma drow_len i : length (drow i) = n.
  Proof. unfold drow, row_of. rewrite map_length. apply cols_ortho. Qed.
  Lemma drow_coord i k : (k < n)%nat -> coord (drow i) k = coord (nth k cols []) i.
  Proof.
    intros K. unfold coord at 1. apply nth_error_nth. unfold drow, row_of. rewrite (map_nth_error _ k cols (d := nth k cols [])); [reflexivity|].
    apply nth_error_nth'. destruct cols_ortho as [_ ->]. assumption.
  Qed.
  Lemma drow_ortho : orthonormal n (map drow (seq 0 n)).
  Proof.
    split.
    - intros v V. apply in_map_iff in V as (i & <- & _). apply drow_len.
    - intros i j u v U V.
      assert (forall i u, nth_error (map drow (seq 0 n)) i = Some u -> (i < n)%nat /\ u = drow i) as A.
      { clear. intros i u U. assert (i < n)%nat as L by (rewrite <- (seq_length n 0), <- (map_length drow); apply nth_error_Some; congruence).
        split; [assumption|]. rewrite (map_nth_error drow i (seq 0 n) (d := i)) in U; [congruence|].
        rewrite (nth_error_nth' _ 0%nat) by (now rewrite seq_length). now rewrite seq_nth. }
      apply A in U as [I ->]. apply A in V as [J ->]. unfold inner.
      rewrite (rsum_ext n _ (fun k => coord (nth k cols []) i * coord (nth k cols []) j)) by (intros k K; now rewrite !drow_coord).
      apply (rows_orthonormal n (fun k i => coord (nth k cols []) i)); [|assumption|assumption].
      intros k l K L. destruct cols_ortho as [[_ O] LC].
      apply (O k l); apply nth_error_nth'; now rewrite LC.
  Qed.
  Lemma simplex_spec : exists d, orthonormal n d /\ length d = n /\
    simplex_creation (N := Rnum) mean sigma r = Ok (mean :: map (fun u => map (fun j => coord mean j + coord sigma j * coord u j) (seq 0 n)) d).
  Proof.
    exists (map drow (seq 0 n)). split; [apply drow_ortho|]. split; [now rewrite map_length, seq_length|].
    unfold simplex_creation. change (@num Rnum) with R. rewrite HM. 
    assert (forall A (x y : A), match n with O => x | S _ => y end = y) as MN.
    { intros A x y. generalize HN. generalize n. intros [|m] H; [lia|reflexivity]. }
    rewrite MN.
    apply f_equal. cbn [map].
    assert (forall a b : rv, length a = n -> length b = n -> (forall i, (i < n)%nat -> coord a i = coord b i) -> a = b) as EXT.
    { intros a b A B H. apply (nth_ext a b 0 0); [congruence|]. intros i I. apply H. now rewrite <- A. }
    f_equal.
    - assert (length (zeros (N := Rnum) n) = n) as LZ by apply repeat_length.
      apply EXT; [|assumption|].
      + refine (eq_trans (len_map2 _ _ _ _) LZ). refine (eq_trans LZ (eq_sym HM)).
      + intros i I. rewrite (nth_vadd n) by assumption. 
        transitivity (0 + coord mean i); [|apply Rplus_0_l]. f_equal. unfold coord, zeros. apply (nth_repeat (A := R)).
    - rewrite !map_map. apply map_ext_in. intros i I. apply in_seq in I.
      assert (length (map2 (nmul (Num := Rnum)) (drow i) sigma) = n) as L1.
      { refine (eq_trans (len_map2 _ _ _ _) (drow_len i)). exact (eq_trans (drow_len i) (eq_sym HS)). }
      apply EXT.
      + refine (eq_trans (len_map2 _ _ _ _) L1). exact (eq_trans L1 (eq_sym HM)).
      + now rewrite map_length, seq_length.
      + intros j J. rewrite coord_seq by assumption. rewrite (nth_vadd n) by assumption.
        rewrite (nth_vmul n); [|apply drow_len|assumption].
        transitivity (coord (drow i) j * coord sigma j + coord mean j); [reflexivity|]. ring.
  Qed.
End Simplex.

(** ** what orthonormal displacements mean *)
Lemma ortho_bound n d u j : orthonormal n d -> In u d -> (j < n)%nat -> Rabs (coord u j) <= 1.
Proof.
  intros [_ O] U J. apply In_nth_error in U as [k K]. specialize (O k k u u K K). rewrite Nat.eqb_refl in O.
  pose proof (rsum_term n (fun i => coord u i * coord u i) j (fun i _ => Rle_0_sqr (coord u i)) J) as T. cbn beta in T.
  unfold inner in O. rewrite O in T. apply Rabs_le. split; nra.
Qed.
Lemma ortho_scaled_independent n d s : orthonormal n d -> (forall j, (j < n)%nat -> coord s j <> 0) ->
  independent n (map (fun u => map (fun j => coord s j * coord u j) (seq 0 n)) d).
Proof.
  intros [OL O] S k v K [c C]. set (g := fun u => map (fun j => coord s j * coord u j) (seq 0 n)) in *.
  assert (k < length d)%nat as L by (rewrite <- (map_length g); apply nth_error_Some; congruence).
  assert (nth_error d k = Some (nth k d [])) as KD by (now apply nth_error_nth').
  rewrite (map_nth_error g k d KD) in K. injection K as <-.
  rewrite firstn_length_le in C by (rewrite map_length; lia).
  assert (forall j, (j < n)%nat -> coord (nth k d []) j = rsum k (fun m => c m * coord (nth m d []) j)) as C'.
  { intros j J. apply (Rmult_eq_reg_l (coord s j)); [|now apply S]. specialize (C j J).
    unfold g in C at 1. rewrite coord_seq in C by assumption. rewrite C. rewrite <- rsum_scal. apply rsum_ext. intros m M.
    assert (nth m (firstn k (map g d)) [] = g (nth m d [])) as E.
    { apply nth_error_nth. rewrite firstn_map. apply map_nth_error. rewrite <- (firstn_skipn k d) at 2.
      rewrite app_nth1 by (rewrite firstn_length_le by lia; assumption). apply nth_error_nth'. rewrite firstn_length_le by lia. assumption. }
    rewrite E. unfold g. rewrite coord_seq by assumption. ring. }
  pose proof (O k k _ _ KD KD) as E. rewrite Nat.eqb_refl in E.
  assert (inner n (nth k d []) (nth k d []) = rsum k (fun m => c m * inner n (nth m d []) (nth k d []))) as E2.
  { unfold inner at 1. rewrite (rsum_ext n _ (fun i => rsum k (fun m => c m * (coord (nth m d []) i * coord (nth k d []) i)))).
    - rewrite rsum_swap. apply rsum_ext. intros m M. apply rsum_scal.
    - intros i I. rewrite (C' i I) at 1. rewrite <- rsum_scal_r. apply rsum_ext. intros; ring. }
  rewrite rsum_null in E2; [lra|]. intros m M. assert (nth_error d m = Some (nth m d [])) as MD by (apply nth_error_nth'; lia).
  rewrite (O m k _ _ MD KD). replace (Nat.eqb m k) with false by (symmetry; apply Nat.eqb_neq; lia). ring.
Qed.

(** ** the square root of three is irrational *)
Lemma three_squares (m : nat) : forall p q : Z, (Z.abs_nat q <= m)%nat -> (p * p = 3 * (q * q))%Z -> q = 0%Z.
Proof.
  induction m as [|m IH]; intros p q L E; [lia|].
  destruct (Z.eq_dec q 0) as [Z|Z]; [assumption|exfalso].
  assert (forall a, (a * a mod 3 = 0 -> a mod 3 = 0)%Z) as D3.
  { intros a H. rewrite Z.mul_mod in H by lia. pose proof (Z.mod_pos_bound a 3). assert (a mod 3 = 0 \/ a mod 3 = 1 \/ a mod 3 = 2)%Z as [A|[A|A]] by lia; rewrite A in *; [reflexivity|discriminate H|discriminate H]. }
  assert (p mod 3 = 0)%Z as P by (apply D3; rewrite E; rewrite Z.mul_comm; apply Z_mod_mult).
  apply Z_div_exact_2 in P; [|lia]. set (p' := (p / 3)%Z) in *.
  assert (q * q = 3 * (p' * p'))%Z as E2 by nia.
  assert (q mod 3 = 0)%Z as Q by (apply D3; rewrite E2; rewrite Z.mul_comm; apply Z_mod_mult).
  apply Z_div_exact_2 in Q; [|lia]. set (q' := (q / 3)%Z) in *.
  assert (p' * p' = 3 * (q' * q'))%Z as E3 by nia.
  assert (q' = 0)%Z by (apply (IH p' q'); [lia|assumption]). lia.
Qed.
Lemma rational_draw (r : rv) (a b : Z) : b <> 0%Z -> coord r 0 = IZR a / IZR b -> 1 + tilt r 0 <> 0.
Proof.
  intros B R H. unfold tilt in H. rewrite R in H.
  assert (IZR b <> 0) as NB by (now apply not_0_IZR).
  assert (sqrt 3 * IZR (2 * a - b) = - IZR b) as E.
  { rewrite minus_IZR, mult_IZR. assert (sqrt 3 * (2 * (IZR a / IZR b) - 1) = -1) as X by lra.
    apply (Rmult_eq_reg_r (/ IZR b)); [|now apply Rinv_neq_0_compat]. transitivity (sqrt 3 * (2 * (IZR a / IZR b) - 1)); [field; assumption|].
    rewrite X. field. assumption. }
  assert (b * b = 3 * ((2 * a - b) * (2 * a - b)))%Z as Q.
  { apply eq_IZR. rewrite !mult_IZR. pose proof (sqrt_sqrt 3 ltac:(lra)) as S3.
    transitivity ((sqrt 3 * IZR (2 * a - b)) * (sqrt 3 * IZR (2 * a - b))); [rewrite E; ring|].
    transitivity (sqrt 3 * sqrt 3 * (IZR (2 * a - b) * IZR (2 * a - b))); [ring|]. now rewrite S3. }
  pose proof (three_squares _ b (2 * a - b) (le_n _) Q) as Z0. rewrite Z0 in Q. lia.
Qed.
