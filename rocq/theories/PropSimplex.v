(** Theorems on the start simplex: C15. *)
From Coq Require Import ZArith List Bool Lia Reals Lra.
From Verif Require Import Num NumFacts Py PyFacts ModelLinalg ModelCma SpecSearch SpecSimplex ProofCmaAdapt ProofSimplex.
Import ListNotations.
Open Scope R_scope.

(** ** C15 *)
(** Gram-Schmidt: from linearly independent vectors it makes the same number of orthonormal ones, the k-th of them being
    a combination of the first k inputs. *)
Theorem C15_gram_schmidt (n : nat) (cols : list (list R)) :
  (forall v, In v cols -> length v = n) -> independent n cols ->
  let qs := gram_schmidt (N := Rnum) cols in
  orthonormal n qs /\ length qs = length cols /\
  forall k u, nth_error qs k = Some u -> in_span n (firstn (S k) cols) u.
Proof. exact (gram_schmidt_spec n cols). Qed.

Example C15_two_vectors : let cols := [[3; 4]; [1; 0]] in
  (forall v, In v cols -> length v = 2%nat) /\ independent 2 cols.
Proof.
  cbn zeta. split; [intros v [<-|[<-|[]]]; reflexivity|].
  intros [|[|k]] v K [c C]; [| |cbn in K; destruct k; discriminate].
  - injection K as <-. specialize (C 0%nat ltac:(lia)). cbn in C. lra.
  - injection K as <-. pose proof (C 0%nat ltac:(lia)) as A. pose proof (C 1%nat ltac:(lia)) as B. cbn in A, B. lra.
Qed.
Print Assumptions C15_gram_schmidt.

(** The start simplex: the start point itself and, for each of the n parameters, one vertex whose displacement is an
    orthonormal vector scaled coordinate by coordinate with the widths; provided the draw does not make the first
    entry of the random matrix zero. *)
Theorem C15_simplex (n : nat) (mean sigma r : list R) :
  length mean = n -> length sigma = n -> length r = n -> (0 < n)%nat ->
  1 + sqrt 3 * (coord r 0 - 1 / 2) * 2 <> 0 ->
  exists d, orthonormal n d /\ length d = n /\
    simplex_creation (N := Rnum) mean sigma r =
    Ok (mean :: map (fun u => map (fun j => coord mean j + coord sigma j * coord u j) (seq 0 n)) d).
Proof. intros A B C D E. exact (simplex_spec n mean sigma r A B C D E). Qed.

Example C15_centre : 1 + sqrt 3 * (coord [1 / 2; 1 / 4; 1 / 8] 0 - 1 / 2) * 2 <> 0.
Proof. cbn. lra. Qed.
Print Assumptions C15_simplex.

(** Random draws are floating-point numbers, hence fractions: for these the condition of C15_simplex always holds, the
    square root of three being irrational. *)
Theorem C15_every_draw (r : list R) (a b : Z) : b <> 0%Z -> coord r 0 = IZR a / IZR b ->
  1 + sqrt 3 * (coord r 0 - 1 / 2) * 2 <> 0.
Proof. exact (rational_draw r a b). Qed.

Example C15_a_draw : (4503599627370496 <> 0)%Z /\ coord [IZR 951750193523071 / IZR 4503599627370496] 0 = IZR 951750193523071 / IZR 4503599627370496.
Proof. split; [discriminate|reflexivity]. Qed.
Print Assumptions C15_every_draw.

(** Consequences: no vertex coordinate is further from the start point than the width of its parameter, and the
    displacements are linearly independent unless a width is zero. *)
Theorem C15_within_widths (n : nat) (mean sigma r : list R) (a b : Z) vs :
  length mean = n -> length sigma = n -> length r = n -> b <> 0%Z -> coord r 0 = IZR a / IZR b ->
  simplex_creation (N := Rnum) mean sigma r = Ok vs ->
  forall v j, In v vs -> (j < n)%nat -> Rabs (coord v j - coord mean j) <= Rabs (coord sigma j).
Proof.
  intros A B C D E F v j V J. destruct (C15_simplex n mean sigma r A B C ltac:(lia) (C15_every_draw r a b D E)) as (d & O & L & S).
  assert (vs = mean :: map (fun u => map (fun j => coord mean j + coord sigma j * coord u j) (seq 0 n)) d) as -> by congruence.
  destruct V as [<-|V]; [replace (coord mean j - coord mean j) with 0 by lra; rewrite Rabs_R0; apply Rabs_pos|].
  apply in_map_iff in V as (u & <- & U). rewrite coord_seq by assumption.
  replace (coord mean j + coord sigma j * coord u j - coord mean j) with (coord sigma j * coord u j) by lra. rewrite Rabs_mult.
  pose proof (ortho_bound n d u j O U J). pose proof (Rabs_pos (coord sigma j)). pose proof (Rabs_pos (coord u j)). nra.
Qed.
Print Assumptions C15_within_widths.

Theorem C15_not_flat (n : nat) (mean sigma r : list R) (a b : Z) v0 vs :
  length mean = n -> length sigma = n -> length r = n -> b <> 0%Z -> coord r 0 = IZR a / IZR b ->
  (forall j, (j < n)%nat -> coord sigma j <> 0) ->
  simplex_creation (N := Rnum) mean sigma r = Ok (v0 :: vs) ->
  v0 = mean /\ length vs = n /\ independent n (map (fun v => map (fun j => coord v j - coord v0 j) (seq 0 n)) vs).
Proof.
  intros A B C D E Z F.
  assert (0 < n)%nat as HN. { destruct n; [|lia]. destruct mean; [|discriminate]. discriminate F. }
  destruct (C15_simplex n mean sigma r A B C HN (C15_every_draw r a b D E)) as (d & O & L & S).
  assert (v0 = mean /\ vs = map (fun u => map (fun j => coord mean j + coord sigma j * coord u j) (seq 0 n)) d) as [-> ->].
  { assert (@eq (res (list (list R))) (Ok (v0 :: vs)) (Ok (mean :: map (fun u => map (fun j => coord mean j + coord sigma j * coord u j) (seq 0 n)) d))) as Q
      by (transitivity (simplex_creation (N := Rnum) mean sigma r); [symmetry; exact F|exact S]). now injection Q as -> ->. }
  split; [reflexivity|]. split; [now rewrite map_length|]. rewrite map_map.
  pose proof (ortho_scaled_independent n d sigma O Z) as I.
  erewrite map_ext; [exact I|]. intros u. cbn beta. apply map_ext_in. intros j J. apply in_seq in J. rewrite coord_seq by lia. lra.
Qed.

Example C15_start : let mean := [1; 2] in let sigma := [1 / 10; 3] in let r := [IZR 1 / IZR 4; 1 / 2] in
  length mean = 2%nat /\ length sigma = 2%nat /\ length r = 2%nat /\ (4 <> 0)%Z /\ coord r 0 = IZR 1 / IZR 4 /\
  (forall j, (j < 2)%nat -> coord sigma j <> 0) /\ exists v0 vs, simplex_creation (N := Rnum) mean sigma r = Ok (v0 :: vs).
Proof.
  cbn zeta. repeat (split; [first [reflexivity|discriminate]|]). split.
  - intros [|[|j]] J; cbn; [lra|lra|lia].
  - destruct (C15_simplex 2 [1; 2] [1 / 10; 3] [IZR 1 / IZR 4; 1 / 2] eq_refl eq_refl eq_refl ltac:(lia) (C15_every_draw [IZR 1 / IZR 4; 1 / 2] 1 4 ltac:(discriminate) eq_refl))
      as (d & _ & _ & S). eexists. eexists. exact S.
Qed.
Print Assumptions C15_not_flat.

(** With a zero width the simplex is flat: all vertices share that coordinate with the start point. *)
Theorem C15_zero_width_refuted : exists (mean sigma r : list R) v0 vs,
  simplex_creation (N := Rnum) mean sigma r = Ok (v0 :: vs) /\ length vs = 2%nat /\
  ~ independent 2 (map (fun v => map (fun j => coord v j - coord v0 j) (seq 0 2)) vs).
Proof.
  destruct (C15_simplex 2 [0; 0] [1; 0] [1 / 2; 1 / 2] eq_refl eq_refl eq_refl ltac:(lia) ltac:(cbn; lra)) as (d & O & L & S).
  exists [0; 0], [1; 0], [1 / 2; 1 / 2]. eexists. eexists. split; [exact S|]. split; [now rewrite map_length|].
  rewrite map_map. destruct d as [|u [|w [|]]]; try discriminate L. cbn [map].
  intros I. assert (coord u 0 <> 0) as NZ.
  { intros Z. apply (I 0%nat _ eq_refl). exists (fun _ => 0). intros [|[|i]] H; [| |lia]; cbn; rewrite ?Z; lra. }
  apply (I 1%nat _ eq_refl). exists (fun _ => coord w 0 / coord u 0). intros [|[|i]] H; [| |lia]; cbn; [field; exact NZ|field; exact NZ].
Qed.
Print Assumptions C15_zero_width_refuted.

(** Whatever the numbers: n+1 vertices of length n (the shape the search expects); an empty parameter list raises. *)
Theorem C15_shape (N : Num) (mean sigma r : vec (N := N)) : length sigma = length mean -> length r = length mean ->
  match simplex_creation mean sigma r with
  | Ok vs => mean <> [] /\ proper_start mean (Some vs)
  | Err e => mean = [] /\ e = IndexError
  end.
Proof.
  intros HS HR. unfold simplex_creation. destruct mean as [|m mean]; [now split|]. set (x0 := m :: mean) in *.
  cbn [length]. change (S (length mean)) with (length x0).
  split; [discriminate|]. cbn [proper_start].
  assert (forall (done cols : list vec), length (gram_schmidt_from done cols) = (length done + length cols)%nat) as GL.
  { intros done cols. revert done. induction cols as [|v cols IH]; intros done; cbn [gram_schmidt_from length]; [lia|].
    rewrite IH, app_length. cbn. lia. }
  split; [cbn; now rewrite !map_length, seq_length|].
  intros x X. apply in_map_iff in X as (d & <- & D).
  assert (length d = length x0) as LD.
  { destruct D as [<-|D]; [apply repeat_length|]. apply in_map_iff in D as (i & <- & _).
    assert (length (row_of (gram_schmidt (simplex_rows (length x0) r)) i) = length x0) as LR.
    { unfold row_of. rewrite map_length. unfold gram_schmidt. rewrite GL. unfold simplex_rows. now rewrite map_length, seq_length. }
    rewrite len_map2; [exact LR|]. now rewrite LR. }
  unfold vadd. rewrite len_map2; congruence.
Qed.
Print Assumptions C15_shape.
