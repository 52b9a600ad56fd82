(** * Vocabulary for whole CMA-ES searches. *)
From Coq Require Import Reals List ZArith Permutation Sorted.
From Verif Require Import Num Py ModelPulse ModelControls ModelLinalg ModelState ModelSearch SpecSearch ModelCma SpecCma.
Import ListNotations.
Open Scope nat_scope.

(** the function searched does not use numpy's normal numbers itself *)
Definition draws_nothing {N : Num} (func : vec -> nat -> option num -> M num) : Prop :=
  forall x it v s y s', func x it v s = (Ok y, s') -> k_randn (s_cnt s') = k_randn (s_cnt s).

(** every call of the function gives a number *)
Definition always_answers {N : Num} (func : vec -> nat -> option num -> M num) : Prop :=
  forall x it v s, exists y s', func x it v s = (Ok y, s').

(** coordinate i of a point; coordinates past the end are 0 *)
Definition coordinate (x : list R) (i : nat) : R := nth i x 0%R.
(** the normal numbers for candidate number j of n coordinates, drawn one after the other *)
Definition normals (W : world (N := Rnum)) (start n j i : nat) : R := w_randn W (start + j * n + i).

(** [ordered] lists the evaluations [g], smallest value first *)
Definition in_order (g ordered : list (list R * R)) : Prop :=
  Permutation g ordered /\ StronglySorted Rle (map snd ordered).

(** The sequence of evaluations [L] follows CMA-ES with the variables [V k] after k generations: they start at [x0] with the widths
    [sv], are adapted after every complete generation to its candidates in the order of their values, and every
    candidate but the first is the mean plus sigma*B*(D*z) with fresh normal numbers z. *)
Record follows_cma (eigh : rmat -> rvec * rmat) (z : nat -> rvec) (n pop : nat) (x0 : list R) (sv : rvec)
  (L : list (list R * R)) (V : nat -> cma) : Prop := mk_follows {
  fc_start : V 0 = cma_start (coordinate x0) sv;
  fc_step : forall k, S k * pop <= length L ->
    exists ordered best, in_order (firstn pop (skipn (k * pop) L)) ordered /\
      (forall j x y, nth_error ordered j = Some (x, y) -> best j = coordinate x) /\
      V (S k) = cma_step n (pop / 2) pop eigh best (S k * pop) (V k);
  fc_first : forall x y, nth_error L 0 = Some (x, y) -> x = x0;
  fc_next : forall j x y, nth_error L (S j) = Some (x, y) ->
    length x = n /\ forall i, i < n -> coordinate x i = cma_sample n (V (S j / pop)) (z (S j)) i
}.

(** the eigenvalue solver does what it promises *)
Definition solves (n : nat) (eigh : rmat -> rvec * rmat) : Prop :=
  forall C, symmetric n C -> definite n C -> eigenpairs n C (fst (eigh C)) (snd (eigh C)).

(** points moved by [t], and points in other units *)
Definition shift (t x : list R) : list R := map (fun p => (fst p + snd p)%R) (combine x t).
Definition rescale (c : R) (x : list R) : list R := map (Rmult c) x.
