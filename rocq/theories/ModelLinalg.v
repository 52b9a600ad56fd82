(** * Vectors: model of quocslib/tools/linearalgebra.py (start simplex) and of the numpy reductions used by
    the stopping criteria. *)
From Coq Require Import ZArith List Bool.
From Verif Require Import Num Py.
Import ListNotations.
Open Scope list_scope.

Section Linalg.
  Context {N : Num}.

  (** one-dimensional numpy arrays *)
  Definition vec := list num.

  (** [a + b], [a - b], [c * a], [a / c] on arrays of equal length *)
  Definition vadd (a b : vec) : vec := map2 nadd a b.
  Definition vsub (a b : vec) : vec := map2 nsub a b.
  Definition vscale (c : num) (a : vec) : vec := map (fun y => (c * y)%num) a.
  Definition vdiv (a : vec) (c : num) : vec := map (fun y => (y / c)%num) a.

  (** numpy.dot of two vectors and numpy.linalg.norm; simplification: summation from left to right *)
  Definition dot (u v : vec) : num := nsum (map2 nmul u v).
  Definition norm (u : vec) : num := nsqrt (dot u u).

  (** linearalgebra.py:45-47: [A[:, j] -= np.dot(u_k, A[:, j]) * u_k / np.linalg.norm(u_k)**2] *)
  Definition gs_sub (v u : vec) : vec :=
    vsub v (map (fun y => (dot u v * y / (norm u * norm u))%num) u).
  (** linearalgebra.py:45-48: one column *)
  Definition gs_col (done : list vec) (v : vec) : vec :=
    let w := fold_left gs_sub done v in vdiv w (norm w).
  (** linearalgebra.py:32-49, on the list of columns *)
  Fixpoint gram_schmidt_from (done cols : list vec) : list vec :=
    match cols with
    | [] => done
    | v :: cols => gram_schmidt_from (done ++ [gs_col done v]) cols
    end.
  Definition gram_schmidt (cols : list vec) : list vec := gram_schmidt_from [] cols.

  (** row [i] of numpy.diag(numpy.ones(n)) *)
  Definition unit_row (n i : nat) : vec := map (fun j => if Nat.eqb i j then of_Z 1 else of_Z 0) (seq 0 n).

  (** entry [i] of a vector (only used inside its length) *)
  Definition entry (i : nat) (v : vec) : num := nth i v (of_Z 0).
  (** row [i] of the matrix with the given columns *)
  Definition row_of (cols : list vec) (i : nat) : vec := map (entry i) cols.

  (** linearalgebra.py:66-76: the rows of [simplex_matrix]; the random array is added to row 0 *)
  Definition simplex_rows (n : nat) (r : vec) : list vec :=
    map (fun i => let e := unit_row n i in
                  if Nat.eqb i 0
                  then vadd e (map (fun y => (nsqrt (of_Z 3) * (y - of_Z 1 / of_Z 2) * of_Z 2)%num) r)
                  else e) (seq 0 n).

  (** linearalgebra.py:52-87.  [gram_schmidt(simplex_matrix.T)] orthonormalises the columns of the transposed
      matrix, i.e. the rows above; [@ np.diag(sigma)] scales column [j] by [sigma_j] (simplification: the zero
      terms of the matrix product are dropped).  [r] is the random array; an empty start point raises at
      [simplex_matrix[0, :]]. *)
  Definition simplex_creation (mean sigma r : vec) : res (list vec) :=
    let n := length mean in
    match n with
    | O => Err IndexError
    | S _ =>
        let cols := gram_schmidt (simplex_rows n r) in
        let rows := map (fun i => map2 nmul (row_of cols i) sigma) (seq 0 n) in
        Ok (map (fun d => vadd d mean) (zeros n :: rows))
    end.

  (** numpy.std *)
  Definition nstd (l : list num) : num :=
    let m := nmean l in nsqrt (nmean (map (fun y => (nabs (y - m) * nabs (y - m))%num) l)).

  (** slope of numpy.polyfit(range(n), ys, 1), n = len(ys): the closed formula of the least-squares line
      (numpy obtains it by a singular value decomposition) *)
  Definition fit_slope (ys : list num) : num :=
    let n := length ys in
    let xs := map (fun i => of_Z (Z.of_nat i)) (seq 0 n) in
    let cn := of_Z (Z.of_nat n) in
    ((cn * dot xs ys - nsum xs * nsum ys) / (cn * dot xs xs - nsum xs * nsum xs))%num.

  (** [l[-n:]] for a positive n *)
  Definition last_n {A} (n : nat) (l : list A) : list A := skipn (length l - n) l.
End Linalg.
