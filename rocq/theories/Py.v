(** * Python values and numpy one-dimensional arrays used by the model. *)
From Coq Require Import String ZArith List Bool.
From Verif Require Import Num.
Import ListNotations.
Open Scope list_scope.

(** Exceptions that can leave the modelled functions.  [UserError]: raised by user supplied
    code; [OutOfFuel]: for the examples only, never a Python exception. *)
Inductive exn :=
| IndexError | ValueError | TypeError | AttributeError | KeyError
| ZeroDivisionError | FileExistsError | ImportError | UserError | OutOfFuel.

Inductive res (A : Type) := Ok (a : A) | Err (e : exn).
Arguments Ok {A} a.
Arguments Err {A} e.

Definition rbind {A B} (m : res A) (k : A -> res B) : res B :=
  match m with Ok a => k a | Err e => Err e end.

Declare Scope res_scope.
Delimit Scope res_scope with res.
Notation "x <-! m ; k" := (rbind m (fun x => k)) (at level 60, m at next level, right associativity) : res_scope.
Notation "' p <-! m ; k" := (rbind m (fun p => k)) (at level 60, p pattern, m at next level, right associativity) : res_scope.
Open Scope res_scope.

(** list comprehension whose body may raise *)
Fixpoint rmap {A B} (f : A -> res B) (l : list A) : res (list B) :=
  match l with
  | [] => Ok []
  | a :: l => b <-! f a; bs <-! rmap f l; Ok (b :: bs)
  end.

(** [l[i]] with Python's negative indices *)
Definition py_nth {A} (l : list A) (i : Z) : res A :=
  let n := Z.of_nat (length l) in
  let j := if (i <? 0)%Z then (i + n)%Z else i in
  if ((j <? 0) || (n <=? j))%Z%bool then Err IndexError
  else match nth_error l (Z.to_nat j) with Some a => Ok a | None => Err IndexError end.

(** [l[idx]] with a list of indices (numpy fancy indexing) *)
Definition gather {A} (l : list A) (idx : list Z) : res (list A) := rmap (py_nth l) idx.

(** replace entry number [i] (no effect outside) *)
Fixpoint set_nth {A} (l : list A) (i : nat) (v : A) : list A :=
  match l, i with
  | [], _ => []
  | _ :: l, O => v :: l
  | a :: l, S i => a :: set_nth l i v
  end.

(** [l[i] = v] *)
Definition py_set {A} (l : list A) (i : Z) (v : A) : res (list A) :=
  let n := Z.of_nat (length l) in
  let j := if (i <? 0)%Z then (i + n)%Z else i in
  if ((j <? 0) || (n <=? j))%Z%bool then Err IndexError
  else Ok (set_nth l (Z.to_nat j) v).

(** [l[idx] = vs] with a list of indices: entry by entry, in order *)
Fixpoint scatter_list {A} (l : list A) (idx : list Z) (vs : list A) : res (list A) :=
  match idx, vs with
  | i :: idx, v :: vs => l' <-! py_set l i v; scatter_list l' idx vs
  | _, _ => Ok l
  end.
(** numpy's shape check for [l[idx] = vs]: equal length, or a single value that is broadcast *)
Definition scatter {A} (l : list A) (idx : list Z) (vs : list A) : res (list A) :=
  if Nat.eqb (length idx) (length vs) then scatter_list l idx vs
  else match vs with
       | [v] => scatter_list l idx (repeat v (length idx))
       | _ => Err ValueError
       end.

Fixpoint map2 {A B C} (f : A -> B -> C) (l : list A) (m : list B) : list C :=
  match l, m with
  | a :: l, b :: m => f a b :: map2 f l m
  | _, _ => []
  end.

Section Arr.
  Context {N : Num}.

  (** numpy value that is a scalar or a one-dimensional array *)
  Inductive arr := Sc (x : num) | Ar (l : list num).

  Definition amap (f : num -> num) (a : arr) : arr :=
    match a with Sc x => Sc (f x) | Ar l => Ar (map f l) end.

  (** numpy broadcasting of a binary operation on one-dimensional operands *)
  Definition abin (f : num -> num -> num) (a b : arr) : res arr :=
    match a, b with
    | Sc x, Sc y => Ok (Sc (f x y))
    | Sc x, Ar m => Ok (Ar (map (f x) m))
    | Ar l, Sc y => Ok (Ar (map (fun x => f x y) l))
    | Ar l, Ar m =>
        if Nat.eqb (length l) (length m) then Ok (Ar (map2 f l m))
        else match l, m with
             | [x], _ => Ok (Ar (map (f x) m))
             | _, [y] => Ok (Ar (map (fun x => f x y) l))
             | _, _ => Err ValueError
             end
    end.

  (** [a += b]: for an array the result must keep the shape of [a] *)
  Definition aiadd (a b : arr) : res arr :=
    match a with
    | Sc _ => abin nadd a b
    | Ar l =>
        r <-! abin nadd a b;
        match r with
        | Ar m => if Nat.eqb (length m) (length l) then Ok r else Err ValueError
        | Sc _ => Ok r
        end
    end.

  (** numpy.minimum / numpy.maximum on scalars: NaN in either operand is propagated *)
  Definition npmin (a b : num) : num := if (nisnan a || (a <=? b)%num)%bool then a else b.
  Definition npmax (a b : num) : num := if (nisnan a || (b <=? a)%num)%bool then a else b.

  (** numpy.amax / numpy.amin of an array (ValueError on an empty one) *)
  Definition amax (l : list num) : res num :=
    match l with [] => Err ValueError | x :: l => Ok (fold_left npmax l x) end.
  Definition amin (l : list num) : res num :=
    match l with [] => Err ValueError | x :: l => Ok (fold_left npmin l x) end.

  (** numpy.sum; simplification: left to right, numpy adds pairwise for long arrays *)
  Definition nsum (l : list num) : num := fold_left nadd l (of_Z 0).

  (** numpy.mean *)
  Definition nmean (l : list num) : num := (nsum l / of_Z (Z.of_nat (length l)))%num.

  (** numpy.zeros *)
  Definition zeros (n : nat) : list num := repeat (of_Z 0) n.

  (** numpy.linspace(0, stop, n): arange(0,n)*step + 0, the last point overwritten by stop *)
  Definition linspace0 (stop : num) (n : nat) : list num :=
    let start := of_Z 0 in
    let delta := (stop - start)%num in
    let idx := map (fun i => of_Z (Z.of_nat i)) (seq 0 n) in
    match n with
    | O => []
    | S O => map (fun y => (y * delta + start)%num) idx
    | S (S _ as d) =>
        let div := of_Z (Z.of_nat d) in
        let step := (delta / div)%num in
        let y := if neqb step (of_Z 0)
                 then map (fun y => (y / div * delta + start)%num) idx
                 else map (fun y => (y * step + start)%num) idx in
        set_nth y d stop
    end.
End Arr.

(** Python dictionaries with string keys: insertion ordered association lists *)
Definition dict (V : Type) := list (string * V).
Fixpoint dget {V} (d : dict V) (k : string) : option V :=
  match d with
  | [] => None
  | (k', v) :: d => if String.eqb k k' then Some v else dget d k
  end.
(** [d[k] = v]: an existing key keeps its position *)
Fixpoint dset {V} (d : dict V) (k : string) (v : V) : dict V :=
  match d with
  | [] => [(k, v)]
  | (k', v') :: d => if String.eqb k k' then (k', v) :: d else (k', v') :: dset d k v
  end.
Definition dmem {V} (d : dict V) (k : string) : bool :=
  match dget d k with Some _ => true | None => false end.
(** [{**d, **e}] *)
Definition dmerge {V} (d e : dict V) : dict V := fold_left (fun d kv => dset d (fst kv) (snd kv)) e d.
