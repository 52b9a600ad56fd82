(** * Number interface used by the model.

    The library computes with numpy/Python doubles.  The model is written once over an
    abstract interface [Num] of the operations that the sources use, and instantiated
    - with exact real numbers ([Rnum]), for statements that need field arithmetic, and
    - with bit-exact IEEE-754 binary64 ([F64]: infinities, signed zeros, NaN, rounding to
      nearest even), for statements that must survive floating point.

    Statements that only need comparisons are proved for every [Num] satisfying the order
    laws [NumOrder] below, which both instances satisfy (see [NumFacts.v]). *)

From Coq Require Import ZArith Reals.
From Flocq Require Import Core BinarySingleNaN.

(** Python/numpy number operations.  [nltb]/[nleb]/[neqb] are the Python comparisons
    [<], [<=], [==] (all false when an operand is NaN); [nisnan] is [numpy.isnan]. *)
Class Num := {
  num : Type;
  of_Z : Z -> num;
  nadd : num -> num -> num;
  nsub : num -> num -> num;
  nmul : num -> num -> num;
  ndiv : num -> num -> num;
  nabs : num -> num;
  nsqrt : num -> num;
  nltb : num -> num -> bool;
  nleb : num -> num -> bool;
  neqb : num -> num -> bool;
  nisnan : num -> bool
}.

Declare Scope num_scope.
Delimit Scope num_scope with num.
Bind Scope num_scope with num.
Infix "+" := nadd : num_scope.
Infix "-" := nsub : num_scope.
Infix "*" := nmul : num_scope.
Infix "/" := ndiv : num_scope.
Infix "<?" := nltb : num_scope.
Infix "<=?" := nleb : num_scope.

(** Exact reals.  Simplification: no rounding, no overflow, no NaN; [x/0] is Coq's [x * /0]. *)
#[global] Instance Rnum : Num := {|
  num := R;
  of_Z := IZR;
  nadd := Rplus;
  nsub := Rminus;
  nmul := Rmult;
  ndiv := Rdiv;
  nabs := Rabs;
  nsqrt := R_sqrt.sqrt;
  nltb := Rlt_bool;
  nleb := Rle_bool;
  neqb := Req_bool;
  nisnan := fun _ => false
|}.
(** lets Coq find [Rnum] from the type [R] *)
Canonical Structure Rnum.

(** IEEE-754 binary64, Flocq's executable formalisation (one NaN, round to nearest even).
    Simplification: numpy's warnings and NaN payloads are not represented. *)
Definition f64 : Set := binary_float 53 1024.
#[global] Instance f64_prec : Prec_gt_0 53 := eq_refl.
#[global] Instance f64_emax : Prec_lt_emax 53 1024 := eq_refl.

Definition f64_of_Z (z : Z) : f64 := binary_normalize 53 1024 _ _ mode_NE z 0 false.
(** [m * 2^e], for writing literals *)
Definition f64_lit (m e : Z) : f64 := binary_normalize 53 1024 _ _ mode_NE m e false.

Definition f64_nan : f64 := B754_nan.
Definition f64_inf : f64 := B754_infinity false.

Definition F64 : Num := {|
  num := f64;
  of_Z := f64_of_Z;
  nadd := Bplus mode_NE;
  nsub := Bminus mode_NE;
  nmul := Bmult mode_NE;
  ndiv := Bdiv mode_NE;
  nabs := Babs;
  nsqrt := Bsqrt mode_NE;
  nltb := Bltb;
  nleb := Bleb;
  neqb := Beqb;
  nisnan := is_nan
|}.

(** Laws of comparisons shared by reals and IEEE numbers (NaN included). *)
Record NumOrder (N : Num) : Prop := {
  nle_trans : forall a b c : num, nleb a b = true -> nleb b c = true -> nleb a c = true;
  nlt_le : forall a b : num, nltb a b = (nleb a b && negb (nleb b a))%bool;
  nle_total : forall a b : num, nisnan a = false -> nisnan b = false ->
      nleb a b = true \/ nleb b a = true;
  nle_nan_l : forall a b : num, nisnan a = true -> nleb a b = false;
  nle_nan_r : forall a b : num, nisnan b = true -> nleb a b = false
}.

(** Laws of exact arithmetic used by the statements about accumulated pulses: true of the reals (and of any ordered
    field), false of binary64. *)
Record NumExact (N : Num) : Prop := {
  nadd_comm : forall a b : num, (a + b)%num = (b + a)%num;
  nadd_assoc : forall a b c : num, (a + b + c)%num = (a + (b + c))%num;
  nadd_0 : forall a : num, (a + of_Z 0)%num = a;
  nmul_0 : forall a : num, (of_Z 0 * a)%num = of_Z 0;
  nadd_sub : forall a b : num, (a + (b - a))%num = b;
  nmul_1_r : forall a : num, (a * of_Z 1)%num = a;
  nle_antisym : forall a b : num, nleb a b = true -> nleb b a = true -> a = b;
  no_nan : forall a : num, nisnan a = false
}.

(** Laws of multiplication by the integers 1 and -1 (the direction factor of the library) and of
    its initial figure of merit 1e10, shared by reals and IEEE numbers. *)
Record NumSign (N : Num) : Prop := {
  nmul_1 : forall a : num, nmul (of_Z 1) a = a;
  nmul_neg_neg : forall a : num, nmul (of_Z (-1)) (nmul (of_Z (-1)) a) = a;
  nmul_neg_le : forall a b : num, nleb (nmul (of_Z (-1)) a) (nmul (of_Z (-1)) b) = nleb b a;
  nmul_neg_nan : forall a : num, nisnan (nmul (of_Z (-1)) a) = nisnan a;
  nceiling_num : nisnan (of_Z 10000000000 : num) = false
}.
