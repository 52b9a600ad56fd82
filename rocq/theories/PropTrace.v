(** * C52: partial trace. *)
From Coq Require Import ZArith.
From mathcomp Require Import all_ssreflect all_algebra.
From Verif Require Import Py ModelTrace SpecTrace ProofTrace.
Import GRing.Theory.
Set Implicit Arguments.
Unset Strict Implicit.
Unset Printing Implicit Defensive.
Local Open Scope ring_scope.
Local Open Scope seq_scope.

Section C52.
  Variable T : zmodType.
  Variables (dims pos : seq nat) (state : array T).
  Let n := size dims.
  Let rem := dims_of dims (kept n pos).
  (** the positions are subsystems; the state is a square matrix of the right dimension *)
  Hypothesis inside : all (fun p => p < n)%N pos.
  Hypothesis square : shape state = [:: dimension dims; dimension dims].
  Notation rho := (fun i j => entry state [:: i; j]).

  (** the result sums over equal digits of the traced subsystems and keeps the others in order *)
  Theorem C52_reduced : uniq pos -> (size pos < n)%N -> exists r, partial_trace dims (map Z.of_nat pos) state = Ok r
    /\ shape r = [:: dimension rem; dimension rem]
    /\ forall a b, a \in strings rem -> b \in strings rem -> entry r [:: number rem a; number rem b] = reduced dims pos rho a b.
  Proof. exact: partial_traceE. Qed.
  (** the trace is preserved *)
  Theorem C52_trace r : uniq pos -> (size pos < n)%N -> partial_trace dims (map Z.of_nat pos) state = Ok r ->
    \sum_(k <- iota 0 (dimension rem)) entry r [:: k; k] = \sum_(k <- iota 0 (dimension dims)) entry state [:: k; k].
  Proof.
    move=> U S E. case: (partial_traceE inside square U S) => r2 [E2 [_ H]]. move: E. rewrite E2 => -[<-].
    rewrite (sum_strings rem (fun k => entry r2 [:: k; k])) (sum_strings dims (fun k => entry state [:: k; k])).
    rewrite -(sum_place inside U). rewrite big_seq [RHS]big_seq. apply: eq_bigr => a A. by rewrite H.
  Qed.
  (** every entry of the result is reached by digit strings *)
  Theorem C52_entries k : (k < dimension rem)%N -> exists2 a, a \in strings rem & k = number rem a.
  Proof.
    rewrite -totalE => K. exists (unravel rem k); first exact: unravel_strings. have := unravel_strings K => M. rewrite numberE ?(size_strings M) //.
    move: K. have : k \in iota 0 (total rem) -> k = ravel rem (unravel rem k); last by move=> Q K; apply: Q; rewrite mem_iota.
    rewrite -ravel_strings => /mapP [s S ->]. by rewrite ravelK.
  Qed.
  (** positions listed twice, and all subsystems, are refused *)
  Theorem C52_repeated : ~~ uniq pos -> partial_trace dims (map Z.of_nat pos) state = Err TypeError.
  Proof. exact: partial_trace_repeated. Qed.
  Theorem C52_all : uniq pos -> size pos = n -> partial_trace dims (map Z.of_nat pos) state = Err TypeError.
  Proof. exact: partial_trace_all. Qed.
End C52.
(** positions outside *)
Theorem C52_outside (T : zmodType) dims positions (state : array T) :
  has (fun p => Z.ltb p Z0 || Z.leb (Z.of_nat (size dims)) p) positions -> partial_trace dims positions state = Err ValueError.
Proof. exact: partial_trace_outside. Qed.
(** states of another size *)
Theorem C52_size (T : zmodType) dims pos (state : array T) : all (fun p => p < size dims)%N pos ->
  dimension (shape state) <> (dimension dims * dimension dims)%N -> partial_trace dims (map Z.of_nat pos) state = Err TypeError.
Proof. exact: partial_trace_size. Qed.
(** the axes are permuted exactly when the positions are different *)
Theorem C52_mask (dims pos : seq nat) : all (fun p => p < size dims)%N pos -> exists m, create_mask (map Z.of_nat pos) (size dims) = Ok m
  /\ (perm_eq m (iota 0 (size dims + size dims)) <-> uniq pos).
Proof.
  move=> H. exists (mask (size dims) pos). split; first exact: create_maskE. rewrite -(mask_perm H).
  split=> [P|/eqP E]; last by rewrite -E perm_sym perm_sort.
  apply/eqP. rewrite -[RHS](sorted_sort leq_trans (iota_sorted 0 (size dims + size dims))). by apply/(perm_sortP leq_total leq_trans anti_leq).
Qed.
(** the order of the positions does not matter *)
Theorem C52_order (T : zmodType) dims pos pos' (rho : nat -> nat -> T) a b : perm_eq pos pos' -> uniq pos ->
  reduced dims pos rho a b = reduced dims pos' rho a b.
Proof. exact: reduced_order. Qed.

(** two subsystems of dimensions 2 and 3 with entries 10 i + j; the first one is traced *)
Example C52_case : exists r, partial_trace [:: 2; 3]%N [:: Z0] (Array [:: 6; 6]%N (fun idx => Posz (10 * nth 0%N idx 0 + nth 0%N idx 1))) = Ok r
  /\ shape r = [:: 3; 3]%N /\ entry r [:: 1; 2]%N = Posz 57.
Proof. eexists. split; first reflexivity. split; first by []. by rewrite unlock. Qed.
Print Assumptions C52_reduced.
Print Assumptions C52_trace.
Print Assumptions C52_entries.
Print Assumptions C52_repeated.
Print Assumptions C52_all.
Print Assumptions C52_outside.
Print Assumptions C52_size.
Print Assumptions C52_mask.
Print Assumptions C52_order.
