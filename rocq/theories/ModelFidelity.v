(** * Fidelities and matrix helpers written for JAX (tools/fidelities.py, tools/operations.py).
    Complex numbers are an arbitrary numerically closed field; rounding, single precision and tracing by JAX are not modelled. *)
From mathcomp Require Import all_ssreflect all_algebra.
From Verif Require Import ModelQuantum.
Import GRing.Theory Num.Theory.
Set Implicit Arguments.
Unset Strict Implicit.
Unset Printing Implicit Defensive.
Local Open Scope ring_scope.

Section Fidelities.
  Variables (C : numClosedFieldType) (d : nat).
  Notation M := 'M[C]_d.
  (** oracles: jnp.linalg.eigvals, jsp.linalg.sqrtm, jnp.linalg.eigh (eigenvalues, matrix of eigenvectors), jnp.linalg.inv, jsp.linalg.expm *)
  Variables (eigvals : M -> seq C) (sqrtm : M -> M) (eigh : M -> 'rV[C]_d * M) (inv : M -> M) (expm : M -> M).

  (** fidelities.py:22-32 *)
  Definition fidelity_AD (sqrtm_a b : M) : C :=
    let eig_vals := eigvals (sqrtm_a *m b *m sqrtm_a) in
    let eig_vals := [seq 'Re l | l <- eig_vals] in
    let eig_vals := [seq if 0 < l then l else 0 | l <- eig_vals] in
    (\sum_(l <- eig_vals) sqrtC l) ^+ 2.
  (** fidelities.py:34-51 *)
  Definition fidelity_not_diff_due_to_sqrtm (rho sigma : M) : C :=
    let sqrt_rho := sqrtm rho in
    let product := sqrt_rho *m sigma *m sqrt_rho in
    let sqrt_product := sqrtm product in
    'Re (\tr sqrt_product).

  (** operations.py:21-23: [outer(state, conj(state))] *)
  Definition state_to_dm (state : 'cV[C]_d) : M := \matrix_(i, j) (state i 0 * (state j 0)^*).
  (** operations.py:25-31; the roots of negative eigenvalues, NaN in JAX, are imaginary here *)
  Definition sqrtm_ (a : M) : M :=
    let (eig_vals, V) := eigh a in
    let sqrt_eig_vals := map_mx sqrtC eig_vals in
    V *m diag_mx sqrt_eig_vals *m inv V.
  (** operations.py:33-51; [offset] is not used *)
  Definition displace (a : M) (alpha : C) : M :=
    let a_dag := adj a in
    expm (alpha *: a_dag - alpha^* *: a).
End Fidelities.
