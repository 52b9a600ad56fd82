(** * The dissipative example problems: Examples/LindbladProblem.py and Examples/IsingModelProblem_AD_Lindblad.py.
    Complex numbers are an arbitrary numerically closed field; single precision is not modelled.  [expm] of jax.scipy is an oracle. *)
From Coq Require Import ZArith.
From mathcomp Require Import all_ssreflect all_algebra.
From Verif Require Import Py ModelQuantum ModelIsing.
Import GRing.Theory Num.Theory.
Set Implicit Arguments.
Unset Strict Implicit.
Unset Printing Implicit Defensive.
Local Open Scope ring_scope.
Local Open Scope seq_scope.

(** ** A driven qubit that decays (LindbladProblem.py) *)
Section TLS.
  Variable C : numClosedFieldType.
  (** [jnp.array] of rows *)
  Definition of_rows {n} (l : seq (seq C)) : 'M[C]_n := \matrix_(i, j) nth 0 (nth [::] l i) j.
  (** LindbladProblem.py:84-91 *)
  Definition convert_rho_to_LFS (rho : 'M[C]_2) : 'cV[C]_4 := \col_i nth 0 [:: rho 0 0; rho 0 1; rho 1 0; rho 1 1] i.
  (** LindbladProblem.py:94-101 *)
  Definition convert_LFS_to_rho (v : 'cV[C]_4) : 'M[C]_2 := mx22 (v (inord 0) 0) (v (inord 1) 0) (v (inord 2) 0) (v (inord 3) 0).
  (** LindbladProblem.py:42-43 *)
  Definition tls_rho_0 : 'M[C]_2 := mx22 1 0 0 0.
  Definition tls_rho_target : 'M[C]_2 := mx22 2%:R^-1 ('i / 2%:R) (- ('i / 2%:R)) 2%:R^-1.
  (** LindbladProblem.py:48-52 *)
  Definition L_const (gamma E : C) : 'M[C]_4 :=
    of_rows [:: [:: 0; 0; 0; gamma];
                [:: 0; - 'i * E + gamma / 2%:R; 0; 0];
                [:: 0; 0; 'i * E - gamma / 2%:R; 0];
                [:: 0; 0; 0; - gamma]].
  (** LindbladProblem.py:54-58 *)
  Definition L_drive : 'M[C]_4 :=
    of_rows [:: [:: 0; 'i; - 'i; 0]; [:: 'i; 0; 0; - 'i]; [:: - 'i; 0; 0; 'i]; [:: 0; - 'i; 'i; 0]].

  Variable expm : 'M[C]_4 -> 'M[C]_4.
  (** LindbladProblem.py:106-125; an index beyond the end of a jax array is moved to the last entry ([clamped], ModelQuantum) *)
  Definition tls_evolution_final (rho_0 : 'cV[C]_4) (Lc Ld : 'M[C]_4) (drive time_grid : seq C) : 'cV[C]_4 :=
    let dt := last 0 time_grid / (size time_grid)%:R in
    foldl (fun val i => expm (dt *: (Lc + clamped 0 drive i *: Ld)) *m val) rho_0 (iota 0 (size time_grid)).
  (** LindbladProblem.py:138-145; [.T] of an array with one axis is the array *)
  Definition fidelity_funct_LFS (rho_evolved rho_aim : 'cV[C]_4) : C := sqrtC `|\sum_i (rho_evolved i 0)^* * rho_aim i 0|.
  (** LindbladProblem.py:60-66, 68-81 for the first pulse and the first time grid *)
  Definition tls_FoM (gamma E : C) (drive time_grid : seq C) : C :=
    fidelity_funct_LFS (tls_evolution_final (convert_rho_to_LFS tls_rho_0) (L_const gamma E) L_drive drive time_grid) (convert_rho_to_LFS tls_rho_target).
End TLS.

(** ** An Ising chain that dephases (IsingModelProblem_AD_Lindblad.py) *)
Section Dephasing.
  Variable C : numClosedFieldType.
  Notation square := (square C).
  (** IsingModelProblem_AD_Lindblad.py:122-126 *)
  Definition half_sz : square := two_by_two 2%:R^-1 0 0 (- 2%:R^-1).
  Definition half_sx : square := two_by_two 0 2%:R^-1 2%:R^-1 0.
  (** IsingModelProblem_AD_Lindblad.py:129-139: one operator for the whole chain, the sum over the spins *)
  Definition get_dephasing_Lindbladian (nqu : nat) (gamma : C) : res square :=
    add_terms (iota 0 nqu) (fun j => py_set (nseq nqu (i2 C)) (Z.of_nat j) half_sz) (sqrtC gamma) (zeros C (2 ^ nqu)).
  (** [rest[idx1] = sz; rest[idx2] = sz] *)
  Definition half_coupling (nqu idx1 idx2 : nat) : res (seq square) :=
    rbind (py_set (nseq nqu (i2 C)) (Z.of_nat idx1) half_sz) (fun rest => py_set rest (Z.of_nat idx2) half_sz).
  (** IsingModelProblem_AD_Lindblad.py:152-187 *)
  Definition half_static_hamiltonian (nqu : nat) (J g : C) : res square :=
    rbind (add_terms (iota 0 nqu) (fun j => half_coupling nqu j (next_one nqu j)) (- J) (zeros C (2 ^ nqu))) (fun H0 =>
    add_terms (iota 0 nqu) (fun j => half_coupling nqu j (next_two nqu j)) (- g) H0).
  (** IsingModelProblem_AD_Lindblad.py:190-199 *)
  Definition half_control_hamiltonian (nqu : nat) : res square :=
    add_terms (iota 0 nqu) (fun j => py_set (nseq nqu (i2 C)) (Z.of_nat j) half_sx) 1 (zeros C (2 ^ nqu)).

  Section Dim.
    Variable d : nat.
    Notation M := 'M[C]_d.
    (** IsingModelProblem_AD_Lindblad.py:58-63 with the Hamiltonian [H] of the moment *)
    Definition LME (H L rho : M) : M :=
      - 'i *: (H *m rho - rho *m H) + L *m rho *m adj L - 2%:R^-1 *: (L *m adj L *m rho) - 2%:R^-1 *: (rho *m L *m adj L).
    (** IsingModelProblem_AD_Lindblad.py:212-221 *)
    Definition fom_funct (rho_evolved rho_aim : M) : C := sqrtC `|\tr (adj rho_evolved *m rho_aim)|.
  End Dim.
End Dephasing.
