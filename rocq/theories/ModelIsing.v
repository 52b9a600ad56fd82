(** * Hamiltonians and states of the Ising problem (IsingModelProblem.py, IsingModelADProblem.py). *)
From Coq Require Import ZArith.
From mathcomp Require Import all_ssreflect all_algebra.
From Verif Require Import Py ModelQuantum.
Import GRing.Theory.
Set Implicit Arguments.
Unset Strict Implicit.
Unset Printing Implicit Defensive.
Local Open Scope ring_scope.
Local Open Scope seq_scope.

Section Ising.
  Variable R : comRingType.
  (** a square matrix: its dimension and entries *)
  Record square := Square { dim : nat; ent : nat -> nat -> R }.
  (** [np.kron] *)
  Definition kron (A B : square) : square :=
    Square (dim A * dim B) (fun i j => ent A (i %/ dim B) (j %/ dim B) * ent B (i %% dim B) (j %% dim B)).
  Definition zeros (n : nat) : square := Square n (fun _ _ => 0).
  (** [H + x * A] for matrices of the same shape *)
  Definition add_scaled (x : R) (H A : square) : square := Square (dim H) (fun i j => ent H i j + x * ent A i j).
  Definition two_by_two (a b c d : R) : square :=
    Square 2 (fun i j => match i, j with 0%N, 0%N => a | 0%N, _ => b | _, 0%N => c | _, _ => d end).
  Definition i2 := two_by_two 1 0 0 1.
  Definition sz := two_by_two 1 0 0 (-1).
  Definition sx := two_by_two 0 1 1 0.

  (** IsingModelProblem.py:23-31: [A[1]] is read without a check *)
  Definition tensor_together (A : seq square) : res square :=
    match A with A0 :: A1 :: rest => Ok (foldl kron (kron A0 A1) rest) | _ => Err IndexError end.

  (** a loop over the qubits that adds a term for each *)
  Fixpoint add_terms (js : seq nat) (term : nat -> res (seq square)) (x : R) (H : square) : res square :=
    if js is j :: js then rbind (term j) (fun rest => rbind (tensor_together rest) (fun A => add_terms js term x (add_scaled x H A))) else Ok H.
  (** [rest = [i2] * nqu; rest[idx1] = sz; rest[idx2] = sz] *)
  Definition coupling (nqu idx1 idx2 : nat) : res (seq square) :=
    rbind (py_set (nseq nqu i2) (Z.of_nat idx1) sz) (fun rest => py_set rest (Z.of_nat idx2) sz).
  (** IsingModelProblem.py:46-54, 62-72 *)
  Definition next_one (nqu j : nat) : nat := if (j.+1 == nqu)%N then 0%N else j.+1.
  Definition next_two (nqu j : nat) : nat := if (j.+1 == nqu)%N then 1%N else if (j.+2 == nqu)%N then 0%N else j.+2.
  (** IsingModelProblem.py:34-77 *)
  Definition get_static_hamiltonian (nqu : nat) (J g : R) : res square :=
    rbind (add_terms (iota 0 nqu) (fun j => coupling nqu j (next_one nqu j)) (- J) (zeros (2 ^ nqu))) (fun H0 =>
    add_terms (iota 0 nqu) (fun j => coupling nqu j (next_two nqu j)) (- g) H0).
  (** IsingModelProblem.py:80-97 *)
  Definition get_control_hamiltonian (nqu : nat) : res square :=
    add_terms (iota 0 nqu) (fun j => py_set (nseq nqu i2) (Z.of_nat j) sx) 1 (zeros (2 ^ nqu)).
  (** IsingModelProblem.py:100-108, 111-120 *)
  Definition get_initial_state (nqu : nat) : res square := tensor_together (nseq nqu (two_by_two 1 0 0 0)).
  Definition get_target_state (nqu : nat) : res square := tensor_together (nseq nqu (two_by_two 0 0 0 1)).
End Ising.

(** ** The problems made of them *)
Section Problem.
  Variable C : numClosedFieldType.
  (** the numpy array of dimension [2 ** nqu] as a matrix *)
  Definition matrix_of (nqu : nat) (A : square C) : 'M[C]_(2 ^ nqu) := \matrix_(i, j) ent A i j.
  (** IsingModelProblem.py:139-165.  [is_maximization] chooses the factor; the drift, the control and the states in this order *)
  Definition ising_problem (nqu : nat) (J g : C) (n_slices : nat) (is_maximization : bool) : res (ising_data C (2 ^ nqu)) :=
    rbind (get_static_hamiltonian nqu J g) (fun H_drift =>
    rbind (get_control_hamiltonian C nqu) (fun H_control =>
    rbind (get_initial_state C nqu) (fun rho_0 =>
    rbind (get_target_state C nqu) (fun rho_target =>
    Ok (IsingData n_slices (matrix_of nqu H_drift) (matrix_of nqu H_control) (matrix_of nqu rho_0) (matrix_of nqu rho_target)
          (if is_maximization then -1 else 1)))))).

  Section AD.
    Variable d : nat.
    Variable expm : 'M[C]_d -> 'M[C]_d.
    (** jax_utils.py:4-11 *)
    Definition fidelity_funct_AD (rho_evolved rho_aim : 'M[C]_d) : C := `|\tr (adj rho_evolved *m rho_aim)|.
    (** IsingModelADProblem.py:162-176.  [pulses] and [timegrids] are the rows of jax arrays; single precision is not modelled *)
    Definition get_propagator_AD (D : ising_data C d) (pulses timegrids : seq (seq C)) : 'M[C]_d :=
      let drive := clamped [::] pulses 0 in
      let time_grid := clamped [::] timegrids 0 in
      let dt := last 0 time_grid / (size time_grid)%:R in
      pw_final_evolution_AD expm [:: drive] (i_drift D) [:: i_control D] (i_slices D) dt 1%:M.
    (** IsingModelADProblem.py:178-192: no factor, no sign and no transposition *)
    Definition get_FoM_AD (D : ising_data C d) (pulses timegrids : seq (seq C)) : C :=
      let U_final := get_propagator_AD D pulses timegrids in
      let rho_final := U_final *m i_rho0 D *m adj U_final in
      fidelity_funct_AD rho_final (i_target D).
  End AD.
End Problem.
