(** * Quantum part: time evolution, GRAPE gradient, Liouvillian helper and the bundled one-qubit and Ising problems.
    Complex numbers are an arbitrary numerically closed field [C] (for instance the algebraic numbers); rounding is not
    modelled.  [scipy.linalg.expm] and [scipy.linalg.sqrtm] are oracles: arbitrary functions on matrices. *)
From Coq Require Import ZArith.
From mathcomp Require Import all_ssreflect all_algebra.
From mathcomp.real_closed Require Import mxtens.
From Verif Require Import Py.
Import GRing.Theory Num.Theory.
Set Implicit Arguments.
Unset Strict Implicit.
Unset Printing Implicit Defensive.
Local Open Scope ring_scope.

(** ** numpy and python helpers *)
Section Helpers.
  Variable C : numClosedFieldType.
  (** [M.T.conj()] *)
  Definition adj {m n} (M : 'M[C]_(m, n)) : 'M[C]_(n, m) := map_mx conjC M^T.
  (** [l[i]] for an index that is not negative *)
  Definition at_ {A} (l : seq A) (i : nat) : res A := if List.nth_error l i is Some x then Ok x else Err IndexError.
  (** [l[-1]] *)
  Definition last_ {A} (l : seq A) : res A := py_nth l (Zneg 1).
  (** [for t in ts: s = f s t], ended by the first exception *)
  Fixpoint for_list {S} (ts : seq nat) (f : S -> nat -> res S) (s : S) : res S :=
    if ts is t :: ts then rbind (f s t) (for_list ts f) else Ok s.
End Helpers.
Arguments adj {C m n} M.

Section Evolution.
  Variables (C : numClosedFieldType) (d : nat).
  Variable expm : 'M[C]_d -> 'M[C]_d.
  Notation M := 'M[C]_d.

  (** piecewise_integrator.py:35-37, 56-58: [H = A; for k in range(K): H = H + drive[k, i] * B[k]].  The array [drive] is
      the list of its rows. *)
  Fixpoint add_controls (drive : seq (seq C)) (B : seq M) (k i : nat) (H : M) : res M :=
    if B is b :: B then rbind (at_ drive k) (fun row => rbind (at_ row i) (fun x => add_controls drive B k.+1 i (H + x *: b))) else Ok H.
  (** piecewise_integrator.py:35-38: [expm(-1j * dt * H)] of slice [i] *)
  Definition slice (drive : seq (seq C)) (A : M) (B : seq M) (dt : C) (i : nat) : res M :=
    rbind (add_controls drive B 0 i A) (fun H => Ok (expm ((- 'i * dt) *: H))).

  (** piecewise_integrator.py:20-39.  The list [U_store] is updated in place: the result is its contents afterwards together
      with the outcome of the call. *)
  Fixpoint evolution_from (drive : seq (seq C)) (A : M) (B : seq M) (dt : C) (n i : nat) (U_store : seq M) : seq M * res unit :=
    if n is n.+1 then
      match slice drive A B dt i with
      | Err e => (U_store, Err e)
      | Ok U => match py_set U_store (Z.of_nat i) U with
                | Err e => (U_store, Err e)
                | Ok U_store => evolution_from drive A B dt n i.+1 U_store
                end
      end
    else (U_store, Ok tt).
  Definition pw_evolution (U_store : seq M) drive A B (n_slices : nat) dt : seq M * res unit :=
    evolution_from drive A B dt n_slices 0 U_store.

  (** piecewise_integrator.py:42-61 *)
  Definition pw_final_evolution drive A B (n_slices : nat) dt (U0 : M) : res M :=
    for_list (iota 0 n_slices) (fun U i => rbind (slice drive A B dt i) (fun S => Ok (S *m U))) U0.

  (** reading a jax array: an index beyond the end is moved to the last entry (jax never raises IndexError).  Simplification:
      arrays without entries answer 0 here (jax refuses them). *)
  Definition clamped {A} (x0 : A) (l : seq A) (i : nat) : A := nth x0 l (minn i (size l).-1).
  (** piecewise_integrator_AD.py:102-106 *)
  Definition hamiltonian_AD (drive : seq (seq C)) (A : M) (B : seq M) (i : nat) : M :=
    foldl (fun H kb => H + clamped 0 (clamped [::] drive kb.1) i *: kb.2) A (zip (iota 0 (size B)) B).
  (** piecewise_integrator_AD.py:86-111: [fori_loop] over the slices.  Simplification: single precision is not modelled *)
  Definition pw_final_evolution_AD drive A B (n_slices : nat) dt (U0 : M) : M :=
    foldl (fun U i => expm ((- 'i * dt) *: hamiltonian_AD drive A B i) *m U) U0 (iota 0 n_slices).
  (** a jax array is immutable: [x.at[i].set(v)] is a new array; an index beyond the end is ignored *)
  Definition at_set {A} (l : seq A) (i : nat) (v : A) : seq A := set_nth l i v.
  (** piecewise_integrator_AD.py:43-62: the array returned by [at[i].set] in line 61 is not assigned to anything *)
  Definition pw_evolution_AD (U_store : seq M) drive A B (n_slices : nat) (dt : C) : seq M :=
    foldl (fun U_store i => let _ := at_set U_store i (expm ((- 'i * dt) *: hamiltonian_AD drive A B i)) in U_store) U_store (iota 0 n_slices).
End Evolution.

(** ** GRAPE *)
Section Grape.
  Variables (C : numClosedFieldType) (d : nat).
  Notation M := 'M[C]_d.

  (** linearalgebra.py:21-29 *)
  Definition commutator (A B : M) : M := A *m B - B *m A.

  (** GRAPEAlgorithm.py:96-100: the storage arrays have the element type of the target state: if that is a real array, numpy
      drops the imaginary part of everything stored. *)
  Definition stored (real_dtype : bool) (X : M) : M := if real_dtype then map_mx (fun z => 'Re z) X else X.

  Record grape := Grape { rho_storage : seq M; corho_storage : seq M }.
  (** GRAPEAlgorithm.py:93-100 *)
  Definition grape_new (real_dtype : bool) (n_slices : nat) (initial target : M) : grape :=
    Grape (stored real_dtype initial :: nseq n_slices 0) (rcons (nseq n_slices 0) (stored real_dtype target)).

  (** GRAPEAlgorithm.py:159-165, one slice *)
  Definition forward_step (state_transfer real_dtype : bool) (U_store : seq M) (rho_store : seq M) (t : nat) : res (seq M) :=
    rbind (at_ U_store t) (fun U => rbind (at_ rho_store t) (fun r =>
      py_set rho_store (Z.of_nat t.+1) (stored real_dtype (if state_transfer then U *m r *m adj U else U *m r)))).
  (** GRAPEAlgorithm.py:166-171, one slice *)
  Definition backward_step (state_transfer real_dtype : bool) (U_store : seq M) (corho_store : seq M) (t : nat) : res (seq M) :=
    rbind (at_ U_store t) (fun U => rbind (at_ corho_store t.+1) (fun c =>
      py_set corho_store (Z.of_nat t) (stored real_dtype (if state_transfer then adj U *m c *m U else c *m adj U)))).
  (** GRAPEAlgorithm.py:173-181, one entry; there is always exactly one control Hamiltonian ([K = len([...])], line 155) *)
  Definition gradient_entry (state_transfer : bool) (dt : C) (B : M) (rho_store corho_store : seq M) (t : nat) : res C :=
    rbind (at_ rho_store t) (fun r => rbind (at_ corho_store t) (fun c =>
      Ok (if state_transfer then 'Re (\tr (('i * dt) *: adj c *m commutator B r)) else 0))).
  (** GRAPEAlgorithm.py:135-184 for the propagators [U_store] returned by the user's function and
      [dt = time_grid[-1] / len(time_grid)].  Simplification: when an exception leaves the call the storage arrays stay as they
      were (the loops overwrite them in any case). *)
  Definition get_gradient (state_transfer real_dtype : bool) (n_slices : nat) (dt : C) (B : M) (U_store : seq M) (G : grape) : res (grape * seq C) :=
    rbind (for_list (iota 0 n_slices) (forward_step state_transfer real_dtype U_store) (rho_storage G)) (fun rho_store =>
    rbind (for_list (rev (iota 0 n_slices)) (backward_step state_transfer real_dtype U_store) (corho_storage G)) (fun corho_store =>
    rbind (rmap (gradient_entry state_transfer dt B rho_store corho_store) (iota 0 n_slices)) (fun grads =>
    Ok (Grape rho_store corho_store, grads)))).
End Grape.

(** ** Liouvillian helper *)
Section Liouville.
  Variables (C : numClosedFieldType) (d : nat).
  (** linearalgebra.py:115-121; [*t] is the Kronecker product *)
  Definition to_sup_op (H : 'M[C]_d) : 'M[C]_(d * d) := (1%:M : 'M[C]_d) *t H - adj H *t (1%:M : 'M[C]_d).
  (** linearalgebra.py:124-128: row by row *)
  Definition to_vec (rho : 'M[C]_d) : 'cV[C]_(d * d) :=
    \matrix_(k, _) rho (mxtens_unindex k).1 (mxtens_unindex k).2.
End Liouville.

(** ** OneQubitProblem.py *)
Section OneQubit.
  Variable C : numClosedFieldType.
  Variable expm : 'M[C]_2 -> 'M[C]_2.

  Definition mx22 (a b c e : C) : 'M[C]_2 := \matrix_(i, j) (if val i == 0%N then (if val j == 0%N then a else b) else (if val j == 0%N then c else e)).
  Definition sigma_x : 'M[C]_2 := mx22 0 1 1 0.
  Definition sigma_z : 'M[C]_2 := mx22 1 0 0 (-1).
  (** OneQubitProblem.py:23-35 *)
  Definition hamiltonian_d1_d2 (drive delta1 delta2 : C) : 'M[C]_2 :=
    (delta1 / 2%:R) *: sigma_z + ((drive + delta2) / 2%:R) *: sigma_x.
  (** OneQubitProblem.py:120-134 *)
  Definition time_evolution (drive : seq C) (dt delta1 delta2 : C) : 'M[C]_2 :=
    foldl (fun U x => expm ((- 'i * dt) *: hamiltonian_d1_d2 x delta1 delta2) *m U) 1%:M drive.
  (** scipy.linalg.norm of a vector *)
  Definition vnorm {n} (v : 'cV[C]_n) : C := sqrtC (\sum_i `|v i 0| ^+ 2).
  (** OneQubitProblem.py:137-145 *)
  Definition get_fidelity {n} (psi1 psi2 : 'cV[C]_n) : C := `|(adj psi1 *m psi2) 0 0| ^+ 2 / (vnorm psi1 * vnorm psi2).

  Record one_qubit := OneQubit {
    q_target : 'cV[C]_2; q_initial : 'cV[C]_2; q_delta1 : C; q_delta2 : C;
    q_noise : option C;            (* noise_factor if is_noisy *)
    q_drift : option C;            (* linear_drift_val_over_iteration if include_drift *)
    q_factor : C;                  (* optimization_factor *)
    q_evals : nat }.               (* FoM_eval_number *)
  (** OneQubitProblem.py:81-118.  [rand] is the random number drawn if the figure of merit is noisy; the entry "std" of the answer
      and the list of values are left out.  [delta1] is assigned before the time grid is read, so it stays when the call raises. *)
  Definition one_qubit_FoM (Q : one_qubit) (pulses : seq (seq C)) (parameters : seq C) (timegrids : seq (seq C)) (rand : C) : one_qubit * res C :=
    match at_ pulses 0 with
    | Err e => (Q, Err e)
    | Ok drive =>
        let delta1 := if parameters is p :: _ then p else q_delta1 Q in
        let Q := OneQubit (q_target Q) (q_initial Q) delta1 (q_delta2 Q) (q_noise Q) (q_drift Q) (q_factor Q) (q_evals Q) in
        match rbind (at_ timegrids 0) (fun grid => rbind (at_ grid 1) (fun t1 => rbind (at_ grid 0) (fun t0 => Ok (t1 - t0)))) with
        | Err e => (Q, Err e)
        | Ok dt =>
            let psi_f := time_evolution drive dt delta1 (q_delta2 Q) *m q_initial Q in
            let infidelity := 1 - get_fidelity (q_target Q) psi_f in
            let infidelity := if q_noise Q is Some f then infidelity + f * 2%:R * (1 / 2%:R - rand) else infidelity in
            let infidelity := if q_drift Q is Some v then infidelity + v * (q_evals Q)%:R else infidelity in
            (OneQubit (q_target Q) (q_initial Q) delta1 (q_delta2 Q) (q_noise Q) (q_drift Q) (q_factor Q) (q_evals Q).+1,
             Ok (-1 * q_factor Q * infidelity))
        end
    end.
End OneQubit.

(** ** IsingModelProblem.py *)
Section Ising.
  Variables (C : numClosedFieldType) (d : nat).
  Variables expm sqrtm : 'M[C]_d -> 'M[C]_d.
  Notation M := 'M[C]_d.

  (** IsingModelProblem.py:123-130 *)
  Definition fidelity_funct (rho_evolved rho_aim : M) : C :=
    `|\tr (sqrtm (sqrtm rho_evolved *m rho_aim *m sqrtm rho_evolved))| ^+ 2.

  (** the fixed data of the problem and its memory (IsingModelProblem.py:138-165) *)
  Record ising_data := IsingData { i_slices : nat; i_drift : M; i_control : M; i_rho0 : M; i_target : M; i_factor : C }.
  Record ising := Ising { prop_store : seq M; propagators_are_computed : bool }.
  Definition ising_new (D : ising_data) : ising := Ising (nseq (i_slices D) 0) false.

  (** IsingModelProblem.py:179-197.  [prop_store] is updated in place, also when the call raises. *)
  Definition get_propagator (D : ising_data) (pulses timegrids : seq (seq C)) (X : ising) : ising * res unit :=
    match at_ pulses 0, at_ timegrids 0 with
    | Ok drive, Ok grid =>
        match last_ grid with
        | Ok T => let '(store, r) := pw_evolution expm (prop_store X) [:: drive] (i_drift D) [:: i_control D] (i_slices D) (T / (size grid)%:R) in
                  match r with
                  | Ok _ => (Ising store true, Ok tt)
                  | Err e => (Ising store (propagators_are_computed X), Err e)
                  end
        | Err e => (X, Err e)
        end
    | Err e, _ => (X, Err e)
    | _, Err e => (X, Err e)
    end.

  (** [functools.reduce(lambda a, b: b @ a, l)] *)
  Definition reduce_ (l : seq M) : res M := if l is a :: l then Ok (foldl (fun a b => b *m a) a l) else Err TypeError.

  (** IsingModelProblem.py:199-219.  The list of values is left out. *)
  Definition get_FoM (D : ising_data) (pulses timegrids : seq (seq C)) (X : ising) : ising * res C :=
    let '(X, r) := if propagators_are_computed X then (X, Ok tt) else get_propagator D pulses timegrids X in
    match r with
    | Err e => (X, Err e)
    | Ok _ =>
        let X := Ising (prop_store X) false in
        match reduce_ (prop_store X) with
        | Err e => (X, Err e)
        | Ok U => let rho_final := U *m i_rho0 D *m adj U in
                  (X, Ok (-1 * i_factor D * fidelity_funct rho_final^T (i_target D)))
        end
    end.
End Ising.
