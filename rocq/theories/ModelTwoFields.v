(** * One qubit with two driving fields (optimalcontrolproblems/OneQubitProblem_2fields.py).
    Numbers as in ModelQuantum.v; [np.cos], [np.sin] and [expm] are oracles. *)
From Coq Require Import ZArith.
From mathcomp Require Import all_ssreflect all_algebra.
From Verif Require Import Py ModelQuantum.
Import GRing.Theory Num.Theory.
Set Implicit Arguments.
Unset Strict Implicit.
Unset Printing Implicit Defensive.
Local Open Scope ring_scope.

Section TwoFields.
  Variable C : numClosedFieldType.
  Variable expm : 'M[C]_2 -> 'M[C]_2.
  Variables cosf sinf : C -> C.

  Definition sigma_y : 'M[C]_2 := mx22 0 (- 'i) 'i 0.
  (** OneQubitProblem_2fields.py:22-36 *)
  Definition hamiltonian_2fields (amplitude_t phase_t delta1 delta2 : C) : 'M[C]_2 :=
    2%:R^-1 *: (delta1 *: sigma_z C) + (amplitude_t * (1 + delta2)) *: (cosf phase_t *: sigma_x C + sinf phase_t *: sigma_y).
  (** OneQubitProblem_2fields.py:86-105: [for ii in range(amplitude.size)] with [amplitude[ii]], [phase[ii]] *)
  Definition time_evolution_2fields (amplitude phase : seq C) (dt delta1 delta2 : C) : res 'M[C]_2 :=
    for_list (iota 0 (size amplitude))
      (fun U ii => rbind (at_ amplitude ii) (fun a => rbind (at_ phase ii) (fun p =>
         Ok (expm ((- 'i * dt) *: hamiltonian_2fields a p delta1 delta2) *m U)))) 1%:M.

  (** OneQubitProblem_2fields.py:44-60; the two states as vectors instead of the text that is evaluated *)
  Record two_fields := TwoFields {
    f_target : 'cV[C]_2; f_initial : 'cV[C]_2; f_delta1 : C; f_delta2 : C;
    f_noise : option C }.          (* noise_factor if is_noisy *)
  (** OneQubitProblem_2fields.py:62-84: the entries "FoM" and "std" of the answer.  [rand] is the random number drawn if the figure of merit is
      noisy.  OneQubitProblem_2fields.py:107-115 is [get_fidelity] of ModelQuantum.v. *)
  Definition two_fields_FoM (Q : two_fields) (pulses : seq (seq C)) (parameters : seq C) (timegrids : seq (seq C)) (rand : C) : res (C * C) :=
    rbind (at_ pulses 0) (fun amplitude =>
    rbind (at_ pulses 1) (fun phase =>
    rbind (at_ timegrids 0) (fun timegrid =>
    rbind (at_ timegrid 1) (fun t1 =>
    rbind (at_ timegrid 0) (fun t0 =>
    rbind (time_evolution_2fields amplitude phase (t1 - t0) (f_delta1 Q) (f_delta2 Q)) (fun U =>
    let psi_f := U *m f_initial Q in
    let infidelity := 1 - get_fidelity (f_target Q) psi_f in
    Ok (if f_noise Q is Some f
        then (`|infidelity + f * 2%:R * (1 / 2%:R - rand)|, f * (6827%:R / 10000%:R))
        else (`|infidelity|, 0)))))))).
End TwoFields.
