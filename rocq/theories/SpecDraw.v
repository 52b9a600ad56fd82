(** * What it means that a client got an update drawn by a basis. *)
From Coq Require Import Reals List String.
From Verif Require Import Num Py ModelPulse ModelControls ModelBases SpecControls SpecCurves.
Import ListNotations.

(** the elementary functions of numpy and scipy, computed exactly *)
Definition real_functions : funs Rnum := mk_funs Rnum sin cos acos erf PI.

(** A client configured the controls, used them in some way and then asked with vector [x] for the bare updates.  For the pulse number
    [i] with configuration [f] the answer was [a]; [T] is the duration, [w] the random super-parameters, [v] the entries of [x] that
    belong to this pulse and [g] its time grid. *)
Definition update_drawn pl tl rl (x : list R) i (f : pulse_cfg (N := Rnum)) (T : R) (w v g : list R) (a : arr (N := Rnum)) : Prop :=
  exists c0 c c' us p,
    new_controls pl tl rl = Ok c0 /\ Forall plain_basis pl /\ reachable c0 c /\ get_bare_controls_lists x c = Ok (c', us) /\
    nth_error pl i = Some f /\ nth_error us i = Some a /\ nth_error (c_pulses c') i = Some p /\
    time_of (c_times c') (pf_time_name f) = Ok T /\ w = pc_w (core p) /\ g = pc_time_grid (core p) /\
    v = firstn (pf_nctrl f) (skipn (list_sum (map pf_nctrl (firstn i pl))) x).

(** The sigmoid bases with [k] random times: the entries 0..k of the vector are the heights; further entries shift the times (bases
    SigmoidTimeDep and SigmoidAllParas) and widen the steps (SigmoidSigmas and SigmoidAllParas).  SigmoidAllParas leaves out what has a
    variation of at most 1e-10. *)
Definition varied (variation : R) : bool := if Rlt_dec (1 / 10 ^ 10) variation then true else false.
Definition shift (b : basis_kind) (s : basis_settings (N := Rnum)) (v : list R) (i : nat) : R :=
  match b with
  | SigmoidTimeDep => nth (bs_k s + 1 + i) v 0 * bs_tau_var s / bs_ampl s
  | SigmoidAllParas => if varied (bs_tau_var s) then nth (bs_k s + 1 + i) v 0 * bs_tau_var s / bs_ampl s else 0
  | _ => 0
  end%R.
Definition widening (b : basis_kind) (s : basis_settings (N := Rnum)) (v : list R) (i : nat) : R :=
  match b with
  | SigmoidSigmas => Rabs (nth (bs_k s + 1 + i) v 0) * bs_sigma_var s
  | SigmoidAllParas => if varied (bs_sigma_var s)
      then Rabs (nth ((if varied (bs_tau_var s) then 2 * bs_k s + 1 else bs_k s + 1) + i) v 0) * bs_sigma_var s / bs_ampl s else 0
  | _ => 0
  end%R.
(** the width of a step at [tau]: between the configured width and the largest one that suits the nearer edge *)
Definition width_at (s : basis_settings (N := Rnum)) (T tau d : R) : R :=
  (bs_sigma s + (bs_sigma s * (Rmin tau (T - tau) / bs_offset s) - bs_sigma s) * (1 - cos (PI * d)) / 2)%R.
