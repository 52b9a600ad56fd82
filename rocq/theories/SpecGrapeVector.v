(** * Vocabulary for gradients: one entry of a vector changed, the first pulse and its time grid *)
From Coq Require Import List.
From Verif Require Import Num Py ModelPulse ModelControls.
Import ListNotations.
Open Scope list_scope.

(** the vector [x] with [t] in place of entry [j] *)
Definition put {A : Type} (j : nat) (t : A) (x : list A) : list A := firstn j x ++ t :: skipn (S j) x.

Section SpecGrapeVector.
  Context {N : Num}.
  (** the samples of the first pulse delivered for the vector [x] *)
  Definition first_pulse (x : list num) (c : controls) (l : list num) : Prop :=
    exists c' d, get_controls_lists x c = Ok (c', d) /\ nth_error (d_pulses d) 0 = Some (Ar l).
  (** its time grid *)
  Definition first_grid (x : list num) (c : controls) (g : list num) : Prop :=
    exists c' d, get_controls_lists x c = Ok (c', d) /\ nth_error (d_timegrids d) 0 = Some g.
End SpecGrapeVector.

(** [c] is a state of controls whose first pulse consists of steps, with the documented shaping options and no shrinking; no duration is optimised;
    [ss], [gs] and [bs] are the samples of the scaling function, of the initial guess and of the base pulse on the time grid *)
From Coq Require Import Reals.
From Verif Require Import ModelBases SpecControls.
Record of_steps (F : funs Rnum) (s : basis_settings (N := Rnum)) (u : common_settings (N := Rnum)) pl tl rl (c : controls (N := Rnum))
    (x ss gs bs : list R) : Prop := {
  os_new : exists c0, new_controls (shipped F Piecewise s u :: pl) tl rl = Ok c0 /\ reachable c0 c;
  os_plain : Forall plain_basis pl;
  os_times : no_optimised_time tl;
  os_shrink : cs_shrink u = false;
  os_options : cs_options u = None;
  os_samples : exists g, first_grid x c g /\ scaling_samples (shipped F Piecewise s u) g = Some ss /\ guess_samples (shipped F Piecewise s u) g = Some gs;
  os_base : exists b, base_of c 0 = Some b /\ as_samples (N := Rnum) (cs_bins u) b = Some bs
}.
(** the sample before it is cut at the limits *)
Definition uncut (l u : R) (ss gs bs x : list R) (j : nat) : R :=
  (nth j ss 0 * (cut (N := Rnum) l u (nth j gs 0) + nth j bs 0 + nth j x 0))%R.
