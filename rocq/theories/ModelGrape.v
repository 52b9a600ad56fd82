(** * The gradient vector of GRAPE: how many entries, for which controls, with which slice length *)
From Coq Require Import ZArith List.
From Verif Require Import Num Py ModelPulse ModelControls.
Import ListNotations.
Open Scope list_scope.

Section Grape.
  Context {N : Num}.

  (** GRAPEAlgorithm.py:94-95: the bins number of the first pulse *)
  Definition n_slices (c : controls) : res nat :=
    match c_pulses c with p :: _ => Ok (pc_bins (core p)) | [] => Err IndexError end.

  (** GRAPEAlgorithm.py:151-153: the last time of the first time grid divided by its number of points.  An empty list of grids or an empty
      grid raise. *)
  Definition slice_time (d : delivered) : res num :=
    (g <-! py_nth (d_timegrids d) 0; t <-! py_nth g (-1); Ok (t / of_Z (Z.of_nat (length g)))%num)%res.

  (** GRAPEAlgorithm.py:135-184.  [entry d dt t] is the number of lines 178-181 for the slice [t], made from the propagators that the user's
      function returns for the controls [d]; it is modelled in ModelQuantum.v.  There is one control Hamiltonian ([K = len([...])], line 156),
      so the gradient has [slices] entries. *)
  Definition grape_gradient (entry : delivered -> num -> nat -> res num) (slices : nat) (x : list num) (c : controls) : res (controls * list num) :=
    ('(c, d) <-! get_controls_lists x c; dt <-! slice_time d; g <-! rmap (entry d dt) (seq 0 slices); Ok (c, g))%res.
End Grape.
