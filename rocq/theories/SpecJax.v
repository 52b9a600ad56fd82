(** * Controls as rows of two-dimensional arrays *)
From Coq Require Import String ZArith List Bool.
From Verif Require Import Num Py ModelPulse ModelControls ModelJax.
Import ListNotations.
Open Scope list_scope.

Section SpecJax.
  Context {N : Num}.

  (** sample number [j] of a pulse; a scalar stands for a constant pulse *)
  Definition sample (a : arr) (j : nat) : option num :=
    match a with Sc x => Some x | Ar [x] => Some x | Ar l => nth_error l j end.
  (** [row] has [m] entries: the first [n] are the samples of [a] after the conversion, zero from there on *)
  Definition row_of (cast : num -> num) (m n : nat) (a : arr) (row : list num) : Prop :=
    length row = m /\
    (forall j, j < n -> exists y, sample a j = Some y /\ nth_error row j = Some (cast y)) /\
    (forall j, n <= j < m -> nth_error row j = Some (of_Z 0)).
  (** the arrays [A] hold the delivered controls [d] of pulses with [bins] numbers of bins *)
  Record holds (cast_pulse cast_param : num -> num) (bins : list nat) (d : delivered) (A : jarrays) : Prop := {
    h_pulses : forall i n, nth_error bins i = Some n -> exists a row, nth_error (d_pulses d) i = Some a /\ nth_error (j_pulses A) i = Some row /\
      row_of cast_pulse (list_max bins) n a row;
    h_timegrids : forall i n, nth_error bins i = Some n -> exists g row, nth_error (d_timegrids d) i = Some g /\ nth_error (j_timegrids A) i = Some row /\
      row_of cast_pulse (list_max bins) n (Ar g) row;
    h_rows : length (j_pulses A) = length bins /\ length (j_timegrids A) = length bins;
    h_parameters : j_parameters A = map cast_param (d_parameters d)
  }.
End SpecJax.
