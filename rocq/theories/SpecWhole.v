(** * Entries of an optimisation dictionary and what a run gives out *)
From Coq Require Import String ZArith List Bool.
From Verif Require Import Num Py ModelPulse ModelControls ModelState ModelImport ModelJson SpecConfig.
Import ListNotations.
Open Scope string_scope.
Open Scope list_scope.

Section SpecWhole.
  Context {N : Num}.
  Notation V := (value num).

  (** [v] is number [i] of the list under [key]; the list has [n] items *)
  Definition item_of (D : V) (key : string) (i : nat) (v : V) : Prop :=
    exists P l, entry D [key] = Some P /\ is_list P l /\ nth_error l i = Some v.
  Definition items (D : V) (key : string) (n : nat) : Prop :=
    exists P l, entry D [key] = Some P /\ is_list P l /\ length l = n.
  (** the entry of a duration: the last one with that name *)
  Definition duration_of (D : V) (name : string) (v : V) : Prop :=
    exists P l1 l2, entry D ["times"] = Some P /\ is_list P (l1 ++ v :: l2) /\ entry v ["time_name"] = Some (VStr name) /\
      forall w, In w l2 -> entry w ["time_name"] <> Some (VStr name).
  (** [A] is the value of "algorithm_settings" *)
  Definition algorithm_entries (D A : V) : Prop := entry D ["algorithm_settings"] = Some A.
  Definition maximises (A : V) : Prop := entry A ["optimization_direction"] = Some (VStr "maximization").
  (** neither re-evaluation nor drift compensation is asked for *)
  Definition plainly (A : V) : Prop :=
    entry A ["re_evaluation"] = None /\
    setting A ["compensate_drift"; "compensate_after_SI"] (VBool false) = VBool false /\
    exists m, is_number (setting A ["compensate_drift"; "compensate_after_minutes"] (float 0)) m /\ (of_Z 0 <? m)%num = false.

  (** controls that leave the optimiser: to the user's figure of merit, to the user's gradient, into the file of the best controls *)
  Inductive gives : event -> delivered -> Prop :=
  | to_the_merit x d a : gives (EvEval x d a) d
  | to_the_gradient d : gives (EvGrad d) d
  | to_the_file f : gives (EvSave f) (sv_controls f).
End SpecWhole.
