(** * Vocabulary for random processes. *)
From Coq Require Import Reals.
Open Scope R_scope.

Section Spec.
  Context {Omega : Type}.
  (** an expectation: linear, 1 for the constant 1 *)
  Record expectation (E : (Omega -> R) -> R) : Prop := {
    E_ext : forall X Y, (forall w, X w = Y w) -> E X = E Y;
    E_lin : forall a b X Y, E (fun w => a * X w + b * Y w) = a * E X + b * E Y;
    E_one : E (fun _ => 1) = 1
  }.
  Definition cov (E : (Omega -> R) -> R) (X Y : Omega -> R) : R := E (fun w => (X w - E X) * (Y w - E Y)).
  (** the first [K] numbers are centred, have variance 1 and are uncorrelated *)
  Definition white (E : (Omega -> R) -> R) (K : nat) (z : nat -> Omega -> R) : Prop :=
    forall j, (j < K)%nat -> E (z j) = 0 /\ forall k, (k < K)%nat -> E (fun w => z j w * z k w) = if Nat.eqb j k then 1 else 0.
End Spec.
