(** A derivable function is the derivative of its integral. *)
From Coq Require Import Reals.
From Coquelicot Require Import Coquelicot.
Lemma antiderivative_exists (k k' : R -> R) : (forall s, derivable_pt_lim k s (k' s)) -> exists G, G 0%R = 0%R /\ forall s, derivable_pt_lim G s (k s).
Proof.
  intros D. exists (fun s => RInt k 0 s). split.
  - exact (RInt_point 0 k).
  - assert (C : forall s, continuous k s). { intros s. apply (ex_derive_continuous k s). exists (k' s). apply is_derive_Reals, D. }
    intros s. apply is_derive_Reals. apply (is_derive_RInt k (fun s => RInt k 0 s) 0 s); [|apply C].
    apply filter_forall. intros x. apply (RInt_correct (V := R_CompleteNormedModule)). apply (ex_RInt_continuous (V := R_CompleteNormedModule)). intros z _. apply C.
Qed.

From Coq Require Import Lra.
(** a half turn around an axis does not change to first order with the tilt of the axis *)
Lemma half_turn_cos : derivable_pt_lim (fun x => cos (PI * sqrt (1 + x * x))) 0 0.
Proof.
  apply is_derive_Reals. assert (E : sqrt (1 + 0 * 0) = 1) by (rewrite Rmult_0_l, Rplus_0_r; apply sqrt_1).
  auto_derive; [lra|]. rewrite E. field.
Qed.
Lemma half_turn_sin : derivable_pt_lim (fun x => sin (PI * sqrt (1 + x * x)) / sqrt (1 + x * x)) 0 0.
Proof.
  apply is_derive_Reals. assert (E : sqrt (1 + 0 * 0) = 1) by (rewrite Rmult_0_l, Rplus_0_r; apply sqrt_1).
  auto_derive; [repeat split; try lra; rewrite E; lra|]. rewrite E. field.
Qed.
