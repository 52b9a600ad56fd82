(** * Stages of the gradient algorithms. *)
From Coq Require Import ZArith List.
From RecordUpdate Require Import RecordSet.
From Verif Require Import Num Py ModelPulse ModelControls ModelLinalg ModelState ModelSearch ModelRun.
Import ListNotations RecordSetNotations.
Open Scope list_scope.

Section SpecGradient.
  Context {N : Num}.

  (** an AD super-iteration up to the return of the minimiser *)
  Definition ad_search (G : settings) (W : world) (k : nat) : M unit :=
    (upd (fun s => s <|s_book ::= set b_super_it (fun _ => k)|>);;; choose_basis G W;;;
     x0 <- random_start G W;; minimise G W (w_lbfgs W k x0))%run.
  (** [s] is the state of a GRAPE run, or of an AD run in one of its super-iterations, when the minimiser has returned *)
  Definition minimised (G : settings) (W : world) (s : st) : Prop :=
    exists s0 s1, new_state G W = Ok s0 /\ begin W s0 = (Ok tt, s1) /\
      match g_kind G with
      | KGRAPE => exists x0 s2, random_start G W s1 = (Ok x0, s2) /\ minimise G W (w_lbfgs W 1 x0) s2 = (Ok tt, s)
      | KAD => exists k s2, k < Z.to_nat (g_max_si G) /\ ad_loop G W (seq 1 k) s1 = (Ok tt, s2) /\ ad_search G W (S k) s2 = (Ok tt, s)
      | _ => False
      end.
End SpecGradient.
