(** * Using one optimiser several times. *)
From Coq Require Import ZArith List Bool.
From RecordUpdate Require Import RecordSet.
From Verif Require Import Num Py ModelPulse ModelControls ModelLinalg ModelState ModelSearch ModelRun.
Import ListNotations RecordSetNotations.
Open Scope list_scope.

Section Session.
  Context {N : Num} (G : settings) (W : world).
  (** what a program can do with an optimiser: call [execute] (Optimizer.py:86-92), set the running flag of the HandleExit object again
      (handleexit/HandleExit.py, AllInOneCommunication.py:137-140) *)
  Inductive command := Execute | Resume.
  Definition perform (c : command) : M unit :=
    match c with Execute => execute G W | Resume => upd (fun s => s <|s_running := true|>) end.
  (** exceptions are caught by the program, which goes on *)
  Fixpoint session (cs : list command) (s : st) : list (res unit) * st :=
    match cs with
    | [] => ([], s)
    | c :: cs => let (r, s) := perform c s in let (rs, s) := session cs s in (r :: rs, s)
    end.
  Definition program (cs : list command) : res (list (res unit) * st) := (s <-! new_state G W; Ok (session cs s))%res.
End Session.
