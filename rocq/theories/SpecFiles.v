(** * Vocabulary for the exchange of files. *)
From Coq Require Import List QArith Qround ZArith.
From Verif Require Import ModelFiles.
Import ListNotations.
(** the call has removed the old file, or seen that there is none *)
Definition past_removal {V} (p : @phase V) : Prop := match p with PutControls | Poll _ | Sleep _ | Pause | Read => True | _ => False end.
(** the controls of this call have been written *)
Definition past_controls {V} (p : @phase V) : Prop := match p with Poll _ | Sleep _ | Pause | Read => True | _ => False end.
(** number of sleeps of half a second before the call gives up *)
Definition patience (max_time : Q) : nat := Nat.max 1 (Z.to_nat (Qceiling max_time)).
Fixpoint count_steps (ms : list move) : nat := match ms with [] => 0 | Step :: ms => S (count_steps ms) | _ :: ms => count_steps ms end.
