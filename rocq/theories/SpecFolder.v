(** * Vocabulary for the results folder. *)
From Coq Require Import List.
From Verif Require Import ModelFolder.
Import ListNotations.
(** a file system: what exists lies in a directory, and the working directory exists *)
Definition tree (D : fs) : Prop := D [] = Some Dir /\ forall p x, D (p ++ [x]) <> None -> D p = Some Dir.
(** everything that was there still is, with the same content *)
Definition preserves (D D' : fs) : Prop := forall p n, D p = Some n -> D' p = Some n.
(** the optimiser has made its results folder *)
Definition has_folder (ph : phase) : Prop := ph = WriteVersion \/ ph = WriteLog \/ ph = Running.
