(** * Vocabulary for the best-controls file, independent of the program. *)
From Coq Require Import String Decimal DecimalString List Arith Bool.
Import ListNotations.
Open Scope string_scope.
Open Scope list_scope.

(** decimal numeral *)
Definition numeral (n : nat) : string := NilZero.string_of_uint (Nat.to_uint n).
Definition name_of (names : list string) (i : nat) : string := nth i names "".
Definition listed (x : string) (l : list string) : bool := existsb (String.eqb x) l.
(** a name that was used before gets the position (counted from 1) appended *)
Definition unrepeated (used : list string) (name : string) (i : nat) : string := if listed name used then (name ++ numeral (S i))%string else name.
(** keys under which pulse number [i], its time grid and parameter number [j] should be found *)
Definition pulse_key (names : list string) (i : nat) : string := unrepeated (firstn i names) (name_of names i) i.
Definition grid_key (names : list string) (i : nat) : string := ("time_grid_for_" ++ pulse_key names i)%string.
Definition pulse_keys (names : list string) (n : nat) : list string := map (pulse_key names) (seq 0 n) ++ map (grid_key names) (seq 0 n).
Definition parameter_key (pulse_names : list string) (n : nat) (names : list string) (j : nat) : string :=
  unrepeated (pulse_keys pulse_names n ++ firstn j names) (name_of names j) j.
Definition control_keys (pulse_names : list string) (n : nat) (parameter_names : list string) (m : nat) : list string :=
  pulse_keys pulse_names n ++ map (parameter_key pulse_names n parameter_names) (seq 0 m).
Definition disjoint (l m : list string) : Prop := forall k, In k l -> ~ In k m.
