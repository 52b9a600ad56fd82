(** * The best-controls file (utils/BestDump.py, communication/AllInOneCommunication.py). *)
From Coq Require Import String Decimal DecimalString List Bool Arith.
From Verif Require Import Num Py.
Import ListNotations.
Open Scope string_scope.
Open Scope list_scope.
Open Scope res_scope.

Section Dump.
  (** what can be stored under a key: arrays, lists of names, numbers *)
  Context {V : Type}.
  (** a Python dictionary: keys in order of first insertion *)
  Definition dict := list (string * V).
  Fixpoint get (d : dict) (k : string) : option V :=
    match d with [] => None | (k', v) :: d => if String.eqb k k' then Some v else get d k end.
  Definition mem (d : dict) (k : string) : bool := match get d k with Some _ => true | None => false end.
  (** [d[k] = v] *)
  Fixpoint put (d : dict) (k : string) (v : V) : dict :=
    match d with [] => [(k, v)] | (k', v') :: d => if String.eqb k k' then (k', v) :: d else (k', v') :: put d k v end.
  (** [{**d, **e}] *)
  Definition merge (d e : dict) : dict := fold_left (fun d kv => put d (fst kv) (snd kv)) e d.
  (** [str(n)] *)
  Definition str (n : nat) : string := NilZero.string_of_uint (Nat.to_uint n).
  Definition nth_ {A} (l : list A) (i : nat) : res A := match nth_error l i with Some a => Ok a | None => Err IndexError end.

  (** BestDump.py:85-92: the loop over pulses and time grids; [i] is [pulse_index] *)
  Fixpoint put_pulses (names : list string) (i : nat) (ps : list (V * V)) (d : dict) : res dict :=
    match ps with
    | [] => Ok d
    | (pulse, grid) :: ps =>
        name <-! nth_ names i;
        let name := if mem d name then name ++ str (i + 1) else name in
        let d := put d name pulse in
        let d := put d ("time_grid_for_" ++ name) grid in
        put_pulses names (i + 1) ps d
    end%string.
  (** BestDump.py:101-106 *)
  Fixpoint put_parameters (names : list string) (i : nat) (xs : list V) (d : dict) : res dict :=
    match xs with
    | [] => Ok d
    | x :: xs =>
        name <-! nth_ names i;
        let name := if mem d name then name ++ str (i + 1) else name in
        put_parameters names (i + 1) xs (put d name x)
    end%string.
  (** the names: those of the call if it has the keyword, numbered ones else (BestDump.py:72-75, 95-99) *)
  Definition default_names (prefix : string) (n : nat) : list string := map (fun i => (prefix ++ str (i + 1))%string) (seq 0 n).
  Definition names_or (given : option (list string)) (prefix : string) (n : nat) : list string :=
    match given with Some l => l | None => default_names prefix n end.

  (** the dictionary of BestDump.py:70-109.  [kwargs] are the keywords of the call except is_record, in the order of the call;
      the names in it are given separately as well.  [zip] stops at the shorter list. *)
  Definition full_dict (pulse_names parameter_names : option (list string)) (pulses timegrids parameters : list V) (kwargs : dict) : res dict :=
    d <-! put_pulses (names_or pulse_names "pulse_" (length pulses)) 0 (combine pulses timegrids) [];
    d <-! put_parameters (names_or parameter_names "parameter_" (length parameters)) 0 parameters d;
    Ok (merge d kwargs).

  Inductive format := Npz | Json.
  (** the file on the disk: missing; opened for writing with some entries in it but without its end; closed.  Only a closed file with
      its end can be loaded: json.load needs the last brace, np.load the directory at the end of the archive *)
  Inductive file := Missing | Cut (entries : dict) | Closed (entries : dict).
  Definition load (d : file) : option dict := match d with Closed e => Some e | _ => None end.
  (** what [json.dumps] with NumpyEncoder and [np.asanyarray] can store: a parameter *)
  Variable storable : format -> V -> bool.
  (** the entries before the first one that cannot be stored *)
  Fixpoint good_part (f : format) (d : dict) : dict :=
    match d with [] => [] | (k, v) :: d => if storable f v then (k, v) :: good_part f d else [] end.
  Definition all_storable (f : format) (d : dict) : bool := forallb (fun kv => storable f (snd kv)) d.
  (** [open(path, "w")] empties the file; then the entries arrive on the disk one after the other *)
  Definition growing (d : dict) : list file := map (fun n => Cut (firstn n d)) (seq 0 (S (length d))).
  (** BestDump.py:130-133: the states the file passes through, and the result.  [json.dumps] is called when the file is already open:
      if it raises, the [with] statement closes the empty file *)
  Definition write_json (d : dict) : list file * res unit :=
    if all_storable Json d then (growing d ++ [Closed d], Ok tt) else ([Cut []; Cut []], Err TypeError).
  (** BestDump.py:112-113.  [np.savez(file, **kwds)]: a keyword [file] is taken twice.  If an array cannot be stored, savez closes the archive,
      which then holds the arrays before it *)
  Definition write_npz (d : dict) : list file * res unit :=
    if mem d "file" then ([], Err TypeError)
    else if all_storable Npz d then (growing d ++ [Closed d], Ok tt)
    else (growing (good_part Npz d) ++ [Closed (good_part Npz d)], Err ValueError).
  Definition write_file (f : format) (d : dict) : list file * res unit := match f with Npz => write_npz d | Json => write_json d end.

  (** BestDump.py:56-113: the states the file passes through (none: it is not touched), and the result *)
  Definition dump_controls (f : format) (is_record : bool) (pulse_names parameter_names : option (list string))
    (pulses timegrids parameters : list V) (kwargs : dict) : list file * res unit :=
    if negb is_record then ([], Ok tt) else
    match full_dict pulse_names parameter_names pulses timegrids parameters kwargs with
    | Ok d => write_file f d
    | Err e => ([], Err e)
    end.
End Dump.
Arguments dict : clear implicits.

(** ** The call made during a run *)
Section Update.
  Context {V : Type}.
  (** keywords of the call besides the controls and is_record: the names (OptimizationAlgorithm.py:316) and the answer of the algorithm
      (dCRABAlgorithm.py:163-169 with [super_it], DirectSearchAlgorithm.py:271-276, GRAPEAlgorithm.py:123-128, ADAlgorithm.py:213-218) *)
  Definition call_keys (is_dcrab : bool) : list string :=
    ["pulse_names"; "parameter_names"; "time_names"; "FoM"; "iteration_number"] ++ (if is_dcrab then ["super_it"] else []) ++ ["status_code"].
  Variable storable : format -> V -> bool.
  (** AllInOneCommunication.py:196-200; [values] are the values of these keywords *)
  Definition update_controls (is_dcrab : bool) (f : format) (is_record : bool) (pulse_names parameter_names : list string)
    (pulses timegrids parameters values : list V) : list file * res unit :=
    dump_controls storable f is_record (Some pulse_names) (Some parameter_names) pulses timegrids parameters (combine (call_keys is_dcrab) values).
  (** what is on the disk after the call; before it was [old] *)
  Definition disk_after (old : file) (call : list file * res unit) : file (V := V) := last (fst call) old.
  (** a process killed after [k] of these states *)
  Definition disk_killed (k : nat) (old : file) (call : list file * res unit) : file (V := V) := last (firstn k (fst call)) old.
End Update.
