(** * Figure of merit by exchange of files (utils/FilesUpdateFom.py) and its use (communication/AllInOneCommunication.py:153-168). *)
From Coq Require Import String List Bool Arith QArith.
From Verif Require Import Num Py ModelDump.
Import ListNotations.
Open Scope list_scope.

Section Files.
  (** values of the figure of merit; [read_value] is [float(str(readline()).strip())] on the content of the file, [None] if it raises *)
  Context {V : Type}.
  Variable read_value : string -> option V.
  (** self.max_time and self.file_extension *)
  Variable max_time : Q.
  Inductive extension := Txt | JsonFile | Other.
  Variable file_extension : extension.
  (** the controls as the file will have them *)
  Variable controls_text : string.

  (** answers of get_FoM; the status codes are -2 and -3.  FileNotFoundError leaves the call *)
  Inductive answer := Value (v : V) | TimedOut | Unreadable | FileNotFoundError.
  (** points of the call between which the other program can act *)
  Inductive phase :=
  | CheckOld                 (* FilesUpdateFom.py:72 [if os.path.exists(self.FoM_path)] *)
  | RemoveOld                (* :73 [os.remove(self.FoM_path)] *)
  | PutControls              (* :77 and 116-124 *)
  | Poll (time_counter : nat)(* :92 [while not os.path.exists(self.FoM_path)] *)
  | Sleep (time_counter : nat) (* :93-96 [time.sleep(0.5)] and the test of the counter *)
  | Pause                    (* :98 [time.sleep(0.01)] *)
  | Read                     (* :99-106 *)
  | Done (a : answer).
  Record state := State { FoM_file : option string; controls_file : option string; at_phase : phase }.

  (** one step of the call (FilesUpdateFom.py:61-124).  Simplification: writing the controls is one step and does not fail *)
  Definition step (S : state) : state :=
    let F := FoM_file S in let K := controls_file S in
    match at_phase S with
    | CheckOld => State F K (match F with Some _ => RemoveOld | None => PutControls end)
    | RemoveOld => match F with Some _ => State None K PutControls | None => State F K (Done FileNotFoundError) end
    | PutControls => State F (match file_extension with Other => K | _ => Some controls_text end) (Poll 0)
    | Poll n => State F K (match F with Some _ => Pause | None => Sleep (n + 1) end)
    | Sleep n => State F K (if Qle_bool max_time (inject_Z (Z.of_nat n)) then Done TimedOut else Poll n)
    | Pause => State F K Read
    | Read => State F K (Done (match F with Some c => match read_value c with Some v => Value v | None => Unreadable end | None => Unreadable end))
    | Done a => S
    end.
  (** not in the repository: the other program writes (any part of) FoM.txt or removes it *)
  Inductive action := Write (content : string) | Remove.
  Definition act (a : action) (S : state) : state :=
    State (match a with Write c => Some c | Remove => None end) (controls_file S) (at_phase S).
  (** an execution: steps of the call and actions of the other program in any order *)
  Inductive move := Step | Outside (a : action).
  Definition do_move (S : state) (m : move) : state := match m with Step => step S | Outside a => act a S end.
  Definition run (ms : list move) (S : state) : state := fold_left do_move ms S.
  Definition call (F K : option string) : state := State F K CheckOld.
End Files.

(** ** What the communication object does with the answer *)
Section Data.
  Context {V : Type}.
  Variable multiply : V -> V.   (* by FoM_factor *)
  (** the dictionary of get_FoM (FilesUpdateFom.py:96, 105, 106): the figure of merit ([None] is Python's None) and the status code if there is one *)
  Definition answer_dict (a : @answer V) : res (option V * option Z) :=
    match a with
    | Value v => Ok (Some v, None)
    | TimedOut => Ok (None, Some (-2)%Z)
    | Unreadable => Ok (None, Some (-3)%Z)
    | FileNotFoundError => Err UserError
    end.
  (** AllInOneCommunication.py:160-168; the flag is is_user_running.  [None *= FoM_factor] raises TypeError *)
  Definition get_data (is_user_running : bool) (d : res (option V * option Z)) : bool * res V :=
    match d with
    | Err e => (is_user_running, Err e)
    | Ok (None, _) => (is_user_running, Err TypeError)
    | Ok (Some v, status) => let status_code := match status with Some c => c | None => 0%Z end in
        ((if (status_code =? 0)%Z then is_user_running else false), Ok (multiply v))
    end.
End Data.

(** ** The dictionary written as json (FilesUpdateFom.py:150-163).  [i] is pulse_index, [j] parameter_index *)
Section Controls.
  Context {V : Type}.
  Open Scope string_scope.
  Fixpoint json_pulses (i : nat) (ps : list (V * V)) (d : dict V) : dict V :=
    match ps with
    | nil => d
    | (pulse, time_grid) :: ps => json_pulses (i + 1) ps (put (put d ("pulse" ++ str i) pulse) ("time_grid" ++ str i) time_grid)
    end.
  Fixpoint json_parameters (j : nat) (xs : list V) (d : dict V) : dict V :=
    match xs with nil => d | x :: xs => json_parameters (j + 1) xs (put d ("parameter" ++ str j) x) end.
  Definition json_controls (pulses time_grids parameters : list V) : dict V :=
    json_parameters 1 parameters (json_pulses 1 (combine pulses time_grids) nil).
End Controls.
