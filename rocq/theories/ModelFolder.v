(** * The results folder (communication/AllInOneCommunication.py:58-97, tools/logger.py:24-62, Optimizer.py:59-74). *)
From Coq Require Import String List Bool Arith.
Import ListNotations.
Open Scope string_scope.
Open Scope list_scope.

(** the file system: components of a path below the working directory; contents of files are strings *)
Inductive node := Dir | File (content : string).
Definition path := list string.
Definition fs := path -> option node.
Definition path_eqb (p q : path) : bool := if list_eq_dec string_dec p q then true else false.
Definition update (D : fs) (p : path) (n : node) : fs := fun q => if path_eqb q p then Some n else D q.
Definition parent (p : path) : path := removelast p.
(** what the operating system refuses *)
Inductive os_error := EExists | ENoParent | EIsDirectory.
Definition isdir (D : fs) (p : path) : bool := match D p with Some Dir => true | _ => false end.
Definition exists_ (D : fs) (p : path) : bool := match D p with Some _ => true | None => false end.
(** one system call [mkdir] *)
Definition mkdir (D : fs) (p : path) : fs * option os_error :=
  if exists_ D p then (D, Some EExists) else if isdir D (parent p) then (update D p Dir, None) else (D, Some ENoParent).
(** [open(p, "w")] and writing *)
Definition write (D : fs) (p : path) (content : string) : fs * option os_error :=
  if isdir D p then (D, Some EIsDirectory) else if isdir D (parent p) then (update D p (File content), None) else (D, Some ENoParent).

(** ** One optimiser
    Points of its construction between which other programs can act.  Simplification: the job name has no path separator. *)
Inductive phase :=
| CheckRoot      (* AllInOneCommunication.py:64 [if not os.path.isdir(... "QuOCS_Results")] *)
| MakeRoot       (* :65 [os.makedirs], whose parent, the working directory, exists *)
| CheckFolder    (* :76 [if os.path.isdir(self.results_path): raise FileExistsError] *)
| CheckParent    (* :79 [os.makedirs]: does the parent exist? *)
| MakeParent     (* :79 [os.makedirs]: if not, make it; FileExistsError is caught there *)
| MakeFolder     (* :79 [os.makedirs]: [mkdir] of the folder, exist_ok is False *)
| WriteVersion   (* :81-82 quocs_version.txt *)
| WriteLog       (* :84 create_logger: the log file is opened *)
| Running        (* constructed: everything written later goes to files in the folder *)
| Failed (e : os_error).
Record process := Process { date_time : string; job_name : string; create_logfile : bool }.
(** AllInOneCommunication.py:55-58, 63, 67 *)
Definition root : path := ["QuOCS_Results"].
Definition client_job_name (P : process) : string := (date_time P ++ "_" ++ job_name P)%string.
Definition results_path (P : process) : path := root ++ [client_job_name P].
Definition after (r : fs * option os_error) (ph : phase) : fs * phase := (fst r, match snd r with None => ph | Some e => Failed e end).
(** one step; [output] is what the running optimiser writes next, if anything: file name and content *)
Definition step (P : process) (output : option (string * string)) (D : fs) (ph : phase) : fs * phase :=
  match ph with
  | CheckRoot => (D, if isdir D root then CheckFolder else MakeRoot)
  | MakeRoot => after (mkdir D root) CheckFolder
  | CheckFolder => (D, if isdir D (results_path P) then Failed EExists else CheckParent)
  | CheckParent => (D, if exists_ D root then MakeFolder else MakeParent)
  | MakeParent => let '(D', e) := mkdir D root in (D', match e with None | Some EExists => MakeFolder | Some e => Failed e end)
  | MakeFolder => after (mkdir D (results_path P)) WriteVersion
  | WriteVersion => after (write D (results_path P ++ ["quocs_version.txt"]) "QuOCS library version") WriteLog
  | WriteLog => if create_logfile P then after (write D (results_path P ++ [(date_time P ++ "_logging.log")%string]) "") Running else (D, Running)
  | Running => match output with Some (f, c) => after (write D (results_path P ++ [f]) c) Running | None => (D, Running) end
  | Failed e => (D, Failed e)
  end.

(** ** Several optimisers on one file system *)
Record system := System { disk : fs; phases : nat -> phase }.
Definition move (P : nat -> process) (i : nat) (output : option (string * string)) (S : system) : system :=
  let '(D, ph) := step (P i) output (disk S) (phases S i) in
  System D (fun j => if Nat.eqb j i then ph else phases S j).
(** a schedule: who moves, and what it writes when it is running; it may end anywhere, also in the middle of a construction *)
Definition run (P : nat -> process) (schedule : list (nat * option (string * string))) (S : system) : system :=
  fold_left (fun S m => move P (fst m) (snd m) S) schedule S.
Definition start (D : fs) : system := System D (fun _ => CheckRoot).
(** the construction of one optimiser without interference *)
Fixpoint steps (n : nat) (P : process) (D : fs) (ph : phase) : fs * phase :=
  match n with 0 => (D, ph) | S n => let '(D, ph) := step P None D ph in steps n P D ph end.
Definition construct (P : process) (D : fs) : fs * phase := steps 8 P D CheckRoot.
