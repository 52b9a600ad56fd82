(** * Logging (tools/logger.py, communication/AllInOneCommunication.py:84, 108-117). *)
From Coq Require Import String List Bool ZArith.
Import ListNotations.
Open Scope string_scope.
Open Scope list_scope.

(** levels of the module logging *)
Definition DEBUG : Z := 10. Definition INFO : Z := 20. Definition WARNING : Z := 30. Definition ERROR : Z := 40.
(** a file: folder and name *)
Definition path := (string * string)%type.
Definition path_eqb (p q : path) : bool := String.eqb (fst p) (fst q) && String.eqb (snd p) (snd q).
(** where a handler writes, and its level *)
Inductive target := ToFile (p : path) | ToConsole.
Record handler := Handler { h_target : target; h_level : Z }.
(** what there is: the level and handlers of the one logger called oc_logger, the files (lists of lines, oldest first) and the console.
    Simplifications: a line is its message without time and level; handlers of the root logger are left out *)
Record world := World { l_level : Z; l_handlers : list handler; files : path -> option (list string); console : list string }.
(** logging.FileHandler: opens for appending, so the file exists from then on *)
Definition open_log (p : path) (W : world) : world :=
  World (l_level W) (l_handlers W) (fun q => if path_eqb q p then match files W q with None => Some [] | f => f end else files W q) (console W).
Definition add_handler (h : handler) (W : world) : world := World (l_level W) (l_handlers W ++ [h]) (files W) (console W).

(** arguments of create_logger *)
Record creation := Creation { results_path : string; date_time : string; create_logfile : bool; console_info : bool; is_debug : bool }.
(** logger.py:38-39 *)
Definition log_filename (c : creation) : path := (results_path c, (date_time c ++ "_logging.log")%string).
Definition log_debug_filename (c : creation) : path := (results_path c, (date_time c ++ "_logging_debug.log")%string).
(** logger.py:41-73.  [getLogger("oc_logger")] is the same object every time *)
Definition create_logger (c : creation) (W : world) : world :=
  let W := World INFO [] (files W) (console W) in
  let W := if create_logfile c then add_handler (Handler (ToFile (log_filename c)) INFO) (open_log (log_filename c) W) else W in
  let W := add_handler (Handler ToConsole (if console_info c then INFO else ERROR)) W in
  if is_debug c then add_handler (Handler (ToFile (log_debug_filename c)) DEBUG) (open_log (log_debug_filename c) W) else W.

(** one handler: logging.Handler.handle *)
Definition emit (level : Z) (text : string) (W : world) (h : handler) : world :=
  if (h_level h <=? level)%Z then
    match h_target h with
    | ToConsole => World (l_level W) (l_handlers W) (files W) (console W ++ [text])
    | ToFile p => World (l_level W) (l_handlers W) (fun q => if path_eqb q p then option_map (fun l => l ++ [text]) (files W q) else files W q) (console W)
    end
  else W.
(** logger.log: the logger's own level first, then every handler *)
Definition log (level : Z) (text : string) (W : world) : world :=
  if (l_level W <=? level)%Z then fold_left (emit level text) (l_handlers W) W else W.
(** AllInOneCommunication.py:108-117 *)
Definition print_logger (level : Z) (text : string) (W : world) : world :=
  if (level <=? 10)%Z then log DEBUG text W
  else if ((10 <? level) && (level <=? 20))%Z then log INFO text W
  else if ((20 <? level) && (level <=? 30))%Z then log WARNING text W
  else log ERROR text W.

(** what happens in a program, in order of time: an optimiser is created; optimiser [who] logs something *)
Inductive action := Create (c : creation) | Message (who : nat) (level : Z) (text : string).
(** all optimisers hold the same logger, so [who] makes no difference *)
Definition act (W : world) (a : action) : world :=
  match a with Create c => create_logger c W | Message _ level text => print_logger level text W end.
Definition run (h : list action) (W : world) : world := fold_left act h W.
