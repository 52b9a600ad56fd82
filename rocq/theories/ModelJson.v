(** * Json files (utils/inputoutput.py) and their use (communication/AllInOneCommunication.py:127-130). *)
From Coq Require Import String Decimal DecimalString List Bool ZArith.
From Verif Require Import ModelDump.
Import ListNotations.
Open Scope string_scope.
Open Scope list_scope.

Section Json.
  (** floating-point numbers, not looked into: their text is read back as the same number *)
  Context {F : Type}.
  (** keys of dictionaries; [KOther]: any key that json refuses, such as a tuple; floating-point keys are left out *)
  Inductive key := KStr (s : string) | KInt (n : Z) | KBool (b : bool) | KNone | KOther.
  (** Python values, as far as json tells them apart.  [VFloat] includes np.float64, a subclass of float; [VArray] is an ndarray, given by the items
      of [tolist()]; [VOther] is anything else (complex numbers, np.float32, np.int64, sets, objects) *)
  Inductive value :=
  | VNone | VBool (b : bool) | VInt (n : Z) | VFloat (x : F) | VStr (s : string)
  | VList (l : list value) | VTuple (l : list value) | VDict (d : list (key * value))
  | VArray (l : list value) | VClass (name : string) | VFunction (name : string) | VCallable (* the builtin [callable] itself *) | VOther.
  (** the text of a json file as a tree *)
  Inductive json :=
  | JNull | JBool (b : bool) | JInt (n : Z) | JFloat (x : F) | JStr (s : string) | JList (l : list json) | JObj (d : list (string * json)).

  (** keys in json.encoder: strings, numbers, booleans and None become text, others raise TypeError *)
  Definition key_text (k : key) : option string :=
    match k with
    | KStr s => Some s
    | KInt n => Some (NilZero.string_of_int (Z.to_int n))
    | KBool b => Some (if b then "true" else "false")
    | KNone => Some "null"
    | KOther => None
    end.
  (** inputoutput.py:48-57 ObjectEncoder.default; [None]: TypeError.  The test is [obj is callable], which holds of the builtin only *)
  Definition default_ (v : value) : option value :=
    match v with
    | VArray l => Some (VList l)
    | VCallable => Some VNone
    | VClass _ => Some VNone
    | _ => None
    end.
  (** json.dump with this encoder; [None]: TypeError *)
  Fixpoint encode (v : value) : option json :=
    let fix items (l : list value) : option (list json) :=
      match l with [] => Some [] | v :: l => match encode v, items l with Some j, Some js => Some (j :: js) | _, _ => None end end in
    match v with
    | VNone => Some JNull
    | VBool b => Some (JBool b)
    | VInt n => Some (JInt n)
    | VFloat x => Some (JFloat x)
    | VStr s => Some (JStr s)
    | VList l | VTuple l => option_map JList (items l)
    | VDict d =>
        option_map JObj ((fix entries (d : list (key * value)) : option (list (string * json)) :=
          match d with
          | [] => Some []
          | (k, v) :: d => match key_text k, encode v, entries d with Some s, Some j, Some e => Some ((s, j) :: e) | _, _, _ => None end
          end) d)
    | _ =>
        match default_ v with
        | Some VNone => Some JNull
        | Some (VList _) => match v with VArray l => option_map JList (items l) | _ => None end
        | _ => None
        end
    end.
  (** [d[k] = v] *)
  Definition set_item (d : list (key * value)) (s : string) (v : value) : list (key * value) :=
    (fix go (d : list (key * value)) : list (key * value) :=
      match d with
      | [] => [(KStr s, v)]
      | (KStr s', v') :: d => if String.eqb s s' then (KStr s', v) :: d else (KStr s', v') :: go d
      | kv :: d => kv :: go d
      end) d.
  (** json.load *)
  Fixpoint decode (j : json) : value :=
    match j with
    | JNull => VNone
    | JBool b => VBool b
    | JInt n => VInt n
    | JFloat x => VFloat x
    | JStr s => VStr s
    | JList l => VList (map decode l)
    | JObj d => VDict ((fix entries (d : list (string * json)) (acc : list (key * value)) : list (key * value) :=
        match d with [] => acc | (s, j) :: d => entries d (set_item acc s (decode j)) end) d [])
    end.

  (** a file: missing, not a complete json text, complete *)
  Inductive jfile := JMissing | JCut | JWhole (j : json).
  (** what may happen from outside: the file cannot be opened; Ctrl-C after it was opened *)
  Inductive incident := Calm | OpenFails | Interrupted.
  (** inputoutput.py:60-77: the file afterwards and the error code.  [json.dump] writes piece by piece into the opened (emptied) file.
      [except Exception] does not catch KeyboardInterrupt but [finally: return] drops it *)
  Definition writejsonfile (w : incident) (v : value) (old : jfile) : jfile * Z :=
    match w with
    | OpenFails => (old, 1%Z)
    | Interrupted => (JCut, 0%Z)
    | Calm => match encode v with Some j => (JWhole j, 0%Z) | None => (JCut, 1%Z) end
    end.
  (** inputoutput.py:23-42: every exception ends in [return user_data], which is None then *)
  Definition readjson (w : incident) (f : jfile) : value :=
    match w, f with
    | Calm, JWhole j => decode j
    | _, _ => VNone
    end.
  (** AllInOneCommunication.py:127-130: the error code is dropped *)
  Definition print_optimization_dictionary (w : incident) (v : value) (old : jfile) : jfile := fst (writejsonfile w v old).
End Json.
Arguments value : clear implicits.
Arguments json : clear implicits.
Arguments jfile : clear implicits.
