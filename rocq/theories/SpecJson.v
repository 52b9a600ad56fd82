(** * Vocabulary for json files. *)
From Coq Require Import String List Bool ZArith DecimalString.
From Verif Require Import ModelJson.
Import ListNotations.
Open Scope list_scope.

Section SpecJson.
  Context {F : Type}.
  Notation value := (value F).
  (** [u] is [v] or found somewhere inside it *)
  Inductive inside (u : value) : value -> Prop :=
  | in_self : inside u u
  | in_list l v : In v l -> inside u v -> inside u (VList l)
  | in_tuple l v : In v l -> inside u v -> inside u (VTuple l)
  | in_array l v : In v l -> inside u v -> inside u (VArray l)
  | in_dict d k v : In (k, v) d -> inside u v -> inside u (VDict d).
  (** what json takes: no function, no object of an unknown kind, no key of an unknown kind anywhere *)
  Definition storable (v : value) : Prop :=
    forall u, inside u v -> match u with VFunction _ | VOther => False | VDict d => forall v', ~ In (KOther, v') d | _ => True end.
  (** the text of a key: itself, the decimal digits of an integer, the json names of True, False and None *)
  Definition written (k : key) : option string :=
    match k with
    | KStr s => Some s
    | KInt n => Some (NilZero.string_of_int (Z.to_int n))
    | KBool true => Some "true"%string
    | KBool false => Some "false"%string
    | KNone => Some "null"%string
    | KOther => None
    end.
  (** no two keys of a dictionary have the same text *)
  Definition unambiguous (v : value) : Prop := forall d, inside (VDict d) v -> NoDup (map (fun kv => written (fst kv)) d).
  (** what is read back: tuples and arrays as lists, classes as None, keys as text *)
  Fixpoint plain (v : value) : value :=
    match v with
    | VList l | VTuple l | VArray l => VList (map plain l)
    | VDict d => VDict (map (fun kv => (match written (fst kv) with Some s => KStr s | None => KOther end, plain (snd kv))) d)
    | VClass _ | VCallable => VNone
    | _ => v
    end.
  (** values that json has itself *)
  Definition native (v : value) : Prop :=
    forall u, inside u v -> match u with
                            | VTuple _ | VArray _ | VClass _ | VCallable => False
                            | VDict d => forall k v', In (k, v') d -> exists s, k = KStr s
                            | _ => True
                            end.
End SpecJson.
