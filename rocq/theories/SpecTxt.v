(** * Reading a text file with numbers: lines, words, decimal numbers. *)
From Coq Require Import ZArith String Ascii List Bool Reals.
Import ListNotations.
Open Scope list_scope.

(** the parts of a text between the characters [c] *)
Fixpoint split (c : ascii) (s : string) : list string :=
  match s with
  | EmptyString => [EmptyString]
  | String a s => if Ascii.eqb a c then EmptyString :: split c s
                  else match split c s with w :: ws => String a w :: ws | [] => [String a EmptyString] end
  end.
(** lines end with a newline character, words are separated by a space *)
Definition lines (text : string) : list string := removelast (split (ascii_of_nat 10) text).
Definition words (line : string) : list string := split " " line.

(** decimal digits, most significant first *)
Definition digit_value (a : ascii) : option Z :=
  let n := Z.of_N (N_of_ascii a) in if (48 <=? n)%Z && (n <=? 57)%Z then Some (n - 48)%Z else None.
Fixpoint digits_value (acc : Z) (s : string) : option Z :=
  match s with
  | EmptyString => Some acc
  | String a s => match digit_value a with Some d => digits_value (10 * acc + d) s | None => None end
  end.
Definition natural (s : string) : option Z := match s with EmptyString => None | _ => digits_value 0 s end.
(** digits, point, digits *)
Definition decimal (s : string) : option R :=
  match split "." s with
  | [whole; fraction] => match natural whole, natural fraction with
                         | Some a, Some b => Some (IZR a + IZR b / 10 ^ String.length fraction)%R
                         | _, _ => None
                         end
  | _ => None
  end.
(** possibly with a sign *)
Definition number (s : string) : option R :=
  match s with
  | String a rest => if Ascii.eqb a "-" then option_map Ropp (decimal rest) else decimal s
  | EmptyString => None
  end.
