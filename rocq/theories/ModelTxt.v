(** * Text file with the controls (utils/FilesUpdateFom.py:126-140).  Numbers are IEEE-754 binary64, as in the arrays that are written. *)
From Coq Require Import ZArith String Ascii List Bool DecimalString.
From Flocq Require Import Core BinarySingleNaN.
From Verif Require Import Num.
Import ListNotations.
Open Scope list_scope.

(** Python's ["%f" % x] (numpy.savetxt with fmt="%f").  Oracle of the trusted base: the decimal expansion is correctly rounded to six places, the
    even neighbour if two are equally near.  [half_even a b] is [a / b] rounded. *)
Definition half_even (a b : Z) : Z :=
  let q := (a / b)%Z in let r := (a mod b)%Z in
  if (2 * r <? b)%Z then q else if (b <? 2 * r)%Z then (q + 1)%Z else if Z.even q then q else (q + 1)%Z.
(** the magnitude [m * 2^e] in units of the last place *)
Definition micros (m : positive) (e : Z) : Z :=
  if (0 <=? e)%Z then (Zpos m * 1000000 * 2 ^ e)%Z else half_even (Zpos m * 1000000) (2 ^ (- e)).
Definition digit (d : Z) : string := String (ascii_of_N (48 + Z.to_N d)) EmptyString.
Definition six_digits (k : Z) : string :=
  (digit (k / 100000 mod 10) ++ digit (k / 10000 mod 10) ++ digit (k / 1000 mod 10) ++ digit (k / 100 mod 10) ++ digit (k / 10 mod 10) ++ digit (k mod 10))%string.
Definition unsigned_text (n : Z) : string :=
  (NilZero.string_of_uint (N.to_uint (Z.to_N (n / 1000000))) ++ "." ++ six_digits (n mod 1000000))%string.
Definition minus (negative : bool) : string := if negative then "-"%string else EmptyString.
Definition format_f (x : @num F64) : string :=
  match x with
  | B754_nan => "nan"%string
  | B754_infinity s => (minus s ++ "inf")%string
  | B754_zero s => (minus s ++ unsigned_text 0)%string
  | B754_finite s m e _ => (minus s ++ unsigned_text (micros m e))%string
  end.

Definition newline : string := String (ascii_of_nat 10) EmptyString.
(** [delimiter.join] *)
Definition join (words : list string) : string := String.concat " " words.
(** [np.savetxt(f, rows, fmt="%f")]: one line for each row *)
Definition savetxt (rows : list (list (@num F64))) : string := String.concat "" (map (fun row => (join (map format_f row) ++ newline)%string) rows).

(** FilesUpdateFom.py:136-138 *)
Fixpoint put_pulses (pulses_list time_grids_list : list (list (@num F64))) : string :=
  match pulses_list, time_grids_list with
  | pulse :: pulses_list, time_grid :: time_grids_list => (savetxt [pulse] ++ savetxt [time_grid] ++ put_pulses pulses_list time_grids_list)%string
  | _, _ => EmptyString
  end.
(** FilesUpdateFom.py:126-140: the content of the file, which is opened for writing.  savetxt writes a one-dimensional list as a column. *)
Definition put_controls_txt (pulses_list time_grids_list : list (list (@num F64))) (parameters_list : list (@num F64)) : string :=
  (put_pulses pulses_list time_grids_list ++ savetxt (map (fun x => [x]) parameters_list))%string.
