(** * C71 What can be read from the text file with the controls. *)
From Coq Require Import ZArith String Ascii List Bool Reals Lra Lia Psatz DecimalString Decimal DecimalN.
From Flocq Require Import Core BinarySingleNaN.
From Verif Require Import Num ModelTxt SpecTxt.
Import ListNotations.
Open Scope list_scope.

(** ** Lemmas *)
(** [c] does not occur *)
Fixpoint free (c : ascii) (s : string) : bool := match s with EmptyString => true | String a s => negb (Ascii.eqb a c) && free c s end.
Lemma free_app c s t : free c (s ++ t) = free c s && free c t.
Proof. induction s as [|a s IH]; [reflexivity|]. cbn. rewrite IH. apply andb_assoc. Qed.
Lemma split_free c s : free c s = true -> split c s = [s].
Proof. induction s as [|a s IH]; [reflexivity|]. cbn. intros H. apply andb_prop in H as [H1 H2]. apply negb_true_iff in H1. rewrite H1, (IH H2). reflexivity. Qed.
Lemma split_app c s t : free c s = true -> split c (s ++ String c t) = s :: split c t.
Proof.
  induction s as [|a s IH]; cbn; [intros _; now rewrite Ascii.eqb_refl|]. intros H. apply andb_prop in H as [H1 H2]. apply negb_true_iff in H1. now rewrite H1, (IH H2).
Qed.
Lemma split_nonempty c s : split c s <> [].
Proof. destruct s as [|a s]; cbn; [discriminate|]. destruct (Ascii.eqb a c); [discriminate|]. destruct (split c s); discriminate. Qed.

(** digits *)
Fixpoint all_digits (s : string) : bool := match s with EmptyString => true | String a s => match digit_value a with Some _ => true | None => false end && all_digits s end.
Lemma digit_text d : (0 <= d < 10)%Z -> exists a, digit d = String a EmptyString /\ digit_value a = Some d.
Proof.
  intros H. eexists. split; [reflexivity|]. assert (C : In d [0;1;2;3;4;5;6;7;8;9]%Z) by (cbn; lia).
  cbn in C. repeat (destruct C as [<-|C]; [reflexivity|]). destruct C.
Qed.
Lemma all_free a c s : digit_value c = None -> all_digits s = true -> digit_value a <> None -> free c s = true.
Proof.
  intros N. induction s as [|b s IH]; [reflexivity|]. cbn. intros H A. apply andb_prop in H as [H1 H2]. rewrite IH by assumption. rewrite andb_true_r.
  destruct (Ascii.eqb_spec b c) as [->|]; [|reflexivity]. rewrite N in H1. discriminate.
Qed.
Lemma all_digits_free c s : digit_value c = None -> all_digits s = true -> free c s = true.
Proof. intros N H. apply (all_free "0"%char); try assumption. discriminate. Qed.
Lemma digits_app s t : forall acc, digits_value acc (s ++ t) = match digits_value acc s with Some a => digits_value a t | None => None end.
Proof. induction s as [|a s IH]; intros acc; [reflexivity|]. cbn. destruct (digit_value a); [apply IH|reflexivity]. Qed.
Lemma string_uint u : forall acc, digits_value (Z.of_N acc) (NilEmpty.string_of_uint u) = Some (Z.of_N (match acc with N0 => N.of_uint u | Npos p => Npos (Pos.of_uint_acc u p) end)).
Proof.
  assert (K : forall u acc, digits_value (Zpos acc) (NilEmpty.string_of_uint u) = Some (Zpos (Pos.of_uint_acc u acc))).
  { clear u. induction u; intros acc; [reflexivity|..]; cbn [NilEmpty.string_of_uint digits_value Pos.of_uint_acc];
      match goal with |- context [digit_value ?c] => let v := eval vm_compute in (digit_value c) in change (digit_value c) with v end; cbn iota;
      rewrite <- IHu; f_equal; lia. }
  intros [|acc]; [|apply K]. cbn [Z.of_N]. unfold N.of_uint. induction u; [reflexivity|..]; cbn [NilEmpty.string_of_uint digits_value Pos.of_uint];
    match goal with |- context [digit_value ?c] => let v := eval vm_compute in (digit_value c) in change (digit_value c) with v end; cbn iota;
    [exact IHu|..]; match goal with |- digits_value ?x _ = _ => let v := eval vm_compute in x in change x with v end; apply K.
Qed.
Lemma string_uint_digits u : all_digits (NilEmpty.string_of_uint u) = true.
Proof. induction u; [reflexivity|..]; exact IHu. Qed.
Lemma natural_N n : natural (NilZero.string_of_uint (N.to_uint n)) = Some (Z.of_N n) /\ all_digits (NilZero.string_of_uint (N.to_uint n)) = true.
Proof.
  unfold NilZero.string_of_uint. pose proof (string_uint (N.to_uint n) 0) as S. rewrite Unsigned.of_to in S. pose proof (string_uint_digits (N.to_uint n)) as D.
  destruct (N.to_uint n) eqn:E; [|split; [exact S|exact D]..].
  apply (f_equal N.of_uint) in E. rewrite Unsigned.of_to in E. cbn in E. subst n. split; reflexivity.
Qed.
Lemma natural_digits s : natural s <> None -> natural s = digits_value 0 s.
Proof. destruct s; [intros H; now contradiction H|reflexivity]. Qed.
Lemma six k : (0 <= k < 1000000)%Z -> natural (six_digits k) = Some k /\ all_digits (six_digits k) = true /\ String.length (six_digits k) = 6%nat.
Proof.
  intros H. unfold six_digits.
  assert (M : forall x, (0 <= x mod 10 < 10)%Z) by (intro x; apply Z.mod_pos_bound; lia).
  destruct (digit_text _ (M (k / 100000)%Z)) as [a5 [-> V5]]. destruct (digit_text _ (M (k / 10000)%Z)) as [a4 [-> V4]]. destruct (digit_text _ (M (k / 1000)%Z)) as [a3 [-> V3]].
  destruct (digit_text _ (M (k / 100)%Z)) as [a2 [-> V2]]. destruct (digit_text _ (M (k / 10)%Z)) as [a1 [-> V1]]. destruct (digit_text _ (M k)) as [a0 [-> V0]].
  cbn [append natural digits_value all_digits String.length]. rewrite V5, V4, V3, V2, V1, V0. split; [|split; reflexivity]. f_equal.
  replace 100000%Z with (10000 * 10)%Z by reflexivity. replace 10000%Z with (1000 * 10)%Z by reflexivity. replace 1000%Z with (100 * 10)%Z by reflexivity. replace 100%Z with (10 * 10)%Z by reflexivity.
  rewrite <- !Z.div_div by lia. set (k1 := (k / 10)%Z). set (k2 := (k1 / 10)%Z). set (k3 := (k2 / 10)%Z). set (k4 := (k3 / 10)%Z). set (k5 := (k4 / 10)%Z).
  pose proof (Z.div_mod k 10). pose proof (Z.div_mod k1 10). pose proof (Z.div_mod k2 10). pose proof (Z.div_mod k3 10). pose proof (Z.div_mod k4 10).
  assert (B : (0 <= k5 < 10)%Z). { subst k5 k4 k3 k2 k1. rewrite !Z.div_div by lia. split; [apply Z.div_pos; lia|apply Z.div_lt_upper_bound; lia]. }
  rewrite (Z.mod_small k5 10 B). subst k5 k4 k3 k2 k1. lia.
Qed.
Lemma unsigned_number n : (0 <= n)%Z -> decimal (unsigned_text n) = Some (IZR n / 1000000)%R /\ free " " (unsigned_text n) = true /\ free (ascii_of_nat 10) (unsigned_text n) = true
  /\ exists a r, unsigned_text n = String a r /\ Ascii.eqb a "-" = false.
Proof.
  intros H. unfold unsigned_text, decimal. destruct (natural_N (Z.to_N (n / 1000000))) as [V D].
  destruct (six (n mod 1000000)) as [V6 [D6 L6]]; [apply Z.mod_pos_bound; lia|]. cbn [append].
  rewrite split_app by (apply all_digits_free; [reflexivity|exact D]). rewrite split_free by (apply all_digits_free; [reflexivity|exact D6]).
  rewrite V, V6, L6. rewrite Z2N.id by (apply Z.div_pos; lia). split; [f_equal|].
  { rewrite (Z.div_mod n 1000000) at 3 by lia. rewrite plus_IZR, mult_IZR. replace (10 ^ 6)%R with 1000000%R by ring. field. }
  rewrite !free_app. cbn [free]. rewrite !(all_digits_free " ") by (reflexivity || assumption). rewrite !(all_digits_free (ascii_of_nat 10)) by (reflexivity || assumption).
  split; [reflexivity|]. split; [reflexivity|]. destruct (NilZero.string_of_uint _) as [|a r]; [discriminate V|]. exists a. eexists. split; [reflexivity|].
  cbn in D. destruct (Ascii.eqb_spec a "-") as [->|]; [discriminate D|reflexivity].
Qed.
Lemma number_signed s n : (0 <= n)%Z -> number (minus s ++ unsigned_text n) = Some (if s then - (IZR n / 1000000) else IZR n / 1000000)%R.
Proof.
  intros H. destruct (unsigned_number n H) as [V [_ [_ [a [r [E A]]]]]]. destruct s; cbn [minus append number].
  - rewrite Ascii.eqb_refl, V. reflexivity.
  - rewrite E in *. cbn [number]. now rewrite A.
Qed.

(** rounding *)
Lemma half_even_spec a b : (0 < b)%Z -> (2 * Z.abs (half_even a b * b - a) <= b)%Z /\ ((2 * Z.abs (half_even a b * b - a) = b)%Z -> Z.even (half_even a b) = true).
Proof.
  intros B. unfold half_even. pose proof (Z.div_mod a b ltac:(lia)) as E. pose proof (Z.mod_pos_bound a b B) as M.
  set (q := (a / b)%Z) in *. set (r := (a mod b)%Z) in *.
  destruct (Z.ltb_spec (2 * r) b); [split; [nia|intros; nia]|]. destruct (Z.ltb_spec b (2 * r)); [split; [nia|intros; nia]|].
  destruct (Z.even q) eqn:V; [split; [nia|trivial]|]. split; [nia|]. intros _. rewrite Z.even_add, V. reflexivity.
Qed.
Definition magnitude (m : positive) (e : Z) : R := (IZR (Zpos m) * bpow radix2 e)%R.
Lemma micros_spec m e : (0 <= micros m e)%Z /\ (Rabs (IZR (micros m e) - magnitude m e * 1000000) <= / 2)%R
  /\ ((Rabs (IZR (micros m e) - magnitude m e * 1000000) = / 2)%R -> Z.even (micros m e) = true).
Proof.
  unfold micros, magnitude. destruct (Z.leb_spec 0 e) as [E|E].
  - split; [apply Z.mul_nonneg_nonneg; [lia|apply Z.pow_nonneg; lia]|]. rewrite !mult_IZR. change (2 ^ e)%Z with (radix_val radix2 ^ e)%Z. rewrite IZR_Zpower by assumption.
    replace (IZR (Z.pos m) * 1000000 * bpow radix2 e - IZR (Z.pos m) * bpow radix2 e * 1000000)%R with 0%R by ring. rewrite Rabs_R0. split; [lra|]. intros X. exfalso. lra.
  - set (b := (2 ^ (- e))%Z). assert (B : (0 < b)%Z) by (apply Z.pow_pos_nonneg; lia). destruct (half_even_spec (Zpos m * 1000000) b B) as [H1 H2].
    assert (P : bpow radix2 e = (/ IZR b)%R). { unfold b. change (2 ^ (- e))%Z with (radix_val radix2 ^ (- e))%Z. rewrite IZR_Zpower by lia. rewrite <- bpow_opp. f_equal. lia. }
    set (h := half_even _ _) in *. assert (Hb : (0 < IZR b)%R) by now apply IZR_lt.
    assert (Q : (Rabs (IZR h - IZR (Z.pos m) * bpow radix2 e * 1000000) = IZR (Z.abs (h * b - Z.pos m * 1000000)) / IZR b)%R).
    { rewrite P, abs_IZR, minus_IZR, !mult_IZR. rewrite <- (Rabs_pos_eq (IZR b)) at 3 by lra. unfold Rdiv. rewrite <- Rabs_inv, <- Rabs_mult. f_equal. field. lra. }
    rewrite Q. split.
    { destruct (Z.le_gt_cases 0 h) as [|G]; [assumption|exfalso]. assert (h * b <= -1 * b)%Z by (apply Z.mul_le_mono_nonneg_r; lia). assert (0 < Z.pos m)%Z by lia. lia. }
    split.
    + apply (Rmult_le_reg_r (IZR b)); [assumption|]. unfold Rdiv. rewrite Rmult_assoc, Rinv_l by lra. apply IZR_le in H1. rewrite mult_IZR in H1. lra.
    + intros G. apply H2. apply eq_IZR. rewrite mult_IZR. apply (f_equal (fun x => x * IZR b)%R) in G. cbn beta in G. unfold Rdiv in G. rewrite Rmult_assoc, Rinv_l in G by lra. lra.
Qed.
Lemma B2R_magnitude s m e H : B2R (B754_finite s m e H : f64) = (if s then - magnitude m e else magnitude m e)%R.
Proof. unfold magnitude. cbn [B2R]. unfold F2R. cbn [Fnum Fexp]. destruct s; cbn [cond_Zopp]; [|reflexivity]. change (Z.neg m) with (- Z.pos m)%Z. rewrite opp_IZR. ring. Qed.

(** ** Specification: what a line has to say about a list of numbers *)
(** [w] is a number with six decimals, the nearest one to [x] *)
Definition nearest_decimal (w : string) (x : @num F64) : Prop :=
  exists k : Z, number w = Some (IZR k / 1000000)%R /\ (Rabs (IZR k / 1000000 - B2R (x : f64)) <= 5 / 10000000)%R
    /\ ((Rabs (IZR k / 1000000 - B2R (x : f64)) = 5 / 10000000)%R -> Z.even k = true).
Definition carries (line : string) (l : list (@num F64)) : Prop :=
  match l with [] => line = EmptyString | _ => Forall2 nearest_decimal (words line) l end.
Definition finite64 (x : @num F64) : Prop := is_finite (x : f64) = true.

(** ** C71 *)
Theorem C71_word x : finite64 x -> nearest_decimal (format_f x) x.
Proof.
  unfold finite64, nearest_decimal. destruct x as [s|s| |s m e Hm]; try discriminate; intros _.
  - exists 0%Z. cbn [format_f]. rewrite number_signed by lia. cbn [B2R]. split; [destruct s; f_equal; field|].
    replace (0 / 1000000 - 0)%R with 0%R by field. rewrite Rabs_R0. split; [lra|trivial].
  - destruct (micros_spec m e) as [P [Q T]]. exists (if s then - micros m e else micros m e)%Z. cbn [format_f]. rewrite number_signed by assumption. rewrite B2R_magnitude.
    split; [destruct s; rewrite ?opp_IZR; f_equal; field|].
    assert (A : (Rabs (IZR (if s then - micros m e else micros m e) / 1000000 - (if s then - magnitude m e else magnitude m e)) = Rabs (IZR (micros m e) - magnitude m e * 1000000) / 1000000)%R).
    { unfold Rdiv at 2. rewrite <- (Rabs_pos_eq (/ 1000000)%R) by lra. rewrite <- Rabs_mult. destruct s.
      - rewrite opp_IZR. rewrite <- Rabs_Ropp. f_equal. field.
      - f_equal. field. }
    rewrite A. split; [lra|]. intros E. assert (Z.even (micros m e) = true) by (apply T; lra). destruct s; [now rewrite Z.even_opp|assumption].
Qed.

Lemma format_free x : free " " (format_f x) = true /\ free (ascii_of_nat 10) (format_f x) = true.
Proof.
  assert (U : forall s n, (0 <= n)%Z -> free " " (minus s ++ unsigned_text n) = true /\ free (ascii_of_nat 10) (minus s ++ unsigned_text n) = true).
  { intros s n N. destruct (unsigned_number n N) as [_ [F1 [F2 _]]]. rewrite !free_app, F1, F2. destruct s; split; reflexivity. }
  destruct x as [s|s| |s m e Hm]; cbn [format_f].
  - apply U. lia.
  - destruct s; split; reflexivity.
  - split; reflexivity.
  - apply U. apply micros_spec.
Qed.
Lemma join_words ws : Forall (fun w => free " " w = true) ws -> words (join ws) = match ws with [] => [EmptyString] | _ => ws end.
Proof.
  unfold words, join. induction 1 as [|w ws Hw H IH]; [reflexivity|]. destruct ws as [|w' ws]; [exact (split_free _ _ Hw)|].
  change (String.concat " " (w :: w' :: ws)) with (w ++ String " " (String.concat " " (w' :: ws)))%string. rewrite split_app by assumption. f_equal. exact IH.
Qed.
Lemma join_free ws : Forall (fun w => free (ascii_of_nat 10) w = true) ws -> free (ascii_of_nat 10) (join ws) = true.
Proof.
  unfold join. induction 1 as [|w ws Hw H IH]; [reflexivity|]. destruct ws as [|w' ws]; [exact Hw|].
  change (String.concat " " (w :: w' :: ws)) with (w ++ String " " (String.concat " " (w' :: ws)))%string. rewrite free_app, Hw. exact IH.
Qed.
Definition row_text (row : list (@num F64)) : string := join (map format_f row).
Lemma row_carries row : Forall finite64 row -> carries (row_text row) row /\ free (ascii_of_nat 10) (row_text row) = true.
Proof.
  intros F. split.
  - unfold carries, row_text. destruct row as [|x row]; [reflexivity|]. rewrite join_words.
    + cbn [map]. change (Forall2 nearest_decimal (map format_f (x :: row)) (x :: row)). induction F as [|y row' Fy F IH]; constructor; [now apply C71_word|exact IH].
    + apply Forall_forall. intros w W. apply in_map_iff in W as [y [<- _]]. apply format_free.
  - apply join_free. apply Forall_forall. intros w W. apply in_map_iff in W as [y [<- _]]. apply format_free.
Qed.
(** the text of several rows *)
Fixpoint text_of (rows : list (list (@num F64))) : string := match rows with [] => EmptyString | r :: rows => (row_text r ++ String (ascii_of_nat 10) (text_of rows))%string end.
Lemma append_assoc (a b c : string) : ((a ++ b) ++ c)%string = (a ++ (b ++ c))%string.
Proof. induction a as [|x a IH]; [reflexivity|]. cbn. now rewrite IH. Qed.
Lemma append_nil (a : string) : (a ++ "")%string = a.
Proof. induction a as [|x a IH]; [reflexivity|]. cbn. now rewrite IH. Qed.
Lemma savetxt_text rows : savetxt rows = text_of rows.
Proof.
  unfold savetxt. induction rows as [|r rows IH]; [reflexivity|]. cbn [map text_of]. rewrite <- IH. fold (row_text r). destruct rows as [|r' rows].
  - cbn [map String.concat]. reflexivity.
  - cbn [map String.concat]. rewrite append_assoc. reflexivity.
Qed.
Lemma text_app r1 r2 : text_of (r1 ++ r2) = (text_of r1 ++ text_of r2)%string.
Proof. induction r1 as [|r r1 IH]; [reflexivity|]. 
  change (text_of ((r :: r1) ++ r2)) with (row_text r ++ String (ascii_of_nat 10) (text_of (r1 ++ r2)))%string. rewrite IH.
  change (text_of (r :: r1)) with (row_text r ++ String (ascii_of_nat 10) (text_of r1))%string. rewrite append_assoc. reflexivity.
 Qed.
Lemma text_lines rows : Forall (fun r => free (ascii_of_nat 10) (row_text r) = true) rows -> split (ascii_of_nat 10) (text_of rows) = map row_text rows ++ [EmptyString].
Proof. induction 1 as [|r rows F H IH]; [reflexivity|]. cbn [text_of map app]. rewrite split_app by assumption. now rewrite IH. Qed.
(** pulse, time grid, pulse, time grid, ..., and every parameter on a line of its own *)
Definition layout (pulses time_grids : list (list (@num F64))) (parameters : list (@num F64)) : list (list (@num F64)) :=
  concat (map (fun pg => [fst pg; snd pg]) (combine pulses time_grids)) ++ map (fun x => [x]) parameters.
Lemma put_text pulses grids parameters : put_controls_txt pulses grids parameters = text_of (layout pulses grids parameters).
Proof.
  unfold put_controls_txt, layout. rewrite text_app, savetxt_text. f_equal. revert grids. induction pulses as [|p pulses IH]; intros [|g grids]; try reflexivity.
  cbn [put_pulses combine map concat]. rewrite text_app, IH, !savetxt_text. cbn [text_of app fst snd]. rewrite !append_assoc. cbn [append]. rewrite !append_assoc. reflexivity.
Qed.
Theorem C71_layout pulses time_grids parameters : Forall (Forall finite64) pulses -> Forall (Forall finite64) time_grids -> Forall finite64 parameters ->
  Forall2 carries (lines (put_controls_txt pulses time_grids parameters)) (layout pulses time_grids parameters).
Proof.
  intros FP FG FX. assert (F : Forall (Forall finite64) (layout pulses time_grids parameters)).
  { apply Forall_app. split.
    - clear FX. revert time_grids FG. induction FP as [|p pulses Fp FP IH]; intros [|g grids] FG; try constructor; cbn; inversion_clear FG; try assumption. constructor; [assumption|]. now apply IH.
    - apply Forall_forall. intros r R. apply in_map_iff in R as [x [<- X]]. rewrite Forall_forall in FX. constructor; [now apply FX|constructor]. }
  rewrite put_text. revert F. generalize (layout pulses time_grids parameters). intros rows F. unfold lines. rewrite text_lines.
  - rewrite removelast_last. induction F as [|r rows Fr F IH]; constructor; [now apply row_carries|exact IH].
  - eapply Forall_impl; [|exact F]. intros r R. now apply row_carries.
Qed.
(** what is lost *)
Theorem C71_exact x : finite64 x -> (number (format_f x) = Some (B2R (x : f64)) <-> exists k : Z, B2R (x : f64) = (IZR k / 1000000)%R).
Proof.
  intros F. destruct (C71_word x F) as [k [E [Q _]]]. rewrite E. split; [intros [= <-]; now exists k|]. intros [j J]. f_equal. rewrite J in *.
  assert (A : (IZR k / 1000000 - IZR j / 1000000 = IZR (k - j) / 1000000)%R) by (rewrite minus_IZR; field). rewrite A in Q.
  assert (B : (Rabs (IZR (k - j)) <= 1 / 2)%R). { unfold Rdiv in Q. rewrite Rabs_mult, (Rabs_pos_eq (/ 1000000)) in Q by lra. lra. }
  assert (C : (Z.abs (k - j) < 1)%Z). { apply lt_IZR. rewrite abs_IZR. lra. } replace k with j by lia. reflexivity.
Qed.
Theorem C71_separates x y : finite64 x -> finite64 y -> (1 / 1000000 < Rabs (B2R (x : f64) - B2R (y : f64)))%R -> format_f x <> format_f y.
Proof.
  intros FX FY D E. destruct (C71_word x FX) as [k [Ek [Qk _]]]. destruct (C71_word y FY) as [j [Ej [Qj _]]]. rewrite E, Ej in Ek. injection Ek as Ek. rewrite <- Ek in Qk.
  apply Rabs_le_inv in Qk. apply Rabs_le_inv in Qj. assert (L : (Rabs (B2R (x : f64) - B2R (y : f64)) <= 1 / 1000000)%R) by (apply Rabs_le; lra). lra.
Qed.
Definition quotient (a b : Z) : @num F64 := ndiv (of_Z a) (of_Z b).
(** an amplitude of 4e-7 is written as if it were 0; a time grid with steps of a nanosecond in seconds is written as a single point *)
Theorem C71_small_refuted : exists x y : @num F64, finite64 x /\ finite64 y /\ nltb y x = true /\
  forall pulses grids parameters, put_controls_txt ([x] :: pulses) ([y] :: grids) parameters = put_controls_txt ([y] :: pulses) ([y] :: grids) parameters.
Proof.
  exists (quotient 4 10000000), (of_Z 0). split; [vm_compute; reflexivity|]. split; [vm_compute; reflexivity|]. split; [vm_compute; reflexivity|]. intros pulses grids parameters. rewrite !put_text. unfold layout. cbn [combine map concat app fst snd text_of].
  replace (row_text [quotient 4 10000000]) with (row_text [of_Z 0]) by (vm_compute; reflexivity). reflexivity.
Qed.
Theorem C71_grid_refuted : exists grid : list (@num F64), length grid = 11%nat /\ (forall i, (i < 10)%nat -> nltb (nth i grid (of_Z 0)) (nth (S i) grid (of_Z 0)) = true) /\
  exists w, words (row_text grid) = repeat w 11.
Proof.
  exists (map (fun i => quotient (Z.of_nat i) 1000000000) (seq 0 11)). split; [reflexivity|]. split.
  - intros i I. assert (H : forallb (fun i => @nltb F64 (nth i (map (fun i => quotient (Z.of_nat i) 1000000000) (seq 0 11)) (of_Z 0)) (nth (S i) (map (fun i => quotient (Z.of_nat i) 1000000000) (seq 0 11)) (of_Z 0))) (seq 0 10) = true) by (vm_compute; reflexivity).
    rewrite forallb_forall in H. apply H. apply in_seq. lia.
  - exists "0.000000"%string. vm_compute. reflexivity.
Qed.
Theorem C71_dropped pulses extra time_grids parameters : length pulses = length time_grids ->
  put_controls_txt (pulses ++ extra) time_grids parameters = put_controls_txt pulses time_grids parameters.
Proof.
  intros L. unfold put_controls_txt. f_equal. revert time_grids L. induction pulses as [|p pulses IH]; intros [|g grids] L; try discriminate.
  - destruct extra; reflexivity.
  - change (savetxt [p] ++ savetxt [g] ++ put_pulses (pulses ++ extra) grids = savetxt [p] ++ savetxt [g] ++ put_pulses pulses grids)%string. rewrite IH by (now injection L). reflexivity.
Qed.
Example C71_ex : put_controls_txt [[quotient 3 2; quotient (-1) 8]] [[of_Z 0; of_Z 1]] [quotient 1 3] =
  ("1.500000 -0.125000" ++ newline ++ "0.000000 1.000000" ++ newline ++ "0.333333" ++ newline)%string.
Proof. vm_compute. reflexivity. Qed.
Example C71_ex_ties : map format_f [(quotient 1 128 : @num F64); quotient 3 128; quotient (-1) 10000000; (f64_nan : @num F64); of_Z 12345678901] = ["0.007812"; "0.023438"; "-0.000000"; "nan"; "12345678901.000000"]%string.
Proof. vm_compute. reflexivity. Qed.

Print Assumptions C71_word.
Print Assumptions C71_layout.
Print Assumptions C71_exact.
Print Assumptions C71_separates.
Print Assumptions C71_small_refuted.
Print Assumptions C71_grid_refuted.
Print Assumptions C71_dropped.
