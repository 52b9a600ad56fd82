(** Both number instances satisfy the shared laws; derived order facts. *)
From Coq Require Import ZArith Reals Lra Lia Bool.
From Flocq Require Import Core BinarySingleNaN.
From Verif Require Import Num.

Lemma Rnum_order : NumOrder Rnum.
Proof.
  constructor; cbn; intros.
  - revert H H0. destruct (Rle_bool_spec a b), (Rle_bool_spec b c), (Rle_bool_spec a c); try easy; intros; lra.
  - destruct (Rlt_bool_spec a b), (Rle_bool_spec a b), (Rle_bool_spec b a); cbn; try reflexivity; lra.
  - destruct (Rle_bool_spec a b), (Rle_bool_spec b a); auto; lra.
  - discriminate.
  - discriminate.
Qed.

Lemma Rnum_sign : NumSign Rnum.
Proof.
  constructor; cbn; intros.
  - lra.
  - lra.
  - destruct (Rle_bool_spec (-1 * a) (-1 * b)), (Rle_bool_spec b a); try reflexivity; lra.
  - reflexivity.
  - reflexivity.
Qed.

Ltac bcmp := unfold Bleb, Bltb, Beqb, SpecFloat.SFleb, SpecFloat.SFltb, SpecFloat.SFeqb, B2SF, SpecFloat.SFcompare in *.

Lemma Bleb_finite (x y : f64) : is_finite x = true -> is_finite y = true ->
  Bleb x y = Rle_bool (B2R x) (B2R y).
Proof. intros; now apply Bleb_correct. Qed.
Lemma Bltb_finite (x y : f64) : is_finite x = true -> is_finite y = true ->
  Bltb x y = Rlt_bool (B2R x) (B2R y).
Proof. intros; now apply Bltb_correct. Qed.

Inductive fkind : f64 -> Type :=
| K_fin x : is_finite x = true -> fkind x
| K_inf s : fkind (B754_infinity s)
| K_nan : fkind B754_nan.

Lemma fkind_of (x : f64) : fkind x.
Proof. destruct x; [apply K_fin; reflexivity|apply K_inf|apply K_nan|apply K_fin; reflexivity]. Qed.

Lemma Bleb_fin_inf x s : is_finite x = true -> Bleb x (B754_infinity s : f64) = negb s.
Proof. destruct x as [? | ? | | sx mx ex hx]; try easy; intros _; destruct s; bcmp; try reflexivity; destruct sx; reflexivity. Qed.
Lemma Bleb_inf_fin x s : is_finite x = true -> Bleb (B754_infinity s : f64) x = s.
Proof. destruct x as [? | ? | | sx mx ex hx]; try easy; intros _; destruct s; bcmp; try reflexivity; destruct sx; reflexivity. Qed.
Lemma Bltb_fin_inf x s : is_finite x = true -> Bltb x (B754_infinity s : f64) = negb s.
Proof. destruct x as [? | ? | | sx mx ex hx]; try easy; intros _; destruct s; bcmp; try reflexivity; destruct sx; reflexivity. Qed.
Lemma Bltb_inf_fin x s : is_finite x = true -> Bltb (B754_infinity s : f64) x = s.
Proof. destruct x as [? | ? | | sx mx ex hx]; try easy; intros _; destruct s; bcmp; try reflexivity; destruct sx; reflexivity. Qed.
Lemma Bleb_nan_l x : Bleb (B754_nan : f64) x = false.
Proof. destruct x; reflexivity. Qed.
Lemma Bleb_nan_r x : Bleb x (B754_nan : f64) = false.
Proof. destruct x as [?|[]| |?]; try reflexivity. Qed.
Lemma Bltb_nan_l x : Bltb (B754_nan : f64) x = false.
Proof. destruct x; reflexivity. Qed.
Lemma Bltb_nan_r x : Bltb x (B754_nan : f64) = false.
Proof. destruct x as [?|[]| |?]; try reflexivity. Qed.

Lemma F64_order : NumOrder F64.
Proof.
  constructor; cbn.
  - intros a b c.
    destruct (fkind_of a) as [a Fa|sa|]; [| |now rewrite Bleb_nan_l];
    (destruct (fkind_of b) as [b Fb|sb|]; [| |now rewrite Bleb_nan_r]);
    (destruct (fkind_of c) as [c Fc|sc|]; [| |now rewrite (Bleb_nan_r b) || now rewrite Bleb_nan_r]);
    repeat (match goal with
    | |- context [Bleb ?x (B754_infinity ?s)] => rewrite (Bleb_fin_inf x s) by assumption
    | |- context [Bleb (B754_infinity ?s) ?x] => rewrite (Bleb_inf_fin x s) by assumption
    | |- context [Bleb ?x ?y] => rewrite (Bleb_finite x y) by assumption end);
    repeat match goal with s : bool |- _ => destruct s end; cbn; try easy.
    destruct (Rle_bool_spec (B2R a) (B2R b)), (Rle_bool_spec (B2R b) (B2R c)), (Rle_bool_spec (B2R a) (B2R c)); try easy; intros; lra.
  - intros a b.
    destruct (fkind_of a) as [a Fa|sa|]; [| |now rewrite Bltb_nan_l, Bleb_nan_l];
    (destruct (fkind_of b) as [b Fb|sb|]; [| |now rewrite Bltb_nan_r, Bleb_nan_r]);
    rewrite ?Bltb_finite, ?Bleb_finite, ?Bltb_fin_inf, ?Bleb_fin_inf, ?Bltb_inf_fin, ?Bleb_inf_fin by assumption;
    repeat match goal with s : bool |- _ => destruct s end; cbn; try easy.
    destruct (Rlt_bool_spec (B2R a) (B2R b)), (Rle_bool_spec (B2R a) (B2R b)), (Rle_bool_spec (B2R b) (B2R a)); try easy; lra.
  - intros a b.
    destruct (fkind_of a) as [a Fa|sa|]; [| |easy];
    (destruct (fkind_of b) as [b Fb|sb|]; [| |easy]); intros _ _;
    repeat (match goal with
    | |- context [Bleb ?x (B754_infinity ?s)] => rewrite (Bleb_fin_inf x s) by assumption
    | |- context [Bleb (B754_infinity ?s) ?x] => rewrite (Bleb_inf_fin x s) by assumption
    | |- context [Bleb ?x ?y] => rewrite (Bleb_finite x y) by assumption end);
    repeat match goal with s : bool |- _ => destruct s end; cbn; auto.
    destruct (Rle_bool_spec (B2R a) (B2R b)), (Rle_bool_spec (B2R b) (B2R a)); auto; lra.
  - intros a b. destruct a; easy || (intros _; apply Bleb_nan_l).
  - intros a b. destruct b; easy || (intros _; apply Bleb_nan_r).
Qed.

Lemma Bmult_sign_finite (s : bool) (x : f64) (Hs : f64) :
  is_finite x = true -> is_finite Hs = true -> B2R Hs = (if s then -1 else 1)%R -> Bsign Hs = s ->
  Bmult mode_NE Hs x = (if s then Bopp x else x).
Proof.
  intros Fx FH HR HS.
  pose proof (Bmult_correct 53 1024 _ _ mode_NE Hs x) as HC.
  assert (HR' : (B2R Hs * B2R x)%R = B2R (if s then Bopp x else x)).
  { rewrite HR. destruct s; [rewrite B2R_Bopp|]; lra. }
  rewrite HR' in HC.
  rewrite round_generic in HC; [|apply valid_rnd_N|apply generic_format_B2R].
  rewrite Rlt_bool_true in HC by apply abs_B2R_lt_emax.
  destruct HC as (H1 & H2 & H3). rewrite FH, Fx in H2.
  assert (Hn : is_nan (Bmult mode_NE Hs x) = false) by (destruct (Bmult mode_NE Hs x); easy).
  specialize (H3 Hn).
  apply B2R_Bsign_inj.
  - exact H2.
  - destruct s; [rewrite is_finite_Bopp|]; exact Fx.
  - exact H1.
  - rewrite H3, HS. destruct s; cbn.
    + rewrite Bsign_Bopp by (destruct x; easy). now destruct (Bsign x).
    + now destruct (Bsign x).
Qed.

Lemma f64_m1 : is_finite (f64_of_Z (-1)) = true /\ B2R (f64_of_Z (-1)) = (-1)%R /\ Bsign (f64_of_Z (-1)) = true.
Proof.
  repeat split.
  pose proof (binary_normalize_correct 53 1024 _ _ mode_NE (-1) 0 false) as H.
  cbv zeta in H. rewrite round_generic in H.
  - rewrite Rlt_bool_true in H.
    + destruct H as (H & _). unfold f64_of_Z. etransitivity; [exact H|]. unfold F2R; cbn. lra.
    + unfold F2R; cbn [Fnum Fexp bpow]. rewrite Rabs_left by lra. apply Rlt_trans with (bpow radix2 1); [cbn; lra|apply (bpow_lt radix2 1 1024); reflexivity].
  - apply valid_rnd_N.
  - apply generic_format_F2R. intros _. cbn. unfold cexp, SpecFloat.fexp, FLT_exp, SpecFloat.emin, F2R. cbn.
    replace (-1 * 1)%R with (- bpow radix2 0)%R by (cbn; lra). rewrite mag_opp, mag_bpow. cbn. lia.
Qed.
Lemma f64_p1 : is_finite (f64_of_Z 1) = true /\ B2R (f64_of_Z 1) = 1%R /\ Bsign (f64_of_Z 1) = false.
Proof.
  repeat split.
  pose proof (binary_normalize_correct 53 1024 _ _ mode_NE 1 0 false) as H.
  cbv zeta in H. rewrite round_generic in H.
  - rewrite Rlt_bool_true in H.
    + destruct H as (H & _). unfold f64_of_Z. etransitivity; [exact H|]. unfold F2R; cbn. lra.
    + unfold F2R; cbn [Fnum Fexp bpow]. rewrite Rabs_right by lra. apply Rlt_trans with (bpow radix2 1); [cbn; lra|apply (bpow_lt radix2 1 1024); reflexivity].
  - apply valid_rnd_N.
  - apply generic_format_F2R. intros _. cbn. unfold cexp, SpecFloat.fexp, FLT_exp, SpecFloat.emin, F2R. cbn.
    replace (1 * 1)%R with (bpow radix2 0)%R by (cbn; lra). rewrite mag_bpow. cbn. lia.
Qed.

Lemma Bmult_m1 (x : f64) : Bmult mode_NE (f64_of_Z (-1)) x = Bopp x.
Proof.
  destruct f64_m1 as (F & R & S).
  destruct (fkind_of x) as [x Fx|s|].
  - now apply (Bmult_sign_finite true x _ Fx F R S).
  - destruct s; reflexivity.
  - reflexivity.
Qed.
Lemma Bmult_p1 (x : f64) : Bmult mode_NE (f64_of_Z 1) x = x.
Proof.
  destruct f64_p1 as (F & R & S).
  destruct (fkind_of x) as [x Fx|s|].
  - now apply (Bmult_sign_finite false x _ Fx F R S).
  - destruct s; reflexivity.
  - reflexivity.
Qed.

Lemma F64_sign : NumSign F64.
Proof.
  constructor; cbn [num of_Z nmul nleb nisnan F64]; intros; rewrite ?Bmult_p1, ?Bmult_m1.
  - reflexivity.
  - apply Bopp_involutive.
  - destruct (fkind_of a) as [a Fa|sa|]; [| |now rewrite Bleb_nan_l, Bleb_nan_r];
    (destruct (fkind_of b) as [b Fb|sb|]; [| |cbn [Bopp]; now rewrite Bleb_nan_l, Bleb_nan_r]); cbn [Bopp].
    + rewrite !Bleb_finite by (rewrite ?is_finite_Bopp; assumption). rewrite !B2R_Bopp.
      destruct (Rle_bool_spec (- B2R a) (- B2R b)), (Rle_bool_spec (B2R b) (B2R a)); try reflexivity; lra.
    + rewrite Bleb_fin_inf, Bleb_inf_fin by (rewrite ?is_finite_Bopp; assumption). now destruct sb.
    + rewrite Bleb_fin_inf, Bleb_inf_fin by (rewrite ?is_finite_Bopp; assumption). now destruct sa.
    + destruct sa, sb; reflexivity.
  - now destruct a.
  - vm_compute. reflexivity.
Qed.

Section Derived.
  Context (N : Num) (O : NumOrder N).

  Lemma nle_refl (a : num) : nisnan a = false -> nleb a a = true.
  Proof. intros H; destruct (nle_total _ O a a H H); assumption. Qed.
  Lemma nle_nonnan (a b : num) : nleb a b = true -> nisnan a = false /\ nisnan b = false.
  Proof.
    intros H; split.
    - destruct (nisnan a) eqn:E; [|reflexivity]. now rewrite (nle_nan_l _ O) in H.
    - destruct (nisnan b) eqn:E; [|reflexivity]. now rewrite (nle_nan_r _ O) in H.
  Qed.
  Lemma nlt_nle (a b : num) : nltb a b = true -> nleb a b = true /\ nleb b a = false.
  Proof. rewrite (nlt_le _ O). intros H; apply andb_prop in H as [H1 H2]. now destruct (nleb b a). Qed.
  Lemma nlt_nonnan (a b : num) : nltb a b = true -> nisnan a = false /\ nisnan b = false.
  Proof. intros H; apply nlt_nle in H as [H _]; now apply nle_nonnan. Qed.
  Lemma nlt_false_le (a b : num) : nisnan a = false -> nisnan b = false ->
    nltb a b = false -> nleb b a = true.
  Proof.
    intros Ha Hb. rewrite (nlt_le _ O). destruct (nleb b a) eqn:E; [reflexivity|].
    destruct (nle_total _ O a b Ha Hb) as [H|H]; rewrite ?H; cbn; congruence.
  Qed.
  Lemma nle_false_lt (a b : num) : nisnan a = false -> nisnan b = false ->
    nleb a b = false -> nltb b a = true.
  Proof.
    intros Ha Hb H. rewrite (nlt_le _ O), H.
    destruct (nle_total _ O a b Ha Hb); [congruence|]. now rewrite H0.
  Qed.
  Lemma nlt_trans (a b c : num) : nltb a b = true -> nltb b c = true -> nltb a c = true.
  Proof.
    intros H1 H2. pose proof (nlt_nle _ _ H1) as [A B]. pose proof (nlt_nle _ _ H2) as [C D].
    rewrite (nlt_le _ O), (nle_trans _ O a b c A C). cbn.
    destruct (nleb c a) eqn:E; [|reflexivity]. now rewrite (nle_trans _ O c a b E A) in D.
  Qed.
  Lemma nlt_le_trans (a b c : num) : nltb a b = true -> nleb b c = true -> nltb a c = true.
  Proof.
    intros H1 C. pose proof (nlt_nle _ _ H1) as [A B].
    rewrite (nlt_le _ O), (nle_trans _ O a b c A C). cbn.
    destruct (nleb c a) eqn:E; [|reflexivity]. now rewrite (nle_trans _ O b c a C E) in B.
  Qed.
  Lemma nle_lt_trans (a b c : num) : nleb a b = true -> nltb b c = true -> nltb a c = true.
  Proof.
    intros A H2. pose proof (nlt_nle _ _ H2) as [C D].
    rewrite (nlt_le _ O), (nle_trans _ O a b c A C). cbn.
    destruct (nleb c a) eqn:E; [|reflexivity]. now rewrite (nle_trans _ O c a b E A) in D.
  Qed.
  Lemma nlt_irrefl (a : num) : nltb a a = false.
  Proof. rewrite (nlt_le _ O). now destruct (nleb a a). Qed.
End Derived.

Lemma Rnum_exact : NumExact Rnum.
Proof.
  constructor; cbn; intros; try ring; try reflexivity.
  apply Rle_antisym; [destruct (Rle_bool_spec a b); [assumption|discriminate]|destruct (Rle_bool_spec b a); [assumption|discriminate]].
Qed.
