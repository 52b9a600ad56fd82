(** The Frobenius norm of complex matrices. *)
From Coq Require Import Reals Lra.
From mathcomp Require Import all_ssreflect all_algebra.
From mathcomp.real_closed Require Import complex.
From Verif Require Import RealStruct SpecQuantum ModelQuantum ProofQuantum ProofFidelity ProofMatrixCalculus.
Import Order.TTheory GRing.Theory Num.Theory.
Set Implicit Arguments.
Unset Strict Implicit.
Unset Printing Implicit Defensive.
Local Open Scope ring_scope.

Definition ip m n (X Y : 'M[Cx]_(m, n)) : R := re (\tr (adj X *m Y)).
Definition nrm m n (X : 'M[Cx]_(m, n)) : R := sqrt (ip X X).

Section Norm.
  Variables m n : nat.
  Implicit Types X Y Z : 'M[Cx]_(m, n).
  Lemma ip_addr X Y Z : ip X (Y + Z) = (ip X Y + ip X Z)%coqR. Proof. by rewrite /ip mulmxDr mxtraceD re_add. Qed.
  Lemma ip_oppr X Y : ip X (- Y) = (- ip X Y)%coqR. Proof. by rewrite /ip mulmxN raddfN /= re_opp. Qed.
  Lemma ip_scaler X (c : R) Y : ip X (creal c *: Y) = (c * ip X Y)%coqR.
  Proof. rewrite /ip -scalemxAr mxtraceZ re_mul re_creal im_creal Rmult_0_l Rminus_0_r. by []. Qed.
  Lemma ip_sym X Y : ip X Y = ip Y X.
  Proof. by rewrite /ip -[adj X *m Y]adjK mxtrace_adj adj_mul adjK re_conj. Qed.
  Lemma ip_ge0 X : (0 <= ip X X)%coqR. Proof. by have [] := cx_ge0 (fro_ge0 X). Qed.
  Lemma nrm_ge0 X : (0 <= nrm X)%coqR. Proof. exact: sqrt_pos. Qed.
  Lemma nrm_sq X : (nrm X * nrm X)%coqR = ip X X. Proof. apply: sqrt_def. exact: ip_ge0. Qed.
  Local Open Scope R_scope.
  Lemma cs X Y : Rabs (ip X Y) <= nrm X * nrm Y.
  Proof.
    have Q : forall t, 0 <= ip X X + 2 * (t * ip X Y) + t * (t * ip Y Y).
    { move=> t. have := ip_ge0 (X + creal t *: Y)%R. rewrite ip_addr ip_scaler [ip _ X]ip_sym [ip (_ + _)%R Y]ip_sym !ip_addr !ip_scaler [ip Y X]ip_sym. lra. }
    have A := ip_ge0 X. have B := ip_ge0 Y.
    have D : ip X Y * ip X Y <= ip X X * ip Y Y.
    { case: (Req_dec (ip Y Y) 0) => [E|N].
      - have E0 : ip X Y = 0; last by rewrite E0 E; lra.
        case: (Req_dec (ip X Y) 0) => // N. have := Q (- (ip X X + 1) / (2 * ip X Y)). rewrite E.
        have -> : - (ip X X + 1) / (2 * ip X Y) * ip X Y = - (ip X X + 1) / 2 by field. lra.
      - have P : 0 < ip Y Y by lra. have := Q (- ip X Y / ip Y Y).
        have -> : ip X X + 2 * (- ip X Y / ip Y Y * ip X Y) + - ip X Y / ip Y Y * (- ip X Y / ip Y Y * ip Y Y) = (ip X X * ip Y Y - ip X Y * ip X Y) / ip Y Y by field.
        move=> H. have := Rmult_le_compat_r (ip Y Y) _ _ B H. rewrite /Rdiv Rmult_assoc Rinv_l //. lra. }
    apply: Rsqr_incr_0; last by apply: Rmult_le_pos; exact: nrm_ge0. 2: exact: Rabs_pos.
    rewrite -Rsqr_abs /Rsqr. have -> : nrm X * nrm Y * (nrm X * nrm Y) = (nrm X * nrm X) * (nrm Y * nrm Y) by ring. by rewrite !nrm_sq.
  Qed.
  Lemma nrm_add X Y : nrm (X + Y)%R <= nrm X + nrm Y.
  Proof.
    apply: Rsqr_incr_0; [|exact: nrm_ge0|by apply: Rplus_le_le_0_compat; exact: nrm_ge0]. rewrite /Rsqr nrm_sq ip_addr [ip (_ + _)%R X]ip_sym [ip (_ + _)%R Y]ip_sym !ip_addr [ip Y X]ip_sym -!nrm_sq.
    have := cs X Y. have := Rle_abs (ip X Y). nra.
  Qed.
  Lemma nrm_opp X : nrm (- X)%R = nrm X. Proof. by rewrite /nrm ip_oppr [ip (- X)%R X]ip_sym ip_oppr Ropp_involutive. Qed.
  Lemma nrm_scale (c : R) X : nrm (creal c *: X)%R = Rabs c * nrm X.
  Proof.
    rewrite /nrm ip_scaler ip_sym ip_scaler -Rmult_assoc sqrt_mult_alt; last by exact: Rle_0_sqr. by rewrite sqrt_Rsqr_abs.
  Qed.
  Lemma nrm_neg_i X : nrm (- 'i *: X)%R = nrm X.
  Proof.
    rewrite /nrm /ip adj_scale -scalemxAr -scalemxAl scalerA. congr (sqrt (re (\tr _))).
    have -> : (- 'i * (- 'i)^* = 1 :> Cx)%R; last by rewrite scale1r.
    apply: cx_eq; rewrite ?re_mul ?im_mul ?re_conj ?im_conj ?re_opp ?im_opp re_i im_i ?re_1 ?im_1; ring.
  Qed.
  Lemma nrm0_eq X : nrm X = 0 -> X = 0%R.
  Proof.
    move=> E. apply: fro_eq0. have := nrm_sq X. rewrite E => H. have [_ I] := cx_ge0 (fro_ge0 X).
    apply: cx_eq; last by rewrite I. rewrite -/(ip X X) -H. rewrite re_0. ring.
  Qed.
  Local Close Scope R_scope.
End Norm.

Lemma nrm_ul n p (U : 'M[Cx]_n) (X : 'M[Cx]_(n, p)) : adj U *m U = 1%:M -> nrm (U *m X) = nrm X.
Proof. move=> H. by rewrite /nrm /ip adj_mul mulmxA -[adj X *m adj U *m U]mulmxA H mulmx1. Qed.
Lemma nrm_adj m n (X : 'M[Cx]_(m, n)) : nrm (adj X) = nrm X.
Proof. by rewrite /nrm /ip adjK mxtrace_mulC. Qed.
Lemma nrm_ur n p (U : 'M[Cx]_n) (X : 'M[Cx]_(p, n)) : U *m adj U = 1%:M -> nrm (X *m U) = nrm X.
Proof. move=> H. rewrite -nrm_adj adj_mul nrm_ul ?nrm_adj //. by rewrite adjK. Qed.

(** products *)
Definition n2 (z : Cx) : R := (re z * re z + im z * im z)%coqR.
Lemma n2E (z : Cx) : re (z^* * z) = n2 z. Proof. rewrite re_mul re_conj im_conj /n2. ring. Qed.
Lemma n2_conj (z : Cx) : n2 (z^*) = n2 z. Proof. rewrite /n2 re_conj im_conj. ring. Qed.
Lemma ip_entries m n (X : 'M[Cx]_(m, n)) : ip X X = \sum_j \sum_i n2 (X i j).
Proof.
  rewrite /ip /mxtrace. have S : forall I (r : seq I) (F : I -> Cx), re (\sum_(i <- r) F i) = \sum_(i <- r) re (F i).
  { move=> I r F. elim: r => [|i r IH]; first by rewrite !big_nil. by rewrite !big_cons re_add IH. }
  rewrite S. apply: eq_bigr => j _. rewrite mxE S. apply: eq_bigr => i _. rewrite !mxE. exact: n2E.
Qed.
Lemma sum_le I (r : seq I) (F G : I -> R) : (forall i, (F i <= G i)%coqR) -> (\sum_(i <- r) F i <= \sum_(i <- r) G i)%coqR.
Proof.
  move=> H. elim: r => [|i r IH]; first by rewrite !big_nil; exact: Rle_refl. rewrite !big_cons. by apply: Rplus_le_compat.
Qed.
Lemma cs_cx m n (X Y : 'M[Cx]_(m, n)) : (n2 (\tr (adj X *m Y)) <= ip X X * ip Y Y)%coqR.
Proof.
  set z := \tr _.
  have E : ip (z *: X) Y = n2 z. { rewrite /ip adj_scale -scalemxAl mxtraceZ -/z. exact: n2E. }
  have F : ip (z *: X) (z *: X) = (n2 z * ip X X)%coqR.
  { rewrite /ip adj_scale -scalemxAl -scalemxAr scalerA mxtraceZ re_mul. have [_ ->] := cx_ge0 (fro_ge0 X). rewrite Rmult_0_r Rminus_0_r n2E. by []. }
  have := cs (z *: X) Y. rewrite E.
  have P : (0 <= n2 z)%coqR by rewrite /n2; nra. rewrite Rabs_pos_eq // => H.
  have H2 : (n2 z * n2 z <= (nrm (z *: X) * nrm Y) * (nrm (z *: X) * nrm Y))%coqR by apply: Rmult_le_compat.
  have K : (nrm (z *: X) * nrm Y * (nrm (z *: X) * nrm Y))%coqR = (n2 z * (ip X X * ip Y Y))%coqR.
  { transitivity ((nrm (z *: X) * nrm (z *: X)) * (nrm Y * nrm Y))%coqR; first ring. rewrite !nrm_sq F. ring. }
  rewrite K in H2. case: P => [P|Z]; first exact: Rmult_le_reg_l P H2. rewrite -Z. apply: Rmult_le_pos; exact: ip_ge0.
Qed.
Lemma nrm_mul m n p (X : 'M[Cx]_(m, n)) (Y : 'M[Cx]_(n, p)) : (nrm (X *m Y) <= nrm X * nrm Y)%coqR.
Proof.
  rewrite /nrm -sqrt_mult_alt; last exact: ip_ge0. apply: sqrt_le_1_alt.
  have -> : ip X X = \sum_i ip (adj (row i X)) (adj (row i X)).
  { rewrite ip_entries exchange_big. apply: eq_bigr => i _. rewrite ip_entries. rewrite big_ord1. apply: eq_bigr => j _. rewrite !mxE. by rewrite n2_conj. }
  have -> : ip Y Y = \sum_j ip (col j Y) (col j Y).
  { rewrite ip_entries. apply: eq_bigr => j _. rewrite ip_entries big_ord1. apply: eq_bigr => i _. by rewrite !mxE. }
  rewrite ip_entries exchange_big. rewrite -[Rmult _ _]/((\sum_i ip (adj (row i X)) (adj (row i X))) * (\sum_j ip (col j Y) (col j Y))) big_distrl /=. apply: sum_le => i.
  rewrite big_distrr /=. apply: sum_le => j.
  have := cs_cx (adj (row i X)) (col j Y). rewrite adjK. have -> : \tr (row i X *m col j Y) = (X *m Y) i j; last by [].
  rewrite /mxtrace big_ord1 !mxE. apply: eq_bigr => k _. by rewrite !mxE.
Qed.
Lemma nrm_commutator n (A X : 'M[Cx]_n) : (nrm (commutator A X) <= 2 * (nrm A * nrm X))%coqR.
Proof.
  have := nrm_add (A *m X) (- (X *m A)). rewrite nrm_opp -/(commutator A X). have := nrm_mul A X. have := nrm_mul X A. lra.
Qed.
