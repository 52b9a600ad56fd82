(** Hermitian matrices are diagonal in an orthonormal basis; square roots. *)
From Coq Require Import ZArith Lia.
From mathcomp Require Import all_ssreflect all_algebra.
From mathcomp.real_closed Require Import mxtens.
From Verif Require Import Py ModelQuantum SpecQuantum ProofQuantum ProofProblems.
Import GRing.Theory Num.Theory.
Set Implicit Arguments.
Unset Strict Implicit.
Unset Printing Implicit Defensive.
Local Open Scope ring_scope.

Section Spectral.
  Variable C : numClosedFieldType.
  Lemma unitaryE n (U : 'M[C]_n) : unitary U <-> adj U *m U = 1%:M.
  Proof. by rewrite /unitary adjE. Qed.
  Lemma unitary_r n (U : 'M[C]_n) : unitary U -> U *m adj U = 1%:M.
  Proof. move=> /unitaryE. exact: mulmx1C. Qed.
  Lemma eigenvector n (H : 'M[C]_n.+1) : exists (a : C) (v : 'cV[C]_n.+1), sq v = 1 /\ H *m v = a *: v.
  Proof.
    have [a] : exists a, root (char_poly H^T) a by apply/closed_rootP; rewrite size_char_poly.
    rewrite -eigenvalue_root_char => /eigenvalueP [w E W]. exists a, ((vnorm w^T)^-1 *: w^T).
    have S0 : sq w^T != 0 by apply: contra W => /eqP /sq_eq0 Z; rewrite -[w]trmxK Z trmx0.
    split.
    - rewrite sq_braket braket_scale braket_scalel -sq_braket mulrA.
      have -> : ((vnorm w^T)^-1)^* = (vnorm w^T)^-1 by apply/CrealP; rewrite realV ger0_real ?vnorm_ge0.
      by rewrite -invfM -expr2 vnorm_sq mulVf.
    - rewrite -scalemxAr. have -> : H *m w^T = (w *m H^T)^T by rewrite trmx_mul trmxK. by rewrite E linearZ /= !scalerA mulrC.
  Qed.
  (** a unitary matrix that maps [e] to [w], up to a phase *)
  Lemma householder n (e w : 'cV[C]_n) : sq e = 1 -> sq w = 1 -> braket e w \is Num.real -> exists Q : 'M[C]_n, unitary Q /\ Q *m e = w.
  Proof.
    move=> E W R. set u := e - w. set s := sq u.
    have sR : s^* = s by apply/CrealP; rewrite ger0_real ?sq_ge0.
    have WE : braket w e = braket e w by rewrite braketC; apply/CrealP.
    have ue : braket u e = 1 - braket e w by rewrite /braket /u adj_add adj_opp mulmxDl mulNmx [LHS]mxE [X in _ + X]mxE -/(braket e e) -/(braket w e) -sq_braket E WE.
    have uw : braket u w = braket e w - 1 by rewrite /braket /u adj_add adj_opp mulmxDl mulNmx [LHS]mxE [X in _ + X]mxE -/(braket w w) -/(braket e w) -sq_braket W.
    have ss : s = (1 - braket e w) *+ 2.
    { rewrite /s sq_braket {2}/u /braket mulmxDr mulmxN [LHS]mxE [X in _ + X]mxE -/(braket u e) -/(braket u w) ue uw opprB mulr2n //. }
    exists (1%:M - (2%:R / s) *: (u *m adj u)). split.
    - apply/unitaryE. have H : adj (1%:M - (2%:R / s) *: (u *m adj u)) = 1%:M - (2%:R / s) *: (u *m adj u).
      { by rewrite adj_add adj_opp adj1 adj_scale adj_mul adjK rmorphM fmorphV sR rmorph_nat. }
      rewrite H mulmxBl !mulmxBr !mul1mx mulmx1 -!scalemxAl -!scalemxAr outer_mul -sq_braket -/s !scalerA.
      have [s0|s0] := eqVneq s 0; first by rewrite s0 invr0 mulr0 !mul0r !scale0r !subr0.
      have -> : 2%:R / s * (2%:R / s) * s = 2%:R / s + 2%:R / s by rewrite -mulrA mulfVK // mulr_natr mulr2n.
      by rewrite scalerDl opprB addrK subrK.
    - rewrite mulmxBl mul1mx -scalemxAl outer_apply scalerA ue.
      have [s0|s0] := eqVneq s 0.
      + by move: (sq_eq0 s0) => /eqP; rewrite subr_eq0 => /eqP ->; rewrite s0 invr0 mulr0 mul0r scale0r subr0.
      + have -> : 2%:R / s * (1 - braket e w) = 1 by rewrite mulrAC mulr_natl -ss mulfV.
        by rewrite scale1r /u opprB addrCA subrr addr0.
  Qed.
  Lemma braket_delta n (v : 'cV[C]_n) i : braket (delta_mx i 0) v = v i 0.
  Proof.
    rewrite /braket mxE (bigD1 i) //= big1 ?addr0 => [|j J]; rewrite !mxE ?eqxx ?(negbTE J) /= ?rmorph0 ?mul0r //. by rewrite rmorph1 mul1r.
  Qed.
  Lemma sq_scale n (a : C) (v : 'cV[C]_n) : sq (a *: v) = `|a| ^+ 2 * sq v.
  Proof. by rewrite sq_braket braket_scale braket_scalel -sq_braket mulrA -normCK. Qed.
  Lemma triangle n (H : 'M[C]_n.+1) : exists (Q : 'M[C]_n.+1) (a : C), unitary Q /\ H *m (Q *m delta_mx 0 0) = a *: (Q *m (delta_mx 0 0 : 'cV_n.+1)).
  Proof.
    have [a [v [V E]]] := eigenvector H. set c := if v 0 0 == 0 then 1 else (v 0 0)^* / `|v 0 0|.
    have c1 : `|c| = 1 by rewrite /c; case: eqP => [_|/eqP Z]; rewrite ?normr1 // normrM normfV norm_conjC normr_id mulfV // normr_eq0.
    have [||| Q [UQ QE]] := @householder _ (delta_mx 0 0) (c *: v).
    - by rewrite sq_braket braket_delta mxE !eqxx.
    - by rewrite sq_scale c1 expr1n mul1r.
    - rewrite braket_delta mxE /c. case: eqP => [->|/eqP Z]; first by rewrite mulr0 real0.
      rewrite mulrAC [_^* * _]mulrC -normCK expr2 mulfK ?normr_eq0 //.
    - exists Q, a. split=> //. by rewrite QE -scalemxAr E !scalerA mulrC.
  Qed.
  Lemma adj_block m n (A : 'M[C]_m) (B : 'M[C]_(m, n)) D (E : 'M[C]_n) : adj (block_mx A B D E) = block_mx (adj A) (adj D) (adj B) (adj E).
  Proof. by rewrite /adj tr_block_mx map_block_mx. Qed.
  Theorem spectral n (H : 'M[C]_n) : hermitian H -> exists (U : 'M[C]_n) (l : 'rV[C]_n), unitary U /\ (forall i, l 0 i \is Num.real) /\ H = U *m diag_mx l *m adj U.
  Proof.
    move=> HH. suff [U [l [UU E]]] : exists (U : 'M[C]_n) (l : 'rV[C]_n), unitary U /\ H = U *m diag_mx l *m adj U.
    { exists U, l. do 2!split=> //. move=> i. have D : diag_mx l = adj U *m H *m U.
      { move/unitaryE: UU => UU. by rewrite E !mulmxA UU mul1mx -mulmxA UU mulmx1. }
      have HD : adj (diag_mx l) = diag_mx l by rewrite D !adj_mul adjK (proj1 (hermitianE _) HH) mulmxA.
      move/matrixP: HD => /(_ i i). rewrite !mxE eqxx !mulr1n => Q. by apply/CrealP. }
    elim: n H HH => [|n IH] H HH; first by exists 1%:M, 0; split; [exact: unitary1|apply/matrixP => -[]].
    have [Q [a [UQ QE]]] := triangle H. have [K DK] : exists K : 'M[C]_(1 + n), K = adj Q *m H *m Q by exists (adj Q *m H *m Q).
    have HK : adj K = K by rewrite DK !adj_mul adjK (proj1 (hermitianE _) HH) mulmxA.
    have KE : K *m delta_mx 0 0 = a *: (delta_mx 0 0 : 'cV_(1 + n)).
    { rewrite DK -!mulmxA QE -scalemxAr mulmxA. by move/unitaryE: UQ => ->; rewrite mul1mx. }
    have K0 i : K i 0 = a *+ (i == 0).
    { move/matrixP: KE => /(_ i 0). rewrite !mxE eqxx andbT (bigD1 0) //= big1 => [|j J]; last by rewrite !mxE (negbTE J) mulr0.
      by rewrite !mxE !eqxx mulr1 addr0 mulr_natr. }
    have [V [l [UV VE]]] : exists (U : 'M[C]_n) (l : 'rV[C]_n), unitary U /\ drsubmx K = U *m diag_mx l *m adj U.
    { apply: IH. apply/hermitianE. rewrite -{2}HK. by apply/matrixP => i j; rewrite !mxE. }
    have KB : K = block_mx a%:M 0 0 (drsubmx K).
    { rewrite -[LHS]submxK. congr block_mx.
      - apply/matrixP => i j. rewrite !mxE !ord1 eqxx. have -> : lshift n (0 : 'I_1) = 0 by apply: val_inj. by rewrite K0 eqxx.
      - apply/matrixP => i j. rewrite -HK !mxE ord1. have -> : lshift n (0 : 'I_1) = 0 by apply: val_inj. by rewrite K0 mulr0n rmorph0.
      - apply/matrixP => i j. rewrite !mxE ord1. have -> : lshift n (0 : 'I_1) = 0 by apply: val_inj. by rewrite K0. }
    set B : 'M[C]_(1 + n) := block_mx 1%:M 0 0 V. set D : 'rV[C]_(1 + n) := row_mx a%:M l.
    have AB : adj B = block_mx 1%:M 0 0 (adj V) by rewrite /B adj_block !adj0 adj1.
    have UB : unitary B.
    { apply/unitaryE. rewrite AB /B mulmx_block !mul0mx !mulmx0 !mul1mx !addr0 !add0r. move/unitaryE: UV => ->. by rewrite -scalar_mx_block. }
    have KD : K = B *m diag_mx D *m adj B.
    { rewrite KB VE AB /B /D diag_mx_row !mulmx_block !mul0mx !mulmx0 !mul1mx !mulmx1 !addr0 !add0r !mul0mx. by congr block_mx; apply/matrixP => i j; rewrite !mxE !ord1 eqxx. }
    exists (Q *m B), D. split; first exact: unitary_mul.
    have -> : H = Q *m K *m adj Q by rewrite DK !mulmxA unitary_r // mul1mx -mulmxA unitary_r // mulmx1.
    by rewrite KD adj_mul !mulmxA.
  Qed.
End Spectral.
