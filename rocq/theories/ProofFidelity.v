(** Lemmas on fidelities: traces of square roots, polar decomposition, bounds. *)
From Coq Require Import ZArith Lia.
From mathcomp Require Import all_ssreflect all_algebra.
From mathcomp.real_closed Require Import mxtens.
From Verif Require Import Py ModelQuantum SpecQuantum ProofQuantum ProofProblems ProofSpectral ModelFidelity SpecFidelity.
Import GRing.Theory Num.Theory.
Set Implicit Arguments.
Unset Strict Implicit.
Unset Printing Implicit Defensive.
Local Open Scope ring_scope.

Section Fid.
  Variable C : numClosedFieldType.

  (** ** sums of squares *)
  Lemma fro_sum m n (X : 'M[C]_(m, n)) : \tr (adj X *m X) = \sum_j sq (col j X).
  Proof. rewrite /mxtrace. apply: eq_bigr => j _. rewrite /sq !mxE. apply: eq_bigr => i _. by rewrite !mxE normCK mulrC. Qed.
  Lemma fro_ge0 m n (X : 'M[C]_(m, n)) : 0 <= \tr (adj X *m X).
  Proof. rewrite fro_sum. apply: sumr_ge0 => j _. exact: sq_ge0. Qed.
  Lemma fro_eq0 m n (X : 'M[C]_(m, n)) : \tr (adj X *m X) = 0 -> X = 0.
  Proof.
    rewrite fro_sum => /eqP. rewrite psumr_eq0 => [/allP H|j _]; last exact: sq_ge0.
    apply/matrixP => i j. move: (H j (mem_index_enum j)) => /= /eqP /sq_eq0 /matrixP /(_ i 0). by rewrite !mxE.
  Qed.

  (** ** diagonal matrices *)
  Lemma adj_diag n (s : 'rV[C]_n) : (forall i, s 0 i \is Num.real) -> adj (diag_mx s) = diag_mx s.
  Proof.
    move=> R. apply/matrixP => i j. rewrite !mxE. have [->|E] := eqVneq j i; first by rewrite !mulr1n; apply/CrealP.
    by rewrite !mulr0n rmorph0.
  Qed.
  Lemma diag_mul n (s t : 'rV[C]_n) : diag_mx s *m diag_mx t = diag_mx (\row_i (s 0 i * t 0 i)).
  Proof.
    apply/matrixP => i j. rewrite !mxE (bigD1 i) //= big1 ?addr0 => [|k K]; rewrite !mxE ?eqxx ?mulr1n.
    - by rewrite -mulrnAr.
    - by rewrite eq_sym (negbTE K) mulr0n mul0r.
  Qed.
  Lemma sandwich_diag n (s : 'rV[C]_n) i : sandwich (delta_mx i 0) (diag_mx s) (delta_mx i 0) = s 0 i.
  Proof. rewrite sandwichE braket_delta. rewrite !mxE (bigD1 i) //= big1 ?addr0 => [|k K]; rewrite !mxE ?eqxx ?mulr1n ?mulr1 // (negbTE K) mulr0 //. Qed.
  Lemma semidefinite_diag n (s : 'rV[C]_n) : (forall i, 0 <= s 0 i) -> semidefinite (diag_mx s).
  Proof.
    move=> P. split; first by apply/hermitianE/adj_diag => i; apply: ger0_real.
    move=> v. rewrite sandwichE /braket mxE. apply: sumr_ge0 => i _. rewrite !mxE (bigD1 i) //= big1 ?addr0 => [|k K].
    - rewrite !mxE eqxx mulr1n mulrCA. rewrite mulr_ge0 // mulrC -normCK exprn_ge0 //.
    - by rewrite !mxE eq_sym (negbTE K) mulr0n mul0r.
  Qed.
  Lemma spectral_ge0 n (X : 'M[C]_n) : semidefinite X -> exists (U : 'M[C]_n) (l : 'rV[C]_n), unitary U /\ (forall i, 0 <= l 0 i) /\ X = U *m diag_mx l *m adj U.
  Proof.
    move=> [H P]. have [U [l [UU [R E]]]] := spectral H. exists U, l. split=> //. split=> // i.
    rewrite -(sandwich_diag l i). move: (P (U *m delta_mx i 0)). rewrite /sandwich -!adjE E adj_mul !mulmxA.
    by rewrite -[_ *m adj U *m U]mulmxA (proj1 (unitaryE U) UU) mulmx1 -[_ *m adj U *m U]mulmxA (proj1 (unitaryE U) UU) mulmx1.
  Qed.

  (** ** square roots *)
  Lemma root_exists n (X : 'M[C]_n) : semidefinite X -> exists R, root_of X R.
  Proof.
    move=> /spectral_ge0 [U [l [UU [P ->]]]]. exists (U *m diag_mx (map_mx sqrtC l) *m adj U). split.
    - apply: semidefinite_conj. apply: semidefinite_diag => i. by rewrite mxE sqrtC_ge0.
    - rewrite !mulmxA -[_ *m adj U *m U]mulmxA (proj1 (unitaryE U) UU) mulmx1 -[U *m _ *m _]mulmxA diag_mul.
      congr (_ *m diag_mx _ *m _). apply/matrixP => i j. by rewrite !mxE (ord1 i) -expr2 sqrtCK.
  Qed.
  (** the eigenvalues with their multiplicities *)
  Lemma char_poly_conj n (U X : 'M[C]_n) : unitary U -> char_poly (U *m X *m adj U) = char_poly X.
  Proof.
    move=> UU. have UR := unitary_r UU. rewrite /char_poly /char_poly_mx.
    have E : 'X%:M - map_mx polyC (U *m X *m adj U) = map_mx polyC U *m ('X%:M - map_mx polyC X) *m map_mx polyC (adj U).
    { rewrite mulmxBr mulmxBl !map_mxM /=. congr (_ - _). rewrite -mulmxA mul_scalar_mx -scalemxAr -map_mxM UR map_mx1. by rewrite scalemx1. }
    rewrite E !det_mulmx mulrAC -det_mulmx -map_mxM UR map_mx1 det1 mul1r //.
  Qed.
  Lemma char_poly_diag n (s : 'rV[C]_n) : char_poly (diag_mx s) = \prod_(l <- [seq s 0 i | i <- enum 'I_n]) ('X - l%:P).
  Proof.
    rewrite char_poly_trig ?diag_mx_is_trig // big_map big_enum /=. apply: eq_bigr => i _. by rewrite mxE eqxx mulr1n.
  Qed.
  Lemma prod_XsubC_perm (r s : seq C) : \prod_(l <- r) ('X - l%:P) = \prod_(l <- s) ('X - l%:P) -> perm_eq r s.
  Proof.
    elim: r s => [|a r IH] s E.
    - case: s E => [|b s] // /(congr1 (fun p : {poly C} => size p)). by rewrite !size_prod_XsubC.
    - have A : a \in s by rewrite -root_prod_XsubC -E big_cons rootM root_XsubC eqxx.
      rewrite perm_sym. apply: (perm_trans (perm_to_rem A)). rewrite perm_cons perm_sym. apply: IH.
      apply: (mulfI (negbT (polyXsubC_eq0 a))). move: E. rewrite big_cons => ->. by rewrite (perm_big _ (perm_to_rem A)) big_cons.
  Qed.
  (** the trace of a root is the sum of the roots of the eigenvalues *)
  Lemma root_trace n (X R : 'M[C]_n) (e : seq C) : root_of X R -> char_poly X = \prod_(l <- e) ('X - l%:P) ->
    \tr R = \sum_(l <- e) sqrtC l /\ all (fun l => 0 <= l) e.
  Proof.
    move=> [/spectral_ge0 [U [s [UU [P ->]]]] <-]. have UE := proj1 (unitaryE U) UU.
    rewrite !mulmxA -[_ *m adj U *m U]mulmxA UE mulmx1 -[U *m _ *m _]mulmxA diag_mul char_poly_conj // char_poly_diag => E.
    have {E} Pe := prod_XsubC_perm E. split.
    - rewrite mxtrace_mulC mulmxA UE mul1mx mxtrace_diag -(perm_big _ Pe) /= big_map big_enum /=. apply: eq_bigr => i _.
      by rewrite mxE -expr2 sqrCK.
    - rewrite -(perm_all _ Pe). apply/allP => x /mapP [i _ ->]. by rewrite mxE mulr_ge0.
  Qed.
  Lemma eigenvalues_exist n (X : 'M[C]_n) : exists e : seq C, char_poly X = \prod_(l <- e) ('X - l%:P).
  Proof.
    have [e E] := closed_field_poly_normal (char_poly X). exists e. by rewrite E (eqP (char_poly_monic X)) scale1r.
  Qed.
  Lemma root_trace_uniq n (X R R' : 'M[C]_n) : root_of X R -> root_of X R' -> \tr R = \tr R'.
  Proof. move=> H H'. have [e E] := eigenvalues_exist X. by rewrite (proj1 (root_trace H E)) (proj1 (root_trace H' E)). Qed.

  (** ** polar decomposition *)
  Lemma polar n (M S : 'M[C]_n) : root_of (adj M *m M) S -> exists (U W : 'M[C]_n) (s : 'rV[C]_n),
    unitary U /\ (forall i, 0 <= s 0 i) /\ S = U *m diag_mx s *m adj U /\ M *m U = W *m diag_mx s /\
    adj W *m W *m diag_mx s = diag_mx s /\ W *m adj W *m W = W.
  Proof.
    move=> [/spectral_ge0 [U [s [UU [P ES]]]] E]. have UE := proj1 (unitaryE U) UU.
    have sR : forall i, s 0 i \is Num.real by move=> i; apply: ger0_real.
    pose t : 'rV[C]_n := \row_i (s 0 i)^-1. have tR : forall i, t 0 i \is Num.real by move=> i; rewrite mxE realV.
    have MU : adj (M *m U) *m (M *m U) = diag_mx s *m diag_mx s.
    { rewrite adj_mul -mulmxA [adj M *m _]mulmxA -E ES !mulmxA UE mul1mx. rewrite -[_ *m adj U *m U]mulmxA UE mulmx1.
      by rewrite -[_ *m adj U *m U]mulmxA UE mulmx1. }
    have Z : M *m U *m diag_mx t *m diag_mx s = M *m U.
    { rewrite -mulmxA diag_mul. apply/eqP. rewrite -subr_eq0. apply/eqP/fro_eq0. rewrite -{2 4}[M *m U]mulmx1 -mulmxBr.
      set Q := diag_mx _ - 1%:M. rewrite adj_mul -mulmxA [adj (M *m U) *m _]mulmxA MU.
      have -> : diag_mx s *m diag_mx s *m Q = 0; last by rewrite mulmx0 mxtrace0.
      rewrite /Q mulmxBr mulmx1 !diag_mul -[X in _ - X]scale1r. apply/matrixP => i j. rewrite !mxE. have [_|N] := eqVneq i j; last by rewrite !mulr0n mulr0 subr0.
      rewrite !mulr1n mul1r. have [->|N] := eqVneq (s 0 i) 0; first by rewrite !mul0r subr0.
      by rewrite mulVf // mulr1 subrr. }
    exists U, (M *m U *m diag_mx t), s. rewrite Z. do 4 split=> //.
    have WW : adj (M *m U *m diag_mx t) *m (M *m U *m diag_mx t) = diag_mx (\row_i (if s 0 i == 0 then 0 else 1)).
    { rewrite adj_mul adj_diag // -mulmxA [adj (M *m U) *m _]mulmxA MU !mulmxA !diag_mul. congr diag_mx. apply/matrixP => i j. rewrite !mxE.
      have [->|N] := eqVneq (s 0 j) 0; first by rewrite !mulr0 mul0r. by rewrite mulVf // mul1r mulfV. }
    split.
    - rewrite WW diag_mul. congr diag_mx. apply/matrixP => i j. rewrite !mxE (ord1 i). have [->|N] := eqVneq (s 0 j) 0; by rewrite ?mulr0 ?mul1r.
    - rewrite -mulmxA WW -mulmxA diag_mul. congr (_ *m diag_mx _). apply/matrixP => i j. rewrite !mxE.
      have [->|N] := eqVneq (s 0 j) 0; by rewrite ?mulr0 ?invr0 ?mulr1.
  Qed.
  Lemma root_trace_swap n (M S S' : 'M[C]_n) : root_of (adj M *m M) S -> root_of (M *m adj M) S' -> \tr S = \tr S'.
  Proof.
    move=> H H'. have [U [W [s [UU [P [ES [EM [ED EW]]]]]]]] := polar H. have UE := proj1 (unitaryE U) UU.
    have sR : forall i, s 0 i \is Num.real by move=> i; apply: ger0_real.
    have T : root_of (M *m adj M) (W *m diag_mx s *m adj W).
    { split; first by apply: semidefinite_conj; apply: semidefinite_diag.
      rewrite !mulmxA -[_ *m adj W *m W]mulmxA -[_ *m (adj W *m W) *m _]mulmxA ED.
      have -> : M *m adj M = (M *m U) *m adj (M *m U) by rewrite adj_mul mulmxA -[M *m U *m adj U]mulmxA (unitary_r UU) mulmx1.
      by rewrite EM adj_mul adj_diag // !mulmxA. }
    rewrite -(root_trace_uniq T H') ES mxtrace_mulC mulmxA UE mul1mx mxtrace_mulC mulmxA. by rewrite ED.
  Qed.

  (** ** bounds *)
  Lemma fro_ineq n (X Y : 'M[C]_n) : \tr (adj (X - Y) *m (X - Y)) = \tr (adj X *m X) + \tr (adj Y *m Y) - (\tr (adj X *m Y) + (\tr (adj X *m Y))^*).
  Proof.
    have T : (\tr (adj X *m Y))^* = \tr (adj Y *m X) by rewrite -mxtrace_adj adj_mul adjK.
    have N : forall Z : 'M[C]_n, \tr (- Z) = - \tr Z by move=> Z; rewrite raddfN.
    rewrite T adj_add adj_opp mulmxDl !mulmxDr !mulmxN !mulNmx !mxtraceD !N opprK.
    rewrite opprD -!addrA. congr (_ + _). rewrite addrA addrC. congr (_ + _).
  Qed.
  Definition bound n (A B : 'M[C]_n) (S : 'M[C]_n) : Prop :=
    0 <= \tr S /\ (\tr S) *+ 2 <= \tr (A *m A) + \tr (B *m B) /\ ((\tr S) *+ 2 = \tr (A *m A) + \tr (B *m B) -> A *m A = B *m B).
  Lemma fidelity_bound n (A B S : 'M[C]_n) : adj A = A -> adj B = B -> root_of (A *m (B *m B) *m A) S -> bound A B S.
  Proof.
    move=> HA HB RS. have EM : adj (B *m A) *m (B *m A) = A *m (B *m B) *m A by rewrite adj_mul HA HB !mulmxA.
    rewrite -EM in RS. have [U [W [s [UU [P [ES [EU [ED EW]]]]]]]] := polar RS. have UE := proj1 (unitaryE U) UU.
    have TS : \tr S = \sum_i s 0 i by rewrite ES mxtrace_mulC mulmxA UE mul1mx mxtrace_diag.
    have TS0 : 0 <= \tr S by rewrite TS; apply: sumr_ge0.
    have TX : \tr (adj (B *m W) *m (A *m U)) = \tr S.
    { rewrite adj_mul HB -mulmxA [B *m _]mulmxA EU mulmxA ED mxtrace_diag TS //. }
    have TA : \tr (adj (A *m U) *m (A *m U)) = \tr (A *m A).
    { rewrite adj_mul HA mxtrace_mulC !mulmxA -[_ *m U *m adj U]mulmxA (unitary_r UU) mulmx1 //. }
    pose Pr := 1%:M - W *m adj W.
    have HP : adj Pr = Pr by rewrite /Pr adj_add adj_opp adj1 adj_mul adjK.
    have PP : Pr *m Pr = Pr.
    { rewrite {1}/Pr mulmxBl mul1mx. have -> : W *m adj W *m Pr = 0; last by rewrite subr0.
      by rewrite /Pr mulmxBr mulmx1 mulmxA EW subrr. }
    have TB : \tr (adj (B *m W) *m (B *m W)) = \tr (B *m B) - \tr (adj (Pr *m B) *m (Pr *m B)).
    { rewrite !adj_mul HB HP -!mulmxA [Pr *m (Pr *m _)]mulmxA PP. rewrite [X in _ = _ - X]mxtrace_mulC -!mulmxA.
      rewrite {1}/Pr mulmxBl mul1mx raddfB /= opprB addrC subrK -!mulmxA. by rewrite [RHS]mxtrace_mulC -!mulmxA. }
    have := fro_ineq (B *m W) (A *m U). rewrite TX TA TB.
    have -> : (\tr S)^* = \tr S by apply/CrealP; rewrite ger0_real.
    rewrite -mulr2n. have F1 := fro_ge0 (B *m W - A *m U). have F2 := fro_ge0 (Pr *m B).
    set f1 := \tr (adj (B *m W - A *m U) *m _) in F1 *. set f2 := \tr (adj (Pr *m B) *m _) in F2 *.
    move=> EQ. have EQ2 : \tr (A *m A) + \tr (B *m B) - \tr S *+ 2 = f1 + f2.
    { rewrite EQ. generalize (\tr (A *m A)) (\tr (B *m B)) (\tr S *+ 2) => a b c.
      by rewrite [b - f2 + a]addrAC [_ - f2 - c]addrAC subrK [b + a]addrC. }
    split=> //. split; first by rewrite -subr_ge0 EQ2 addr_ge0.
    move=> E. move: EQ2. rewrite E subrr => /esym /eqP. rewrite paddr_eq0 // => /andP [/eqP /fro_eq0 Z1 /eqP /fro_eq0 Z2].
    have {}Z1 : B *m W = A *m U by apply/eqP; rewrite -subr_eq0 Z1.
    have -> : A *m A = (A *m U) *m adj (A *m U) by rewrite adj_mul HA mulmxA -[A *m U *m adj U]mulmxA (unitary_r UU) mulmx1.
    rewrite -Z1 adj_mul HB -!mulmxA. have -> : W *m (adj W *m B) = B; last by [].
    rewrite mulmxA. have -> : W *m adj W = 1%:M - Pr by rewrite /Pr opprB addrC subrK. by rewrite mulmxBl Z2 mul1mx subr0.
  Qed.

  (** ** fidelities *)
  Section Fidelity.
    Variable d : nat.
    Notation M := 'M[C]_d.
    Lemma root_conj (A X : M) : adj A = A -> semidefinite X -> semidefinite (A *m X *m A).
    Proof. move=> H P. have := semidefinite_conj A P. by rewrite H. Qed.
    Lemma root_adj (X R : M) : root_of X R -> adj R = R.
    Proof. by move=> [[/hermitianE H _] _]. Qed.
    Lemma semidefinite_root (X R : M) : root_of X R -> semidefinite X.
    Proof.
      move=> H. have A := root_adj H. case: H => P <-.
      have I1 : semidefinite (1%:M : M) by rewrite -diag_const_mx; apply: semidefinite_diag => i; rewrite mxE ler01.
      by move: (semidefinite_conj R I1); rewrite mulmx1 A.
    Qed.
    (** the roots are unique *)
    Lemma trace_semidefinite (X : M) : semidefinite X -> 0 <= \tr X /\ (\tr X = 0 -> X = 0).
    Proof.
      move=> /root_exists [R H]. have A := root_adj H. case: H => _ <-. rewrite -{1 3}A. split; first exact: fro_ge0.
      by move=> /fro_eq0 ->; rewrite mulmx0.
    Qed.
    Lemma root_uniq (X R R' : M) : root_of X R -> root_of X R' -> R = R'.
    Proof.
      move=> H H'. have A := root_adj H. have A' := root_adj H'. case: H => P E. case: H' => P' E'.
      have [U [s [UU [S0 ER]]]] := spectral_ge0 P. have UE := proj1 (unitaryE U) UU. have UR := unitary_r UU.
      have DR : adj U *m R *m U = diag_mx s.
      { by rewrite ER !mulmxA UE mul1mx -mulmxA UE mulmx1. }
      have [T ET] : exists T : M, T = adj U *m R' *m U by exists (adj U *m R' *m U).
      have TT : T *m T = diag_mx s *m diag_mx s.
      { rewrite ET -DR !mulmxA -[_ *m U *m adj U]mulmxA UR mulmx1 -[_ *m R' *m R']mulmxA E'.
        by rewrite -[_ *m U *m adj U]mulmxA UR mulmx1 -[_ *m R *m R]mulmxA E. }
      have PT : semidefinite T by rewrite ET -{2}[U]adjK; apply: semidefinite_conj.
      have PD : semidefinite (diag_mx s) by apply: semidefinite_diag.
      have CM : T *m diag_mx s = diag_mx s *m T.
      { have CC : T *m (diag_mx s *m diag_mx s) = (diag_mx s *m diag_mx s) *m T by rewrite -TT mulmxA.
        apply/matrixP => i j. move/matrixP: CC => /(_ i j). rewrite diag_mul !mul_mx_diag !mul_diag_mx !mxE => EQ.
        have [Z|N] := eqVneq (T i j) 0; first by rewrite Z mul0r mulr0.
        rewrite mulrC. congr (_ * _). move: EQ. rewrite mulrC => /(mulIf N) EQ. apply/esym.
        apply: (pexpIrn (ltn0Sn 1)); rewrite ?qualifE ?S0 //. }
      have [Z EZ] : exists Z : M, Z = T - diag_mx s by exists (T - diag_mx s).
      have HZ : adj Z = Z by rewrite EZ adj_add adj_opp (proj1 (hermitianE _) (proj1 PT)) (proj1 (hermitianE _) (proj1 PD)).
      have Z0 : Z *m (T + diag_mx s) = 0 by rewrite EZ mulmxDr !mulmxBl TT CM addrA subrK subrr.
      have S1 : semidefinite (Z *m T *m Z) by apply: root_conj.
      have S2 : semidefinite (Z *m diag_mx s *m Z) by apply: root_conj.
      have SZ : \tr (Z *m T *m Z) + \tr (Z *m diag_mx s *m Z) = 0 by rewrite -mxtraceD -mulmxDl -mulmxDr Z0 mul0mx mxtrace0.
      have [Q1 N1] := trace_semidefinite S1. have [Q2 N2] := trace_semidefinite S2.
      move/eqP: SZ. rewrite paddr_eq0 // => /andP [/eqP /N1 M1 /eqP /N2 M2].
      have Z3 : Z *m Z *m Z = 0 by rewrite {2}EZ mulmxBr mulmxBl M1 M2 subrr.
      have ZZ : Z *m Z = 0 by apply: hermitian_square0; [rewrite adj_mul HZ|rewrite mulmxA Z3 mul0mx].
      have {}ZZ := hermitian_square0 HZ ZZ.
      have {}ZZ : T = diag_mx s by apply/eqP; rewrite -subr_eq0 -EZ ZZ.
      rewrite ER -ZZ ET !mulmxA UR mul1mx -mulmxA UR mulmx1 //.
    Qed.
    Lemma fidelity_uniq (rho sigma : M) F F' : fidelity_is rho sigma F -> fidelity_is rho sigma F' -> F = F'.
    Proof.
      move=> [R [S [HR [HS ->]]]] [R' [S' [HR' [HS' ->]]]]. rewrite -(root_uniq HR HR') in HS'. by rewrite (root_trace_uniq HS HS').
    Qed.
    Lemma fidelity_exists (rho sigma : M) : semidefinite rho -> semidefinite sigma -> exists F, fidelity_is rho sigma F.
    Proof.
      move=> /root_exists [R HR] P. have [S HS] := root_exists (root_conj (root_adj HR) P). by exists (\tr S ^+ 2), R, S.
    Qed.
    Lemma fidelity_sym (rho sigma : M) F : semidefinite sigma -> fidelity_is rho sigma F -> fidelity_is sigma rho F.
    Proof.
      move=> PS [A [S [HA [HS ->]]]]. have [B HB] := root_exists PS.
      have AA := root_adj HA. have AB := root_adj HB. have PA := semidefinite_root HA.
      have [S' HS'] := root_exists (root_conj AB PA). exists B, S'. split=> //. split=> //.
      case: HA HB HS HS' => _ <- [_ <-] HS HS'. congr (_ ^+ 2). apply: (root_trace_swap (M := B *m A)); by rewrite adj_mul AA AB !mulmxA; rewrite !mulmxA in HS HS'.
    Qed.
    Lemma fidelity_range_mixed (rho sigma : M) F : density rho -> density sigma -> fidelity_is rho sigma F ->
      (0 <= F <= 1) /\ (F = 1 <-> rho = sigma).
    Proof.
      move=> [PR TR] [PS TS] [A [S [HA [HS ->]]]]. have [B HB] := root_exists PS.
      have AA := root_adj HA. have AB := root_adj HB. have HA' := HA. case: HA => _ EA. case: HB => _ EB. rewrite -EB in HS.
      have [T0 [T1 T2]] := fidelity_bound AA AB HS. rewrite EA EB TR TS -mulr2n in T1 T2. rewrite ler_pmuln2r // in T1.
      split; first by rewrite exprn_ge0 //= exprn_ile1. split.
      - move=> E. apply: T2. congr (_ *+ 2). apply: (pexpIrn (ltn0Sn 1)); rewrite ?qualifE ?ler01 // E expr1n //.
      - move=> E. rewrite EB -E -EA in HS. have R : root_of (A *m (A *m A) *m A) (A *m A).
        { split; last by rewrite !mulmxA. rewrite EA. exact: PR. }
        by rewrite (root_trace_uniq HS R) EA TR expr1n.
    Qed.
    Lemma fidelity_unitary (rho sigma V : M) F : unitary V -> fidelity_is rho sigma F -> fidelity_is (V *m rho *m adj V) (V *m sigma *m adj V) F.
    Proof.
      move=> UV [R [S [[PR ER] [[PS ES] ->]]]]. have UE := proj1 (unitaryE V) UV.
      have K : forall X Y : M, (V *m X *m adj V) *m (V *m Y *m adj V) = V *m (X *m Y) *m adj V.
      { by move=> X Y; rewrite !mulmxA -[_ *m adj V *m V]mulmxA UE mulmx1. }
      exists (V *m R *m adj V), (V *m S *m adj V). split; first by split; [apply: semidefinite_conj|rewrite K ER].
      split; first by split; [apply: semidefinite_conj|rewrite !K ES].
      by rewrite mxtrace_mulC mulmxA UE mul1mx.
    Qed.
    Lemma fidelity_pure (psi : 'cV[C]_d) (sigma : M) : sq psi = 1 -> semidefinite sigma -> fidelity_is (pure psi) sigma (sandwich psi sigma psi).
    Proof.
      move=> N P. have RP : root_of (pure psi) (pure psi).
      { rewrite pureE. split; first exact: semidefinite_outer. by rewrite outer_mul -sq_braket N scale1r. }
      have Q : 0 <= sandwich psi sigma psi by case: P => _; apply.
      have E : pure psi *m sigma *m pure psi = sandwich psi sigma psi *: (psi *m adj psi).
      { rewrite !pureE mulmxA. rewrite -[psi *m adj psi *m sigma]mulmxA -[psi *m (adj psi *m sigma) *m psi]mulmxA [adj psi *m sigma *m psi]scalar11.
        rewrite mul_mx_scalar -scalemxAl. by rewrite /sandwich -adjE. }
      set q := sandwich psi sigma psi in Q E *. have RQ : root_of (q *: (psi *m adj psi)) (sqrtC q *: (psi *m adj psi)).
      { split.
        - have W := semidefinite_outer (sqrtC (sqrtC q) *: psi). move: W.
          rewrite adj_scale -scalemxAl -scalemxAr scalerA -normCK ger0_norm ?sqrtC_ge0 ?sqrtC_ge0 // sqrtCK //.
        - by rewrite -scalemxAl -scalemxAr scalerA -expr2 sqrtCK outer_mul -sq_braket N scale1r. }
      exists (pure psi), (sqrtC q *: (psi *m adj psi)). rewrite E. do 2 split=> //.
      by rewrite mxtraceZ outer_trace -sq_braket N mulr1 sqrtCK.
    Qed.
  End Fidelity.

  (** ** routines that compute what they are meant to *)
  Section Oracles.
    Variable d : nat.
    Notation M := 'M[C]_d.
    Definition some_eigenvalues (X : M) : seq C := sval (closed_field_poly_normal (char_poly X)).
    Lemma some_eigenvalues_ok : finds_eigenvalues some_eigenvalues.
    Proof. move=> X. rewrite /some_eigenvalues. case: closed_field_poly_normal => e /= {1}->. by rewrite (eqP (char_poly_monic X)) scale1r. Qed.
    Definition semib (X : M) : bool := (adj X == X) && all (fun l => 0 <= l) (some_eigenvalues X).
    Lemma semibP X : reflect (semidefinite X) (semib X).
    Proof.
      apply: (iffP andP) => [[/eqP /hermitianE H A]|H].
      - have [U [l [UU [R E]]]] := spectral H. have := some_eigenvalues_ok X. rewrite {1}E char_poly_conj // char_poly_diag => /prod_XsubC_perm Pe.
        rewrite E. apply: semidefinite_conj. apply: semidefinite_diag => i. move: A. rewrite -(perm_all _ Pe) => /allP. apply.
        apply: map_f. by rewrite mem_enum.
      - split; first by apply/eqP/hermitianE; case: H. have [R HR] := root_exists H.
        by case: (root_trace HR (some_eigenvalues_ok X)).
    Qed.
    Lemma has_root X : semib X -> exists R, semib R && (R *m R == X).
    Proof. move=> /semibP /root_exists [R [P E]]. exists R. by rewrite E eqxx andbT; apply/semibP. Qed.
    Definition some_root (X : M) : M := match @idP (semib X) with ReflectT h => xchoose (has_root h) | _ => 0 end.
    Lemma some_root_ok : finds_roots some_root.
    Proof.
      move=> X /semibP H. rewrite /some_root. case: {-}_ / idP => // h. have /andP [/semibP P /eqP E] := xchooseP (has_root h). by split.
    Qed.
    Lemma has_basis (X : M) : adj X == X -> exists p : 'rV[C]_d * M, (adj p.2 *m p.2 == 1%:M) && (X *m p.2 == p.2 *m diag_mx p.1).
    Proof.
      move=> /eqP /hermitianE /spectral [U [l [UU [_ ->]]]]. exists (l, U). have UE := proj1 (unitaryE U) UU. by rewrite /= UE eqxx -mulmxA UE mulmx1 eqxx.
    Qed.
    Definition some_basis (X : M) : 'rV[C]_d * M := match @idP (adj X == X) with ReflectT h => xchoose (has_basis h) | _ => (0, 0) end.
    Lemma some_basis_ok : diagonalises some_basis.
    Proof.
      move=> X /hermitianE /eqP H. rewrite /some_basis. case: {-}_ / idP => // h. have /andP [/eqP /unitaryE P /eqP E] := xchooseP (has_basis h). by split.
    Qed.
    Lemma invmx_ok : inverts (@invmx C d).
    Proof. move=> X. exact: mulVmx. Qed.
  End Oracles.
End Fid.
