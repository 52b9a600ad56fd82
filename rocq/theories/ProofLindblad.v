(** * Dissipative example problems: lemmas. *)
From Coq Require Import ZArith Lia.
From mathcomp Require Import all_ssreflect all_algebra zify ring.
From Verif Require Import Py ModelQuantum ModelTrace ModelIsing ModelLindblad SpecTrace SpecQuantum SpecFidelity SpecIsing SpecLindblad.
From Verif Require Import ProofQuantum ProofGrape ProofTrace ProofProblems ProofIsing ProofIsingH ProofIsingP ProofWitness ProofSpectral ProofFidelity.
Import GRing.Theory Num.Theory.
Set Implicit Arguments.
Unset Strict Implicit.
Unset Printing Implicit Defensive.
Local Open Scope ring_scope.
Local Open Scope seq_scope.

Section TLS.
  Variable C : numClosedFieldType.
  Notation mx := (@mx22 C).
  Lemma sum4 (f : 'I_4 -> C) : \sum_i f i = f (inord 0) + f (inord 1) + f (inord 2) + f (inord 3).
  Proof.
    rewrite !big_ord_recl big_ord0 addr0 !addrA. congr (f _ + f _ + f _ + f _); apply: val_inj; by rewrite /= inordK.
  Qed.
  Lemma all4 (P : 'I_4 -> Prop) : P (inord 0) -> P (inord 1) -> P (inord 2) -> P (inord 3) -> forall i, P i.
  Proof.
    move=> H0 H1 H2 H3 i. rewrite -[i]inord_val. by case: i => [[|[|[|[|i]]]] L].
  Qed.
  Lemma of_rowsE (l : seq (seq C)) i j : (i < 4)%N -> (j < 4)%N -> (of_rows l : 'M[C]_4) (inord i) (inord j) = nth 0 (nth [::] l i) j.
  Proof. move=> I J. by rewrite mxE !inordK. Qed.
  Lemma LFSE (rho : 'M[C]_2) i : (i < 4)%N -> convert_rho_to_LFS rho (inord i) 0 = nth 0 [:: rho 0 0; rho 0 1; rho 1 0; rho 1 1] i.
  Proof. move=> I. by rewrite mxE inordK. Qed.
  Lemma LFSK (rho : 'M[C]_2) : convert_LFS_to_rho (convert_rho_to_LFS rho) = rho.
  Proof. apply: mx22P; by rewrite mx22E LFSE. Qed.
  Lemma LFSK' (v : 'cV[C]_4) : convert_rho_to_LFS (convert_LFS_to_rho v) = v.
  Proof. apply/matrixP => i j. rewrite ord1. move: i. apply: all4; by rewrite LFSE //= !mx22E. Qed.

  Lemma driven_mx (E x : C) : driven_qubit E x = mx E x x 0.
  Proof. apply: mx22P; by rewrite mx22E !mxE. Qed.
  Lemma jump_mx : jump C = mx 0 1 0 0.
  Proof. apply: mx22P; by rewrite mx22E !mxE. Qed.
  Lemma generator (gamma E x : C) (rho : 'M[C]_2) :
    convert_LFS_to_rho ((L_const gamma E + x *: L_drive C) *m convert_rho_to_LFS rho) = decay gamma (driven_qubit E x) rho + (gamma * rho 0 1) *: jump C.
  Proof.
    rewrite /decay -!adjE driven_mx jump_mx. have -> : rho = mx (rho 0 0) (rho 0 1) (rho 1 0) (rho 1 1) by apply: mx22P; rewrite mx22E.
    move: (rho 0 0) (rho 0 1) (rho 1 0) (rho 1 1) => a b c e. rewrite !mx22E adj22 !rmorph0 !rmorph1 ?(mul22, opp22, add22, scale22).
    rewrite /convert_LFS_to_rho. congr mx22; rewrite mxE sum4 !mxE !inordK //=; field; rewrite ?pnatr_eq0 //.
  Qed.

  (** ** Slices *)
  Section Slices.
    Variable expm : 'M[C]_4 -> 'M[C]_4.
    Variables (gamma E : C) (drive grid : seq C).
    Definition step : C := last 0 grid / (size grid)%:R.
    Definition gen (x : C) : 'M[C]_4 := L_const gamma E + x *: L_drive C.
    Lemma foldl_evolved (U : nat -> 'M[C]_4) (v : 'cV[C]_4) n k : foldl (fun v i => U i *m v) v (iota k n) = evolved (fun i => U (k + i)%N) 1%:M n *m v.
    Proof.
      elim: n v => [|n IH] v; first by rewrite /= mul1mx. have -> : iota k n.+1 = iota k n ++ [:: (k + n)%N] by rewrite -[n.+1]addn1 iotaD.
      by rewrite foldl_cat IH /= mulmxA.
    Qed.
    Lemma tls_evolved (v : 'cV[C]_4) Lc Ld : tls_evolution_final expm v Lc Ld drive grid
      = evolved (fun i => expm (step *: (Lc + clamped 0 drive i *: Ld))) 1%:M (size grid) *m v.
    Proof. by rewrite /tls_evolution_final -/step foldl_evolved. Qed.
    Lemma evolved_left (U : nat -> 'M[C]_4) (w : 'rV[C]_4) a n : (forall i, (i < n)%N -> w *m U i = a *: w) -> w *m evolved U 1%:M n = a ^+ n *: w.
    Proof.
      elim: n => [|n IH] H; first by rewrite /= mulmx1 expr0 scale1r. rewrite /= mulmxA H // -scalemxAl IH ?scalerA -?exprS // => i I. apply: H. exact: ltnW.
    Qed.
    Definition tr_row : 'rV[C]_4 := \row_i nth 0 [:: 1; 0; 0; 1] i.
    Lemma tr_rowE (v : 'cV[C]_4) : \tr (convert_LFS_to_rho v) = (tr_row *m v) 0 0.
    Proof. rewrite tr22 mxE sum4 !mxE !inordK //=. ring. Qed.
    Lemma tr_gen x : tr_row *m gen x = 0.
    Proof. apply/matrixP => i j. move: j. apply: all4; rewrite mxE sum4 !mxE !inordK //=; ring. Qed.
    Lemma trace_kept cexp v : cexp 0 = 1 -> (forall x, x \in drive -> exponential_at expm cexp (step *: gen x)) -> (0 < size drive)%N ->
      \tr (convert_LFS_to_rho (tls_evolution_final expm v (L_const gamma E) (L_drive C) drive grid)) = \tr (convert_LFS_to_rho v).
    Proof.
      move=> E0 H D. rewrite !tr_rowE tls_evolved mulmxA (@evolved_left _ _ 1) ?expr1n ?scale1r // => i _.
      rewrite -[RHS]scale1r -E0. apply: H; last by rewrite -scalemxAr tr_gen scaler0 scale0r. apply: mem_nth. case: (size drive) D => // m _. by rewrite ltnS geq_minr.
    Qed.
    (** one entry of the state when there is no drive *)
    Definition entry_row k : 'rV[C]_4 := delta_mx 0 (inord k).
    Lemma entry_rowE k (v : 'cV[C]_4) : (entry_row k *m v) 0 0 = v (inord k) 0.
    Proof. by rewrite -rowE mxE. Qed.
    Lemma entry_gen k a : (0 < k < 4)%N -> nth 0 (nth [::] [:: [:: 0; 0; 0; gamma]; [:: 0; - 'i * E + gamma / 2%:R; 0; 0];
                [:: 0; 0; 'i * E - gamma / 2%:R; 0]; [:: 0; 0; 0; - gamma]] k) k = a -> entry_row k *m L_const gamma E = a *: entry_row k.
    Proof.
      move=> K <-. rewrite -rowE. apply/matrixP => i j. rewrite ord1 !mxE eqxx /= inordK; last by case/andP: K. move: j.
      case: k K => [|[|[|[|k]]]] // _; apply: all4; rewrite !inordK //= -!val_eqE /= !inordK //=; ring.
    Qed.
    Lemma undriven k a cexp v : (0 < k < 4)%N -> nth 0 (nth [::] [:: [:: 0; 0; 0; gamma]; [:: 0; - 'i * E + gamma / 2%:R; 0; 0];
                [:: 0; 0; 'i * E - gamma / 2%:R; 0]; [:: 0; 0; 0; - gamma]] k) k = a ->
      (forall x, x \in drive -> x = 0) -> exponential_at expm cexp (step *: L_const gamma E) ->
      tls_evolution_final expm v (L_const gamma E) (L_drive C) drive grid (inord k) 0 = cexp (step * a) ^+ size grid * v (inord k) 0.
    Proof.
      move=> K A Z H. rewrite -!entry_rowE tls_evolved mulmxA (@evolved_left _ _ (cexp (step * a))).
      - by rewrite -scalemxAl mxE.
      - move=> i _. have -> : clamped 0 drive i = 0.
        { rewrite /clamped. case: (ltnP (minn i (size drive).-1) (size drive)) => L; last by rewrite nth_default. apply: Z. exact: mem_nth. }
        rewrite scale0r addr0. apply: H. by rewrite -scalemxAr (entry_gen K A) scalerA.
    Qed.
    (** ** Hermitian states *)
    Definition swap4 : 'M[C]_4 := of_rows [:: [:: 1; 0; 0; 0]; [:: 0; 0; 1; 0]; [:: 0; 1; 0; 0]; [:: 0; 0; 0; 1]].
    Lemma swap_involution : swap4 *m swap4 = 1%:M.
    Proof. apply/matrixP. apply: all4; apply: all4; rewrite !mxE sum4 !mxE !inordK //= -val_eqE /= !inordK //=; ring. Qed.
    Definition conjv (v : 'cV[C]_4) : 'cV[C]_4 := map_mx conjC v.
    Lemma swap_hermitian v : swap4 *m conjv v = v <-> hermitian (convert_LFS_to_rho v).
    Proof.
      split.
      - move=> H. have Q : forall i, v i 0 = (swap4 *m conjv v) i 0 by move=> i; rewrite H.
        have two : forall k : 'I_2, k = 0 \/ k = 1 by case=> [[|[|k]] Hk] //; [left|right]; apply: val_inj.
        move=> i j. have Q0 := Q (inord 0). have Q1 := Q (inord 1). have Q2 := Q (inord 2). have Q3 := Q (inord 3).
        rewrite mxE sum4 !mxE !inordK //= !mul1r !mul0r ?addr0 ?add0r in Q0. rewrite mxE sum4 !mxE !inordK //= !mul1r !mul0r ?addr0 ?add0r in Q1.
        rewrite mxE sum4 !mxE !inordK //= !mul1r !mul0r ?addr0 ?add0r in Q2. rewrite mxE sum4 !mxE !inordK //= !mul1r !mul0r ?addr0 ?add0r in Q3.
        by case: (two i) => ->; case: (two j) => ->; rewrite !mx22E.
      - move=> H. apply/matrixP => i j. rewrite ord1. move: i.
        have H0 := H 0 0. have H1 := H 0 1. have H2 := H 1 0. have H3 := H 1 1. rewrite !mx22E in H0 H1 H2 H3.
        by apply: all4; rewrite mxE sum4 !mxE !inordK //= !mul1r !mul0r ?addr0 ?add0r.
    Qed.
    Lemma conj_mul (A : 'M[C]_4) v : conjv (A *m v) = conjugate A *m conjv v.
    Proof. apply/matrixP => i j. rewrite !mxE rmorph_sum /=. apply: eq_bigr => k _. by rewrite !mxE rmorphM. Qed.
    Lemma swap_step (A : 'M[C]_4) v : real_series expm -> swap4 *m conjugate A *m swap4 = A -> swap4 *m conjv v = v ->
      swap4 *m conjv (expm A *m v) = expm A *m v.
    Proof.
      move=> R HA Hv. rewrite conj_mul -{2}HA R ?swap_involution // -{2}Hv !mulmxA. congr (_ *m _). rewrite -[_ *m swap4 *m swap4]mulmxA swap_involution mulmx1. by [].
    Qed.
    Lemma swapL (A : 'M[C]_4) i j : (i < 4)%N -> (swap4 *m A) (inord i) j = A (inord (nth 0%N [:: 0; 2; 1; 3]%N i)) j.
    Proof.
      move=> I. rewrite mxE sum4 !mxE !inordK //. by case: i I => [|[|[|[|]]]] // _; rewrite /= !mul1r !mul0r ?addr0 ?add0r.
    Qed.
    Lemma swapR (A : 'M[C]_4) i j : (j < 4)%N -> (A *m swap4) i (inord j) = A i (inord (nth 0%N [:: 0; 2; 1; 3]%N j)).
    Proof.
      move=> I. rewrite mxE sum4 !mxE !inordK //. by case: j I => [|[|[|[|]]]] // _; rewrite /= !mulr1 !mulr0 ?addr0 ?add0r.
    Qed.
    Lemma swap_gen x : gamma = 0 -> E \is Num.real -> x \is Num.real -> swap4 *m conjugate (gen x) *m swap4 = gen x.
    Proof.
      move=> G RE RX. apply/matrixP. rewrite /gen G. apply: all4; apply: all4; rewrite swapR // swapL // !mxE !inordK //=;
      rewrite !(rmorphD, rmorphB, rmorphN, rmorphM, rmorph0, rmorph1, fmorphV, conjCi, mul0r) /= ?(conj_Creal RE) ?(conj_Creal RX) ?mul0r ?subr0 ?addr0 ?oppr0 //; by rewrite ?opprK ?mulNr ?mulrN ?opprK.
    Qed.
    Lemma hermitian_kept v : real_series expm -> gamma = 0 -> E \is Num.real -> step \is Num.real -> (forall x, x \in drive -> x \is Num.real) ->
      hermitian (convert_LFS_to_rho v) -> hermitian (convert_LFS_to_rho (tls_evolution_final expm v (L_const gamma E) (L_drive C) drive grid)).
    Proof.
      move=> R G RE RS RD /swap_hermitian H. apply/swap_hermitian. rewrite tls_evolved. elim: (size grid) => [|n IH]; first by rewrite /= mul1mx.
      rewrite /= -mulmxA. apply: swap_step => //. rewrite -/(gen _). set x := clamped 0 drive n.
      have RX : x \is Num.real.
      { rewrite /x /clamped. case: (ltnP (minn n (size drive).-1) (size drive)) => L; last by rewrite nth_default // real0. apply: RD. exact: mem_nth. }
      have -> : conjugate (step *: gen x) = step *: conjugate (gen x).
      { apply/matrixP => i j. by rewrite !mxE rmorphM (conj_Creal RS). }
      by rewrite -scalemxAr -scalemxAl swap_gen.
    Qed.
  End Slices.

  (** ** Figure of merit *)
  Lemma LFS_overlap (rho sigma : 'M[C]_2) : fidelity_funct_LFS (convert_rho_to_LFS rho) (convert_rho_to_LFS sigma) = sqrtC `|\tr (dagger rho *m sigma)|.
  Proof.
    rewrite /fidelity_funct_LFS sum4 !LFSE //= -adjE. congr (sqrtC `|_|).
    have -> : \tr (adj rho *m sigma) = \tr (adj (mx (rho 0 0) (rho 0 1) (rho 1 0) (rho 1 1)) *m mx (sigma 0 0) (sigma 0 1) (sigma 1 0) (sigma 1 1)).
    { by congr (\tr (adj _ *m _)); apply: mx22P; rewrite mx22E. }
    rewrite adj22 mul22 tr22 -!addrA. congr (_ + _). by rewrite addrCA.
  Qed.
  Lemma aim_ket : aim C = ket ((sqrtC 2%:R)^-1) (- 'i / sqrtC 2%:R).
  Proof. apply/matrixP => i j. rewrite !mxE. case: ifP => _; by rewrite ?mulr1 // mulrC. Qed.
  Lemma half_root : (sqrtC 2%:R)^-1 * (sqrtC 2%:R)^-1 = 2%:R^-1 :> C.
  Proof. by rewrite -invfM -expr2 sqrtCK. Qed.
  Lemma root2_real : ((sqrtC 2%:R)^-1 : C)^* = (sqrtC 2%:R)^-1.
  Proof. rewrite conj_Creal // realV ger0_real // sqrtC_ge0 ler0n. by []. Qed.
  Lemma target_pure : tls_rho_target C = pure (aim C).
  Proof.
    rewrite pureE aim_ket. have -> : ket ((sqrtC 2%:R)^-1) (- 'i / sqrtC 2%:R) *m adj (ket ((sqrtC 2%:R)^-1) (- 'i / sqrtC 2%:R) : 'cV[C]_2)
      = mx ((sqrtC 2%:R)^-1 * (sqrtC 2%:R)^-1) ((sqrtC 2%:R)^-1 * (sqrtC 2%:R)^-1 * 'i) (- ((sqrtC 2%:R)^-1 * (sqrtC 2%:R)^-1 * 'i)) ((sqrtC 2%:R)^-1 * (sqrtC 2%:R)^-1 * - ('i * 'i)).
    { apply: mx22P; rewrite mx22E !mxE big_ord1 !mxE /= ?rmorphM ?rmorphN ?conjCi ?root2_real ?opprK; ring. }
    rewrite half_root ii opprK mulr1. by congr mx22; rewrite mulrC.
  Qed.
  Lemma aim_norm : sq (aim C) = 1.
  Proof.
    rewrite sq_braket /braket aim_ket. rewrite ket_bra rmorphM rmorphN conjCi root2_real opprK mulrACA mulrN ii opprK mul1r half_root -mulr2n -mulr_natl mulfV // pnatr_eq0. by [].
  Qed.
  Lemma aim_density : density (tls_rho_target C).
  Proof.
    rewrite target_pure pureE. split; first exact: semidefinite_outer. by rewrite outer_trace -sq_braket aim_norm.
  Qed.
  Lemma overlap_aim (rho : 'M[C]_2) : hermitian rho -> \tr (dagger rho *m tls_rho_target C) = sandwich (aim C) rho (aim C).
  Proof.
    move=> H. rewrite -adjE (proj1 (hermitianE _) H) target_pure pureE mulmxA outer_trace sandwichE. by [].
  Qed.
  Lemma merit_physical (rho : 'M[C]_2) : density rho -> exists F, fidelity_is rho (tls_rho_target C) F
    /\ fidelity_funct_LFS (convert_rho_to_LFS rho) (convert_rho_to_LFS (tls_rho_target C)) = sqrtC F /\ 0 <= F <= 1 /\ (F = 1 <-> rho = tls_rho_target C).
  Proof.
    move=> D. have [P T] := D. have [H N] := P. exists (sandwich (aim C) rho (aim C)).
    have Q : fidelity_is rho (tls_rho_target C) (sandwich (aim C) rho (aim C)).
    { apply: fidelity_sym => //. rewrite target_pure. apply: fidelity_pure => //. exact: aim_norm. }
    split; first by []. split; first by rewrite LFS_overlap overlap_aim // ger0_norm.
    have [Q1 Q2] := fidelity_range_mixed D aim_density Q. by [].
  Qed.
End TLS.

(** ** Dephasing chain *)
Section Dephasing.
  Variable C : numClosedFieldType.
  Section Dim.
    Variable d : nat.
    Notation M := 'M[C]_d.
    Lemma LME_trace (H L rho : M) : \tr (LME H L rho) = \tr ((dagger L *m L - L *m dagger L) *m rho).
    Proof.
      rewrite /LME !mxtraceD !raddfN /= !mxtraceZ mxtraceD raddfN /= [\tr (rho *m H)]mxtrace_mulC subrr mulr0 add0r.
      rewrite mulmxBl mxtraceD raddfN /= -!adjE. have -> : \tr (L *m rho *m adj L) = \tr (adj L *m L *m rho) by rewrite mxtrace_mulC mulmxA.
      have -> : \tr (rho *m L *m adj L) = \tr (L *m adj L *m rho) by rewrite -mulmxA mxtrace_mulC.
      move: (\tr (adj L *m L *m rho)) (\tr (L *m adj L *m rho)) => a b. by field.
    Qed.
    Lemma LME_hermitian (H L rho : M) : hermitian H -> hermitian rho -> hermitian (LME H L rho).
    Proof.
      move=> /hermitianE HH /hermitianE HR. apply/hermitianE. rewrite /LME !adj_add !adj_opp.
      have -> : adj (- 'i *: (H *m rho - rho *m H)) = - 'i *: (H *m rho - rho *m H).
      { rewrite adj_scale adj_add adj_opp !adj_mul HH HR rmorphN conjCi opprK scaleNr -scalerN opprB. by []. }
      have -> : adj (L *m rho *m adj L) = L *m rho *m adj L by rewrite !adj_mul adjK HR mulmxA.
      have -> : adj (2%:R^-1 *: (L *m adj L *m rho)) = 2%:R^-1 *: (rho *m L *m adj L) by rewrite adj_scale !adj_mul adjK HR fmorphV conj_nat mulmxA.
      have -> : adj (2%:R^-1 *: (rho *m L *m adj L)) = 2%:R^-1 *: (L *m adj L *m rho) by rewrite adj_scale !adj_mul adjK HR fmorphV conj_nat mulmxA.
      by rewrite addrAC.
    Qed.
    Lemma LME_normal (H L rho : M) : L *m dagger L = dagger L *m L -> LME H L rho = lindblad H L rho.
    Proof.
      move=> E. rewrite /LME /lindblad -!adjE in E *. rewrite -[rho *m L *m adj L]mulmxA E [2%:R^-1 *: (_ + _)]scalerDr [- (2%:R^-1 *: _ + _)]opprD !addrA. by [].
    Qed.
  End Dim.

  Section Chain.
  Notation square := (square C).
  Variable n : nat.
  Hypothesis N : (1 < n)%N.
  Lemma ent_half_sz b c : (b < 2)%N -> (c < 2)%N -> ent (half_sz C) b c = (b == c)%:R * ((if b == 0%N then 1 else -1) / 2%:R).
  Proof. by case: b c => [|[|]] [|[|]] // _ _; rewrite /= ?mul1r ?mul0r ?mulN1r. Qed.
  Lemma ent_half_sx b c : (b < 2)%N -> (c < 2)%N -> ent (half_sx C) b c = (b != c)%:R / 2%:R.
  Proof. by case: b c => [|[|]] [|[|]] // _ _; rewrite /= ?mul1r ?mul0r. Qed.
  (** a product with the same operator of two levels on the spins of [on] *)
  Lemma tensor_on (r : seq square) (on : pred nat) (Z : square) : dim Z = 2%N -> size r = n -> (forall k, (k < n)%N -> nth (i2 C) r k = if on k then Z else i2 C) ->
    exists A, tensor_together r = Ok A /\ forall s t, s \in spins n -> t \in spins n ->
       ent A (basis_number s) (basis_number t) = \prod_(k < n) (if on k then ent Z (nth 0%N s k) (nth 0%N t k) else (nth 0%N s k == nth 0%N t k)%:R).
  Proof.
    move=> DZ S H. have [| |A [EA [_ HA]]] := @tensor_ok _ r; first by rewrite S.
    { apply: dims_two => k. rewrite S => K. rewrite H //. by case: ifP. }
    exists A. split; first by []. move=> s t Is It. rewrite HA ?S // /entry_product S. case/spinsP: Is => Ss Hs. case/spinsP: It => St Ht.
    apply: eq_bigr => k _. rewrite H //. case: ifP => // _. apply: ent_i2; [exact: Hs|exact: Ht].
  Qed.
  Lemma half_coupling_term i1 i2' : (i1 < n)%N -> (i2' < n)%N -> exists rest A, half_coupling C n i1 i2' = Ok rest /\ tensor_together rest = Ok A
    /\ forall s t, s \in spins n -> t \in spins n ->
       ent A (basis_number s) (basis_number t) = (s == t)%:R * (if i1 == i2' then z_of C s i1 / 2%:R else z_of C s i1 / 2%:R * (z_of C s i2' / 2%:R)).
  Proof.
    move=> L1 L2. rewrite /half_coupling. have [r1 E1] := @py_set_in _ (nseq n (i2 C)) i1 (half_sz C) ltac:(by rewrite size_nseq). rewrite E1. cbn [rbind].
    have [S1 H1] := nth_py_set E1. rewrite size_nseq in S1. have [r2 E2] := @py_set_in _ r1 i2' (half_sz C) ltac:(by rewrite S1). have [S2 H2] := nth_py_set E2. rewrite S1 in S2.
    have H : forall k, (k < n)%N -> nth (i2 C) r2 k = if (k == i1) || (k == i2') then half_sz C else i2 C.
    { move=> k K. rewrite H2 H1 nth_nseq K. case: (k == i2'); first by rewrite orbT. by case: (k == i1). }
    have [A [EA HA]] := @tensor_on r2 (fun k => (k == i1) || (k == i2')) (half_sz C) erefl S2 H.
    exists r2, A. split; first by []. split; first by []. move=> s t S T. rewrite HA //. case/spinsP: S => Ss Hs. case/spinsP: T => St Ht.
    rewrite -(prod_same _ Ss St).
    have -> : (if i1 == i2' then z_of C s i1 / 2%:R else z_of C s i1 / 2%:R * (z_of C s i2' / 2%:R)) = \prod_(k < n) (if (k == i1 :> nat) || (k == i2' :> nat) then z_of C s k / 2%:R else 1).
    { rewrite (bigD1 (Ordinal L1)) //= eqxx /=. case: (i1 =P i2') => [<-|D].
      - rewrite big1 ?mulr1 // => k /eqP K. rewrite orbb ifF //. apply/negbTE/eqP => E. apply: K. exact: val_inj.
      - rewrite (bigD1 (Ordinal L2)) /=; last by apply/eqP => -[] /esym. rewrite eqxx orbT big1 ?mulr1 // => k /andP [/eqP K1 /eqP K2].
        rewrite ifF //. apply/negbTE/norP. split; apply/eqP => E; [apply: K1|apply: K2]; exact: val_inj. }
    rewrite -big_split /=. apply: eq_bigr => k _. rewrite /z_of. case: ifP => _.
    - apply: ent_half_sz; [exact: Hs|exact: Ht].
    - by rewrite mulr1.
  Qed.
  Lemma one_sz_term j : (j < n)%N -> exists rest A, py_set (nseq n (i2 C)) (Z.of_nat j) (half_sz C) = Ok rest /\ tensor_together rest = Ok A
    /\ forall s t, s \in spins n -> t \in spins n -> ent A (basis_number s) (basis_number t) = (s == t)%:R * (z_of C s j / 2%:R).
  Proof.
    move=> L. have [r1 E1] := @py_set_in _ (nseq n (i2 C)) j (half_sz C) ltac:(by rewrite size_nseq). have [S1 H1] := nth_py_set E1. rewrite size_nseq in S1.
    have H : forall k, (k < n)%N -> nth (i2 C) r1 k = if k == j then half_sz C else i2 C by move=> k K; rewrite H1 nth_nseq K.
    have [A [EA HA]] := @tensor_on r1 (fun k => k == j) (half_sz C) erefl S1 H.
    exists r1, A. split; first by []. split; first by []. move=> s t S T. rewrite HA //. case/spinsP: S => Ss Hs. case/spinsP: T => St Ht.
    rewrite -(prod_same _ Ss St).
    have -> : z_of C s j / 2%:R = \prod_(k < n) (if k == j :> nat then z_of C s k / 2%:R else 1).
    { rewrite (bigD1 (Ordinal L)) //= eqxx big1 ?mulr1 // => k /eqP K. rewrite ifF //. apply/eqP => E. apply: K. exact: val_inj. }
    rewrite -big_split /=. apply: eq_bigr => k _. rewrite /z_of. case: ifP => _.
    - apply: ent_half_sz; [exact: Hs|exact: Ht].
    - by rewrite mulr1.
  Qed.
  Lemma half_flip_term j : (j < n)%N -> exists rest A, py_set (nseq n (i2 C)) (Z.of_nat j) (half_sx C) = Ok rest /\ tensor_together rest = Ok A
    /\ forall s t, s \in spins n -> t \in spins n ->
       ent A (basis_number s) (basis_number t) = (\prod_(k < n) (if k == j :> nat then nth 0%N s k != nth 0%N t k else nth 0%N s k == nth 0%N t k)%:R) / 2%:R.
  Proof.
    move=> L. have [r1 E1] := @py_set_in _ (nseq n (i2 C)) j (half_sx C) ltac:(by rewrite size_nseq). have [S1 H1] := nth_py_set E1. rewrite size_nseq in S1.
    have H : forall k, (k < n)%N -> nth (i2 C) r1 k = if k == j then half_sx C else i2 C by move=> k K; rewrite H1 nth_nseq K.
    have [A [EA HA]] := @tensor_on r1 (fun k => k == j) (half_sx C) erefl S1 H.
    exists r1, A. split; first by []. split; first by []. move=> s t S T. rewrite HA //. case/spinsP: S => Ss Hs. case/spinsP: T => St Ht.
    have -> : 2%:R^-1 = \prod_(k < n) (if k == j :> nat then 2%:R^-1 else 1) :> C.
    { rewrite (bigD1 (Ordinal L)) //= eqxx big1 ?mulr1 // => k /eqP K. rewrite ifF //. apply/eqP => E. apply: K. exact: val_inj. }
    rewrite -big_split /=. apply: eq_bigr => k _. case: ifP => _.
    - apply: ent_half_sx; [exact: Hs|exact: Ht].
    - by rewrite mulr1.
  Qed.
  Lemma sum_iota (f : nat -> C) m : \sum_(j <- iota 0 m) f j = \sum_(j < m) f j.
  Proof. have -> : iota 0 m = index_iota 0 m by rewrite /index_iota subn0. by rewrite big_mkord. Qed.
  Lemma half_static_general (J g : C) : exists H, half_static_hamiltonian n J g = Ok H /\ dim H = (2 ^ n)%N
    /\ forall s t, s \in spins n -> t \in spins n -> ent H (basis_number s) (basis_number t) =
      \sum_(j < n) - J * ((s == t)%:R * (if val j == next_one n j then z_of C s j / 2%:R else z_of C s j / 2%:R * (z_of C s (next_one n j) / 2%:R)))
      + \sum_(j < n) - g * ((s == t)%:R * (if val j == next_two n j then z_of C s j / 2%:R else z_of C s j / 2%:R * (z_of C s (next_two n j) / 2%:R))).
  Proof.
    rewrite /half_static_hamiltonian.
    have [|H1 [E1 [D1 F1]]] := @add_terms_ok _ n (iota 0 n) (fun j => half_coupling C n j (next_one n j)) (- J) (zeros C (2 ^ n))
      (fun j s t => (s == t)%:R * (if j == next_one n j then z_of C s j / 2%:R else z_of C s j / 2%:R * (z_of C s (next_one n j) / 2%:R))).
    { move=> j. rewrite mem_iota /= add0n => L. apply: half_coupling_term => //. rewrite /next_one. case: eqP => X; lia. }
    rewrite E1. cbn [rbind].
    have [|H2 [E2 [D2 F2]]] := @add_terms_ok _ n (iota 0 n) (fun j => half_coupling C n j (next_two n j)) (- g) H1
      (fun j s t => (s == t)%:R * (if j == next_two n j then z_of C s j / 2%:R else z_of C s j / 2%:R * (z_of C s (next_two n j) / 2%:R))).
    { move=> j. rewrite mem_iota /= add0n => L. apply: half_coupling_term => //. rewrite /next_two. case: eqP => X; first by lia. case: eqP => Y; lia. }
    exists H2. split; first by []. split; first by rewrite D2 D1. move=> s t S T. rewrite F2 // F1 // add0r !sum_iota. by [].
  Qed.
  Lemma half_energy (J g : C) : (2 < n)%N -> exists H, half_static_hamiltonian n J g = Ok H /\ dim H = (2 ^ n)%N
    /\ forall s t, s \in spins n -> t \in spins n -> ent H (basis_number s) (basis_number t) = if s == t then chain_energy J g n s / 4%:R else 0.
  Proof.
    move=> N2. have [H [E [D F]]] := half_static_general J g. exists H. split; first by []. split; first by [].
    move=> s t S T. rewrite F // /chain_energy opprD -!sumrN mulrDl !big_distrl /=. case: (s =P t) => _.
    - congr (_ + _); apply: eq_bigr => j _; have L := ltn_ord j.
      + have [-> ->] := next_one_mod N L. rewrite mul1r. by field.
      + have [-> ->] := next_two_mod N2 L. rewrite mul1r. by field.
    - by rewrite !big1 ?addr0 // => j _; rewrite mul0r mulr0.
  Qed.
  Lemma half_control : exists H, half_control_hamiltonian C n = Ok H /\ dim H = (2 ^ n)%N
    /\ forall s t, s \in spins n -> t \in spins n -> ent H (basis_number s) (basis_number t) = (flips s t == 1%N)%:R / 2%:R.
  Proof.
    have [|H [E [D F]]] := @add_terms_ok _ n (iota 0 n) (fun j => py_set (nseq n (i2 C)) (Z.of_nat j) (half_sx C)) 1 (zeros C (2 ^ n))
      (fun j s t => (\prod_(k < n) (if k == j :> nat then nth 0%N s k != nth 0%N t k else nth 0%N s k == nth 0%N t k)%:R) / 2%:R).
    { move=> j. rewrite mem_iota /= add0n => L. exact: half_flip_term. }
    exists H. split; first by []. split; first by []. move=> s t S T. rewrite F // add0r. case/spinsP: S => Ss _. case/spinsP: T => St _.
    rewrite -(one_flip _ Ss St) big_distrl /=. apply: eq_bigr => j _. by rewrite mulrA.
  Qed.
  Lemma dephasing_ok (gamma : C) : exists L, get_dephasing_Lindbladian n gamma = Ok L /\ dim L = (2 ^ n)%N
    /\ forall s t, s \in spins n -> t \in spins n -> ent L (basis_number s) (basis_number t) = if s == t then sqrtC gamma * magnetisation C n s else 0.
  Proof.
    have [|H [E [D F]]] := @add_terms_ok _ n (iota 0 n) (fun j => py_set (nseq n (i2 C)) (Z.of_nat j) (half_sz C)) (sqrtC gamma) (zeros C (2 ^ n))
      (fun j s t => (s == t)%:R * (z_of C s j / 2%:R)).
    { move=> j. rewrite mem_iota /= add0n => L. exact: one_sz_term. }
    exists H. split; first by []. split; first by []. move=> s t S T. rewrite F // add0r sum_iota /magnetisation big_distrr /=. case: (s =P t) => _.
    - apply: eq_bigr => j _. by rewrite mul1r.
    - by rewrite big1 // => j _; rewrite mul0r mulr0.
  Qed.
  (** the dissipator, entry by entry *)
  Lemma magnetisation_real m s : magnetisation C m s \is Num.real.
  Proof. apply: rpred_sum => k _. rewrite rpred_div ?realn // /z_of. case: ifP => _; rewrite ?rpredN; exact: real1. Qed.
  Lemma diag_mulL (A L : 'M[C]_(2 ^ n)) (l : 'I_(2 ^ n) -> C) i j : (forall i j, L i j = if i == j then l i else 0) -> (L *m A) i j = l i * A i j.
  Proof. move=> H. rewrite mxE (bigD1 i) //= H eqxx big1 ?addr0 // => k K. by rewrite H eq_sym (negbTE K) mul0r. Qed.
  Lemma diag_mulR (A L : 'M[C]_(2 ^ n)) (l : 'I_(2 ^ n) -> C) i j : (forall i j, L i j = if i == j then l i else 0) -> (A *m L) i j = A i j * l j.
  Proof. move=> H. rewrite mxE (bigD1 j) //= H eqxx big1 ?addr0 // => k K. by rewrite H (negbTE K) mulr0. Qed.
  Lemma dephasing_diag (gamma : C) L : get_dephasing_Lindbladian n gamma = Ok L ->
    (forall i j, matrix_of n L i j = if i == j then matrix_of n L i i else 0)
    /\ forall u (x : 'I_(2 ^ n)), u \in spins n -> basis_number u = x -> matrix_of n L x x = sqrtC gamma * magnetisation C n u.
  Proof.
    move=> E. have [L' [E' [_ F]]] := dephasing_ok gamma. move: E'. rewrite E => -[] X. subst L'. split.
    - move=> x y. rewrite !mxE. have [u U E1] := spin_index x. have [v V E2] := spin_index y. rewrite -E1 -E2 !F // eqxx.
      case: (u =P v) => [Q|Q]; case: (x =P y) => [R|R] //.
      + case: R. apply: val_inj. by rewrite /= -E1 -E2 Q.
      + case: Q. apply: (@basis_inj n) => //. by rewrite E1 E2 R.
    - move=> u x U Q. by rewrite mxE -Q F // eqxx.
  Qed.
  Lemma dephasing_adj (gamma : C) L : 0 <= gamma -> get_dephasing_Lindbladian n gamma = Ok L -> adj (matrix_of n L) = matrix_of n L.
  Proof.
    move=> G E. have [HL lS] := dephasing_diag E.
    have RG : sqrtC gamma \is Num.real by rewrite ger0_real // sqrtC_ge0.
    apply/matrixP => x y. rewrite adjE mxE [in LHS]HL [in RHS]HL. case: (y =P x) => [->|Q]; last by case: (x =P y) => [R|R]; [case: Q|rewrite conjC0].
    rewrite eqxx. have [u U E1] := spin_index x. rewrite (lS u x U E1) conj_Creal // rpredM ?magnetisation_real //.
  Qed.
  Lemma dissipator (gamma : C) L (H rho : 'M[C]_(2 ^ n)) s t (i j : 'I_(2 ^ n)) : 0 <= gamma -> get_dephasing_Lindbladian n gamma = Ok L ->
    s \in spins n -> t \in spins n -> basis_number s = i -> basis_number t = j ->
    LME H (matrix_of n L) rho i j = (- 'i *: (H *m rho - rho *m H)) i j - gamma / 2%:R * (magnetisation C n s - magnetisation C n t) ^+ 2 * rho i j.
  Proof.
    move=> G E S T Is It. have HA := dephasing_adj G E. have [HL lS] := dephasing_diag E. move: HL lS HA. set l := fun i => matrix_of n L i i. move=> HL lS HA.
    have split_entry : forall (A B D E : 'M[C]_(2 ^ n)) i j, (A + B - 2%:R^-1 *: D - 2%:R^-1 *: E) i j = A i j + B i j - 2%:R^-1 * D i j - 2%:R^-1 * E i j.
    { move=> A B D Q x y. by rewrite !mxE. }
    rewrite /LME HA split_entry -[matrix_of n L *m matrix_of n L *m rho]mulmxA !(diag_mulR _ _ _ HL) !(diag_mulL _ _ _ HL) (lS s i) // (lS t j) // -[in RHS](sqrtCK gamma).
    move: (sqrtC gamma) (magnetisation C n s) (magnetisation C n t) (rho i j) ((- 'i *: (H *m rho - rho *m H)) i j) => q a b r k. by field.
  Qed.
  End Chain.
End Dephasing.
