(** The Liouvillian helper, fidelities, and the bundled one-qubit and Ising problems. *)
From Coq Require Import ZArith.
From mathcomp Require Import all_ssreflect all_algebra.
From mathcomp.real_closed Require Import mxtens.
From Verif Require Import Py ModelQuantum SpecQuantum ProofQuantum.
Import GRing.Theory Num.Theory.
Set Implicit Arguments.
Unset Strict Implicit.
Unset Printing Implicit Defensive.
Local Open Scope ring_scope.
Local Open Scope seq_scope.

Section Liouville.
  Variables (C : numClosedFieldType) (d : nat).
  Notation M := 'M[C]_d.
  Lemma tens_vec (A B X : M) : (A *t B) *m to_vec X = to_vec (A *m X *m B^T).
  Proof.
    apply/matrixP => k z. rewrite !mxE.
    rewrite (reindex (@mxtens_index d d)) /=; last by exists (@mxtens_unindex d d) => j _; [exact: mxtens_indexK|exact: mxtens_unindexK].
    rewrite (eq_bigr (fun p => (A *t B) k (mxtens_index (p.1, p.2)) * (to_vec X) (mxtens_index (p.1, p.2)) z)); last by case.
    rewrite -(pair_bigA _ (fun a b => (A *t B) k (mxtens_index (a, b)) * (to_vec X) (mxtens_index (a, b)) z)) /= exchange_big /=.
    apply: eq_bigr => b _. rewrite !mxE mulr_suml. apply: eq_bigr => a _.
    rewrite !mxE mxtens_indexK /=. by rewrite mulrAC.
  Qed.
  Lemma to_vec_inj : injective (@to_vec C d).
  Proof.
    move=> X Y /matrixP H. apply/matrixP => i j. move: (H (mxtens_index (i, j)) 0). by rewrite !mxE mxtens_indexK.
  Qed.
  Lemma to_vecB (X Y : M) : to_vec (X - Y) = to_vec X - to_vec Y.
  Proof. by apply/matrixP => i j; rewrite !mxE. Qed.
  Lemma sup_op_vec (H rho : M) : to_sup_op H *m to_vec rho = to_vec (rho *m H^T - adj H *m rho).
  Proof. by rewrite /to_sup_op mulmxBl !tens_vec mul1mx trmx1 mulmx1 to_vecB. Qed.
  Lemma sup_op_commutator (H : M) : hermitian H ->
    (forall rho, to_sup_op H *m to_vec rho = to_vec (rho *m H - H *m rho)) <-> forall i j, H i j \is Num.real.
  Proof.
    move=> HH. have A : adj H = H by apply/hermitianE.
    have T : forall i j, (H i j \is Num.real) = (H^T i j == H i j).
    { move=> i j. by rewrite mxE CrealE [H j i]HH. }
    split=> [E i j|E rho].
    - move: (E 1%:M). rewrite sup_op_vec => /to_vec_inj. rewrite A !mul1mx !mulmx1 => /addIr Q. by rewrite T Q.
    - rewrite sup_op_vec A. have -> : H^T = H by apply/matrixP => i j; apply/eqP; rewrite -T. by [].
  Qed.
End Liouville.

Section Fidelity.
  Variable C : numClosedFieldType.
  Section Vectors.
    Variable n : nat.
    Implicit Types u v z : 'cV[C]_n.
    Definition sq v : C := \sum_i `|v i 0| ^+ 2.
    Definition braket u v : C := (adj u *m v) 0 0.
    Lemma sq_ge0 v : 0 <= sq v.
    Proof. apply: sumr_ge0 => i _. exact: exprn_ge0. Qed.
    Lemma sq_eq0 v : sq v = 0 -> v = 0.
    Proof.
      move=> /eqP. rewrite psumr_eq0 => [/allP H|i _]; last exact: exprn_ge0.
      apply/matrixP => i j. rewrite mxE (ord1 j). apply/eqP. move: (H i (mem_index_enum i)). by rewrite /= expf_eq0 /= normr_eq0.
    Qed.
    Lemma sq_braket v : sq v = braket v v.
    Proof. rewrite /sq /braket mxE. apply: eq_bigr => i _. by rewrite !mxE normCK mulrC. Qed.
    Lemma braketC u v : braket u v = (braket v u)^*.
    Proof. by rewrite /braket -[adj u *m v]adjK adj_mul adjK !mxE. Qed.
    Lemma vnorm_sq v : vnorm v ^+ 2 = sq v.
    Proof. by rewrite /vnorm sqrtCK. Qed.
    Lemma vnorm_ge0 v : 0 <= vnorm v.
    Proof. by rewrite /vnorm sqrtC_ge0 sq_ge0. Qed.
    Lemma vnorm1 v : vnorm v = 1 -> sq v = 1.
    Proof. move=> H. by rewrite -vnorm_sq H expr1n. Qed.
    Lemma pythagoras u v : sq u = 1 -> sq (v - braket u v *: u) = sq v - `|braket u v| ^+ 2.
    Proof.
      move=> U. set c := braket u v. rewrite [LHS]sq_braket /braket.
      rewrite adj_add adj_opp adj_scale mulmxDl !mulmxBr !mulNmx -!scalemxAl -!scalemxAr.
      have E1 : (adj v *m v) 0 0 = sq v by rewrite sq_braket.
      have E2 : (adj v *m u) 0 0 = c^* by rewrite -[LHS]/(braket v u) braketC.
      have E3 : (adj u *m v) 0 0 = c by [].
      have E4 : (adj u *m u) 0 0 = 1 by rewrite -[LHS]/(braket u u) -sq_braket.
      move: (adj v *m v) (adj v *m u) (adj u *m v) (adj u *m u) E1 E2 E3 E4 => M1 M2 M3 M4 E1 E2 E3 E4.
      by rewrite !mxE E1 E2 E3 E4 mulr1 normCK subrr addr0.
    Qed.
    Lemma cauchy u v : sq u = 1 -> `|braket u v| ^+ 2 <= sq v.
    Proof. move=> U. move: (sq_ge0 (v - braket u v *: u)). by rewrite pythagoras // subr_ge0. Qed.
    Lemma cauchy_eq u v : sq u = 1 -> `|braket u v| ^+ 2 = sq v -> v = braket u v *: u.
    Proof. move=> U E. apply/eqP. rewrite -subr_eq0. apply/eqP/sq_eq0. by rewrite pythagoras // E subrr. Qed.
    Lemma braket_scale a u v : braket u (a *: v) = a * braket u v.
    Proof. by rewrite /braket -scalemxAr mxE. Qed.
    Lemma braket_scalel a u v : braket (a *: u) v = a^* * braket u v.
    Proof. by rewrite braketC braket_scale rmorphM -braketC. Qed.
    Lemma vnorm_scale a v : vnorm (a *: v) = `|a| * vnorm v.
    Proof.
      have E : vnorm (a *: v) ^+ 2 = (`|a| * vnorm v) ^+ 2.
      { rewrite exprMn !vnorm_sq /sq mulr_sumr. apply: eq_bigr => i _. by rewrite mxE normrM exprMn. }
      move: (vnorm_ge0 (a *: v)) (mulr_ge0 (normr_ge0 a) (vnorm_ge0 v)) => P Q. by apply: (pexpIrn (ltn0Sn 1) P Q E).
    Qed.
    Lemma sq_unitary (U : 'M[C]_n) v : unitary U -> sq (U *m v) = sq v.
    Proof. rewrite /unitary -adjE => H. by rewrite !sq_braket /braket adj_mul mulmxA -[adj v *m adj U *m U]mulmxA H mulmx1. Qed.
    Lemma vnorm_unitary (U : 'M[C]_n) v : unitary U -> vnorm (U *m v) = vnorm v.
    Proof. move=> H. by rewrite /vnorm -/(sq _) sq_unitary. Qed.
  End Vectors.

  Lemma fidelity_normalised n (u v : 'cV[C]_n) : vnorm u = 1 -> vnorm v = 1 -> get_fidelity u v = `|braket u v| ^+ 2.
  Proof. move=> U V. by rewrite /get_fidelity U V mulr1 divr1. Qed.
  Lemma fidelity_range n (u v : 'cV[C]_n) : vnorm u = 1 -> vnorm v = 1 -> 0 <= get_fidelity u v <= 1.
  Proof.
    move=> U V. rewrite fidelity_normalised //. rewrite exprn_ge0 //=. rewrite -[X in _ <= X](vnorm1 V). apply: cauchy. exact: vnorm1.
  Qed.
  Lemma fidelity_one n (u v : 'cV[C]_n) : vnorm u = 1 -> vnorm v = 1 -> get_fidelity u v = 1 <-> exists c, `|c| = 1 /\ v = c *: u.
  Proof.
    move=> U V. rewrite fidelity_normalised //. split=> [E|[c [N ->]]].
    - exists (braket u v). split; last by apply: cauchy_eq; rewrite ?E ?vnorm1.
      apply: (pexpIrn (ltn0Sn 1)); rewrite ?qualifE ?normr_ge0 ?ler01 //. by rewrite expr1n.
    - rewrite braket_scale -sq_braket (vnorm1 U) mulr1 N. exact: expr1n.
  Qed.
  Lemma fidelity_scale n (u v : 'cV[C]_n) a b : get_fidelity (a *: u) (b *: v) = `|a| * `|b| * get_fidelity u v.
  Proof.
    rewrite /get_fidelity -!/(braket _ _) braket_scalel braket_scale !vnorm_scale !normrM norm_conjC.
    have [->|A] := eqVneq a 0; first by rewrite normr0 !mul0r expr0n /= mul0r.
    have [->|B] := eqVneq b 0; first by rewrite normr0 !(mul0r, mulr0) expr0n /= mul0r.
    have NA : `|a| != 0 by rewrite normr_eq0. have NB : `|b| != 0 by rewrite normr_eq0.
    set x := `|a| in NA *. set y := `|b| in NB *. set p := `|braket u v|. set q := vnorm u. set r := vnorm v.
    have XY : x * y != 0 by exact: mulf_neq0.
    by rewrite mulrA [x * q * _]mulrACA exprMn -mulf_div expr2 mulfK.
  Qed.
End Fidelity.

(** ** the figure of merit of the Ising problem for a pure target state *)
Section Population.
  Variables (C : numClosedFieldType) (d : nat).
  Notation M := 'M[C]_d.
  Implicit Types (v w : 'cV[C]_d).

  Lemma sandwichE v (X : M) w : sandwich v X w = braket v (X *m w).
  Proof. by rewrite /sandwich /braket adjE mulmxA. Qed.
  Lemma scalar11 (X : 'M[C]_1) : X = (X 0 0)%:M.
  Proof. exact: mx11_scalar. Qed.
  Lemma outer_mul (a b c e : 'cV[C]_d) : (a *m adj b) *m (c *m adj e) = braket b c *: (a *m adj e).
  Proof. by rewrite mulmxA -[a *m adj b *m c]mulmxA [adj b *m c]scalar11 mul_mx_scalar scalemxAl. Qed.
  Lemma outer_apply (a b c : 'cV[C]_d) : (a *m adj b) *m c = braket b c *: a.
  Proof. by rewrite -mulmxA [adj b *m c]scalar11 mul_mx_scalar. Qed.
  Lemma outer_trace (a b : 'cV[C]_d) : \tr (a *m adj b) = braket b a.
  Proof. by rewrite mxtrace_mulC trace_mx11. Qed.
  Lemma hermitian_square0 (Z : M) : adj Z = Z -> Z *m Z = 0 -> Z = 0.
  Proof.
    move=> H Z0. apply/matrixP => i j. rewrite [RHS]mxE.
    have S : sq (col j Z) = 0.
    { rewrite sq_braket /braket. rewrite -[LHS]/((adj (col j Z) *m col j Z) 0 0).
      have -> : adj (col j Z) *m col j Z = const_mx ((adj Z *m Z) j j).
      { apply/matrixP => a b. rewrite !mxE. apply: eq_bigr => k _. by rewrite !mxE. }
      by rewrite mxE H Z0 mxE. }
    move: (sq_eq0 S) => /matrixP /(_ i 0). by rewrite !mxE.
  Qed.
  Lemma semidefinite_outer w : semidefinite (w *m adj w).
  Proof.
    split; first by apply/hermitianE; rewrite adj_mul adjK.
    move=> v. rewrite sandwichE outer_apply braket_scale [braket v w]braketC. rewrite -normCK. exact: exprn_ge0.
  Qed.
  Lemma semidefinite_conj (X V : M) : semidefinite X -> semidefinite (V *m X *m adj V).
  Proof.
    move=> [H P]. split; first by apply/hermitianE; rewrite !adj_mul adjK (proj1 (hermitianE _) H) mulmxA.
    move=> v. move: (P (adj V *m v)). by rewrite /sandwich -!adjE adj_mul adjK !mulmxA.
  Qed.
  Lemma semidefinite_tr (X : M) : semidefinite X -> semidefinite X^T.
  Proof.
    move=> [H P]. split; first by move=> i j; rewrite !mxE; apply: H.
    move=> v. have -> : sandwich v X^T v = sandwich (map_mx conjC v) X (map_mx conjC v); last exact: P.
    have T : forall Y : 'M[C]_1, Y 0 0 = Y^T 0 0 by move=> Y; rewrite mxE.
    rewrite /sandwich -!adjE [RHS]T !trmx_mul mulmxA.
    have -> : (adj (map_mx conjC v))^T = v by apply/matrixP => i j; rewrite !mxE conjCK.
    by have -> : (map_mx conjC v)^T = adj v by apply/matrixP => i j; rewrite !mxE.
  Qed.
  Lemma outer_root w (R : M) : semidefinite R -> R *m R = w *m adj w -> \tr R = vnorm w.
  Proof.
    move=> [/hermitianE HR PR] E. have [W|W] := eqVneq (sq w) 0.
    - rewrite (sq_eq0 W) mul0mx in E. by rewrite (hermitian_square0 HR E) mxtrace0 /vnorm -/(sq w) W sqrtC0.
    - have BW : braket w w = sq w by rewrite -sq_braket.
      have C1 : R *m w *m adj w = w *m adj w *m R by rewrite -mulmxA -E mulmxA.
      set c := sandwich w R w / sq w.
      have RW : R *m w = c *: w.
      { have := congr1 (fun X => X *m w) C1. rewrite -[R *m w *m adj w *m w]mulmxA [adj w *m w]scalar11 -/(braket w w) mul_mx_scalar BW.
        rewrite -mulmxA outer_apply -sandwichE => Q. by rewrite -[LHS]scale1r -(mulVf W) -scalerA Q scalerA mulrC. }
      have c0 : 0 <= c by rewrite divr_ge0 ?PR ?sq_ge0.
      have c2 : c ^+ 2 = sq w.
      { have Q : R *m R *m w = (c ^+ 2) *: w by rewrite -mulmxA RW -scalemxAr RW scalerA.
        move: Q. rewrite E outer_apply BW => Q. apply: (mulIf W). have := congr1 (fun v => braket w v) Q. by rewrite !braket_scale BW => ->. }
      have Z : R - (c / sq w) *: (w *m adj w) = 0.
      { apply: hermitian_square0.
        - rewrite adj_add adj_opp adj_scale adj_mul adjK HR. have -> // : (c / sq w)^* = c / sq w.
          apply/CrealP. apply: ger0_real. by rewrite divr_ge0 ?sq_ge0.
        - rewrite mulmxBl !mulmxBr -!scalemxAl -!scalemxAr E mulmxA RW -C1 RW -!scalemxAl outer_mul BW.
          rewrite !scalerA.
          have -> : c / sq w * c = 1 by rewrite mulrAC -expr2 c2 mulfV.
          have -> : c / sq w * (c / sq w) * sq w = 1 by rewrite -mulrA mulfVK // mulrAC -expr2 c2 mulfV.
          by rewrite scale1r !subrr. }
      move/eqP: Z. rewrite subr_eq0 => /eqP ->. rewrite mxtraceZ outer_trace BW mulfVK //.
      apply: (pexpIrn (ltn0Sn 1)); rewrite ?qualifE ?vnorm_ge0 //. by rewrite c2 vnorm_sq.
  Qed.
  Lemma pureE (psi : 'cV[C]_d) : pure psi = psi *m adj psi.
  Proof. by rewrite /pure adjE. Qed.
  Lemma population (sqrtm : M -> M) (rho : M) (psi : 'cV[C]_d) : root_of rho (sqrtm rho) -> roots_pure sqrtm ->
    fidelity_funct sqrtm rho (pure psi) = sandwich psi rho psi.
  Proof.
    move=> [[/hermitianE HR PR] E] HS. rewrite /fidelity_funct pureE. set S := sqrtm rho in HR PR E *.
    have -> : S *m (psi *m adj psi) *m S = pure (S *m psi) by rewrite pureE adj_mul HR !mulmxA.
    case: (HS (S *m psi)) => PQ EQ. rewrite pureE in EQ. rewrite pureE. rewrite pureE in PQ. rewrite (outer_root PQ EQ) ger0_norm ?vnorm_ge0 // vnorm_sq sq_braket.
    by rewrite /braket adj_mul HR sandwichE /braket mulmxA -[adj psi *m S *m S]mulmxA E mulmxA.
  Qed.
  Lemma pure_conj (V : M) (psi : 'cV[C]_d) : V *m pure psi *m adj V = pure (V *m psi).
  Proof. by rewrite !pureE adj_mul !mulmxA. Qed.
  Lemma pure_tr (psi : 'cV[C]_d) : (pure psi)^T = pure (map_mx conjC psi).
  Proof. rewrite !pureE trmx_mul. have -> : adj (map_mx conjC psi) = psi^T by apply/matrixP => i j; rewrite !mxE conjCK.
    congr (_ *m _). by apply/matrixP => i j; rewrite !mxE. Qed.

  (** a function with this property *)
  Definition pure_root (X : M) : M := (sqrtC (\tr X))^-1 *: X.
  Lemma pure_root_ok : roots_pure pure_root.
  Proof.
    move=> psi. rewrite pureE /pure_root outer_trace -sq_braket. have S0 := sq_ge0 psi. split; first split.
    - apply: hermitian_scale; first by rewrite realV ger0_real // sqrtC_ge0. by case: (semidefinite_outer psi).
    - move=> v. have -> : sandwich v ((sqrtC (sq psi))^-1 *: (psi *m adj psi)) v = (sqrtC (sq psi))^-1 * sandwich v (psi *m adj psi) v.
      { by rewrite !sandwichE -scalemxAl braket_scale. }
      apply: mulr_ge0; first by rewrite invr_ge0 sqrtC_ge0. by case: (semidefinite_outer psi).
    - rewrite -scalemxAl -scalemxAr outer_mul -sq_braket !scalerA -expr2 exprVn sqrtCK.
      have [Z|N] := eqVneq (sq psi) 0; last by rewrite mulVf // scale1r. by rewrite (sq_eq0 Z) mul0mx scaler0.
  Qed.

  (** the Cayley transform has the property of the exponential used here *)
  Definition cayley (X : M) : M := invmx (1%:M - X) *m (1%:M + X).
  Lemma cayley_unit (Y : M) : adj Y = - Y -> 1%:M - Y \in unitmx.
  Proof.
    move=> A. rewrite unitmxE -det_tr -unitmxE. rewrite -row_free_unit -kermx_eq0. apply/rowV0P => v /sub_kermxP K.
    have E : v = v *m Y^T.
    { apply/eqP. rewrite -subr_eq0. move: K. by rewrite linearB /= trmx1 mulmxBr mulmx1 => ->. }
    set z := v *m adj v. have Z1 : z = v *m Y^T *m adj v by rewrite -E.
    have AT : adj Y^T = - Y^T by rewrite -linearN -A; apply/matrixP => i j; rewrite !mxE.
    have Z2 : adj z = z by rewrite /z adj_mul adjK.
    have Z3 : adj z = - z. { rewrite {1}Z1 !adj_mul adjK AT mulNmx mulmxN mulmxA. by rewrite -Z1. }
    have Z0 : z 0 0 = 0. { move: Z3. rewrite Z2 => /matrixP /(_ 0 0). rewrite [in RHS]mxE => /eqP. rewrite -addr_eq0 -mulr2n mulrn_eq0 /=. by move=> /eqP. }
    have : sq v^T = 0. { rewrite -Z0 /z mxE /sq. apply: eq_bigr => i _. by rewrite !mxE normCK. }
    move/sq_eq0 => V. by rewrite -[v]trmxK V trmx0.
  Qed.
  Lemma cayley_ok : exponentiates cayley.
  Proof.
    move=> H HH. rewrite /unitary -adjE. set Y := - 'i *: H.
    have A : adj Y = - Y. { rewrite /Y adj_scale rmorphN conjCi opprK (proj1 (hermitianE _) HH) scaleNr opprK. by []. }
    have U1 := cayley_unit A. have U2 : 1%:M + Y \in unitmx by rewrite -[Y]opprK; apply: cayley_unit; rewrite adj_opp A.
    rewrite /cayley adj_mul adj_add adj1 A.
    have AI : adj (invmx (1%:M - Y)) = invmx (1%:M + Y).
    { have Q : adj (invmx (1%:M - Y)) *m (1%:M + Y) = 1%:M.
      { have -> : 1%:M + Y = adj (1%:M - Y) by rewrite adj_add adj_opp adj1 A opprK. by rewrite -adj_mul mulmxV // adj1. }
      by rewrite -[LHS](mulmxK U2) Q mul1mx. }
    rewrite AI. have K : (1%:M - Y) *m (1%:M + Y) = (1%:M + Y) *m (1%:M - Y).
    { rewrite mulmxBl mulmxBr mul1mx mulmx1 mulmxDl mulmxDr mul1mx mulmx1. by []. }
    have K2 : invmx (1%:M + Y) *m invmx (1%:M - Y) = invmx (1%:M - Y) *m invmx (1%:M + Y).
    { have -> : invmx (1%:M + Y) *m invmx (1%:M - Y) = invmx (1%:M + Y) *m invmx (1%:M - Y) *m ((1%:M + Y) *m (1%:M - Y)) *m (invmx (1%:M - Y) *m invmx (1%:M + Y)).
      { rewrite -[RHS]mulmxA. have -> : (1%:M + Y) *m (1%:M - Y) *m (invmx (1%:M - Y) *m invmx (1%:M + Y)) = 1%:M by rewrite mulmxA (mulmxK U1) (mulmxV U2).
        by rewrite mulmx1. }
      rewrite -K. have -> : invmx (1%:M + Y) *m invmx (1%:M - Y) *m ((1%:M - Y) *m (1%:M + Y)) = 1%:M by rewrite mulmxA (mulmxKV U1) (mulVmx U2).
      by rewrite mul1mx. }
    rewrite !mulmxA. rewrite -[(1%:M - Y) *m invmx (1%:M + Y) *m _]mulmxA K2 mulmxA mulmxV // mul1mx. by rewrite mulVmx.
  Qed.
End Population.
