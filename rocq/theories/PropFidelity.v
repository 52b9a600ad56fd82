(** * C66: the fidelity helpers *)
From Coq Require Import ZArith Lia.
From mathcomp Require Import all_ssreflect all_algebra all_field.
From mathcomp.real_closed Require Import mxtens.
From Verif Require Import Py ModelQuantum SpecQuantum ProofQuantum ProofProblems ProofSpectral ModelFidelity SpecFidelity ProofFidelity PropQuantum.
Import GRing.Theory Num.Theory.
Set Implicit Arguments.
Unset Strict Implicit.
Unset Printing Implicit Defensive.
Local Open Scope ring_scope.

Section Claims.
  Variables (C : numClosedFieldType) (d : nat).
  Notation M := 'M[C]_d.

  (** The specification determines one number: two positive semidefinite matrices have exactly one fidelity. *)
  Theorem C66_defined (rho sigma : M) : semidefinite rho -> semidefinite sigma ->
    exists F, fidelity_is rho sigma F /\ forall F', fidelity_is rho sigma F' -> F' = F.
  Proof.
    move=> P Q. have [F HF] := fidelity_exists P Q. exists F. split=> // F' HF'. exact: fidelity_uniq HF' HF.
  Qed.
  (** It does not change if the matrices are exchanged or turned by a unitary matrix. *)
  Theorem C66_symmetric (rho sigma V : M) F : semidefinite rho -> semidefinite sigma -> unitary V -> fidelity_is rho sigma F ->
    fidelity_is sigma rho F /\ fidelity_is (V *m rho *m dagger V) (V *m sigma *m dagger V) F.
  Proof. move=> P Q U H. split; first exact: fidelity_sym. rewrite -adjE. exact: fidelity_unitary. Qed.
  (** For density matrices it is between 0 and 1, and 1 for equal matrices only. *)
  Theorem C66_range (rho sigma : M) F : density rho -> density sigma -> fidelity_is rho sigma F -> 0 <= F <= 1 /\ (F = 1 <-> rho = sigma).
  Proof. exact: fidelity_range_mixed. Qed.
  (** With a pure state it is the population of that state. *)
  Theorem C66_pure (psi : 'cV[C]_d) (sigma : M) : sandwich psi 1%:M psi = 1 -> semidefinite sigma ->
    fidelity_is (pure psi) sigma (sandwich psi sigma psi) /\ fidelity_is sigma (pure psi) (sandwich psi sigma psi).
  Proof.
    move=> N P. have N1 : sq psi = 1 by rewrite sq_braket -N sandwichE mul1mx.
    have H := fidelity_pure N1 P. split=> //. exact: fidelity_sym.
  Qed.

  (** [_sqrtm] returns the square root of every positive semidefinite matrix. *)
  Theorem C66_sqrtm (eigh : M -> 'rV[C]_d * M) (inv : M -> M) (a : M) : diagonalises eigh -> inverts inv -> semidefinite a ->
    root_of a (sqrtm_ eigh inv a).
  Proof.
    move=> D I [H P]. have [UU E] := D a H. rewrite /sqrtm_. move: UU E. case: (eigh a) => l V /= UU E.
    have UE := proj1 (unitaryE V) UU. have UR := unitary_r UU.
    have -> : inv V = adj V.
    { have := I V. case: (mulmx1_unit UR) => U1 _ /(_ U1) IV. by rewrite -[inv V]mulmx1 -UR mulmxA IV mul1mx. }
    have EA : a = V *m diag_mx l *m adj V by rewrite -E -mulmxA UR mulmx1.
    have L : forall i, 0 <= l 0 i.
    { move=> i. rewrite -(sandwich_diag l i). have -> : diag_mx l = adj V *m a *m V by rewrite EA !mulmxA UE mul1mx -mulmxA UE mulmx1.
      move: (P (V *m delta_mx i 0)). by rewrite /sandwich -!adjE adj_mul !mulmxA. }
    split.
    - apply: semidefinite_conj. apply: semidefinite_diag => i. by rewrite mxE sqrtC_ge0.
    - rewrite [RHS]EA !mulmxA -[_ *m adj V *m V]mulmxA UE mulmx1 -[V *m _ *m _]mulmxA diag_mul.
      congr (_ *m diag_mx _ *m _). apply/matrixP => i j. by rewrite !mxE (ord1 i) -expr2 sqrtCK.
  Qed.

  (** [fidelity_AD], given the square root of the first matrix, returns the fidelity. *)
  Theorem C66_fidelity_AD (eigvals : M -> seq C) (rho R sigma : M) : finds_eigenvalues eigvals -> root_of rho R -> semidefinite sigma ->
    fidelity_is rho sigma (fidelity_AD eigvals R sigma).
  Proof.
    move=> E HR P. have [S HS] := root_exists (root_conj (root_adj HR) P). exists R, S. do 2 split=> //.
    rewrite /fidelity_AD. congr (_ ^+ 2). have [-> A] := root_trace HS (E (R *m sigma *m R)). rewrite !big_map.
    apply: eq_big_seq => l L. move/allP: A => /(_ l L) L0. have -> : 'Re l = l by apply/Creal_ReP; rewrite ger0_real.
    rewrite le0r in L0. case/orP: L0 => [/eqP Z|Z]; first by rewrite Z Order.POrderTheory.ltxx.
    by rewrite Z.
  Qed.
  (** So with [_sqrtm] the two arguments may be exchanged, the values lie in [0, 1] and 1 means equal. *)
  Theorem C66_program (eigvals : M -> seq C) (eigh : M -> 'rV[C]_d * M) (inv : M -> M) (rho sigma : M) :
    finds_eigenvalues eigvals -> diagonalises eigh -> inverts inv -> density rho -> density sigma ->
    let F := fidelity_AD eigvals (sqrtm_ eigh inv rho) sigma in
    0 <= F <= 1 /\ (F = 1 <-> rho = sigma) /\ fidelity_AD eigvals (sqrtm_ eigh inv sigma) rho = F /\
    (forall psi, rho = pure psi -> F = sandwich psi sigma psi).
  Proof.
    move=> E D I Hr Hs F. have [Pr Tr] := Hr. have [Ps Ts] := Hs.
    have HF : fidelity_is rho sigma F by apply: C66_fidelity_AD => //; apply: C66_sqrtm.
    have [R O] := C66_range Hr Hs HF. do 2 split=> //. split.
    - apply: (fidelity_uniq (rho := sigma) (sigma := rho)); last exact: fidelity_sym. apply: C66_fidelity_AD => //. exact: C66_sqrtm.
    - move=> psi EP. apply: (fidelity_uniq HF). rewrite EP. case: (@C66_pure psi sigma) => //. move: Tr. by rewrite EP pureE outer_trace sandwichE mul1mx.
  Qed.

  (** [fidelity_not_diff_due_to_sqrtm] returns the root of the fidelity; its square, and what Ising's [fidelity_funct] returns, is the fidelity. *)
  Theorem C66_not_diff (sqrtm : M -> M) (rho sigma : M) : finds_roots sqrtm -> semidefinite rho -> semidefinite sigma ->
    let f := fidelity_not_diff_due_to_sqrtm sqrtm rho sigma in
    0 <= f /\ fidelity_is rho sigma (f ^+ 2) /\ fidelity_is rho sigma (fidelity_funct sqrtm rho sigma).
  Proof.
    move=> HS P Q. have HR := HS rho P. have Q2 := root_conj (root_adj HR) Q. have HT := HS _ Q2.
    have T0 := proj1 (trace_semidefinite (proj1 HT)).
    have E : fidelity_not_diff_due_to_sqrtm sqrtm rho sigma = \tr (sqrtm (sqrtm rho *m sigma *m sqrtm rho)).
    { rewrite /fidelity_not_diff_due_to_sqrtm /=. apply/Creal_ReP. by rewrite ger0_real. }
    rewrite E. split=> //. split; exists (sqrtm rho), (sqrtm (sqrtm rho *m sigma *m sqrtm rho)); do 2 split=> //.
    by rewrite /fidelity_funct ger0_norm.
  Qed.

  (** The matrix of a state is its projector; it is a density matrix for states of norm 1. *)
  Theorem C66_state_to_dm (psi : 'cV[C]_d) : state_to_dm psi = pure psi /\ semidefinite (state_to_dm psi) /\
    (density (state_to_dm psi) <-> sandwich psi 1%:M psi = 1).
  Proof.
    have E : state_to_dm psi = pure psi.
    { rewrite pureE. apply/matrixP => i j. by rewrite !mxE big_ord1 !mxE. }
    have S : semidefinite (pure psi) by rewrite pureE; apply: semidefinite_outer.
    rewrite E. do 2 split=> //. rewrite sandwichE mul1mx -outer_trace -pureE. by split=> [[]|].
  Qed.
  (** A displacement is unitary for every amplitude. *)
  Theorem C66_displace (expm : M -> M) (a : M) (alpha : C) : exponentiates expm -> unitary (displace expm a alpha).
  Proof.
    move=> X. rewrite /displace. set Y := _ - _.
    have -> : Y = - 'i *: ('i *: Y) by rewrite scalerA mulNr -expr2 sqrCi opprK scale1r.
    apply: X. apply/hermitianE. rewrite adj_scale conjCi /Y adj_add adj_opp !adj_scale adjK conjCK.
    by rewrite scaleNr -scalerN opprB.
  Qed.
End Claims.

(** The two functions do not agree: for the ground state and the fully mixed qubit the fidelity is 1/2 and
    [fidelity_not_diff_due_to_sqrtm] returns a number whose square is 1/2. *)
Section Refuted.
  Variable C : numClosedFieldType.
  Definition ground : 'cV[C]_2 := delta_mx 0 0.
  Definition mixed : 'M[C]_2 := (2%:R^-1) *: 1%:M.
  Lemma ground_norm : sandwich ground 1%:M ground = 1.
  Proof. by rewrite sandwichE mul1mx /ground braket_delta mxE eqxx. Qed.
  Lemma mixed_density : density mixed.
  Proof.
    have H0 : 0 <= (2%:R^-1 : C) by rewrite invr_ge0 ler0n. split.
    - rewrite /mixed -diag_const_mx -linearZ /=. apply: semidefinite_diag => i. by rewrite !mxE mulr1.
    - by rewrite /mixed mxtraceZ mxtrace1 mulVf // pnatr_eq0.
  Qed.
  Lemma ground_density : density (pure ground).
  Proof. have [<- [_ [_ H]]] := C66_state_to_dm ground. apply: H. exact: ground_norm. Qed.
  Lemma half_half : (2%:R^-1 : C) != 1.
  Proof. apply/eqP => /(congr1 (fun x => x * 2%:R)). rewrite mulVf ?pnatr_eq0 // mul1r => /eqP. by rewrite (eqr_nat C 1 2). Qed.
  Theorem C66_not_diff_refuted : exists rho sigma : 'M[C]_2, density rho /\ density sigma /\ fidelity_is rho sigma (2%:R^-1) /\
    forall sqrtm, finds_roots sqrtm -> ~ fidelity_is rho sigma (fidelity_not_diff_due_to_sqrtm sqrtm rho sigma).
  Proof.
    exists (pure ground), mixed. have Dg := ground_density. have Dm := mixed_density. do 2 split=> //.
    have V : sandwich ground mixed ground = 2%:R^-1 by rewrite /mixed sandwichE -scalemxAl braket_scale mul1mx /ground braket_delta mxE eqxx mulr1.
    have HF : fidelity_is (pure ground) mixed (2%:R^-1).
    { rewrite -V. apply: (proj1 (C66_pure ground_norm _)). by case: Dm. }
    split=> // sqrtm HS. have [f0 [f1 _]] := C66_not_diff HS (proj1 Dg) (proj1 Dm). move=> K.
    have E1 := fidelity_uniq K HF. have E2 := fidelity_uniq f1 HF. move: E2. rewrite E1 => E2.
    case/eqP: half_half. apply: (mulfI (x := 2%:R^-1)); first by rewrite invr_eq0 pnatr_eq0. by rewrite mulr1 -expr2.
  Qed.
End Refuted.

(** The figure of merit of the bundled Ising problem is -1 (the factor) times a fidelity, for mixed states as well: of the target and the
    transposed final state.  So it is between 0 and minus the factor, and reaches that bound exactly if the transposed final state is the target. *)
Section Ising.
  Variables (C : numClosedFieldType) (d : nat).
  Variables expm sqrtm : 'M[C]_d -> 'M[C]_d.
  Variable D : ising_data C d.
  Theorem C66_ising (x : seq C * seq C) : exponentiates expm -> finds_roots sqrtm -> hermitian (i_drift D) -> hermitian (i_control D) ->
    (forall a, a \in x.1 -> a \is Num.real) -> (forall t, t \in x.2 -> t \is Num.real) -> density (i_rho0 D) -> density (i_target D) ->
    let rho := (final_of expm D x *m i_rho0 D *m dagger (final_of expm D x))^T in
    density rho /\ exists F, merit_of expm sqrtm D x = Ok (- i_factor D * F) /\ fidelity_is rho (i_target D) F /\ 0 <= F <= 1 /\ (F = 1 <-> rho = i_target D).
  Proof.
    move=> X S HA HB R1 R2 [P0 T0] DT rho.
    have N0 : forall (l : seq C) i, (forall a, a \in l -> a \is Num.real) -> nth 0 l i \is Num.real.
    { move=> l i L. have [I|I] := ltnP i (size l); first by apply: L; apply: mem_nth. rewrite nth_default //; exact: real0. }
    have UF : unitary (final_of expm D x).
    { apply: evolved_unitary; last exact: unitary1. move=> i _. apply: propagator_unitary => //.
      - by move=> b; rewrite inE => /eqP ->.
      - move=> k K. rewrite /amplitude. have [Z|Z] := ltnP k 1; last by rewrite [nth _ _ k]nth_default // nth_nil real0. case: k Z {K} => //= _. exact: N0.
      - rewrite rpredM ?realV ?realn //. rewrite -nth_last. exact: N0. }
    have DR : density rho.
    { split; first by apply: semidefinite_tr; rewrite -adjE; apply: semidefinite_conj. rewrite mxtrace_tr mxtrace_mulC mulmxA -adjE (proj1 (unitaryE _) UF) mul1mx //. }
    split=> //. exists (uhlmann sqrtm rho (i_target D)). split=> //.
    have [_ [_ F]] := C66_not_diff S (proj1 DR) (proj1 DT). split=> //. exact: C66_range.
  Qed.
End Ising.
Print Assumptions C66_ising.

(** Routines with the assumed properties exist in every dimension. *)
Example C66_ex_oracles (C : numClosedFieldType) d :
  finds_eigenvalues (@some_eigenvalues C d) /\ finds_roots (@some_root C d) /\ diagonalises (@some_basis C d) /\ inverts (@invmx C d) /\ exponentiates (@cayley C d).
Proof. split; first exact: some_eigenvalues_ok. split; first exact: some_root_ok. split; first exact: some_basis_ok. split; first exact: invmx_ok. exact: cayley_ok. Qed.
(** With them, the ground state and the fully mixed state of a qubit have fidelity 1/2. *)
Example C66_ex_half : fidelity_AD (@some_eigenvalues algCnumClosedField 2) (sqrtm_ (@some_basis _ _) (@invmx _ _) (pure (ground _))) (mixed _) = 2%:R^-1.
Proof.
  have [_ [_ [_ H]]] := C66_program (@some_eigenvalues_ok algCnumClosedField 2) (@some_basis_ok _ _) (@invmx_ok _ _) (ground_density _) (mixed_density _).
  by rewrite (H _ erefl) /mixed sandwichE -scalemxAl braket_scale mul1mx /ground braket_delta mxE eqxx mulr1.
Qed.
(** A mixed target in the Ising problem, two slices with different amplitudes. *)
Example C66_ex_ising (C : numClosedFieldType) : let D := IsingData 2 (pure (ground C)) (const_mx 1) (pure (ground C)) (mixed C) 1 in
  exists F, merit_of (@cayley C 2) (@some_root C 2) D ([:: 1; 2%:R], [:: 0; 1]) = Ok (- 1 * F) /\ 0 <= F <= 1.
Proof.
  move=> D. have H := @C66_ising C 2 (@cayley C 2) (@some_root C 2) D ([:: 1; 2%:R], [:: 0; 1]) (@cayley_ok C 2) (@some_root_ok C 2).
  case: H => [||a|t|||_ [F [E [_ [R _]]]]]; last by exists F.
  - exact: (proj1 (proj1 (ground_density C))).
  - by move=> i j; rewrite !mxE rmorph1.
  - by rewrite !inE => /orP [] /eqP ->; rewrite ?real1 ?realn.
  - by rewrite !inE => /orP [] /eqP ->; rewrite ?real1 ?real0.
  - exact: ground_density.
  - exact: mixed_density.
Qed.
Example C66_ex_displace : unitary (displace (@cayley algCnumClosedField 2) (delta_mx 0 1) (1 + 'i)).
Proof. apply: C66_displace. exact: cayley_ok. Qed.

Print Assumptions C66_defined.
Print Assumptions C66_symmetric.
Print Assumptions C66_range.
Print Assumptions C66_pure.
Print Assumptions C66_sqrtm.
Print Assumptions C66_fidelity_AD.
Print Assumptions C66_program.
Print Assumptions C66_not_diff.
Print Assumptions C66_state_to_dm.
Print Assumptions C66_displace.
Print Assumptions C66_not_diff_refuted.
