(** * C73: the dissipative example problems. *)
From Coq Require Import ZArith Lia.
From mathcomp Require Import all_ssreflect all_algebra zify ring.
From mathcomp Require Import algC.
From Verif Require Import Py ModelQuantum ModelTrace ModelIsing ModelLindblad SpecTrace SpecQuantum SpecFidelity SpecIsing SpecLindblad.
From Verif Require Import ProofQuantum ProofGrape ProofTrace ProofProblems ProofIsing ProofIsingH ProofIsingP ProofWitness ProofSpectral ProofFidelity ProofLindblad.
Import GRing.Theory Num.Theory.
Set Implicit Arguments.
Unset Strict Implicit.
Unset Printing Implicit Defensive.
Local Open Scope ring_scope.
Local Open Scope seq_scope.

(** ** The decaying qubit *)
Section Qubit.
  Variable C : numClosedFieldType.
  Notation M := 'M[C]_2.
  Implicit Types (gamma E x : C) (rho : M).

  (** the two ways of writing a state are inverse to each other *)
  Theorem C73_vectors rho (v : 'cV[C]_4) : convert_LFS_to_rho (convert_rho_to_LFS rho) = rho /\ convert_rho_to_LFS (convert_LFS_to_rho v) = v.
  Proof. split; [exact: LFSK|exact: LFSK']. Qed.
  (** the generator is that of the master equation plus gamma rho_01 |0><1| *)
  Theorem C73_generator gamma E x rho :
    convert_LFS_to_rho ((L_const gamma E + x *: L_drive C) *m convert_rho_to_LFS rho) = decay gamma (driven_qubit E x) rho + (gamma * rho 0 1) *: jump C.
  Proof. exact: generator. Qed.

  Section Evolution.
    Variable expm : 'M[C]_4 -> 'M[C]_4.
    Variables (gamma E : C) (drive grid : seq C).
    (** the state after the evolution of the density matrix [rho] *)
    Definition after rho : M := convert_LFS_to_rho (tls_evolution_final expm (convert_rho_to_LFS rho) (L_const gamma E) (L_drive C) drive grid).
    Definition slice_time : C := last 0 grid / (size grid)%:R.
    (** as many slices as entries of the grid, each of length T/n, with the amplitudes in order *)
    Theorem C73_slices rho : (0 < size grid <= size drive)%N -> slice_time *+ size grid = last 0 grid /\
      convert_rho_to_LFS (after rho) = evolved (fun i => expm (slice_time *: (L_const gamma E + nth 0 drive i *: L_drive C))) 1%:M (size grid) *m convert_rho_to_LFS rho.
    Proof.
      move=> /andP [P L]. split; first by rewrite -mulr_natr /slice_time mulfVK // pnatr_eq0 -lt0n.
      rewrite /after LFSK' tls_evolved. congr (_ *m _). apply: eq_evolved => i I. by rewrite clamped_in // (leq_trans I).
    Qed.
    (** the trace is kept *)
    Theorem C73_trace cexp rho : cexp 0 = 1 -> (forall x, x \in drive -> exponential_at expm cexp (slice_time *: (L_const gamma E + x *: L_drive C))) ->
      (0 < size drive)%N -> \tr (after rho) = \tr rho.
    Proof. move=> E0 H D. rewrite /after (trace_kept _ E0 H D) LFSK. by []. Qed.
    (** without decay the generator is that of a closed system and the state stays Hermitian *)
    Theorem C73_closed rho : real_series expm -> gamma = 0 -> E \is Num.real -> slice_time \is Num.real -> (forall x, x \in drive -> x \is Num.real) ->
      hermitian rho -> hermitian (after rho)
      /\ forall x, convert_LFS_to_rho ((L_const gamma E + x *: L_drive C) *m convert_rho_to_LFS rho) = - 'i *: (driven_qubit E x *m rho - rho *m driven_qubit E x).
    Proof.
      move=> R G RE RS RD H. split; first by apply: hermitian_kept => //; rewrite LFSK. move=> x. by rewrite C73_generator /decay G mul0r !scale0r !addr0.
    Qed.
    (** without drive: one coherence grows with gamma/2, the other decays with gamma/2, the population of the upper level with gamma *)
    Theorem C73_undriven cexp rho : (forall x, x \in drive -> x = 0) -> exponential_at expm cexp (slice_time *: L_const gamma E) ->
      after rho 0 1 = cexp (slice_time * (- 'i * E + gamma / 2%:R)) ^+ size grid * rho 0 1
      /\ after rho 1 0 = cexp (slice_time * ('i * E - gamma / 2%:R)) ^+ size grid * rho 1 0
      /\ after rho 1 1 = cexp (slice_time * - gamma) ^+ size grid * rho 1 1.
    Proof.
      move=> Z H. rewrite /after !mx22E. split; first by rewrite (@undriven _ expm gamma E drive grid 1 _ cexp _ isT erefl Z H) LFSE.
      split; first by rewrite (@undriven _ expm gamma E drive grid 2 _ cexp _ isT erefl Z H) LFSE.
      by rewrite (@undriven _ expm gamma E drive grid 3 _ cexp _ isT erefl Z H) LFSE.
    Qed.
    (** left alone in the target state, the figure of merit rises above 1 and the state is no longer Hermitian *)
    Theorem C73_amplified cexp g : (forall x, x \in drive -> x = 0) -> (0 < size drive)%N -> (0 < size grid)%N -> E = 0 ->
      cexp 0 = 1 -> exponential_at expm cexp (slice_time *: L_const gamma E) ->
      cexp (slice_time * (gamma / 2%:R)) = g -> cexp (slice_time * - (gamma / 2%:R)) = g^-1 -> 1 < g ->
      fidelity_funct_LFS (convert_rho_to_LFS (after (tls_rho_target C))) (convert_rho_to_LFS (tls_rho_target C)) = sqrtC (2%:R^-1 + (g ^+ size grid + g ^- size grid) / 4%:R)
      /\ 1 < fidelity_funct_LFS (convert_rho_to_LFS (after (tls_rho_target C))) (convert_rho_to_LFS (tls_rho_target C))
      /\ ~ hermitian (after (tls_rho_target C)).
    Proof.
      move=> Z D G EE E0 H H1 H2 GT. have [U1 [U2 _]] := @C73_undriven cexp (tls_rho_target C) Z H.
      have T : \tr (after (tls_rho_target C)) = 1.
      { rewrite (@C73_trace cexp) // => [|x /Z ->]; last by rewrite scale0r addr0. by rewrite tr22; field. }
      have V1 : tls_rho_target C 0 1 = 'i / 2%:R by rewrite mx22E. have V2 : tls_rho_target C 1 0 = - ('i / 2%:R) by rewrite mx22E.
      rewrite V1 EE !mulr0 add0r H1 in U1. rewrite V2 EE mulr0 sub0r H2 exprVn in U2.
      set rho := after (tls_rho_target C) in U1 U2 T *. set n := size grid in G U1 U2 *. set x := g ^+ n in U1 U2 *.
      have X1 : 1 < x by rewrite exprn_egt1 // -lt0n.
      have X0 : 0 < x by exact: Order.POrderTheory.lt_trans ltr01 X1.
      have XR : x \is Num.real by exact: gtr0_real.
      have XI : x^-1 \is Num.real by rewrite realV.
      have TT : rho 0 0 + rho 1 1 = 1.
      { rewrite -T. have {3}-> : rho = mx22 (rho 0 0) (rho 0 1) (rho 1 0) (rho 1 1) by apply: mx22P; rewrite mx22E. by rewrite tr22. }
      have O : \tr (dagger rho *m tls_rho_target C) = 2%:R^-1 + (x + x^-1) / 4%:R.
      { have {1}-> : rho = mx22 (rho 0 0) (rho 0 1) (rho 1 0) (rho 1 1) by apply: mx22P; rewrite mx22E.
        rewrite -adjE adj22 mul22 tr22 U1 U2. rewrite !(rmorphM, rmorphN) !fmorphV !conj_nat !conjCi !(conj_Creal XR).
        transitivity ((rho 0 0 + rho 1 1)^* / 2%:R - (x + x^-1) / 4%:R * ('i * 'i)); last by rewrite TT rmorph1 ii mul1r mulrN1 opprK.
        rewrite rmorphD /=. move: ((rho 0 0)^*) ((rho 1 1)^*) (x^-1) => a b y. by field. }
      have V : 1 < 2%:R^-1 + (x + x^-1) / 4%:R.
      { rewrite -subr_gt0. have -> : 2%:R^-1 + (x + x^-1) / 4%:R - 1 = (x - 1) ^+ 2 / (4%:R * x). { field. by rewrite (Order.POrderTheory.gt_eqF X0). }
        apply: divr_gt0; last by apply: mulr_gt0; rewrite ?ltr0n. apply: exprn_gt0. by rewrite subr_gt0. }
      have V0 : 0 <= 2%:R^-1 + (x + x^-1) / 4%:R by apply: Order.POrderTheory.ltW; exact: Order.POrderTheory.lt_trans ltr01 V.
      rewrite LFS_overlap O ger0_norm // -[g ^- n]/(x^-1). split; first by []. split; first by rewrite -{1}sqrtC1 ltr_sqrtC ?qualifE ?ler01.
      move=> HH. have := HH 0 1. rewrite U1 U2 rmorphM rmorphN rmorphM !fmorphV conj_nat conjCi (conj_Creal XR) mulNr opprK => /mulIf Q.
      have I0 : 'i / 2%:R != 0 :> C by rewrite mulf_neq0 ?neq0Ci ?invr_eq0 ?pnatr_eq0. have := Q I0 => XX.
      have : x ^+ 2 = 1 by rewrite expr2 {1}XX mulVf // (Order.POrderTheory.gt_eqF X0). 
      move=> S. have : 1 < x ^+ 2 by rewrite exprn_egt1. by rewrite S Order.POrderTheory.ltxx.
    Qed.
  End Evolution.

  (** for a density matrix the figure of merit is the root of the fidelity with the state (|0> - i|1>)/sqrt 2 *)
  Theorem C73_merit rho : density rho -> tls_rho_target C = pure (aim C) /\ exists F, fidelity_is rho (pure (aim C)) F
    /\ fidelity_funct_LFS (convert_rho_to_LFS rho) (convert_rho_to_LFS (tls_rho_target C)) = sqrtC F /\ 0 <= F <= 1 /\ (F = 1 <-> rho = pure (aim C)).
  Proof. move=> D. split; first exact: target_pure. rewrite -target_pure. exact: merit_physical. Qed.

  (** ** A case: 1 + 3/2 A + A^2 has the properties of the exponential used here *)
  Definition series (A : 'M[C]_4) : 'M[C]_4 := 1%:M + (3%:R / 2%:R) *: A + A *m A.
  Definition cseries (a : C) : C := 1 + 3%:R / 2%:R * a + a * a.
  Lemma series_at A : exponential_at series cseries A.
  Proof.
    move=> w a H. rewrite /series /cseries !mulmxDr mulmx1 -scalemxAr mulmxA H -scalemxAl H !scalerA !scalerDl scale1r. by [].
  Qed.
  Lemma series_real : real_series series.
  Proof.
    move=> P A PP. rewrite /series. have -> : conjugate (1%:M + (3%:R / 2%:R) *: A + A *m A) = 1%:M + (3%:R / 2%:R) *: conjugate A + conjugate A *m conjugate A.
    { apply/matrixP => i j. rewrite !mxE !rmorphD rmorphM rmorphM fmorphV !conj_nat. congr (_ + _). rewrite rmorph_sum /=. apply: eq_bigr => k _. by rewrite rmorphM !mxE. }
    rewrite !mulmxDr !mulmxDl mulmx1 PP -scalemxAr -scalemxAl !mulmxA. congr (_ + _). rewrite -[P *m conjugate A *m P *m P]mulmxA PP mulmx1. by [].
  Qed.
  (** a density matrix of a qubit with decay rate 1 is left without drive for one slice: it is no density matrix afterwards and the figure of
      merit is above 1 *)
  Theorem C73_physical_refuted : exists (expm : 'M[C]_4 -> 'M[C]_4) cexp (gamma E : C) (drive grid : seq C) rho,
    (forall A, exponential_at expm cexp A) /\ cexp 0 = 1 /\ real_series expm /\ 0 < gamma /\ density rho
    /\ ~ density (after expm gamma E drive grid rho)
    /\ 1 < fidelity_funct_LFS (convert_rho_to_LFS (after expm gamma E drive grid rho)) (convert_rho_to_LFS (tls_rho_target C)).
  Proof.
    exists series, cseries, 1, 0, [:: 0], [:: 1], (tls_rho_target C). split; first exact: series_at. split; first by rewrite /cseries !mulr0 !addr0.
    split; first exact: series_real. split; first exact: ltr01. split; first exact: aim_density.
    have [|||||||||_ [A1 A2]] := @C73_amplified series 1 0 [:: 0] [:: 1] cseries 2%:R.
    - by move=> x; rewrite inE => /eqP.
    - by [].
    - by [].
    - by [].
    - by rewrite /cseries !mulr0 !addr0.
    - exact: series_at.
    - rewrite /slice_time /cseries /=. by field.
    - rewrite /slice_time /cseries /=. by field.
    - by rewrite (ltr_nat C 1 2).
    by split=> // -[[]].
  Qed.
  (** a case of the theorems on closed systems and on slices *)
  Example C73_example_closed : hermitian (after series 0 1 [:: 1; 2%:R] [:: 1; 3%:R] (tls_rho_0 C)) /\ \tr (after series 0 1 [:: 1; 2%:R] [:: 1; 3%:R] (tls_rho_0 C)) = 1.
  Proof.
    split.
    - have [||||| |H _] := @C73_closed series 0 1 [:: 1; 2%:R] [:: 1; 3%:R] (tls_rho_0 C) => //.
      + exact: series_real.
      + exact: real1.
      + rewrite /slice_time /=. by rewrite rpred_div ?realn.
      + move=> x. rewrite !inE => /orP [/eqP ->|/eqP ->]; [exact: real1|exact: realn].
      + have two : forall k : 'I_2, k = 0 \/ k = 1 by case=> [[|[|k]] Hk] //; [left|right]; apply: val_inj.
        move=> i j. by case: (two i) => ->; case: (two j) => ->; rewrite !mx22E ?conjC0 ?conjC1.
    - rewrite (@C73_trace series 0 1 [:: 1; 2%:R] [:: 1; 3%:R] cseries) //; [by rewrite tr22 addr0|by rewrite /cseries !mulr0 !addr0|by move=> x _; exact: series_at].
  Qed.
End Qubit.

(** ** The dephasing chain *)
Section Chain.
  Variable C : numClosedFieldType.
  (** the right hand side given to the solver keeps Hermitian matrices Hermitian; it changes the trace at the rate tr ((L^dagger L - L L^dagger) rho) *)
  Theorem C73_right_side d (H L rho : 'M[C]_d) : hermitian H -> hermitian rho -> hermitian (LME H L rho)
    /\ \tr (LME H L rho) = \tr ((dagger L *m L - L *m dagger L) *m rho).
  Proof. move=> HH HR. split; [exact: LME_hermitian|exact: LME_trace]. Qed.
  (** for a normal jump operator it is that of the master equation *)
  Theorem C73_master d (H L rho : 'M[C]_d) : L *m dagger L = dagger L *m L -> LME H L rho = lindblad H L rho /\ \tr (LME H L rho) = 0.
  Proof. move=> E. split; first exact: LME_normal. by rewrite LME_trace E subrr mul0mx mxtrace0. Qed.
  (** not for one that lowers *)
  Theorem C73_master_refuted : exists (H L rho : 'M[C]_2), hermitian H /\ density rho /\ \tr (LME H L rho) <> 0 /\ LME H L rho <> lindblad H L rho.
  Proof.
    have A1 : \tr (LME 0 (jump C) (pure (ket 0 1))) = 1 :> C.
    { rewrite LME_trace -adjE jump_mx adj22 !mul22 opp22 add22 pureE.
      have -> : ket 0 1 *m adj (ket 0 1) = mx22 0 0 0 1 :> 'M[C]_2 by apply: mx22P; rewrite mx22E !mxE big_ord1 !mxE /= ?conjC0 ?conjC1 ?mulr0 ?mul0r ?mulr1.
      rewrite mul22 tr22 !rmorph0 !rmorph1. by ring. }
    have A2 : \tr (lindblad 0 (jump C) (pure (ket 0 1))) = 0 :> C.
    { rewrite /lindblad mul0mx mulmx0 subr0 scaler0 add0r mxtraceD raddfN /= mxtraceZ mxtraceD.
      have -> : \tr (jump C *m pure (ket 0 1) *m dagger (jump C)) = \tr (dagger (jump C) *m jump C *m pure (ket 0 1)) by rewrite mxtrace_mulC mulmxA.
      rewrite [\tr (pure (ket 0 1) *m _)]mxtrace_mulC. move: (\tr _) => a. by field. }
    exists 0, (jump C), (pure (ket 0 1)). split; first by move=> i j; rewrite !mxE conjC0. split.
    { split; first by rewrite pureE; exact: semidefinite_outer. rewrite pureE outer_trace -sq_braket sq_braket /braket ket_bra conjC0 conjC1 mulr0 mulr1 add0r. by []. }
    split; first by rewrite A1; apply/eqP; exact: oner_neq0. move=> Q. move: A1. rewrite Q A2 => /eqP. by rewrite eq_sym oner_eq0.
  Qed.

  Variable n : nat.
  Hypothesis N : (1 < n)%N.
  (** the operators: a quarter of the coupling energies, half a flip per spin, the root of gamma times the magnetisation *)
  Theorem C73_operators (J g gamma : C) : exists H0 Hc L, half_static_hamiltonian n J g = Ok H0 /\ half_control_hamiltonian C n = Ok Hc /\ get_dephasing_Lindbladian n gamma = Ok L
    /\ dim H0 = (2 ^ n)%N /\ dim Hc = (2 ^ n)%N /\ dim L = (2 ^ n)%N
    /\ forall s t, s \in spins n -> t \in spins n ->
       ((2 < n)%N -> ent H0 (basis_number s) (basis_number t) = if s == t then chain_energy J g n s / 4%:R else 0)
       /\ ent Hc (basis_number s) (basis_number t) = (if flips s t == 1%N then 2%:R^-1 else 0)
       /\ ent L (basis_number s) (basis_number t) = if s == t then sqrtC gamma * magnetisation C n s else 0.
  Proof.
    have [H0 [E0 [D0 F0]]] := half_static_general N J g. have [Hc [Ec [Dc Fc]]] := half_control C N. have [L [EL [DL FL]]] := dephasing_ok N gamma.
    exists H0, Hc, L. do 6 (split; first by []). move=> s t S T. split.
    - move=> N2. have [H [E [_ F]]] := half_energy N J g N2. move: E. rewrite E0 => -[] ->. exact: F.
    - split; last exact: FL. rewrite Fc //. by case: eqP => _; rewrite ?mul1r ?mul0r.
  Qed.
  (** the coherence of two configurations is damped by the square of the difference of their magnetisations *)
  Theorem C73_dephasing (gamma : C) L (H rho : 'M[C]_(2 ^ n)) s t (i j : 'I_(2 ^ n)) : 0 <= gamma -> get_dephasing_Lindbladian n gamma = Ok L ->
    s \in spins n -> t \in spins n -> basis_number s = i -> basis_number t = j ->
    LME H (matrix_of n L) rho i j = (- 'i *: (H *m rho - rho *m H)) i j - gamma / 2%:R * (magnetisation C n s - magnetisation C n t) ^+ 2 * rho i j.
  Proof. exact: dissipator. Qed.
  (** the operator of the chain is normal: the equation is the master equation and keeps the trace *)
  Theorem C73_chain (gamma : C) L (H rho : 'M[C]_(2 ^ n)) : 0 <= gamma -> get_dephasing_Lindbladian n gamma = Ok L ->
    LME H (matrix_of n L) rho = lindblad H (matrix_of n L) rho /\ \tr (LME H (matrix_of n L) rho) = 0.
  Proof.
    move=> G E. apply: C73_master. suff -> : dagger (matrix_of n L) = matrix_of n L by []. rewrite -adjE. exact: (dephasing_adj N G E).
  Qed.
  (** the figure of merit of a density matrix is the root of the population of the configuration with all spins down *)
  Theorem C73_chain_merit (B : square C) (rho : 'M[C]_(2 ^ n)) (down : 'I_(2 ^ n)) : val down = (2 ^ n - 1)%N -> get_target_state C n = Ok B -> density rho ->
    fom_funct rho (matrix_of n B) = sqrtC (rho down down) /\ 0 <= rho down down <= 1 /\ (rho down down = 1 <-> rho = matrix_of n B).
  Proof.
    move=> I E D. have [B' [E' [_ F]]] := target_ok C N. move: E'. rewrite E => -[] X. subst B'.
    have PB : matrix_of n B = pure (delta_mx down 0) by apply: (@projector C n B 1) => //; rewrite (number_downs N) I.
    have [P T] := D. have [H Q] := P. have S : sandwich (delta_mx down 0) rho (delta_mx down 0) = rho down down.
    { rewrite sandwichE braket_delta -colE mxE. by []. }
    have N1 : sq (delta_mx down 0 : 'cV[C]_(2 ^ n)) = 1 by rewrite sq_braket braket_delta mxE !eqxx.
    have FI : fidelity_is rho (pure (delta_mx down 0)) (rho down down) by apply: fidelity_sym => //; rewrite -S; apply: fidelity_pure.
    have DP : density (pure (delta_mx down 0 : 'cV[C]_(2 ^ n))).
    { rewrite pureE. split; first exact: semidefinite_outer. by rewrite outer_trace -sq_braket N1. }
    have [R1 R2] := fidelity_range_mixed D DP FI. rewrite PB. split; last by []. rewrite /fom_funct (proj1 (hermitianE _) H) pureE mulmxA outer_trace.
    rewrite -sandwichE S ger0_norm //. by case/andP: R1.
  Qed.
End Chain.

(** ** Spins do not dephase on their own: the coherence between up-down and down-up is not damped at all *)
Theorem C73_each_spin_refuted (C : numClosedFieldType) (gamma : C) : 0 < gamma -> exists L s t (i j : 'I_(2 ^ 2)), get_dephasing_Lindbladian 2 gamma = Ok L
  /\ s \in spins 2 /\ t \in spins 2 /\ basis_number s = i /\ basis_number t = j /\ flips s t = 2%N
  /\ forall rho : 'M[C]_(2 ^ 2), LME 0 (matrix_of 2 L) rho i j = 0.
Proof.
  move=> G. have [L [E _]] := @dephasing_ok C 2 isT gamma. have L1 : (1 < 2 ^ 2)%N by []. have L2 : (2 < 2 ^ 2)%N by [].
  exists L, [:: 0%N; 1%N], [:: 1%N; 0%N], (Ordinal L1), (Ordinal L2). do 6 (split; first by []). move=> rho.
  rewrite (@C73_dephasing C 2 isT gamma L 0 rho [:: 0%N; 1%N] [:: 1%N; 0%N]) ?Order.POrderTheory.ltW // mul0mx mulmx0 subr0 scaler0 mxE add0r.
  rewrite /magnetisation !big_ord_recl !big_ord0 /z_of /=. rewrite !addr0 [_ + 1 / _]addrC subrr expr0n /= mulr0 mul0r oppr0. by [].
Qed.
(** two spins, the default: there is no coupling to second neighbours but a field, g/2 per spin *)
Theorem C73_two_spins (C : numClosedFieldType) (J g : C) : exists H, half_static_hamiltonian 2 J g = Ok H
  /\ forall s t, s \in spins 2 -> t \in spins 2 -> ent H (basis_number s) (basis_number t) =
     if s == t then - (J * (z_of C s 0 * z_of C s 1) / 2%:R + g * (z_of C s 0 + z_of C s 1) / 2%:R) else 0.
Proof.
  have [H [E [_ F]]] := @half_static_general C 2 isT J g. exists H. split; first by []. move=> s t S T. rewrite F // !big_ord_recl !big_ord0 /= !addr0.
  rewrite -[next_one 2 0]/1%N -[next_one 2 1]/0%N. case: (s == t); last by rewrite !mul0r !mulr0 !addr0. rewrite !mul1r /= -[bump 0 0]/1%N. by field.
Qed.
Example C73_example_chain : exists L : square algCnumClosedField, get_dephasing_Lindbladian 3 (4%:R : algCnumClosedField) = Ok L
  /\ ent L 0 0 = 3%:R /\ ent L 1 1 = 1 /\ ent L 0 1 = 0.
Proof.
  have [L [E [_ F]]] := @dephasing_ok algCnumClosedField 3 isT 4%:R. exists L. split; first by [].
  have R : sqrtC 4%:R = 2%:R :> algCnumClosedField by rewrite (_ : 4%:R = 2%:R ^+ 2) ?sqrCK ?ler0n // -natrX.
  have F0 := F [:: 0%N; 0%N; 0%N] [:: 0%N; 0%N; 0%N] isT isT. have F1 := F [:: 0%N; 0%N; 1%N] [:: 0%N; 0%N; 1%N] isT isT. have F2 := F [:: 0%N; 0%N; 0%N] [:: 0%N; 0%N; 1%N] isT isT.
  rewrite -[basis_number _]/0%N in F0. rewrite -[basis_number _]/1%N in F1. rewrite -[basis_number [:: 0%N; 0%N; 0%N]]/0%N -[basis_number _]/1%N in F2.
  rewrite F0 F1 F2 /= R /magnetisation !big_ord_recl !big_ord0 /z_of /=. split; first by field. split; first by field. by [].
Qed.
Print Assumptions C73_generator.
Print Assumptions C73_amplified.
Print Assumptions C73_physical_refuted.
Print Assumptions C73_dephasing.
Print Assumptions C73_chain_merit.
