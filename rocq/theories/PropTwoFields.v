(** * C70 One qubit with two driving fields. *)
From Coq Require Import ZArith Lia.
From mathcomp Require Import all_ssreflect all_algebra.
From mathcomp Require Import ring.
From Verif Require Import Py ModelQuantum SpecQuantum ProofQuantum ProofProblems ProofIsing ProofSpectral ProofWitness ModelTwoFields.
Import GRing.Theory Num.Theory.
Set Implicit Arguments.
Unset Strict Implicit.
Unset Printing Implicit Defensive.
Local Open Scope ring_scope.
Local Open Scope seq_scope.

(** ** Specification *)
Section Spec.
  Variable C : numClosedFieldType.
  (** a driven qubit: energy splitting [delta1], drive of strength [strength] and phase factor [w], entry by entry *)
  Definition driven_qubit (delta1 strength w : C) : 'M[C]_2 :=
    \matrix_(i, j) (if i == j then (if val i == 0%N then delta1 / 2%:R else - delta1 / 2%:R)
                    else if val i == 0%N then strength * w^* else strength * w).
  (** the state reached under pairs of amplitude and phase factor, one after the other *)
  Fixpoint driven_by (expm : 'M[C]_2 -> 'M[C]_2) (delta1 delta2 dt : C) (steps : seq (C * C)) (psi : 'cV[C]_2) : 'cV[C]_2 :=
    if steps is (a, w) :: steps then driven_by expm delta1 delta2 dt steps (expm ((- 'i * dt) *: driven_qubit delta1 (a * (1 + delta2)) w) *m psi) else psi.
  (** [cosf] and [sinf] are real and lie on the unit circle *)
  Definition circular (cosf sinf : C -> C) : Prop := forall x, x \is Num.real -> cosf x \is Num.real /\ sinf x \is Num.real /\ cosf x ^+ 2 + sinf x ^+ 2 = 1.
  Definition cis (cosf sinf : C -> C) (x : C) : C := cosf x + 'i * sinf x.
  (** the matrix exponential of a matrix in another basis *)
  Definition covariant (expm : 'M[C]_2 -> 'M[C]_2) : Prop := forall V X, unitary V -> expm (V *m X *m dagger V) = V *m expm X *m dagger V.
  (** rotation about z: the second component of a state gets the factor [w] *)
  Definition rotated (w : C) (psi : 'cV[C]_2) : 'cV[C]_2 := \matrix_(i, _) (if val i == 0%N then psi i 0 else w * psi i 0).
End Spec.

(** ** Lemmas *)
Section Lemmas.
  Variable C : numClosedFieldType.
  Variable expm : 'M[C]_2 -> 'M[C]_2.
  Variables cosf sinf : C -> C.
  Notation cis := (cis cosf sinf).
  Hypothesis circ : circular cosf sinf.

  Lemma hamiltonian_2fieldsE a p d1 d2 : p \is Num.real ->
    hamiltonian_2fields cosf sinf a p d1 d2 = driven_qubit d1 (a * (1 + d2)) (cis p).
  Proof.
    move=> P. case: (circ P) => [Rc [Rs _]]. rewrite /hamiltonian_2fields /sigma_z /sigma_x /sigma_y !scale22 !add22 scale22 add22.
    apply: mx22P; rewrite mx22E mxE /=.
    - ring.
    - by rewrite /PropTwoFields.cis rmorphD rmorphM conjCi !conj_Creal //; ring.
    - rewrite /PropTwoFields.cis. ring.
    - ring.
  Qed.
  Lemma cis_norm p : p \is Num.real -> `|cis p| = 1.
  Proof.
    move=> P. case: (circ P) => [Rc [Rs E]]. apply/eqP. rewrite -(@eqr_expn2 _ 2) ?normr_ge0 ?ler01 // expr1n normCK /PropTwoFields.cis rmorphD rmorphM conjCi !conj_Creal //.
    have I : 'i * 'i = -1 :> C by rewrite -expr2 sqrCi. apply/eqP. rewrite -E.
    have -> : (cosf p + 'i * sinf p) * (cosf p + - 'i * sinf p) = cosf p ^+ 2 - ('i * 'i) * sinf p ^+ 2 by ring. rewrite I. ring.
  Qed.
  Lemma driven_qubit_hermitian d1 s w : d1 \is Num.real -> s \is Num.real -> hermitian (@driven_qubit C d1 s w).
  Proof.
    move=> D S i j. rewrite !mxE. case: i => [[|[|i]] //] Hi; case: j => [[|[|j]] //] Hj //=.
    - by rewrite conj_Creal // rpredM ?realV ?realn.
    - by rewrite rmorphM (conj_Creal S).
    - by rewrite rmorphM conjCK (conj_Creal S).
    - by rewrite conj_Creal // rpredM ?rpredN ?realV ?realn.
  Qed.

  (** the steps of two pulses *)
  Definition steps (amplitude phase : seq C) : seq (C * C) := [seq (x.1, cis x.2) | x <- zip amplitude phase].

  Lemma at_nth A (x0 : A) (l : seq A) i : (i < size l)%N -> at_ l i = Ok (nth x0 l i).
  Proof. rewrite /at_. elim: l i => [|x l IH] [|i] //= H. exact: IH. Qed.
  Lemma at_short A (l : seq A) i : (size l <= i)%N -> at_ l i = Err IndexError.
  Proof. rewrite /at_. elim: l i => [|x l IH] [|i] //= H. exact: IH. Qed.

  Lemma evolution_at dt d1 d2 amplitude phase psi : {in phase, forall p, p \is Num.real} -> (size amplitude <= size phase)%N ->
    exists U, time_evolution_2fields expm cosf sinf amplitude phase dt d1 d2 = Ok U /\ U *m psi = driven_by expm d1 d2 dt (steps amplitude phase) psi.
  Proof.
    move=> P L. rewrite /time_evolution_2fields.
    have G : forall n i U0, (i + n = size amplitude)%N ->
      exists U, for_list (iota i n) (fun U ii => rbind (at_ amplitude ii) (fun a => rbind (at_ phase ii) (fun p =>
         Ok (expm ((- 'i * dt) *: hamiltonian_2fields cosf sinf a p d1 d2) *m U)))) U0 = Ok U /\ U *m psi = driven_by expm d1 d2 dt (drop i (steps amplitude phase)) (U0 *m psi).
    { elim=> [|n IH] i U0 E /=.
      - exists U0. split=> //. rewrite drop_oversize // size_map size_zip. move: E. rewrite addn0 => ->. by rewrite geq_minl.
      - have I1 : (i < size amplitude)%N by rewrite -E -addSnnS leq_addr. have I2 : (i < size phase)%N by apply: leq_trans L.
        rewrite (at_nth 0 I1) (at_nth 0 I2) /=. case: (IH i.+1 (expm ((- 'i * dt) *: hamiltonian_2fields cosf sinf (nth 0 amplitude i) (nth 0 phase i) d1 d2) *m U0)); first by rewrite addSnnS.
        move=> U [-> H]. exists U. split=> //. rewrite H.
        have I3 : (i < size (steps amplitude phase))%N by rewrite size_map size_zip leq_min I1 I2.
        rewrite (drop_nth (0, 0) I3) /= (nth_map (0, 0)) ?size_zip ?leq_min ?I1 ?I2 // nth_zip_cond size_zip leq_min I1 I2 /=.
        rewrite hamiltonian_2fieldsE ?mulmxA //. by apply: P; apply: mem_nth. }
    case: (G (size amplitude) 0%N 1%:M) => // U [E H]. exists U. split=> //. by rewrite H mul1mx drop0.
  Qed.
  Lemma evolution_short dt d1 d2 amplitude phase : (size phase < size amplitude)%N ->
    time_evolution_2fields expm cosf sinf amplitude phase dt d1 d2 = Err IndexError.
  Proof.
    move=> L. rewrite /time_evolution_2fields.
    have G : forall n i (U0 : 'M[C]_2), (i + n = size amplitude)%N -> (i <= size phase)%N ->
      for_list (iota i n) (fun U ii => rbind (at_ amplitude ii) (fun a => rbind (at_ phase ii) (fun p =>
         Ok (expm ((- 'i * dt) *: hamiltonian_2fields cosf sinf a p d1 d2) *m U)))) U0 = Err IndexError.
    { elim=> [|n IH] i U0 E I /=.
      - by move: I L; rewrite -E addn0 leqNgt => /negbTE ->.
      - have I1 : (i < size amplitude)%N by rewrite -E -addSnnS leq_addr. rewrite (at_nth 0 I1) /=.
        case: (ltnP i (size phase)) => I2; last by rewrite at_short.
        rewrite (at_nth 0 I2) /=. apply: IH => //. by rewrite addSnnS. }
    exact: G.
  Qed.
  Lemma driven_by_norm d1 d2 dt st psi : exponentiates expm -> d1 \is Num.real -> d2 \is Num.real -> dt \is Num.real ->
    {in st, forall x, x.1 \is Num.real} -> vnorm (driven_by expm d1 d2 dt st psi) = vnorm psi.
  Proof.
    move=> E D1 D2 T. elim: st psi => [|[a w] st IH] psi H //=. rewrite IH; last by move=> y Y; apply: H; rewrite inE Y orbT.
    apply: vnorm_unitary. rewrite -scalerA. apply: E. apply: hermitian_scale => //. apply: driven_qubit_hermitian => //.
    rewrite rpredM ?rpredD ?rpred1 //. by apply: (H (a, w)); rewrite inE eqxx.
  Qed.
  Lemma steps_real amplitude phase : {in amplitude, forall x, x \is Num.real} -> {in steps amplitude phase, forall x, x.1 \is Num.real}.
  Proof.
    rewrite /steps. elim: amplitude phase => [|a amplitude IH] [|p phase] //= H x. rewrite inE => /orP [/eqP -> /=|].
    - apply: H. by rewrite inE eqxx.
    - apply: IH => y Y. apply: H. by rewrite inE Y orbT.
  Qed.
  (** rotation about z *)
  Definition rot (w : C) : 'M[C]_2 := mx22 1 0 0 w.
  Lemma rot_mul w psi : rot w *m psi = rotated w psi.
  Proof.
    apply/matrixP => i j. rewrite !mxE !big_ord_recl big_ord0 !mxE /= ord1. case: i => [[|[|i]] //] Hi /=; rewrite ?mul1r ?mul0r ?addr0 ?add0r; congr (_ * _) || idtac; congr (psi _ _); exact: val_inj.
  Qed.
  Lemma rot_unitary w : `|w| = 1 -> unitary (rot w).
  Proof.
    move=> W. apply/unitaryE. rewrite /rot adj22 mul22 rmorph0 rmorph1 !mulr0 !mul0r !addr0 !add0r mul1r.
    have -> : w^* * w = 1 by rewrite mulrC -normCK W expr1n. apply: mx22P; by rewrite mx22E !mxE.
  Qed.
  Lemma rot_hamiltonian w d1 s u : `|w| = 1 -> driven_qubit d1 s (w * u) = rot w *m driven_qubit d1 s u *m dagger (rot w).
  Proof.
    move=> W. have V : w * w^* = 1 by rewrite -normCK W expr1n.
    have -> : driven_qubit d1 s u = mx22 (d1 / 2%:R) (s * u^*) (s * u) (- d1 / 2%:R) by apply: mx22P; rewrite mx22E mxE.
    rewrite -adjE /rot adj22 !mul22 rmorph0 rmorph1. apply: mx22P; rewrite mx22E mxE /=.
    - ring.
    - rewrite rmorphM !mul1r !mul0r ?mulr0 ?addr0 ?add0r -mulrA. by rewrite [u^* * _]mulrC.
    - ring.
    - have -> : (0 * (d1 / 2%:R) + w * (s * u)) * 0 + (0 * (s * u^*) + w * (- d1 / 2%:R)) * w^* = (w * w^*) * (- d1 / 2%:R) by ring. by rewrite V mul1r.
  Qed.
  Lemma driven_rotated w d1 d2 dt st psi : covariant expm -> `|w| = 1 ->
    driven_by expm d1 d2 dt [seq (x.1, w * x.2) | x <- st] (rotated w psi) = rotated w (driven_by expm d1 d2 dt st psi).
  Proof.
    move=> V W. elim: st psi => [|[a u] st IH] psi //=. rewrite -IH. congr driven_by. rewrite rot_hamiltonian // -!rot_mul.
    rewrite scalemxAl scalemxAr V; last exact: rot_unitary. rewrite -!mulmxA. congr (_ *m (_ *m _)).
    rewrite mulmxA. have /unitaryE := rot_unitary W. rewrite adjE => ->. by rewrite mul1mx.
  Qed.
  Lemma fidelity_rotated w (u v : 'cV[C]_2) : `|w| = 1 -> get_fidelity (rotated w u) (rotated w v) = get_fidelity u v.
  Proof.
    move=> W. rewrite -!rot_mul /get_fidelity !vnorm_unitary; try exact: rot_unitary. congr (`| _ | ^+ 2 / _).
    rewrite adj_mul mulmxA -[adj u *m _ *m _]mulmxA. have /unitaryE -> := rot_unitary W. by rewrite mulmx1.
  Qed.
End Lemmas.

(** ** C70 *)
Section C70.
  Variable C : numClosedFieldType.
  Variable expm : 'M[C]_2 -> 'M[C]_2.
  Variables cosf sinf : C -> C.
  Notation phase_factors phase := [seq cosf p + 'i * sinf p | p <- phase].

  (** the Hamiltonian is that of a qubit driven with the given strength and phase, Hermitian, and its energies do not depend on the phase *)
  Theorem C70_hamiltonian a p d1 d2 : circular cosf sinf -> a \is Num.real -> p \is Num.real -> d1 \is Num.real -> d2 \is Num.real ->
    let H := hamiltonian_2fields cosf sinf a p d1 d2 in
    H = driven_qubit d1 (a * (1 + d2)) (cosf p + 'i * sinf p) /\ hermitian H /\ \tr H = 0 /\ H *m H = ((d1 / 2%:R) ^+ 2 + (a * (1 + d2)) ^+ 2)%:M.
  Proof.
    move=> K A P D1 D2 H. have E : H = driven_qubit d1 (a * (1 + d2)) (cis cosf sinf p) by exact: hamiltonian_2fieldsE.
    split=> //. rewrite E. have S : a * (1 + d2) \is Num.real by rewrite rpredM ?rpredD ?rpred1. move: (a * (1 + d2)) S => s S {H E}.
    split; first exact: driven_qubit_hermitian. have N := cis_norm K P. move: (cis _ _ _) N => w N.
    have V : w * w^* = 1 by rewrite -normCK N expr1n.
    have -> : driven_qubit d1 s w = mx22 (d1 / 2%:R) (s * w^*) (s * w) (- d1 / 2%:R) by apply: mx22P; rewrite mx22E mxE.
    split; first by rewrite tr22 mulNr subrr. rewrite mul22.
    have -> : d1 / 2%:R * (s * w^*) + s * w^* * (- d1 / 2%:R) = 0 by ring.
    have -> : s * w * (d1 / 2%:R) + - d1 / 2%:R * (s * w) = 0 by ring.
    have -> : s * w^* * (s * w) = s ^+ 2 by rewrite -[RHS]mulr1 -V; ring.
    have -> : s * w * (s * w^*) = s ^+ 2 by rewrite -[RHS]mulr1 -V; ring.
    apply: mx22P; rewrite mx22E !mxE /= ?mulr1n ?mulr0n //. by rewrite mulNr mulrNN addrC -expr2.
  Qed.
  (** without the second field this is the one-field problem with twice the amplitude *)
  Theorem C70_one_field a p d1 d2 : cosf p = 1 -> sinf p = 0 ->
    hamiltonian_2fields cosf sinf a p d1 d2 = hamiltonian_d1_d2 (2%:R * a * (1 + d2)) d1 0.
  Proof.
    move=> Ec Es. rewrite /hamiltonian_2fields /hamiltonian_d1_d2 Ec Es scale1r scale0r addr0 scalerA addr0 [_ * d1]mulrC. congr (_ + _ *: _).
    by rewrite -[2%:R * a * _]mulrA [2%:R * _]mulrC mulfK // pnatr_eq0.
  Qed.

  (** the answer of a call *)
  Theorem C70_merit (Q : two_fields C) amplitude phase pulses parameters t0 t1 grid timegrids rand :
    circular cosf sinf -> {in phase, forall p, p \is Num.real} -> (size amplitude <= size phase)%N ->
    let psi := driven_by expm (f_delta1 Q) (f_delta2 Q) (t1 - t0) (zip amplitude (phase_factors phase)) (f_initial Q) in
    let noise := if f_noise Q is Some f then f * (1 - 2%:R * rand) else 0 in
    two_fields_FoM expm cosf sinf Q (amplitude :: phase :: pulses) parameters ((t0 :: t1 :: grid) :: timegrids) rand =
    Ok (`|1 - get_fidelity (f_target Q) psi + noise|, if f_noise Q is Some f then f * (6827%:R / 10000%:R) else 0).
  Proof.
    move=> K P L psi noise. rewrite /two_fields_FoM /=.
    case: (@evolution_at C expm cosf sinf K (t1 - t0) (f_delta1 Q) (f_delta2 Q) amplitude phase (f_initial Q) P L) => U [-> H] /=. rewrite H.
    have -> : steps cosf sinf amplitude phase = zip amplitude (phase_factors phase).
    { rewrite /steps. elim: amplitude phase {P L psi H} => [|a amplitude IH] [|p phase] //=. by rewrite IH. }
    rewrite -/psi /noise. case: (f_noise Q) => [f|]; last by rewrite addr0. congr (Ok (`| _ + _ |, _)). have N : 2%:R != 0 :> C by rewrite pnatr_eq0. by field.
  Qed.
  (** samples of the phase beyond the amplitudes do nothing, too few of them raise *)
  Theorem C70_lengths (Q : two_fields C) amplitude phase pulses parameters t0 t1 grid timegrids rand :
    ((size phase < size amplitude)%N -> two_fields_FoM expm cosf sinf Q (amplitude :: phase :: pulses) parameters ((t0 :: t1 :: grid) :: timegrids) rand = Err IndexError) /\
    (circular cosf sinf -> {in phase, forall p, p \is Num.real} -> (size amplitude <= size phase)%N ->
     two_fields_FoM expm cosf sinf Q (amplitude :: phase :: pulses) parameters ((t0 :: t1 :: grid) :: timegrids) rand =
     two_fields_FoM expm cosf sinf Q (amplitude :: take (size amplitude) phase :: pulses) parameters ((t0 :: t1 :: grid) :: timegrids) rand).
  Proof.
    split=> [L|K P L]; first by rewrite /two_fields_FoM /= evolution_short.
    rewrite !C70_merit //; last first.
    - by rewrite size_take; case: ltnP.
    - move=> p /mem_take. exact: P.
    have -> : zip amplitude (phase_factors (take (size amplitude) phase)) = zip amplitude (phase_factors phase) => //.
    elim: amplitude phase {P L} => [|a amplitude IH] [|p phase] //=. by rewrite IH.
  Qed.
  (** missing pulses or time samples *)
  Theorem C70_missing (Q : two_fields C) pulses parameters timegrids rand :
    (size pulses < 2)%N \/ timegrids = [::] \/ (size (head [::] timegrids) < 2)%N ->
    two_fields_FoM expm cosf sinf Q pulses parameters timegrids rand = Err IndexError.
  Proof.
    rewrite /two_fields_FoM. case: pulses => [|a [|p pulses]] //=. case: timegrids => [|[|t0 [|t1 grid]] timegrids] //= [//|[//|//]].
  Qed.
  (** without noise: between 0 and 1, and 0 exactly when the target is reached; parameters have no influence *)
  Theorem C70_range (Q : two_fields C) amplitude phase pulses parameters t0 t1 grid timegrids rand :
    exponentiates expm -> circular cosf sinf -> f_noise Q = None -> vnorm (f_target Q) = 1 -> vnorm (f_initial Q) = 1 ->
    f_delta1 Q \is Num.real -> f_delta2 Q \is Num.real -> t1 - t0 \is Num.real ->
    {in amplitude, forall a, a \is Num.real} -> {in phase, forall p, p \is Num.real} -> (size amplitude <= size phase)%N ->
    let psi := driven_by expm (f_delta1 Q) (f_delta2 Q) (t1 - t0) (zip amplitude (phase_factors phase)) (f_initial Q) in
    exists F, two_fields_FoM expm cosf sinf Q (amplitude :: phase :: pulses) parameters ((t0 :: t1 :: grid) :: timegrids) rand = Ok (F, 0)
      /\ 0 <= F <= 1 /\ F = 1 - get_fidelity (f_target Q) psi /\ (F = 0 <-> same_ray (f_target Q) psi).
  Proof.
    move=> E K N NT NI D1 D2 T A P L psi. rewrite C70_merit // N addr0 -/psi.
    have NP : vnorm psi = 1.
    { rewrite /psi driven_by_norm // => x. elim: amplitude phase A {P L psi} => [|a amplitude IH] [|p phase] //= A. rewrite inE => /orP [/eqP -> /=|].
      - apply: A. by rewrite inE eqxx.
      - apply: IH => y Y. apply: A. by rewrite inE Y orbT. }
    have /andP [L1 L2] := fidelity_range NT NP. have G : 0 <= 1 - get_fidelity (f_target Q) psi by rewrite subr_ge0.
    exists (1 - get_fidelity (f_target Q) psi). rewrite ger0_norm //. split=> //. split; first by rewrite G /= ler_subl_addr -ler_subl_addl subrr.
    split=> //. split=> [/eqP|/(fidelity_one NT NP) ->]; last by rewrite subrr. rewrite subr_eq0 => /eqP E1. apply/(fidelity_one NT NP). by rewrite -E1.
  Qed.
  (** turning the phase of the drive by a constant angle is turning initial and target state about the z axis *)
  Theorem C70_frame (Q : two_fields C) w amplitude phase phase' pulses parameters t0 t1 grid timegrids rand :
    covariant expm -> circular cosf sinf -> `|w| = 1 ->
    {in phase, forall p, p \is Num.real} -> {in phase', forall p, p \is Num.real} -> (size amplitude <= size phase)%N ->
    phase_factors phase' = [seq w * x | x <- phase_factors phase] ->
    two_fields_FoM expm cosf sinf (TwoFields (rotated w (f_target Q)) (rotated w (f_initial Q)) (f_delta1 Q) (f_delta2 Q) (f_noise Q))
      (amplitude :: phase' :: pulses) parameters ((t0 :: t1 :: grid) :: timegrids) rand =
    two_fields_FoM expm cosf sinf Q (amplitude :: phase :: pulses) parameters ((t0 :: t1 :: grid) :: timegrids) rand.
  Proof.
    move=> V K W P P' L H. have L' : (size amplitude <= size phase')%N by rewrite (leq_trans L) // -(size_map (fun p => cosf p + 'i * sinf p) phase') H !size_map.
    rewrite !C70_merit // H /=. have -> : zip amplitude [seq w * x | x <- phase_factors phase] = [seq (x.1, w * x.2) | x <- zip amplitude (phase_factors phase)].
    { elim: amplitude (phase_factors phase) {L L' H} => [|a amplitude IH] [|p l] //=. by rewrite IH. }
    by rewrite driven_rotated // fidelity_rotated.
  Qed.
End C70.

(** ** Concrete cases: Cayley transform for the exponential, rational parametrisation of the circle for cosine and sine *)
Section Cases.
  Variable C : numClosedFieldType.
  Definition rcos (x : C) : C := (1 - x ^+ 2) / (1 + x ^+ 2).
  Definition rsin (x : C) : C := 2%:R * x / (1 + x ^+ 2).
  Lemma rcirc : circular rcos rsin.
  Proof.
    move=> x X. have X2 : 0 <= x ^+ 2 by rewrite -realEsqr. have N : 1 + x ^+ 2 != 0 by rewrite Order.POrderTheory.gt_eqF //; apply: ltr_paddr; rewrite ?ltr01.
    rewrite /rcos /rsin. split; first by rewrite rpredM ?rpredB ?rpred1 ?rpredX ?realV ?rpredD ?rpred1 ?rpredX.
    split; first by rewrite rpredM ?rpredM ?realn ?realV ?rpredD ?rpred1 ?rpredX. by field.
  Qed.
  Lemma cayley_covariant : covariant (@cayley C 2).
  Proof.
    move=> V X U. rewrite -adjE. have UR := unitary_r U. have UL : adj V *m V = 1%:M by apply/unitaryE.
    have S1 : 1%:M - V *m X *m adj V = V *m (1%:M - X) *m adj V by rewrite mulmxBr mulmxBl mulmx1 UR.
    have S2 : 1%:M + V *m X *m adj V = V *m (1%:M + X) *m adj V by rewrite mulmxDr mulmxDl mulmx1 UR.
    rewrite /cayley S1 S2.
    have INV : forall A B : 'M[C]_2, B *m A = 1%:M -> invmx A = B.
    { move=> A B K. have [_ K2] := mulmx1_unit K. by rewrite -[LHS]mul1mx -K -mulmxA mulmxV // mulmx1. }
    have J : invmx (V *m (1%:M - X) *m adj V) = V *m invmx (1%:M - X) *m adj V.
    { have [Ux|Nx] := boolP (1%:M - X \in unitmx).
      - have K : (V *m invmx (1%:M - X) *m adj V) *m (V *m (1%:M - X) *m adj V) = 1%:M.
        { rewrite !mulmxA -[_ *m adj V *m V]mulmxA UL mulmx1 -[_ *m _ *m (1%:M - X)]mulmxA mulVmx // mulmx1. exact: UR. }
        exact: INV.
      - rewrite /invmx (negbTE Nx). case: ifP => // H. case/negP: Nx. move: H. rewrite !unitmx_mul => /andP [/andP [_ H] _]. exact: H. }
    rewrite J. rewrite !mulmxA -[_ *m adj V *m V]mulmxA UL mulmx1. by [].
  Qed.
  Definition ket0 : 'cV[C]_2 := ket 1 0.
  Definition ket1 : 'cV[C]_2 := ket 0 1.
  Lemma ket0_norm : vnorm ket0 = 1.
  Proof. by rewrite ket_vnorm normr1 normr0 expr1n expr0n addr0 sqrtC1. Qed.
  Lemma ket1_norm : vnorm ket1 = 1.
  Proof. by rewrite ket_vnorm normr1 normr0 expr1n expr0n add0r sqrtC1. Qed.
End Cases.
Theorem C70_noisy_zero_refuted (C : numClosedFieldType) : exists (expm : 'M[C]_2 -> 'M[C]_2) cosf sinf Q pulses grids rand,
  exponentiates expm /\ circular cosf sinf /\ 0 <= rand < 1 /\ vnorm (f_target Q) = 1 /\ vnorm (f_initial Q) = 1 /\
  two_fields_FoM expm cosf sinf Q pulses [::] grids rand = Ok (0, 6827%:R / 10000%:R) /\
  two_fields_FoM expm cosf sinf (TwoFields (f_target Q) (f_initial Q) (f_delta1 Q) (f_delta2 Q) None) pulses [::] grids rand = Ok (16%:R / 25%:R, 0).
Proof.
  exists (@cayley C 2), (@rcos C), (@rsin C), (TwoFields (ket0 C) (resting C) 0 0 (Some 1)), [:: [:: 0]; [:: 0]], [:: [:: 0; 1]], (41%:R / 50%:R).
  have P : {in [:: 0 : C], forall p, p \is Num.real} by move=> p; rewrite inE => /eqP ->; rewrite rpred0.
  have H : driven_qubit 0 (0 * (1 + 0)) (rcos 0 + 'i * rsin 0) = 0 :> 'M[C]_2.
  { apply: mx22P; rewrite mxE /= ?mxE ?mul0r // ?oppr0 ?mul0r //. }
  have F : get_fidelity (ket0 C) (resting C) = 9%:R / 25%:R.
  { rewrite (fidelity_normalised (ket0_norm C) (resting_norm C)) /braket /ket0 /resting ket_bra rmorph1 rmorph0 mul1r mul0r addr0 norm_frac. by field. }
  split; first exact: cayley_ok. split; first exact: rcirc.
  split; first by rewrite divr_ge0 ?ler0n // ltr_pdivr_mulr ?ltr0n // mul1r ltr_nat.
  split; first exact: ket0_norm. split; first exact: resting_norm.
  rewrite !C70_merit //=; try exact: rcirc. rewrite H scaler0 cayley0 mul1mx F.
  have -> : 1 - 9%:R / 25%:R + 1 * (1 - 2%:R * (41%:R / 50%:R)) = 0 :> C by field.
  have -> : 1 - 9%:R / 25%:R + 0 = 16%:R / 25%:R :> C by field. by rewrite normr0 mul1r norm_frac.
Qed.
(** a pulse that flips the qubit *)
Example C70_ex (C : numClosedFieldType) :
  let Q := TwoFields (ket1 C) (ket0 C) 0 (- (1 / 2%:R)) None in
  two_fields_FoM (@cayley C 2) (@rcos C) (@rsin C) Q [:: [:: 2%:R]; [:: 0]] [::] [:: [:: 0; 1]] 0 = Ok (0, 0).
Proof.
  move=> Q. have P : {in [:: 0 : C], forall p, p \is Num.real} by move=> p; rewrite inE => /eqP ->; rewrite rpred0.
  rewrite C70_merit //=; last exact: rcirc.
  have -> : driven_qubit 0 (2%:R * (1 + - (1 / 2%:R))) (rcos 0 + 'i * rsin 0) = sigma_x C.
  { have -> : rcos (0 : C) + 'i * rsin 0 = 1 by rewrite /rcos /rsin expr0n subr0 addr0 divr1 mulr0 mul0r mulr0 addr0.
    have -> : 2%:R * (1 + - (1 / 2%:R)) = 1 :> C by field. apply: mx22P; rewrite mxE /= ?mxE /= ?rmorph1 ?mul0r ?oppr0 ?mul0r ?mulr1 //. }
  have [S1 S2] := sx_involution C. rewrite subr0 mulr1 (cayley_involution S1 S2) /sigma_x scale22 /ket0 ket_mul !mulr0 !mulr1 addr0 add0r.
  have N : vnorm (ket 0 (- 'i) : 'cV[C]_2) = 1 by rewrite ket_vnorm normrN normCi normr0 expr1n expr0n add0r sqrtC1.
  rewrite addr0 (proj2 (fidelity_one (ket1_norm C) N)) ?subrr ?normr0 //. exists (- 'i). by rewrite normrN normCi /ket1 ket_scale mulr0 mulr1.
Qed.
(** a quarter turn of the drive *)
Example C70_ex_frame (C : numClosedFieldType) : covariant (@cayley C 2) /\ `|'i| = 1 :> C /\
  [seq rcos p + 'i * rsin p | p <- [:: 1 : C]] = [seq 'i * x | x <- [seq rcos p + 'i * rsin p | p <- [:: 0 : C]]].
Proof.
  split; first exact: cayley_covariant. split; first exact: normCi. rewrite /= /rcos /rsin expr0n expr1n subr0 addr0 divr1 mulr0 mul0r mulr0 addr0 subrr mul0r add0r mulr1 mulr1 divff ?mulr1 //.
  by rewrite pnatr_eq0.
Qed.

Print Assumptions C70_hamiltonian.
Print Assumptions C70_one_field.
Print Assumptions C70_merit.
Print Assumptions C70_lengths.
Print Assumptions C70_missing.
Print Assumptions C70_range.
Print Assumptions C70_frame.
Print Assumptions C70_noisy_zero_refuted.
