(** * One qubit and Ising model: the figures of merit over call histories. *)
From Coq Require Import ZArith Lia.
From mathcomp Require Import all_ssreflect all_algebra.
From Verif Require Import Py ModelQuantum SpecQuantum ProofQuantum ProofGrape ProofProblems.
Import GRing.Theory Num.Theory.
Set Implicit Arguments.
Unset Strict Implicit.
Unset Printing Implicit Defensive.
Local Open Scope ring_scope.
Local Open Scope seq_scope.

Lemma lastE A (x0 : A) l : last_ l = if l is [::] then Err IndexError else Ok (last x0 l).
Proof.
  rewrite /last_ /py_nth. case: l => [|x l] //.
  set n := Z.of_nat _. have N : n = Z.of_nat (List.length l).+1 by [].
  have -> : (Z.ltb (Zneg 1) 0) = true by []. cbn [andb orb].
  have -> : (Z.ltb (Z.add (Zneg 1) n) 0) = false by apply/Z.ltb_ge; rewrite N; lia.
  have -> : (Z.leb n (Z.add (Zneg 1) n)) = false by apply/Z.leb_gt; rewrite N; lia. cbn [orb].
  have -> : Z.to_nat (Z.add (Zneg 1) n) = List.length l by rewrite N; lia.
  elim: l x {n N} => [|y l IH] x //. by move: (IH y).
Qed.

Section OneQubit.
  Variable C : numClosedFieldType.
  Variable expm : 'M[C]_2 -> 'M[C]_2.

  Lemma qubit_hamiltonianE (x d1 d2 : C) : hamiltonian_d1_d2 x d1 d2 = qubit_hamiltonian x d1 d2.
  Proof.
    apply/matrixP => i j. rewrite !mxE. case: i => [[|[|i]] //] Hi; case: j => [[|[|j]] //] Hj //=.
    - by rewrite mulr1 mulr0 addr0.
    - by rewrite mulr0 mulr1 add0r.
    - by rewrite mulr0 mulr1 add0r.
    - by rewrite mulrN1 mulr0 addr0 mulNr.
  Qed.
  Lemma qubit_hermitian (x d1 d2 : C) : x \is Num.real -> d1 \is Num.real -> d2 \is Num.real -> hermitian (qubit_hamiltonian x d1 d2).
  Proof.
    move=> X D1 D2 i j. rewrite !mxE. rewrite [j == i]eq_sym. case: (i =P j) => [->|_].
    - case: ifP => _; by rewrite conj_Creal // ?rpredM ?rpredN ?realV ?realn.
    - by rewrite conj_Creal // rpredM ?rpredD ?realV ?realn.
  Qed.
  Lemma time_evolutionE (drive : seq C) dt d1 d2 psi : time_evolution expm drive dt d1 d2 *m psi = driven expm d1 d2 dt drive psi.
  Proof.
    rewrite /time_evolution. rewrite -{2}[psi]mul1mx. elim: drive (1%:M : 'M[C]_2) => [|x drive IH] U //=. by rewrite IH qubit_hamiltonianE mulmxA.
  Qed.
  Lemma driven_norm d1 d2 dt drive psi : exponentiates expm -> d1 \is Num.real -> d2 \is Num.real -> dt \is Num.real ->
    (forall x, x \in drive -> x \is Num.real) -> vnorm (driven expm d1 d2 dt drive psi) = vnorm psi.
  Proof.
    move=> E D1 D2 T. elim: drive psi => [|x drive IH] psi H //=. rewrite IH; last by move=> y Y; apply: H; rewrite inE Y orbT.
    apply: vnorm_unitary. rewrite -scalerA. apply: E. apply: hermitian_scale => //. apply: qubit_hermitian => //. apply: H. by rewrite inE eqxx.
  Qed.

  (** the answer of a call: [delta1] in force, without noise and drift *)
  Definition in_force (Q : one_qubit C) (parameters : seq C) : C := if parameters is p :: _ then p else q_delta1 Q.
  Lemma one_qubit_FoME Q drive pulses parameters t0 t1 grid timegrids rand : q_noise Q = None -> q_drift Q = None ->
    (one_qubit_FoM expm Q (drive :: pulses) parameters ((t0 :: t1 :: grid) :: timegrids) rand).2 =
    Ok (- q_factor Q * (1 - get_fidelity (q_target Q) (driven expm (in_force Q parameters) (q_delta2 Q) (t1 - t0) drive (q_initial Q)))).
  Proof. move=> N D. rewrite /one_qubit_FoM /= N D time_evolutionE mulN1r. by []. Qed.
  (** noise and drift shift the infidelity *)
  Definition noise (Q : one_qubit C) (rand : C) : C := if q_noise Q is Some f then f * 2%:R * (1 / 2%:R - rand) else 0.
  Definition drift (Q : one_qubit C) : C := if q_drift Q is Some v then v * (q_evals Q)%:R else 0.
  Lemma one_qubit_FoME2 Q drive pulses parameters t0 t1 grid timegrids rand :
    (one_qubit_FoM expm Q (drive :: pulses) parameters ((t0 :: t1 :: grid) :: timegrids) rand).2 =
    Ok (- q_factor Q * (1 - get_fidelity (q_target Q) (driven expm (in_force Q parameters) (q_delta2 Q) (t1 - t0) drive (q_initial Q)) + noise Q rand + drift Q)).
  Proof.
    rewrite /one_qubit_FoM /noise /drift /= time_evolutionE mulN1r. by case: (q_noise Q) => [f|]; case: (q_drift Q) => [v|]; rewrite ?addr0.
  Qed.
End OneQubit.

Section Ising.
  Variables (C : numClosedFieldType) (d : nat).
  Variables expm sqrtm : 'M[C]_d -> 'M[C]_d.
  Notation M := 'M[C]_d.
  Variable D : ising_data C d.
  Hypothesis slices : (0 < i_slices D)%N.

  (** a pulse and a time grid the problem can work with *)
  Definition usable (p : seq C) (g : seq C) : Prop := (i_slices D <= size p)%N /\ g <> [::].
  Definition step_of (g : seq C) : C := last 0 g / (size g)%:R.
  Definition final (p g : seq C) : M := evolved (propagator expm [:: p] (i_drift D) [:: i_control D] (step_of g)) 1%:M (i_slices D).
  Definition merit (p g : seq C) : C := - i_factor D * uhlmann sqrtm (final p g *m i_rho0 D *m adj (final p g))^T (i_target D).
  Definition props (p g : seq C) : seq M := [seq propagator expm [:: p] (i_drift D) [:: i_control D] (step_of g) i | i <- iota 0 (i_slices D)].

  Lemma one_covers p g : usable p g -> covers [:: p] (size [:: i_control D]) (i_slices D).
  Proof. move=> [H _] [|k] // _. Qed.
  Lemma get_propagatorE p g pulses grids X : usable p g -> size (prop_store X) = i_slices D ->
    get_propagator expm D (p :: pulses) (g :: grids) X = (Ising (props p g) true, Ok tt).
  Proof.
    move=> U S. rewrite /get_propagator /=. have [_ G] := U. rewrite (lastE 0). case: g U G => [|x g] // U _.
    rewrite (pw_evolutionE expm _ _ (one_covers U)) ?S // /step_of drop_oversize ?S ?cats0 //.
  Qed.
  Lemma merit_of_store p g X : prop_store X = props p g -> propagators_are_computed X = true -> forall pulses grids,
    get_FoM expm sqrtm D pulses grids X = (Ising (props p g) false, Ok (merit p g)).
  Proof.
    move=> E F pulses grids. by rewrite /get_FoM F /= E reduce_evolved // mulN1r.
  Qed.
  Lemma fresh_FoM p g pulses grids X : usable p g -> size (prop_store X) = i_slices D -> propagators_are_computed X = false ->
    get_FoM expm sqrtm D (p :: pulses) (g :: grids) X = (Ising (props p g) false, Ok (merit p g)).
  Proof. move=> U S F. rewrite /get_FoM F (get_propagatorE _ _ U S) /= reduce_evolved // mulN1r. by []. Qed.

  (** ** Call histories *)
  Definition do_request (X : ising C d) (r : request (seq C * seq C)) : ising C d * option (res C) :=
    match r with
    | Propagators (p, g) => let '(X, r) := get_propagator expm D [:: p] [:: g] X in (X, if r is Err e then Some (Err e) else None)
    | Merit (p, g) => let '(X, r) := get_FoM expm sqrtm D [:: p] [:: g] X in (X, Some r)
    end.
  Fixpoint answers (X : ising C d) (rs : seq (request (seq C * seq C))) : seq (option (res C)) :=
    if rs is r :: rs then let '(X, a) := do_request X r in a :: answers X rs else [::].
  Lemma evolution_size drive A B dt n : forall k (store : seq M), size (evolution_from expm drive A B dt n k store).1 = size store.
  Proof.
    elim: n => [|n IH] k store //=. case: (slice expm drive A B dt k) => [U|e] //. rewrite py_setE. case: ltnP => L //=. by rewrite IH size_set.
  Qed.
  Lemma propagator_size pulses grids X : size (prop_store (get_propagator expm D pulses grids X).1) = size (prop_store X).
  Proof.
    rewrite /get_propagator. case: (at_ pulses 0) => [p|e] //. case: (at_ grids 0) => [g|e] //. case: (last_ g) => [T|e] //.
    have := evolution_size [:: p] (i_drift D) [:: i_control D] (T / (size g)%:R) (i_slices D) 0 (prop_store X). rewrite /pw_evolution. case: evolution_from => [s [u|e]] /=; by [].
  Qed.
  Definition usable2 (x : seq C * seq C) := usable x.1 x.2.
  Definition merit2 (x : seq C * seq C) : res C := Ok (merit x.1 x.2).
  Definition remembers (X : ising C d) (pending : option (seq C * seq C)) : Prop :=
    size (prop_store X) = i_slices D /\
    if pending is Some (p, g) then prop_store X = props p g /\ propagators_are_computed X = true else propagators_are_computed X = false.
  Lemma history rs X pending : List.Forall (fun r => usable2 (control_of r)) rs -> remembers X pending -> answers X rs = pending_answers merit2 pending rs.
  Proof.
    elim: rs X pending => [|r rs IH] X pending H [S P] //. move: (List.Forall_inv H) (List.Forall_inv_tail H) => {H} U H.
    have SP : forall p g, size (props p g) = i_slices D by move=> p g; rewrite size_map size_iota.
    case: r U => [[p g]|[p g]] U; cbn [control_of] in U; cbn [answers do_request pending_answers].
    - rewrite (get_propagatorE _ _ U S). cbn [fst snd]. congr cons. apply: IH => //. by split=> /=.
    - case: pending P => [[p' g']|] P; cbn [odflt oapp].
      + case: P => P1 P2. rewrite (merit_of_store P1 P2). congr cons. apply: IH => //. by split=> /=.
      + rewrite (fresh_FoM _ _ U S P). congr cons. apply: IH => //. by split=> /=.
  Qed.
  Lemma new_remembers : remembers (ising_new D) None.
  Proof. split=> //=. by rewrite size_nseq. Qed.

  Lemma evaluations es : forall pending : option (seq C * seq C),
    pending_answers merit2 pending (flatten (map (@evaluation _) es)) = own_answers merit2 (flatten (map (@evaluation _) es)).
  Proof. elim: es => [|[x [|]] es IH] pending //=; by rewrite IH. Qed.
  Lemma plain_calls xs : pending_answers merit2 None (map (@Merit _) xs) = own_answers merit2 (map (@Merit _) xs).
  Proof. elim: xs => [|x xs IH] //=. by rewrite IH. Qed.

  (** a call for propagators that fails half way leaves a mixture behind *)
  Lemma mixture p q g X : usable p g -> (size q < i_slices D)%N -> prop_store X = props p g -> propagators_are_computed X = true ->
    get_propagator expm D [:: q] [:: g] X = (Ising (props (q ++ drop (size q) p) g) true, Err IndexError).
  Proof.
    move=> [U G] L E F. rewrite /get_propagator /= (lastE 0). case: g G E => [|x g] // _ E. set dt := _ / _.
    have K : forall n k (store : seq M), (k <= size q)%N -> (k + n = i_slices D)%N -> size store = i_slices D ->
      evolution_from expm [:: q] (i_drift D) [:: i_control D] dt n k store =
      (take k store ++ [seq propagator expm [:: q] (i_drift D) [:: i_control D] dt i | i <- iota k (size q - k)] ++ drop (size q) store, Err IndexError).
    { elim=> [|n IH] k store K1 K2 K3; first by move: L; rewrite -K2 addn0 ltnNge K1. cbn [evolution_from].
      move: K1. rewrite leq_eqVlt => /orP [/eqP K1|K1].
      - rewrite (slice_short expm _ _ (k := 0)) //=; last by rewrite K1 ltnn. by rewrite K1 subnn /= cat_take_drop.
      - have cov : covers [:: q] (size [:: i_control D]) (size q) by case.
        rewrite (slice_covers expm _ _ cov K1) py_setE K3. have Kn : (k < i_slices D)%N by rewrite -K2 -addSnnS leq_addr. rewrite Kn IH //; last 2 first.
        + by rewrite addSnnS.
        + by rewrite size_set ?K3.
        congr (_, _). rewrite -(subnSK K1) /= take_cat size_take K3 Kn ltnNge leqnSn /= subSn // subnn /= take0 -catA /=. congr (_ ++ _ :: _ ++ _).
        rewrite drop_cat size_take K3 Kn ltnNge (ltnW K1) /= -(subnSK K1) /= drop_drop. congr drop. by rewrite subnK. }
    rewrite /pw_evolution K // ?E; last by rewrite size_map size_iota. rewrite F take0 subn0 cat0s. congr (Ising _ _, _).
    rewrite /props -map_drop drop_iota add0n.
    have -> : iota 0 (i_slices D) = iota 0 (size q) ++ iota (size q) (i_slices D - size q) by rewrite -iotaD subnKC // ltnW.
    rewrite map_cat. congr (_ ++ _); apply/eq_in_map => i; rewrite mem_iota => /andP [I1 I2]; rewrite /propagator /hamiltonian; congr (expm (_ *: (_ + _))).
    - apply: eq_bigr => k _. congr (_ *: _). rewrite /amplitude. case: k => [[|k] Hk] //=. by rewrite nth_cat I2.
    - apply: eq_bigr => k _. congr (_ *: _). rewrite /amplitude. case: k => [[|k] Hk] //=. by rewrite nth_cat ltnNge I1 /= nth_drop subnKC.
  Qed.

  (** ** The value for pure states *)
  Lemma merit_pure p g phi psi : roots_pure sqrtm -> i_rho0 D = pure phi -> i_target D = pure psi ->
    merit p g = - i_factor D * `|(psi^T *m (final p g *m phi)) 0 0| ^+ 2.
  Proof.
    move=> R E0 ET. rewrite /merit E0 ET pure_conj pure_tr. rewrite -[uhlmann _ _ _]/(fidelity_funct _ _ _) population //. rewrite sandwichE pureE outer_apply braket_scale.
    congr (_ * _). set V := final p g *m phi.
    rewrite [X in X * _]braketC. set b := (braket psi _)^*. have E : braket psi (map_mx conjC V) = b^* by rewrite /b conjCK. rewrite E. 
    rewrite [RHS]normCK. have EB : (psi^T *m V) 0 0 = b.
    { rewrite /b /braket !mxE rmorph_sum. apply: eq_bigr => i _. by rewrite !mxE rmorphM !conjCK. }
    rewrite EB. by rewrite mulrC.
  Qed.
End Ising.
