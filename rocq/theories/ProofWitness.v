(** * Two-level computations for the witnesses of the quantum part, and the remaining general lemmas. *)
From Coq Require Import ZArith.
From mathcomp Require Import all_ssreflect all_algebra.
From mathcomp Require Import ring.
From Verif Require Import Py ModelQuantum SpecQuantum ProofQuantum ProofGrape ProofProblems ProofIsing.
Import GRing.Theory Num.Theory.
Set Implicit Arguments.
Unset Strict Implicit.
Unset Printing Implicit Defensive.
Local Open Scope ring_scope.
Local Open Scope seq_scope.

Section Evolution.
  Variables (C : numClosedFieldType) (d : nat).
  Notation M := 'M[C]_d.
  Variable expm : M -> M.

  Lemma not_covers drive A B dt n : ~ covers drive (size B) n -> (0 < n)%N -> exists i, (i < n)%N /\ slice expm drive A B dt i = Err IndexError.
  Proof.
    move=> H N. have : ~~ all (fun k => (k < size drive)%N && (n <= size (nth [::] drive k))%N) (iota 0 (size B)).
    { apply/negP => /allP Q. apply: H => k K. move: (Q k). rewrite mem_iota K => /(_ isT) /andP [-> ->]. by []. }
    move=> /allPn [k]. rewrite mem_iota add0n => /andP [_ K] Q. exists n.-1. split; first by rewrite prednK.
    apply: (slice_short _ _ _ K). apply: contra Q => /andP [-> Q2] /=. by rewrite -(prednK N).
  Qed.
  Lemma pw_evolution_short drive A B dt n store : (0 < n)%N -> ~ covers drive (size B) n \/ (size store < n)%N ->
    (pw_evolution expm store drive A B n dt).2 = Err IndexError.
  Proof.
    move=> N H. apply: evolution_from_err. case: H => [H|H].
    - case: (@not_covers drive A B dt n H N) => i [I E]. exists i. split=> //. by left.
    - exists (size store). split=> //. by right.
  Qed.
  Lemma amplitude_drop (drive : seq (seq C)) k i n : amplitude (map (drop n) drive) k i = amplitude drive k (n + i).
  Proof.
    rewrite /amplitude. case: (ltnP k (size drive)) => K; first by rewrite (nth_map [::]) // nth_drop.
    by rewrite !(nth_default [::]) ?size_map // !nth_nil.
  Qed.
  Lemma covers_drop (drive : seq (seq C)) K n m : covers drive K (n + m) -> covers (map (drop n) drive) K m.
  Proof. move=> H k L. case: (H k L) => H1 H2. rewrite size_map. split=> //. by rewrite (nth_map [::]) // size_drop leq_subRL ?(leq_trans (leq_addr _ _) H2). Qed.
  Lemma two_parts drive A B dt U0 n m : covers drive (size B) (n + m) ->
    pw_final_evolution expm drive A B (n + m) dt U0 = rbind (pw_final_evolution expm drive A B n dt U0) (pw_final_evolution expm (map (drop n) drive) A B m dt).
  Proof.
    move=> H. have Hn : covers drive (size B) n by move=> k K; case: (H k K) => H1 H2; split=> //; apply: leq_trans H2; apply: leq_addr.
    rewrite (final_evolved _ _ _ _ H) (final_evolved _ _ _ _ Hn). cbn [rbind]. rewrite (final_evolved _ _ _ _ (covers_drop H)). apply: f_equal.
    rewrite evolved_add. apply: eq_evolved => i _. rewrite /propagator /hamiltonian. congr (expm (_ *: (_ + _))). apply: eq_bigr => k _. by rewrite amplitude_drop.
  Qed.
  Definition padded (drive : seq (seq C)) (n : nat) : seq (seq C) := [seq row ++ nseq n (last 0 row) | row <- drive].
  Lemma AD_padded drive A B dt U0 n : (size B <= size drive)%N ->
    pw_final_evolution expm (padded drive n) A B n dt U0 = Ok (pw_final_evolution_AD expm drive A B n dt U0).
  Proof.
    move=> L. have cov : covers (padded drive n) (size B) n.
    { move=> k K. rewrite size_map. split; first exact: (leq_trans K L). rewrite (nth_map [::]) ?(leq_trans K L) // size_cat size_nseq leq_addl. by []. }
    rewrite (final_evolved _ _ _ _ cov) final_AD. apply: f_equal. apply: eq_evolved => i I. rewrite /propagator. congr (expm (_ *: _)).
    rewrite hamiltonian_ADE /hamiltonian. congr (_ + _). apply: eq_bigr => k _. congr (_ *: _). have K := leq_trans (ltn_ord k) L.
    rewrite (clamped_in _ K) /amplitude (nth_map [::]) // nth_cat. case: ltnP => S; first by rewrite clamped_in.
    rewrite clamped_out // nth_nseq ifT //. exact: (leq_ltn_trans (leq_subr _ _) I).
  Qed.
  Lemma unitary_neq0 (U : M) : (0 < d)%N -> unitary U -> U <> 0.
  Proof.
    move=> D H E. move: H. rewrite /unitary E mulmx0 => /matrixP /(_ (Ordinal D) (Ordinal D)). rewrite !mxE eqxx => /eqP. by rewrite eq_sym oner_eq0.
  Qed.
  Lemma AD_store_zero drive A B dt n : (0 < d)%N -> (0 < n)%N -> exponentiates expm -> hermitian A -> (forall b, b \in B -> hermitian b) ->
    (forall k i, (k < size B)%N -> amplitude drive k i \is Num.real) -> dt \is Num.real -> covers drive (size B) n ->
    (pw_evolution expm (nseq n 0) drive A B n dt).1 <> pw_evolution_AD expm (nseq n 0) drive A B n dt.
  Proof.
    move=> D N E HA HB HD Hdt H. rewrite evolution_AD_nop (pw_evolutionE _ _ _ H) ?size_nseq //. case: n N {H} => // n _ /= [] Q _.
    have P := @propagator_unitary _ _ expm drive A B dt 0 E HA HB (fun k K => HD k 0%N K) Hdt. exact: (unitary_neq0 D P Q).
  Qed.
End Evolution.

Section Two.
  Variable C : numClosedFieldType.
  Implicit Types a b c e : C.
  Notation mx := (@mx22 C).
  Lemma mx22P (X Y : 'M[C]_2) : X 0 0 = Y 0 0 -> X 0 1 = Y 0 1 -> X 1 0 = Y 1 0 -> X 1 1 = Y 1 1 -> X = Y.
  Proof.
    move=> H1 H2 H3 H4. apply/matrixP => i j.
    have two : forall k : 'I_2, k = 0 \/ k = 1 by case=> [[|[|k]] Hk] //; [left|right]; apply: val_inj.
    by case: (two i) => ->; case: (two j) => ->.
  Qed.
  Lemma mx22E a b c e : (mx a b c e 0 0 = a) * (mx a b c e 0 1 = b) * (mx a b c e 1 0 = c) * (mx a b c e 1 1 = e).
  Proof. by rewrite !mxE. Qed.
  Lemma mul22 a b c e a' b' c' e' : mx a b c e *m mx a' b' c' e' = mx (a * a' + b * c') (a * b' + b * e') (c * a' + e * c') (c * b' + e * e').
  Proof. by apply: mx22P; rewrite !mxE !big_ord_recl big_ord0 !mxE /= addr0. Qed.
  Lemma adj22 a b c e : adj (mx a b c e) = mx a^* c^* b^* e^*.
  Proof. by apply: mx22P; rewrite !mxE. Qed.
  Lemma add22 a b c e a' b' c' e' : mx a b c e + mx a' b' c' e' = mx (a + a') (b + b') (c + c') (e + e').
  Proof. by apply: mx22P; rewrite !mxE. Qed.
  Lemma opp22 a b c e : - mx a b c e = mx (- a) (- b) (- c) (- e).
  Proof. by apply: mx22P; rewrite !mxE. Qed.
  Lemma scale22 x a b c e : x *: mx a b c e = mx (x * a) (x * b) (x * c) (x * e).
  Proof. by apply: mx22P; rewrite !mxE. Qed.
  Lemma one22 : (1%:M : 'M[C]_2) = mx 1 0 0 1.
  Proof. by apply: mx22P; rewrite !mxE. Qed.
  Lemma tr22 a b c e : \tr (mx a b c e) = a + e.
  Proof. by rewrite /mxtrace !big_ord_recl big_ord0 !mxE /= addr0. Qed.
  Definition ket a b : 'cV[C]_2 := \matrix_(i, _) (if val i == 0%N then a else b).
  Lemma ket_mul a b c e x y : mx a b c e *m ket x y = ket (a * x + b * y) (c * x + e * y).
  Proof. apply/matrixP => i j. rewrite !mxE !big_ord_recl big_ord0 !mxE /= addr0. by case: ifP. Qed.
  Lemma ket_bra a b x y : (adj (ket a b) *m ket x y) 0 0 = a^* * x + b^* * y.
  Proof. by rewrite !mxE !big_ord_recl big_ord0 !mxE /= addr0. Qed.
  Lemma ket_tr a b x y : ((ket a b)^T *m ket x y) 0 0 = a * x + b * y.
  Proof. by rewrite !mxE !big_ord_recl big_ord0 !mxE /= addr0. Qed.
  Lemma ket_vnorm a b : vnorm (ket a b) = sqrtC (`|a| ^+ 2 + `|b| ^+ 2).
  Proof. by rewrite /vnorm !big_ord_recl big_ord0 !mxE /= addr0. Qed.
  Lemma ket_scale x a b : x *: ket a b = ket (x * a) (x * b).
  Proof. apply/matrixP => i j. rewrite !mxE. by case: ifP. Qed.
  Lemma ii : 'i * 'i = -1 :> C.
  Proof. by rewrite -expr2 sqrCi. Qed.

  Lemma cayley_solves (Y U : 'M[C]_2) : adj Y = - Y -> (1%:M - Y) *m U = 1%:M + Y -> cayley Y = U.
  Proof. move=> A E. by rewrite /cayley -E mulmxA mulVmx ?mul1mx // cayley_unit. Qed.
  Lemma cayley0 : cayley (0 : 'M[C]_2) = 1%:M.
  Proof. apply: cayley_solves; first by rewrite adj0 oppr0. by rewrite subr0 addr0 mulmx1. Qed.
  Lemma cayley_involution (s : 'M[C]_2) : adj s = s -> s *m s = 1%:M -> cayley (- 'i *: s) = - 'i *: s.
  Proof.
    move=> A E. apply: cayley_solves.
    - by rewrite adj_scale rmorphN conjCi opprK A scaleNr opprK.
    - rewrite mulmxBl mul1mx -scalemxAl -scalemxAr E scalerA mulrNN ii scaleN1r opprK. by rewrite addrC.
  Qed.
  Lemma sx_involution : adj (sigma_x C) = sigma_x C /\ sigma_x C *m sigma_x C = 1%:M.
  Proof. by split; rewrite /sigma_x ?adj22 ?mul22 ?one22 ?rmorph0 ?rmorph1 ?mulr0 ?mul0r ?mulr1 ?addr0 ?add0r. Qed.
  Lemma sz_involution : adj (sigma_z C) = sigma_z C /\ sigma_z C *m sigma_z C = 1%:M.
  Proof. by split; rewrite /sigma_z ?adj22 ?mul22 ?one22 ?rmorph0 ?rmorphN ?rmorph1 ?mulr0 ?mul0r ?mulr1 ?mulN1r ?opprK ?addr0 ?add0r. Qed.

  (** ** Ising model with one two-level system, flipped by the control *)
  Definition flip : ising_data C 2 := IsingData 1 0 (sigma_x C) (pure (ket 1 0)) (pure (ket 0 1)) 1.
  Lemma flip_final x : final (@cayley C 2) flip [:: x] [:: 1] = cayley (- 'i *: (x *: sigma_x C)).
  Proof.
    rewrite /final /= mulmx1 /propagator /hamiltonian /step_of /= add0r. rewrite big_ord_recl big_ord0 addr0 /amplitude /=.
    by rewrite divr1 mulr1.
  Qed.
  Lemma flip_merit0 : merit (@cayley C 2) (@pure_root C 2) flip [:: 0] [:: 1] = 0.
  Proof.
    rewrite (@merit_pure _ _ _ _ _ _ _ (ket 1 0) (ket 0 1)) //; last exact: pure_root_ok.
    by rewrite flip_final scale0r scaler0 cayley0 mul1mx ket_tr mul0r mulr0 addr0 normr0 expr0n /= mulr0.
  Qed.
  Lemma flip_merit1 : merit (@cayley C 2) (@pure_root C 2) flip [:: 1] [:: 1] = -1.
  Proof.
    rewrite (@merit_pure _ _ _ _ _ _ _ (ket 1 0) (ket 0 1)) //; last exact: pure_root_ok.
    have [S1 S2] := sx_involution. rewrite flip_final scale1r (cayley_involution S1 S2) /sigma_x scale22 ket_mul ket_tr /=.
    rewrite !mulr0 !mulr1 !mul0r mul1r !add0r !addr0 normrN normCi expr1n mulr1. by [].
  Qed.

  (** ** A real target state: the gradient is lost *)
  Definition turn : 'M[C]_2 := 5%:R^-1 *: mx 3%:R (- (4%:R * 'i)) (- (4%:R * 'i)) 3%:R.
  Definition down : 'M[C]_2 := mx 1 0 0 0.
  Definition up : 'M[C]_2 := mx 0 0 0 1.
  Lemma conj_nat n : (n%:R : C)^* = n%:R.
  Proof. by rewrite conj_Creal // realn. Qed.
  Lemma turn_mx : turn = mx (3%:R / 5%:R) (- (4%:R / 5%:R * 'i)) (- (4%:R / 5%:R * 'i)) (3%:R / 5%:R).
  Proof. rewrite /turn scale22. by congr mx22; rewrite ?mulrN ?mulrA [_^-1 * _]mulrC. Qed.
  Lemma turn_unitary : unitary turn.
  Proof.
    rewrite /unitary -adjE turn_mx adj22 mul22 one22. rewrite !rmorphN !rmorphM !fmorphV !conjCi !conj_nat.
    have I := ii. congr mx22.
    - transitivity (3%:R / 5%:R * (3%:R / 5%:R) - 4%:R / 5%:R * (4%:R / 5%:R) * ('i * 'i) : C); first by field. rewrite I. by field.
    - by field.
    - by field.
    - transitivity (3%:R / 5%:R * (3%:R / 5%:R) - 4%:R / 5%:R * (4%:R / 5%:R) * ('i * 'i) : C); first by field. rewrite I. by field.
  Qed.
  Lemma turn_costate : adj turn *m up *m turn = mx (16%:R / 25%:R) (12%:R / 25%:R * 'i) (- (12%:R / 25%:R * 'i)) (9%:R / 25%:R).
  Proof.
    rewrite turn_mx /up adj22 !mul22. rewrite !rmorphN !rmorphM !fmorphV !conjCi !conj_nat. have I := ii. congr mx22.
    - transitivity (- (4%:R / 5%:R * (4%:R / 5%:R) * ('i * 'i)) : C); first by field. rewrite I. by field.
    - by field.
    - by field.
    - by field.
  Qed.
  Lemma comm_down : commutator (sigma_x C) down = mx 0 (-1) 1 0.
  Proof. rewrite /commutator /sigma_x /down !mul22 opp22 add22. by congr mx22; ring. Qed.
  Lemma stored_down : stored true down = down.
  Proof. rewrite /stored /down. apply: mx22P; rewrite [LHS]mxE !mx22E; apply: Creal_ReP; by rewrite ?real0 ?real1. Qed.
  Lemma stored_up : stored true up = up.
  Proof. rewrite /stored /up. apply: mx22P; rewrite [LHS]mxE !mx22E; apply: Creal_ReP; by rewrite ?real0 ?real1. Qed.
  Lemma stored_costate : stored true (adj turn *m up *m turn) = mx (16%:R / 25%:R) 0 0 (9%:R / 25%:R).
  Proof.
    rewrite turn_costate /stored. apply: mx22P; rewrite [LHS]mxE !mx22E.
    - apply: Creal_ReP. by rewrite rpredM ?realV ?realn.
    - rewrite [_ * 'i]mulrC ReMil; first by rewrite (Creal_ImP _ _) ?oppr0 // rpredM ?realV ?realn.
    - rewrite raddfN /= [_ * 'i]mulrC ReMil; first by rewrite (Creal_ImP _ _) ?oppr0 // rpredM ?realV ?realn.
    - apply: Creal_ReP. by rewrite rpredM ?realV ?realn.
  Qed.
  Lemma gradient_complex : exists G, get_gradient true false 1 1 (sigma_x C) [:: turn] (grape_new false 1 down up) = Ok (G, [:: - (24%:R / 25%:R)]).
  Proof.
    case: (@get_gradientE C 2 true false 1 1 (sigma_x C) [:: turn] _ _ _ (grape_new_ok false 1 down up) isT) => l [c [E _]].
    exists (Grape l c). rewrite E. apply: f_equal. congr (_, _). cbn [map iota]. congr cons.
    have -> : costate (bstep true false) [:: turn] 1 (stored false up) (1 - 0) = adj turn *m up *m turn by [].
    have -> : state (fstep true false) [:: turn] (stored false down) 0 = down by [].
    rewrite turn_costate comm_down mulr1 adj22 scale22 mul22 tr22.
    rewrite !rmorphN !rmorphM !fmorphV !conjCi !conj_nat. have I := ii.
    have -> : 'i * (16%:R / 25%:R) * 0 + 'i * - (12%:R / 25%:R * - 'i) * 1 + ('i * (12%:R / 25%:R * - 'i) * -1 + 'i * (9%:R / 25%:R) * 0) = 24%:R / 25%:R * ('i * 'i) :> C by field.
    rewrite I mulrN1. apply: Creal_ReP. by rewrite rpredN rpredM ?realV ?realn.
  Qed.
  Lemma gradient_real : exists G, get_gradient true true 1 1 (sigma_x C) [:: turn] (grape_new true 1 down up) = Ok (G, [:: 0]).
  Proof.
    case: (@get_gradientE C 2 true true 1 1 (sigma_x C) [:: turn] _ _ _ (grape_new_ok true 1 down up) isT) => l [c [E _]].
    exists (Grape l c). rewrite E. apply: f_equal. congr (_, _). cbn [map iota]. congr cons.
    have -> : costate (bstep true true) [:: turn] 1 (stored true up) (1 - 0) = stored true (adj turn *m stored true up *m turn) by [].
    have -> : state (fstep true true) [:: turn] (stored true down) 0 = stored true down by [].
    rewrite stored_up stored_down stored_costate comm_down mulr1 adj22 scale22 mul22 tr22.
    rewrite !rmorph0. rewrite !mulr0 !mul0r !addr0. exact: raddf0.
  Qed.

  (** ** One qubit *)
  Definition resting : 'cV[C]_2 := ket (3%:R / 5%:R) (4%:R / 5%:R).
  Lemma norm_frac m n : `|m%:R / n%:R| = m%:R / n%:R :> C.
  Proof. by rewrite ger0_norm // divr_ge0 // ler0n. Qed.
  Lemma resting_norm : vnorm resting = 1.
  Proof. rewrite ket_vnorm !norm_frac. have -> : (3%:R / 5%:R) ^+ 2 + (4%:R / 5%:R) ^+ 2 = 1 :> C by field. by rewrite sqrtC1. Qed.
  Definition qubit (delta1 : C) : one_qubit C := OneQubit resting resting delta1 0 None None (-1) 0.
  Lemma qubit_h x d1 : d1 / 2%:R = x -> qubit_hamiltonian 0 d1 0 = x *: sigma_z C.
  Proof.
    move=> <-. rewrite /sigma_z scale22. apply: mx22P; rewrite mx22E mxE /=; first by rewrite mulr1.
    - by rewrite addr0 mul0r mulr0.
    - by rewrite addr0 mul0r mulr0.
    - by rewrite mulrN1 mulNr.
  Qed.
  Lemma qubit_still : (one_qubit_FoM (@cayley C 2) (qubit 0) [:: [:: 0]] [::] [:: [:: 0; 1]] 0).2 = Ok 0.
  Proof.
    rewrite one_qubit_FoME // /in_force /=. rewrite (@qubit_h 0) ?mul0r // scale0r scaler0 cayley0 mul1mx.
    rewrite (proj2 (fidelity_one resting_norm resting_norm)); first by rewrite subrr mulr0.
    exists 1. by rewrite normr1 scale1r.
  Qed.
  Lemma qubit_moved : (one_qubit_FoM (@cayley C 2) (qubit 2%:R) [:: [:: 0]] [::] [:: [:: 0; 1]] 0).2 = Ok (576%:R / 625%:R).
  Proof.
    rewrite one_qubit_FoME // /in_force /=. rewrite (@qubit_h 1) ?divff ?pnatr_eq0 // scale1r subr0 mulr1.
    have [S1 S2] := sz_involution. rewrite (cayley_involution S1 S2).
    have N : vnorm ((- 'i *: sigma_z C) *m resting) = 1.
    { rewrite -scalemxAl vnorm_scale normrN normCi mul1r vnorm_unitary ?resting_norm //. by rewrite /unitary -adjE S1 S2. }
    rewrite (fidelity_normalised resting_norm N) /braket /resting /sigma_z scale22 ket_mul ket_bra !rmorphM !fmorphV !conj_nat.
    have -> : 3%:R / 5%:R * (- 'i * 1 * (3%:R / 5%:R) + - 'i * 0 * (4%:R / 5%:R)) + 4%:R / 5%:R * (- 'i * 0 * (3%:R / 5%:R) + - 'i * -1 * (4%:R / 5%:R)) = 7%:R / 25%:R * 'i :> C by field.
    rewrite normrM normCi mulr1 norm_frac. apply: f_equal. by field.
  Qed.
  Lemma fidelity_four : get_fidelity (ket 2%:R 0) (ket 2%:R 0) = 4%:R :> C.
  Proof.
    have -> : ket 2%:R 0 = 2%:R *: ket 1 0 by rewrite ket_scale mulr1 mulr0.
    have N : vnorm (ket 1 0) = 1 by rewrite ket_vnorm normr1 normr0 expr1n expr0n addr0 sqrtC1.
    rewrite fidelity_scale (proj2 (fidelity_one N N)); last by exists 1; rewrite normr1 scale1r. by rewrite normr_nat mulr1 -natrM.
  Qed.

  (** ** A target state with complex amplitudes *)
  Definition phased : 'cV[C]_2 := ket (3%:R / 5%:R) (4%:R / 5%:R * 'i).
  Lemma phased_norm : vnorm phased = 1.
  Proof. rewrite ket_vnorm. have -> : `|4%:R / 5%:R * 'i| = 4%:R / 5%:R :> C by rewrite normrM normCi mulr1 norm_frac. rewrite norm_frac. have -> : (3%:R / 5%:R) ^+ 2 + (4%:R / 5%:R) ^+ 2 = 1 :> C by field. by rewrite sqrtC1. Qed.
  Definition already : ising_data C 2 := IsingData 1 0 0 (pure phased) (pure phased) 1.
  Lemma already_final : final (@cayley C 2) already [:: 0] [:: 1] = 1%:M.
  Proof. rewrite /final /= mulmx1 /propagator /hamiltonian /= add0r big_ord_recl big_ord0 addr0 /= scaler0 scaler0. exact: cayley0. Qed.
  Lemma already_merit : merit (@cayley C 2) (@pure_root C 2) already [:: 0] [:: 1] = - (49%:R / 625%:R).
  Proof.
    rewrite (@merit_pure _ _ _ _ _ _ _ phased phased) //; last exact: pure_root_ok.
    rewrite already_final mul1mx ket_tr mulN1r. congr (- _). have I := ii.
    have -> : 3%:R / 5%:R * (3%:R / 5%:R) + 4%:R / 5%:R * 'i * (4%:R / 5%:R * 'i) = 9%:R / 25%:R + 16%:R / 25%:R * ('i * 'i) :> C by field.
    rewrite I. have -> : 9%:R / 25%:R + 16%:R / 25%:R * -1 = - (7%:R / 25%:R) :> C by field.
    rewrite normrN norm_frac. by field.
  Qed.

  Definition sigma_y : 'M[C]_2 := mx 0 (- 'i) 'i 0.
  Lemma sigma_y_hermitian : hermitian sigma_y.
  Proof. apply/hermitianE. by rewrite /sigma_y adj22 rmorph0 rmorphN conjCi opprK. Qed.
  Lemma sigma_y_imaginary : ~~ (sigma_y 1 0 \is Num.real).
  Proof. by rewrite /sigma_y mx22E nonRealCi. Qed.
End Two.

(** ** GRAPE: any sequence of calls *)
Section Calls.
  Variables (C : numClosedFieldType) (d : nat).
  Notation M := 'M[C]_d.
  (** storage arrays after any calls; the propagators, time step and control Hamiltonian may differ from call to call *)
  Inductive reached (state_transfer real_dtype : bool) (n : nat) (initial target : M) : grape C d -> Prop :=
  | reached_new : reached state_transfer real_dtype n initial target (grape_new real_dtype n initial target)
  | reached_call G dt B us G' grads : reached state_transfer real_dtype n initial target G ->
      get_gradient state_transfer real_dtype n dt B us G = Ok (G', grads) -> reached state_transfer real_dtype n initial target G'.
  Lemma reached_ok st real n initial target G : reached st real n initial target G -> grape_ok n (stored real initial) (stored real target) G.
  Proof.
    elim=> [|G1 dt B us G2 grads _ IH E]; first exact: grape_new_ok. case: (leqP n (size us)) => L.
    - case: (get_gradientE st real dt B IH L) => l [c [E2 [K _]]]. move: E. by rewrite E2 => -[<- _].
    - by move: E; rewrite (get_gradient_short st real dt B IH L).
  Qed.
  Lemma gradient_spec n initial target dt B us G : reached true false n initial target G -> (n <= size us)%N ->
    exists G' grads, get_gradient true false n dt B us G = Ok (G', grads) /\ size grads = n
      /\ (forall t, (t < n)%N -> nth 0 grads t =
            'Re (\tr (('i * dt) *: dagger (costate_at (nth 0 us) n target t) *m (B *m state_at (nth 0 us) initial t - state_at (nth 0 us) initial t *m B))))
      /\ (forall t, (t <= n)%N -> nth 0 (rho_storage G') t = state_at (nth 0 us) initial t /\ nth 0 (corho_storage G') t = costate_at (nth 0 us) n target t).
  Proof.
    move=> /reached_ok R L. case: (get_gradientE true false dt B R L) => l [c [E [_ [Hl Hc]]]]. exists (Grape l c). eexists. split; first exact: E.
    split; first by rewrite size_map size_iota. rewrite /= in Hl Hc. split=> t T.
    - rewrite (nth_map 0%N) ?size_iota // nth_iota // add0n. rewrite state_evolved costate_evolved ?leq_subr // subKn ?(ltnW T) //.
      by rewrite /commutator /costate_at /state_at -!adjE.
    - rewrite Hl // Hc //. rewrite state_evolved costate_evolved ?leq_subr // subKn //. by rewrite /costate_at /state_at -!adjE.
  Qed.
  Lemma overlap_spec (us : seq M) n initial target t : (t <= n)%N ->
    overlap (costate_at (nth 0 us) n target t) (state_at (nth 0 us) initial t) = overlap target (state_at (nth 0 us) initial n).
  Proof.
    move=> L. rewrite /overlap -!adjE. have := overlap_same us initial target L. rewrite state_evolved costate_evolved ?leq_subr // subKn //.
    by rewrite /costate_at /state_at -!adjE.
  Qed.
  Lemma first_order_spec (us : seq M) n initial target t (dt : C) B : (t < n)%N -> hermitian B -> dt \is Num.real ->
    exists c : C, forall eps : C, eps \is Num.real ->
      'Re (overlap target (state_at (nudge (nth 0 us) t (- ('i * eps * dt) *: B)) initial n)) =
      'Re (overlap target (state_at (nth 0 us) initial n))
      - eps * 'Re (\tr (('i * dt) *: dagger (costate_at (nth 0 us) n target t) *m (B *m state_at (nth 0 us) initial t - state_at (nth 0 us) initial t *m B)))
      + eps ^+ 2 * c.
  Proof.
    move=> L HB Hdt. case: (first_order us initial target L HB Hdt) => c H. exists c => eps He. move: (H eps He). cbn zeta.
    rewrite state_evolved costate_evolved ?leq_subr // subKn ?(ltnW L) //. by rewrite /overlap /costate_at /state_at /commutator -!adjE.
  Qed.
  Lemma gradient_other real n initial target dt B us G : reached false real n initial target G -> (n <= size us)%N ->
    exists G', get_gradient false real n dt B us G = Ok (G', nseq n 0).
  Proof.
    move=> /reached_ok R L. case: (get_gradientE false real dt B R L) => l [c [E _]]. exists (Grape l c). rewrite E. apply: f_equal. congr (_, _).
    rewrite -[in RHS](size_iota 0 n). by elim: (iota 0 n) => [|x s IH] //=; rewrite IH.
  Qed.
End Calls.
