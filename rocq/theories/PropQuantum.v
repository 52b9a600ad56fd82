(** * C50, C51, C53, C54, C55: time evolution, GRAPE gradient, Liouvillian helper, bundled problems.
    [C] is any numerically closed field, for instance the algebraic numbers.  [expm] and [sqrtm] are any functions; where the theorems
    need something of them it is a hypothesis ([exponentiates], [roots_pure]), and functions with that property are exhibited. *)
From Coq Require Import ZArith.
From mathcomp Require Import all_ssreflect all_algebra.
From Verif Require Import Py ModelQuantum SpecQuantum ProofQuantum ProofGrape ProofProblems ProofIsing ProofWitness.
Import GRing.Theory Num.Theory.
Set Implicit Arguments.
Unset Strict Implicit.
Unset Printing Implicit Defensive.
Local Open Scope ring_scope.
Local Open Scope seq_scope.

(** ** C50 Piecewise time evolution *)
Section C50.
  Variables (C : numClosedFieldType) (d : nat).
  Notation M := 'M[C]_d.
  Variable expm : M -> M.
  Implicit Types (drive : seq (seq C)) (A : M) (B : seq M) (dt : C) (store : seq M).

  (** the final propagator is the time-ordered product *)
  Theorem C50_final drive A B dt U0 n : covers drive (size B) n ->
    pw_final_evolution expm drive A B n dt U0 = Ok (evolved (propagator expm drive A B dt) U0 n).
  Proof. exact: final_evolved. Qed.
  (** an amplitude is missing *)
  Theorem C50_missing drive A B dt U0 n : ~ covers drive (size B) n -> (0 < n)%N ->
    pw_final_evolution expm drive A B n dt U0 = Err IndexError.
  Proof. exact: final_short. Qed.
  (** the stored propagators are those of the slices, the rest of the store is kept *)
  Theorem C50_store drive A B dt n store : covers drive (size B) n -> (n <= size store)%N ->
    pw_evolution expm store drive A B n dt = ([seq propagator expm drive A B dt i | i <- iota 0 n] ++ drop n store, Ok tt).
  Proof. exact: pw_evolutionE. Qed.
  Theorem C50_store_missing drive A B dt n store : (0 < n)%N -> ~ covers drive (size B) n \/ (size store < n)%N ->
    (pw_evolution expm store drive A B n dt).2 = Err IndexError.
  Proof. exact: pw_evolution_short. Qed.
  (** the product of the stored propagators is the final propagator *)
  Theorem C50_product drive A B dt n store : covers drive (size B) n -> size store = n -> (0 < n)%N ->
    reduce_ (pw_evolution expm store drive A B n dt).1 = pw_final_evolution expm drive A B n dt 1%:M.
  Proof.
    move=> H S N. rewrite (final_evolved _ _ _ _ H) (pw_evolutionE _ _ _ H) ?S // drop_oversize ?S // cats0. exact: reduce_evolved.
  Qed.
  (** unitary *)
  Theorem C50_unitary drive A B dt U0 n : exponentiates expm -> hermitian A -> (forall b, b \in B -> hermitian b) ->
    (forall k i, (k < size B)%N -> (i < n)%N -> amplitude drive k i \is Num.real) -> dt \is Num.real -> unitary U0 -> covers drive (size B) n ->
    exists U, pw_final_evolution expm drive A B n dt U0 = Ok U /\ unitary U.
  Proof.
    move=> E HA HB HD Hdt H0 H. eexists. split; first exact: (final_evolved _ _ _ _ H).
    apply: evolved_unitary => // i I. apply: propagator_unitary => // k K. exact: HD.
  Qed.
  (** in two parts *)
  Theorem C50_two_parts drive A B dt U0 n m : covers drive (size B) (n + m) ->
    pw_final_evolution expm drive A B (n + m) dt U0 =
    rbind (pw_final_evolution expm drive A B n dt U0) (pw_final_evolution expm (map (drop n) drive) A B m dt).
  Proof. exact: two_parts. Qed.
  (** the variant for automatic differentiation agrees where all amplitudes are there; where some are missing it goes on with the last one *)
  Theorem C50_AD drive A B dt U0 n : covers drive (size B) n ->
    pw_final_evolution expm drive A B n dt U0 = Ok (pw_final_evolution_AD expm drive A B n dt U0).
  Proof. move=> H. by rewrite (final_evolved _ _ _ _ H) (final_AD_covers _ _ _ _ H). Qed.
  Theorem C50_AD_missing drive A B dt U0 n : (size B <= size drive)%N ->
    pw_final_evolution expm [seq row ++ nseq n (last 0 row) | row <- drive] A B n dt U0 = Ok (pw_final_evolution_AD expm drive A B n dt U0).
  Proof. exact: AD_padded. Qed.
  (** the variant that should store the propagators returns its input *)
  Theorem C50_AD_store_input drive A B dt n store : pw_evolution_AD expm store drive A B n dt = store.
  Proof. exact: evolution_AD_nop. Qed.
  Theorem C50_AD_store_refuted drive A B dt n : (0 < d)%N -> (0 < n)%N -> exponentiates expm -> hermitian A -> (forall b, b \in B -> hermitian b) ->
    (forall k i, (k < size B)%N -> amplitude drive k i \is Num.real) -> dt \is Num.real -> covers drive (size B) n ->
    (pw_evolution expm (nseq n 0) drive A B n dt).1 <> pw_evolution_AD expm (nseq n 0) drive A B n dt.
  Proof. exact: AD_store_zero. Qed.
  (** a function with the property asked of the exponential *)
  Example C50_exponential : exponentiates (@cayley C d).
  Proof. exact: cayley_ok. Qed.
End C50.
Example C50_case (C : numClosedFieldType) :
  covers [:: [:: 1; 1 : C]] 1 2 /\ pw_final_evolution (@cayley C 2) [:: [:: 1; 1]] 0 [:: sigma_x C] 2 1 1%:M = Ok (- 1%:M).
Proof.
  have cov : covers [:: [:: 1; 1 : C]] (size [:: sigma_x C]) 2 by case. split; first exact: cov.
  rewrite (final_evolved _ _ _ _ cov). apply: f_equal. have [S1 S2] := sx_involution C.
  have P : forall i, (i < 2)%N -> propagator (@cayley C 2) [:: [:: 1; 1]] 0 [:: sigma_x C] 1 i = - 'i *: sigma_x C.
  { move=> i I. rewrite /propagator /hamiltonian add0r big_ord_recl big_ord0 addr0 mulr1. have -> : amplitude [:: [:: 1; 1 : C]] 0 i = 1 by case: i I => [|[|]].
    rewrite scale1r. exact: cayley_involution. }
  cbn [evolved]. rewrite !P // mulmx1 -scalemxAl -scalemxAr S2 scalerA mulrNN ii. by rewrite scaleN1r.
Qed.
Print Assumptions C50_final.
Print Assumptions C50_missing.
Print Assumptions C50_store.
Print Assumptions C50_store_missing.
Print Assumptions C50_product.
Print Assumptions C50_unitary.
Print Assumptions C50_two_parts.
Print Assumptions C50_AD.
Print Assumptions C50_AD_missing.
Print Assumptions C50_AD_store_input.
Print Assumptions C50_AD_store_refuted.

(** ** C51 GRAPE *)
Section C51.
  Variables (C : numClosedFieldType) (d : nat).
  Notation M := 'M[C]_d.
  Implicit Types (us : seq M) (initial target B : M) (dt : C).

  (** the gradient and the stored states, after any earlier calls *)
  Theorem C51_gradient n initial target dt B us G : reached true false n initial target G -> (n <= size us)%N ->
    exists G' grads, get_gradient true false n dt B us G = Ok (G', grads) /\ size grads = n
      /\ (forall t, (t < n)%N -> nth 0 grads t =
            'Re (\tr (('i * dt) *: dagger (costate_at (nth 0 us) n target t) *m (B *m state_at (nth 0 us) initial t - state_at (nth 0 us) initial t *m B))))
      /\ (forall t, (t <= n)%N -> nth 0 (rho_storage G') t = state_at (nth 0 us) initial t /\ nth 0 (corho_storage G') t = costate_at (nth 0 us) n target t).
  Proof. exact: gradient_spec. Qed.
  (** the overlap of co-state and state is the same at each slice *)
  Theorem C51_overlap n initial target dt B us G G' grads : reached true false n initial target G -> (n <= size us)%N ->
    get_gradient true false n dt B us G = Ok (G', grads) ->
    forall t, (t <= n)%N -> overlap (nth 0 (corho_storage G') t) (nth 0 (rho_storage G') t) = overlap target (state_at (nth 0 us) initial n).
  Proof.
    move=> R L E t T. case: (gradient_spec dt B R L) => G2 [g2 [E2 [_ [_ S]]]]. move: E. rewrite E2 => -[<- _]. case: (S t T) => -> ->. exact: overlap_spec.
  Qed.
  (** the entry is minus the first-order change of the overlap when slice [t] gets the factor 1 - i eps dt B *)
  Theorem C51_first_order n initial target dt B us G G' grads : reached true false n initial target G -> (n <= size us)%N ->
    hermitian B -> dt \is Num.real -> get_gradient true false n dt B us G = Ok (G', grads) ->
    forall t, (t < n)%N -> exists c : C, forall eps : C, eps \is Num.real ->
      'Re (overlap target (state_at (nudge (nth 0 us) t (- ('i * eps * dt) *: B)) initial n)) =
      'Re (overlap target (state_at (nth 0 us) initial n)) - eps * nth 0 grads t + eps ^+ 2 * c.
  Proof.
    move=> R L HB Hdt E t T. case: (gradient_spec dt B R L) => G2 [g2 [E2 [_ [S _]]]]. move: E. rewrite E2 => -[_ <-]. rewrite (S t T). exact: first_order_spec.
  Qed.
  Theorem C51_commuting n initial target dt B us G G' grads t : reached true false n initial target G -> (n <= size us)%N ->
    get_gradient true false n dt B us G = Ok (G', grads) -> (t < n)%N ->
    B *m state_at (nth 0 us) initial t = state_at (nth 0 us) initial t *m B -> nth 0 grads t = 0.
  Proof.
    move=> R L E T K. case: (gradient_spec dt B R L) => G2 [g2 [E2 [_ [S _]]]]. move: E. rewrite E2 => -[_ <-]. rewrite (S t T) K subrr mulmx0 mxtrace0. exact: raddf0.
  Qed.
  (** too few propagators *)
  Theorem C51_missing st real n initial target dt B us G : reached st real n initial target G -> (size us < n)%N ->
    get_gradient st real n dt B us G = Err IndexError.
  Proof. move=> /reached_ok R. exact: get_gradient_short R. Qed.
  (** for every other system type the gradient is zero *)
  Theorem C51_other_types real n initial target dt B us G : reached false real n initial target G -> (n <= size us)%N ->
    exists G', get_gradient false real n dt B us G = Ok (G', nseq n 0).
  Proof. exact: gradient_other. Qed.
End C51.
(** states given as real arrays: the imaginary parts are dropped and with them the gradient *)
Theorem C51_real_states_refuted (C : numClosedFieldType) : exists (U B initial target : 'M[C]_2) g,
  unitary U /\ hermitian B /\ g <> 0
  /\ (exists G, get_gradient true false 1 1 B [:: U] (grape_new false 1 initial target) = Ok (G, [:: g]))
  /\ (exists G, get_gradient true true 1 1 B [:: U] (grape_new true 1 initial target) = Ok (G, [:: 0])).
Proof.
  exists (turn C), (sigma_x C), (down C), (up C), (- (24%:R / 25%:R)). split; first exact: turn_unitary.
  split; first by apply/hermitianE; case: (sx_involution C). split; first by apply/eqP; rewrite oppr_eq0 mulf_eq0 invr_eq0 !pnatr_eq0.
  split; [exact: gradient_complex|exact: gradient_real].
Qed.
Example C51_case (C : numClosedFieldType) : reached true false 1 (down C) (up C) (grape_new false 1 (down C) (up C))
  /\ exists G, get_gradient true false 1 1 (sigma_x C) [:: turn C] (grape_new false 1 (down C) (up C)) = Ok (G, [:: - (24%:R / 25%:R)]).
Proof. split; [exact: reached_new|exact: gradient_complex]. Qed.
Print Assumptions C51_gradient.
Print Assumptions C51_overlap.
Print Assumptions C51_first_order.
Print Assumptions C51_commuting.
Print Assumptions C51_missing.
Print Assumptions C51_other_types.
Print Assumptions C51_real_states_refuted.

(** ** C53 Liouvillian helper *)
Section C53.
  Variables (C : numClosedFieldType) (d : nat).
  Implicit Types (H rho : 'M[C]_d).
  Theorem C53_sup_op H rho : to_sup_op H *m to_vec rho = to_vec (rho *m H^T - dagger H *m rho).
  Proof. by rewrite sup_op_vec adjE. Qed.
  (** a commutator exactly for real matrices *)
  Theorem C53_commutator H : hermitian H ->
    (forall rho, to_sup_op H *m to_vec rho = to_vec (rho *m H - H *m rho)) <-> forall i j, H i j \is Num.real.
  Proof. exact: sup_op_commutator. Qed.
  (** the vector determines the matrix *)
  Theorem C53_vec rho1 rho2 : to_vec rho1 = to_vec rho2 -> rho1 = rho2.
  Proof. exact: to_vec_inj. Qed.
End C53.
Theorem C53_hermitian_refuted (C : numClosedFieldType) : exists H : 'M[C]_2, hermitian H
  /\ ~ (forall rho, to_sup_op H *m to_vec rho = to_vec (rho *m H - H *m rho)).
Proof.
  exists (sigma_y C). split; first exact: sigma_y_hermitian. move/(sup_op_commutator (@sigma_y_hermitian C)) => /(_ 1 0). by move/negP: (@sigma_y_imaginary C).
Qed.
Example C53_case (C : numClosedFieldType) : hermitian (sigma_x C) /\ forall i j, sigma_x C i j \is Num.real.
Proof. split; first by apply/hermitianE; case: (sx_involution C). move=> i j. rewrite !mxE. by case: ifP => _; case: ifP => _; rewrite ?real0 ?real1. Qed.
Print Assumptions C53_sup_op.
Print Assumptions C53_commutator.
Print Assumptions C53_vec.
Print Assumptions C53_hermitian_refuted.

(** ** C54 Ising model *)
Section C54.
  Variables (C : numClosedFieldType) (d : nat).
  Variables expm sqrtm : 'M[C]_d -> 'M[C]_d.
  Variable D : ising_data C d.
  Hypothesis slices : (0 < i_slices D)%N.
  Notation control := (seq C * seq C)%type.
  Implicit Types (x y : control).
  (** a pulse with enough values and a time grid that is not empty *)
  Definition fits x : Prop := (i_slices D <= size x.1)%N /\ x.2 <> [::].
  (** the final propagator and the figure of merit of a control; the time step is the last time over the number of grid points *)
  Definition final_of x : 'M[C]_d :=
    evolved (propagator expm [:: x.1] (i_drift D) [:: i_control D] (last 0 x.2 / (size x.2)%:R)) 1%:M (i_slices D).
  Definition merit_of x : res C :=
    Ok (- i_factor D * uhlmann sqrtm (final_of x *m i_rho0 D *m dagger (final_of x))^T (i_target D)).
  Lemma merit_ofE x : merit_of x = merit2 expm sqrtm D x.
  Proof. by rewrite /merit_of /merit2 /merit -adjE. Qed.
  Lemma pending_merit pending rs : pending_answers merit_of pending rs = pending_answers (merit2 expm sqrtm D) pending rs.
  Proof. elim: rs pending => [|[x|x] rs IH] pending //=; by rewrite IH ?merit_ofE. Qed.
  Lemma own_merit rs : own_answers merit_of rs = own_answers (merit2 expm sqrtm D) rs.
  Proof. apply: eq_map => -[x|x] //. by rewrite merit_ofE. Qed.

  (** every history of calls *)
  Theorem C54_history rs : List.Forall (fun r => fits (control_of r)) rs ->
    answers expm sqrtm D (ising_new D) rs = pending_answers merit_of None rs.
  Proof. move=> H. rewrite pending_merit. apply: history => //. exact: new_remembers. Qed.
  (** evaluations of GRAPE, also with refused ones in between: always the pulse's own figure of merit *)
  Theorem C54_grape es : List.Forall (fun r => fits (control_of r)) (flatten (map (@evaluation _) es)) ->
    answers expm sqrtm D (ising_new D) (flatten (map (@evaluation _) es)) = own_answers merit_of (flatten (map (@evaluation _) es)).
  Proof. move=> H. by rewrite C54_history // pending_merit own_merit evaluations. Qed.
  (** figures of merit alone *)
  Theorem C54_plain xs : List.Forall fits xs ->
    answers expm sqrtm D (ising_new D) (map (@Merit _) xs) = own_answers merit_of (map (@Merit _) xs).
  Proof.
    move=> H. rewrite C54_history ?pending_merit ?own_merit ?plain_calls //. elim: H => [|x l Hx _ IH]; by constructor.
  Qed.
  (** propagators of one pulse, figure of merit of another: the answer belongs to the first *)
  Theorem C54_stale x y : fits x -> fits y ->
    answers expm sqrtm D (ising_new D) [:: Propagators x; Merit y; Merit y] = [:: None; Some (merit_of x); Some (merit_of y)].
  Proof. move=> Hx Hy. rewrite C54_history //. by do ![apply: List.Forall_cons; first by []]; apply: List.Forall_nil. Qed.
  (** a call for propagators that fails half way (pulse too short) leaves the first ones in the store *)
  Theorem C54_mixture p q g : fits (p, g) -> (size q < i_slices D)%N ->
    answers expm sqrtm D (ising_new D) [:: Propagators (p, g); Propagators (q, g); Merit (p, g)] =
    [:: None; Some (Err IndexError); Some (merit_of (q ++ drop (size q) p, g))].
  Proof.
    move=> Hp Hq. have [S _] := new_remembers expm D. cbn [answers do_request]. rewrite (get_propagatorE expm _ _ Hp S).
    rewrite (@mixture _ _ expm D p q g _ Hp Hq) //. rewrite (@merit_of_store _ _ expm sqrtm D slices (q ++ drop (size q) p) g) //. by rewrite merit_ofE.
  Qed.
  (** pure states: the population of the complex conjugate of the target state *)
  Theorem C54_population x phi psi : roots_pure sqrtm -> i_rho0 D = pure phi -> i_target D = pure psi ->
    merit_of x = Ok (- i_factor D * `|(psi^T *m (final_of x *m phi)) 0 0| ^+ 2).
  Proof. move=> R E0 ET. rewrite merit_ofE /merit2 (merit_pure _ _ _ R E0 ET). by []. Qed.
  (** for a real target state that is the population of the target *)
  Theorem C54_real_target x phi psi : roots_pure sqrtm -> i_rho0 D = pure phi -> i_target D = pure psi -> (forall i, psi i 0 \is Num.real) ->
    merit_of x = Ok (- i_factor D * `|(dagger psi *m (final_of x *m phi)) 0 0| ^+ 2).
  Proof.
    move=> R E0 ET HR. rewrite (C54_population _ R E0 ET). have -> : dagger psi = psi^T; last by [].
    apply/matrixP => i j. rewrite !mxE (ord1 i). by apply: conj_Creal.
  Qed.
  Example C54_root : roots_pure (@pure_root C d).
  Proof. exact: pure_root_ok. Qed.
End C54.
Theorem C54_stale_refuted (C : numClosedFieldType) : exists (expm sqrtm : 'M[C]_2 -> 'M[C]_2) D x y,
  exponentiates expm /\ roots_pure sqrtm /\ (0 < i_slices D)%N /\ fits D x /\ fits D y
  /\ answers expm sqrtm D (ising_new D) [:: Propagators x; Merit y] = [:: None; Some (Ok 0)]
  /\ answers expm sqrtm D (ising_new D) [:: Merit y] = [:: Some (Ok (-1))].
Proof.
  exists (@cayley C 2), (@pure_root C 2), (flip C), ([:: 0], [:: 1]), ([:: 1], [:: 1]).
  split; first exact: cayley_ok. split; first exact: pure_root_ok. split; first by []. split; first by split. split; first by split.
  split; rewrite C54_history //; try by do ![apply: List.Forall_cons; first by split]; apply: List.Forall_nil.
  - rewrite pending_merit /= /merit2 flip_merit0. by [].
  - rewrite pending_merit /= /merit2 flip_merit1. by [].
Qed.
(** target state already reached, but its amplitudes are not real *)
Theorem C54_complex_target_refuted (C : numClosedFieldType) : exists (expm sqrtm : 'M[C]_2 -> 'M[C]_2) D x psi,
  exponentiates expm /\ roots_pure sqrtm /\ (0 < i_slices D)%N /\ fits D x /\ i_factor D = 1 /\ vnorm psi = 1
  /\ i_rho0 D = pure psi /\ i_target D = pure psi /\ final_of expm D x = 1%:M
  /\ answers expm sqrtm D (ising_new D) [:: Merit x] = [:: Some (Ok (- (49%:R / 625%:R)))].
Proof.
  exists (@cayley C 2), (@pure_root C 2), (already C), ([:: 0], [:: 1]), (phased C).
  split; first exact: cayley_ok. split; first exact: pure_root_ok. split; first by []. split; first by split. split; first by []. split; first exact: phased_norm.
  split; first by []. split; first by []. split; first exact: already_final.
  rewrite C54_history //; last by do ![apply: List.Forall_cons; first by split]; apply: List.Forall_nil. by rewrite pending_merit /= /merit2 already_merit.
Qed.
Print Assumptions C54_history.
Print Assumptions C54_grape.
Print Assumptions C54_plain.
Print Assumptions C54_stale.
Print Assumptions C54_mixture.
Print Assumptions C54_population.
Print Assumptions C54_real_target.
Print Assumptions C54_stale_refuted.
Print Assumptions C54_complex_target_refuted.

(** ** C55 One qubit *)
Section C55.
  Variable C : numClosedFieldType.
  Theorem C55_range n (u v : 'cV[C]_n) : vnorm u = 1 -> vnorm v = 1 -> 0 <= get_fidelity u v <= 1.
  Proof. exact: fidelity_range. Qed.
  Theorem C55_one n (u v : 'cV[C]_n) : vnorm u = 1 -> vnorm v = 1 -> get_fidelity u v = 1 <-> same_ray u v.
  Proof. exact: fidelity_one. Qed.
  (** states that are not normalised: the product of the norms comes out once too often *)
  Theorem C55_scale n (u v : 'cV[C]_n) (a b : C) : get_fidelity (a *: u) (b *: v) = `|a| * `|b| * get_fidelity u v.
  Proof. exact: fidelity_scale. Qed.
  Theorem C55_not_normalised_refuted : exists u v : 'cV[C]_2, 1 < get_fidelity u v.
  Proof. exists (ket 2%:R 0), (ket 2%:R 0). by rewrite fidelity_four ltr1n. Qed.

  (** the figure of merit: detunings and drive as given, [parameters[0]] in place of the first detuning if it is there *)
  Theorem C55_merit expm (Q : one_qubit C) drive pulses parameters t0 t1 grid timegrids rand :
    let delta1 := if parameters is p :: _ then p else q_delta1 Q in
    let psi := driven expm delta1 (q_delta2 Q) (t1 - t0) drive (q_initial Q) in
    let noise := if q_noise Q is Some f then f * 2%:R * (1 / 2%:R - rand) else 0 in
    let drift := if q_drift Q is Some v then v * (q_evals Q)%:R else 0 in
    (one_qubit_FoM expm Q (drive :: pulses) parameters ((t0 :: t1 :: grid) :: timegrids) rand).2 =
    Ok (- q_factor Q * (1 - get_fidelity (q_target Q) psi + noise + drift)).
  Proof. exact: one_qubit_FoME2. Qed.
  (** between 0 and 1, and 0 exactly when the target is reached *)
  Theorem C55_merit_range expm (Q : one_qubit C) drive pulses parameters t0 t1 grid timegrids rand :
    let delta1 := if parameters is p :: _ then p else q_delta1 Q in
    exponentiates expm -> q_noise Q = None -> q_drift Q = None -> q_factor Q = -1 ->
    vnorm (q_target Q) = 1 -> vnorm (q_initial Q) = 1 -> delta1 \is Num.real -> q_delta2 Q \is Num.real -> t1 - t0 \is Num.real ->
    (forall x, x \in drive -> x \is Num.real) ->
    exists F, (one_qubit_FoM expm Q (drive :: pulses) parameters ((t0 :: t1 :: grid) :: timegrids) rand).2 = Ok F
      /\ 0 <= F <= 1 /\ (F = 0 <-> same_ray (q_target Q) (driven expm delta1 (q_delta2 Q) (t1 - t0) drive (q_initial Q))).
  Proof.
    move=> delta1 E N D F NT NI D1 D2 T HX. eexists. split; first exact: one_qubit_FoME. rewrite F opprK mul1r.
    have NP : vnorm (driven expm (in_force Q parameters) (q_delta2 Q) (t1 - t0) drive (q_initial Q)) = 1 by rewrite driven_norm.
    split.
    - have /andP [L1 L2] := fidelity_range NT NP. by rewrite subr_ge0 L2 /= ler_subl_addr -ler_subl_addl subrr.
    - split=> [/eqP|/(fidelity_one NT NP) ->]; last by rewrite subrr. rewrite subr_eq0 => /eqP E1. apply/(fidelity_one NT NP). by rewrite -E1.
  Qed.
  (** a detuning passed as parameter stays: later calls without parameters are those of a problem built with it *)
  Theorem C55_parameter_stays expm (Q : one_qubit C) p ps pulses1 grids1 rand1 pulses2 grids2 rand2 :
    pulses1 <> [::] -> q_drift Q = None ->
    (one_qubit_FoM expm (one_qubit_FoM expm Q pulses1 (p :: ps) grids1 rand1).1 pulses2 [::] grids2 rand2).2 =
    (one_qubit_FoM expm (OneQubit (q_target Q) (q_initial Q) p (q_delta2 Q) (q_noise Q) (q_drift Q) (q_factor Q) (q_evals Q)) pulses2 [::] grids2 rand2).2.
  Proof.
    case: pulses1 => [|d1 pulses1] // _ ND. rewrite /one_qubit_FoM /=. case: (at_ pulses2 0) => [x|e] //.
    by case: rbind => [dt|e]; cbn [fst q_target q_initial q_delta1 q_delta2 q_noise q_drift q_factor q_evals]; rewrite ?ND; case: rbind.
  Qed.
End C55.
Theorem C55_stateless_refuted (C : numClosedFieldType) : exists (expm : 'M[C]_2 -> 'M[C]_2) Q pulses p grids, exponentiates expm
  /\ (one_qubit_FoM expm Q pulses [::] grids 0).2 = Ok 0
  /\ (one_qubit_FoM expm (one_qubit_FoM expm Q pulses [:: p] grids 0).1 pulses [::] grids 0).2 = Ok (576%:R / 625%:R).
Proof.
  exists (@cayley C 2), (qubit 0), [:: [:: 0]], 2%:R, [:: [:: 0; 1]]. split; first exact: cayley_ok. split; first exact: qubit_still.
  rewrite C55_parameter_stays //. exact: qubit_moved.
Qed.
Example C55_case (C : numClosedFieldType) : vnorm (resting C) = 1
  /\ (one_qubit_FoM (@cayley C 2) (qubit 2%:R) [:: [:: 0]] [::] [:: [:: 0; 1]] 0).2 = Ok (576%:R / 625%:R).
Proof. split; [exact: resting_norm|exact: qubit_moved]. Qed.
Print Assumptions C55_range.
Print Assumptions C55_one.
Print Assumptions C55_scale.
Print Assumptions C55_not_normalised_refuted.
Print Assumptions C55_merit.
Print Assumptions C55_merit_range.
Print Assumptions C55_parameter_stays.
Print Assumptions C55_stateless_refuted.
