(** * C58 Hamiltonians of the Ising problem; C59 its two figures of merit. *)
From Coq Require Import ZArith Lia.
From mathcomp Require Import all_ssreflect all_algebra zify ring.
From Verif Require Import Py ModelQuantum ModelTrace ModelIsing SpecTrace SpecQuantum SpecIsing ProofQuantum ProofGrape ProofTrace ProofProblems ProofIsing ProofIsingH ProofIsingP PropQuantum.
Import GRing.Theory Num.Theory.
Set Implicit Arguments.
Unset Strict Implicit.
Unset Printing Implicit Defensive.
Local Open Scope ring_scope.
Local Open Scope seq_scope.

(** ** C58 Hamiltonians *)
Section C58.
  Variable R : comRingType.
  (** every row and column belongs to exactly one configuration *)
  Theorem C58_basis n : map basis_number (spins n) = iota 0 (2 ^ n).
  Proof. exact: basis_all. Qed.
  (** three or more spins: the drift is diagonal and holds the energies of the closed chain *)
  Theorem C58_drift n (J g : R) : (2 < n)%N -> exists H, get_static_hamiltonian n J g = Ok H /\ dim H = (2 ^ n)%N
    /\ forall s t, s \in spins n -> t \in spins n -> ent H (basis_number s) (basis_number t) = if s == t then chain_energy J g n s else 0.
  Proof. exact: static_energy. Qed.
  (** two spins: the next-nearest term is a field on each spin *)
  Theorem C58_drift_two (J g : R) : exists H, get_static_hamiltonian 2 J g = Ok H /\ dim H = 4%N
    /\ forall s t, s \in spins 2 -> t \in spins 2 -> ent H (basis_number s) (basis_number t) =
      if s == t then - (2%:R * J * (z_of R s 0 * z_of R s 1) + g * (z_of R s 0 + z_of R s 1)) else 0.
  Proof. exact: static_two. Qed.
  (** the control flips one spin *)
  Theorem C58_control n : (1 < n)%N -> exists H, get_control_hamiltonian R n = Ok H /\ dim H = (2 ^ n)%N
    /\ forall s t, s \in spins n -> t \in spins n -> ent H (basis_number s) (basis_number t) = if flips s t == 1%N then 1 else 0.
  Proof. move=> N. have [H [E [D F]]] := control_ok R N. exists H. split; first by []. split; first by []. move=> s t S T. rewrite F //. by case: eqP. Qed.
  (** the initial state has all spins up, the target all down *)
  Theorem C58_states n : (1 < n)%N -> exists A B, get_initial_state R n = Ok A /\ get_target_state R n = Ok B /\ dim A = (2 ^ n)%N /\ dim B = (2 ^ n)%N
    /\ forall s t, s \in spins n -> t \in spins n ->
       ent A (basis_number s) (basis_number t) = (if (s == nseq n 0%N) && (t == nseq n 0%N) then 1 else 0)
       /\ ent B (basis_number s) (basis_number t) = (if (s == nseq n 1%N) && (t == nseq n 1%N) then 1 else 0).
  Proof.
    move=> N. have [A [EA [DA HA]]] := initial_ok R N. have [B [EB [DB HB]]] := target_ok R N. exists A, B. do 4 (split; first by []).
    move=> s t S T. rewrite HA // HB //. by split; case: andP.
  Qed.
  (** one spin: no problem can be built *)
  Theorem C58_one (J g : R) : get_static_hamiltonian 1 J g = Err IndexError /\ get_control_hamiltonian R 1 = Err IndexError
    /\ get_initial_state R 1 = Err IndexError /\ get_target_state R 1 = Err IndexError.
  Proof. by []. Qed.
End C58.
(** with two spins the drift does not hold the energies of the closed chain *)
Theorem C58_two_spins_refuted : exists (J g : int) H s, get_static_hamiltonian 2 J g = Ok H /\ s \in spins 2
  /\ ent H (basis_number s) (basis_number s) = 2%:R /\ chain_energy J g 2 s = - 2%:R.
Proof.
  have [H [E [_ F]]] := @static_two int_comRing 0 1. exists 0, 1, H, [:: 1%N; 1%N]. split; first by []. split; first by []. split.
  - rewrite F //.
  - by rewrite /chain_energy !big_ord_recl !big_ord0.
Qed.
(** five spins, the default: the energy of a configuration *)
Example C58_case : exists H, get_static_hamiltonian 5 (1 : int) 2%:R = Ok H /\ dim H = 32%N
  /\ ent H (basis_number [:: 0; 1; 1; 0; 0]%N) (basis_number [:: 0; 1; 1; 0; 0]%N) = 5%:R /\ ent H 0 1 = 0 /\ [:: 0; 1; 1; 0; 0]%N \in spins 5.
Proof.
  have [H [E [D F]]] := @static_energy int_comRing 5 1 2%:R isT. exists H. split; first by []. split; first by []. split; first by rewrite F // /chain_energy !big_ord_recl !big_ord0.
  split; last by []. by rewrite -[0%N]/(basis_number [:: 0; 0; 0; 0; 0]%N) -[1%N]/(basis_number [:: 0; 0; 0; 0; 1]%N) F.
Qed.
Print Assumptions C58_basis.
Print Assumptions C58_drift.
Print Assumptions C58_drift_two.
Print Assumptions C58_control.
Print Assumptions C58_states.
Print Assumptions C58_one.
Print Assumptions C58_two_spins_refuted.

(** ** C59 The figures of merit of the two Ising problems *)
Section C59.
  Variables (C : numClosedFieldType) (n : nat).
  Hypothesis N : (1 < n)%N.
  Variables (expm sqrtm : 'M[C]_(2 ^ n) -> 'M[C]_(2 ^ n)) (J g : C) (slices : nat).
  Hypothesis slices_pos : (0 < slices)%N.
  (** a pulse and a time grid; [up] and [down] are the rows of the configurations with all spins up and all spins down *)
  Variables (pulse grid : seq C) (up down : 'I_(2 ^ n)).
  Hypothesis long : (slices <= size pulse)%N.
  Hypothesis times : grid <> [::].
  Hypothesis up_row : val up = 0%N.
  Hypothesis down_row : val down = (2 ^ n - 1)%N.
  (** propagator of the whole pulse *)
  Definition whole (D : ising_data C (2 ^ n)) : 'M[C]_(2 ^ n) :=
    evolved (propagator expm [:: pulse] (i_drift D) [:: i_control D] (last 0 grid / (size grid)%:R)) 1%:M (i_slices D).

  (** the problem exists and its Hamiltonians are Hermitian *)
  Theorem C59_problem is_max : J \is Num.real -> g \is Num.real -> exists D, ising_problem n J g slices is_max = Ok D
    /\ hermitian (i_drift D) /\ hermitian (i_control D).
  Proof.
    move=> RJ Rg. have [H0 [Hc [E0 [Ec E]]]] := @problem_ok C n N J g slices is_max up down up_row down_row. rewrite E. eexists. split; first by []. split=> /=.
    - exact: (static_hermitian N RJ Rg E0).
    - exact: (control_hermitian N Ec).
  Qed.
  (** numpy version: minus (or plus) the population of the target; the square root only has to be right for pure states *)
  Theorem C59_numpy is_max D : roots_pure sqrtm -> ising_problem n J g slices is_max = Ok D ->
    (get_FoM expm sqrtm D [:: pulse] [:: grid] (ising_new D)).2 = Ok ((if is_max then 1 else -1) * `|whole D down up| ^+ 2).
  Proof.
    move=> HR. have [H0 [Hc [E0 [Ec E]]]] := @problem_ok C n N J g slices is_max up down up_row down_row. rewrite E => -[<-]. set D' := IsingData _ _ _ _ _ _.
    have F : fits D' (pulse, grid) by split. have P : (0 < i_slices D')%N by [].
    have := @C54_plain C (2 ^ n) expm sqrtm D' P [:: (pulse, grid)] (List.Forall_cons _ F (List.Forall_nil _)). rewrite /= . case: get_FoM => X r /= [->].
    rewrite (@C54_population C (2 ^ n) expm sqrtm D' (pulse, grid) (delta_mx up 0) (delta_mx down 0) HR) // pick_tr. apply: f_equal. congr (_ * _). rewrite [i_factor _]/=. clear. by case: is_max; rewrite ?opprK.
  Qed.
  (** jax version: always plus the population of the target *)
  Theorem C59_jax is_max D : ising_problem n J g slices is_max = Ok D ->
    get_FoM_AD expm D [:: pulse] [:: grid] = `|whole D down up| ^+ 2.
  Proof.
    have [H0 [Hc [E0 [Ec E]]]] := @problem_ok C n N J g slices is_max up down up_row down_row. rewrite E => -[<-]. set D' := IsingData _ _ _ _ _ _.
    rewrite /get_FoM_AD /get_propagator_AD /fidelity_funct_AD. rewrite -[clamped [::] [:: pulse] 0]/pulse -[clamped [::] [:: grid] 0]/grid.
    rewrite (final_AD_covers _ _ _ _ (B := [:: i_control D'])); last by case.
    rewrite -/(whole D') [i_rho0 _]/= [i_target _]/= pure_conj overlap_pure pick. by rewrite ger0_norm // exprn_ge0.
  Qed.
  (** so the two differ in sign unless the numpy version is told that it is maximised *)
  Theorem C59_sign D1 D2 : roots_pure sqrtm -> ising_problem n J g slices false = Ok D1 -> ising_problem n J g slices true = Ok D2 ->
    (get_FoM expm sqrtm D1 [:: pulse] [:: grid] (ising_new D1)).2 = Ok (- get_FoM_AD expm D1 [:: pulse] [:: grid])
    /\ (get_FoM expm sqrtm D2 [:: pulse] [:: grid] (ising_new D2)).2 = Ok (get_FoM_AD expm D2 [:: pulse] [:: grid]).
  Proof. move=> HR E1 E2. rewrite (C59_numpy HR E1) (C59_numpy HR E2) (C59_jax E1) (C59_jax E2) mul1r mulN1r. by []. Qed.
  (** range of values *)
  Theorem C59_range is_max D : exponentiates expm -> J \is Num.real -> g \is Num.real -> (forall x, x \in pulse -> x \is Num.real) ->
    (forall x, x \in grid -> x \is Num.real) -> ising_problem n J g slices is_max = Ok D -> 0 <= get_FoM_AD expm D [:: pulse] [:: grid] <= 1.
  Proof.
    move=> HE RJ Rg RP RG E. rewrite (C59_jax E) exprn_ge0 //=. apply: unitary_entry.
    have [D' [E' [HA HB]]] := C59_problem is_max RJ Rg. move: E'. rewrite E => -[X]. subst D'.
    have SL : i_slices D = slices. { move: E. have [H0 [Hc [E0 [Ec ->]]]] := @problem_ok C n N J g slices is_max up down up_row down_row. by move=> [<-]. }
    have [|||||U [EU HU]] := @C50_unitary C (2 ^ n) expm [:: pulse] (i_drift D) [:: i_control D] (last 0 grid / (size grid)%:R) 1%:M slices HE HA.
    - move=> b. by rewrite inE => /eqP ->.
    - move=> [|k] i // _ I. rewrite /amplitude /=. apply: RP. apply: mem_nth. exact: (leq_trans I).
    - rewrite rpred_div ?realn //. apply: RG. case: (grid) times => [|t ts] //= _. exact: mem_last.
    - rewrite /unitary. apply/matrixP => i j. rewrite mulmx1 !mxE eq_sym. by rewrite conjC_nat.
    - by case.
    move: EU. rewrite C50_final; last by case. move=> [EU]. by rewrite /whole SL EU.
  Qed.
End C59.
(** a case: a pulse of one slice whose propagator turns every spin round, so the target is reached; told to minimise, the jax version is at its worst *)
Definition turn (C : numClosedFieldType) m (X : 'M[C]_m) : 'M[C]_m := \matrix_(i, j) (i == rev_ord j)%:R.
Lemma turn_unitary (C : numClosedFieldType) m (X : 'M[C]_m) : unitary (turn X).
Proof.
  apply/matrixP => i j. rewrite !mxE (bigD1 (rev_ord i)) //= !mxE eqxx conjC_nat mul1r big1 ?addr0 ?(inj_eq rev_ord_inj) // => k K.
  by rewrite !mxE (negbTE K) conjC_nat mul0r.
Qed.
Example C59_case (C : numClosedFieldType) : exists (expm sqrtm : 'M[C]_(2 ^ 3) -> 'M[C]_(2 ^ 3)) D, exponentiates expm /\ roots_pure sqrtm
  /\ ising_problem 3 1 2%:R 1 false = Ok D /\ get_FoM_AD expm D [:: [:: 1]] [:: [:: 1]] = 1
  /\ (get_FoM expm sqrtm D [:: [:: 1]] [:: [:: 1]] (ising_new D)).2 = Ok (-1).
Proof.
  have L0 : (0 < 2 ^ 3)%N by []. have L1 : (2 ^ 3 - 1 < 2 ^ 3)%N by [].
  exists (@turn C (2 ^ 3)), (@pure_root C (2 ^ 3)). have [H0 [Hc [E0 [Ec E]]]] := @problem_ok C 3 isT 1 2%:R 1 false (Ordinal L0) (Ordinal L1) erefl erefl. eexists.
  split; first by move=> X _; exact: turn_unitary. split; first exact: pure_root_ok. split; first exact: E.
  have W : forall D : ising_data C (2 ^ 3), i_slices D = 1%N -> whole (@turn C (2 ^ 3)) [:: 1] [:: 1] D (Ordinal L1) (Ordinal L0) = 1.
  { move=> D S. rewrite /whole S. cbn [evolved]. rewrite /propagator mulmx1 mxE. by case: eqP => // -[]; apply: val_inj. }
  rewrite (@C59_jax C 3 isT (@turn C (2 ^ 3)) 1 2%:R 1 [:: 1] [:: 1] (Ordinal L0) (Ordinal L1) isT _ _ false) //.
  rewrite (@C59_numpy C 3 isT (@turn C (2 ^ 3)) (@pure_root C (2 ^ 3)) 1 2%:R 1 isT [:: 1] [:: 1] (Ordinal L0) (Ordinal L1) isT _ _ _ false) //; last exact: pure_root_ok.
  by rewrite W // normr1 expr1n mulr1.
Qed.
Print Assumptions C59_problem.
Print Assumptions C59_numpy.
Print Assumptions C59_jax.
Print Assumptions C59_sign.
Print Assumptions C59_range.
