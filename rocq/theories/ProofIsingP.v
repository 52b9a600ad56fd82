(** * The Ising problems as a whole: lemmas. *)
From Coq Require Import ZArith Lia.
From mathcomp Require Import all_ssreflect all_algebra zify ring.
From Verif Require Import Py ModelQuantum ModelTrace ModelIsing SpecTrace SpecQuantum SpecIsing ProofQuantum ProofGrape ProofTrace ProofProblems ProofIsing ProofIsingH.
Import GRing.Theory Num.Theory.
Set Implicit Arguments.
Unset Strict Implicit.
Unset Printing Implicit Defensive.
Local Open Scope ring_scope.
Local Open Scope seq_scope.

Section Problem.
  Variables (C : numClosedFieldType) (n : nat).
  Hypothesis N : (1 < n)%N.
  Notation M := 'M[C]_(2 ^ n).
  Lemma spin_index (i : 'I_(2 ^ n)) : exists2 s, s \in spins n & basis_number s = i.
  Proof.
    have : (i : nat) \in map basis_number (spins n) by rewrite basis_all mem_iota /= add0n ltn_ord.
    by move=> /mapP [s S E]; exists s.
  Qed.
  Lemma nseq_spins b : (b < 2)%N -> nseq n b \in spins n.
  Proof. move=> B. apply/spinsP. split; first by rewrite size_nseq. move=> k K. by rewrite nth_nseq K. Qed.
  Lemma number_ups m : basis_number (nseq m 0%N) = 0%N.
  Proof. rewrite basis_horner. by elim: m. Qed.
  Lemma number_downs m : basis_number (nseq m 1%N) = (2 ^ m - 1)%N.
  Proof.
    rewrite basis_horner. suff H : forall k, horner k (nseq m 1%N) = (k * 2 ^ m + (2 ^ m - 1))%N by rewrite H.
    elim: m => [|m IH] k; first by rewrite /= muln1 subnn addn0. rewrite /= IH expnS. have : (0 < 2 ^ m)%N by rewrite expn_gt0. move: (2 ^ m)%N => x. nia.
  Qed.
  (** the projector on a configuration is a pure state *)
  Lemma projector (A : square C) b (i : 'I_(2 ^ n)) : (b < 2)%N -> basis_number (nseq n b) = i ->
    (forall s t, s \in spins n -> t \in spins n -> ent A (basis_number s) (basis_number t) = ((s == nseq n b) && (t == nseq n b))%:R) ->
    matrix_of n A = pure (delta_mx i 0).
  Proof.
    move=> B I H. apply/matrixP => x y. rewrite /matrix_of /pure !mxE big_ord1 !mxE eqxx !andbT.
    have [s S E1] := spin_index x. have [t T E2] := spin_index y. rewrite -E1 -E2 H //.
    have sx : (s == nseq n b) = (x == i).
    { apply/eqP/eqP => [E|E]; first by apply: val_inj; rewrite /= -E1 E. apply: (@basis_inj n) => //; first exact: nseq_spins. by rewrite E1 I E. }
    have ty : (t == nseq n b) = (y == i).
    { apply/eqP/eqP => [E|E]; first by apply: val_inj; rewrite /= -E2 E. apply: (@basis_inj n) => //; first exact: nseq_spins. by rewrite E2 I E. }
    rewrite sx ty conjC_nat. by rewrite -natrM mulnb.
  Qed.
  Lemma problem_ok (J g : C) slices is_max (i0 i1 : 'I_(2 ^ n)) : val i0 = 0%N -> val i1 = (2 ^ n - 1)%N ->
    exists H0 Hc, get_static_hamiltonian n J g = Ok H0 /\ get_control_hamiltonian C n = Ok Hc /\
    ising_problem n J g slices is_max = Ok (IsingData slices (matrix_of n H0) (matrix_of n Hc) (pure (delta_mx i0 0)) (pure (delta_mx i1 0)) (if is_max then -1 else 1)).
  Proof.
    move=> I0 I1. have [H0 [E0 _]] := static_general J g N. have [Hc [Ec _]] := control_ok C N. have [A [EA [_ HA]]] := initial_ok C N. have [B [EB [_ HB]]] := target_ok C N.
    exists H0, Hc. split; first by []. split; first by []. rewrite /ising_problem E0 Ec EA EB. cbn [rbind].
    rewrite (@projector A 0 i0) ?number_ups ?I0 // (@projector B 1 i1) ?number_downs ?I1 //.
  Qed.
  (** both Hamiltonians are Hermitian *)
  Lemma static_hermitian (J g : C) H : J \is Num.real -> g \is Num.real -> get_static_hamiltonian n J g = Ok H -> hermitian (matrix_of n H).
  Proof.
    move=> RJ Rg E. have [H' [E' [_ F]]] := static_general J g N. move: E'. rewrite E => -[]. move=> X. subst H'. move=> i j. rewrite !mxE.
    have [s S E1] := spin_index i. have [t T E2] := spin_index j. rewrite -E1 -E2 !F //. case: (s =P t) => [->|D].
    - rewrite eqxx. have Z : forall k, z_of C t k \is Num.real by move=> k; rewrite /z_of; case: ifP => _; rewrite ?rpredN; exact: real1.
      rewrite conj_Creal // rpredD // rpred_sum // => k _; rewrite rpredM ?rpredN // mul1r; case: ifP => _; rewrite ?rpredM //; exact: Z.
    - have -> : (t == s) = false by apply/eqP => X; apply: D. rewrite !big1 ?addr0 ?conjC0 // => k _; by rewrite mul0r mulr0.
  Qed.
  Lemma flips_sym s t : flips s t = flips t s.
  Proof. rewrite /flips. elim: s t => [|x s IH] [|y t] //=. by rewrite IH eq_sym. Qed.
  Lemma control_hermitian (H : square C) : get_control_hamiltonian C n = Ok H -> hermitian (matrix_of n H).
  Proof.
    move=> E. have [H' [E' [_ F]]] := control_ok C N. move: E'. rewrite E => -[] X. subst H'. move=> i j. rewrite !mxE.
    have [s S E1] := spin_index i. have [t T E2] := spin_index j. by rewrite -E1 -E2 !F // conjC_nat flips_sym.
  Qed.
  (** an entry of a unitary matrix *)
  Lemma unitary_entry m (U : 'M[C]_m) i j : unitary U -> `|U i j| ^+ 2 <= 1.
  Proof.
    move=> H. have := congr1 (fun X : 'M[C]_m => X j j) H. rewrite !mxE eqxx (bigD1 i) //= !mxE mulrC -normCK => E.
    rewrite -[X in _ <= X]E ler_addl. apply: sumr_ge0 => k _. by rewrite mxE mulrC -normCK exprn_ge0.
  Qed.
  Lemma column (U : M) i0 i : (U *m (delta_mx i0 0 : 'cV[C]_(2 ^ n))) i 0 = U i i0.
  Proof. rewrite mxE (bigD1 i0) //= mxE !eqxx mulr1 big1 ?addr0 // => k K. by rewrite mxE (negbTE K) mulr0. Qed.
  Lemma pick (U : M) i0 i1 : (dagger (delta_mx i1 0 : 'cV[C]_(2 ^ n)) *m (U *m (delta_mx i0 0 : 'cV[C]_(2 ^ n)))) 0 0 = U i1 i0.
  Proof.
    rewrite mxE (bigD1 i1) //= column [dagger _ _ _]mxE mxE !eqxx conjC1 mul1r big1 ?addr0 // => k K.
    by rewrite [dagger _ _ _]mxE mxE (negbTE K) conjC0 mul0r.
  Qed.
  Lemma pick_tr (U : M) i0 i1 : ((delta_mx i1 0 : 'cV[C]_(2 ^ n))^T *m (U *m (delta_mx i0 0 : 'cV[C]_(2 ^ n)))) 0 0 = U i1 i0.
  Proof.
    have <- : dagger (delta_mx i1 0 : 'cV[C]_(2 ^ n)) = (delta_mx i1 0 : 'cV[C]_(2 ^ n))^T by apply/matrixP => i j; rewrite !mxE conjC_nat.
    exact: pick.
  Qed.
  (** overlap of pure states *)
  Lemma overlap_pure (u v : 'cV[C]_(2 ^ n)) : \tr (adj (pure u) *m pure v) = `|(dagger v *m u) 0 0| ^+ 2.
  Proof.
    rewrite /pure -!adjE adj_mul. have -> : adj (adj u) = u by apply/matrixP => i j; rewrite !mxE conjCK.
    rewrite -mulmxA mxtrace_mulC mulmxA.
    have tr1 : forall X : 'M[C]_1, \tr X = X 0 0 by move=> X; rewrite /mxtrace big_ord1.
    rewrite tr1 -[_ *m adj v *m u]mulmxA mxE big_ord1 mulrC normCK. congr (_ * _).
    rewrite !mxE rmorph_sum. apply: eq_bigr => k _. by rewrite !mxE rmorphM conjCK mulrC.
  Qed.
End Problem.
