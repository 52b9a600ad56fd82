(** * C77, continued: the padding in the Ising problem with automatic differentiation. *)
From Coq Require Import ZArith Lia.
From Verif Require Num ModelPulse ModelControls ModelJax SpecControls SpecJax PropJax ExampleControls.
From mathcomp Require Import all_ssreflect all_algebra.
From Verif Require Import Py ModelQuantum ModelTrace ModelIsing SpecTrace SpecQuantum SpecIsing ProofQuantum ProofGrape ProofTrace ProofProblems ProofIsing ProofIsingH ProofIsingP.
Import GRing.Theory mathcomp.algebra.ssrnum.Num.Theory.
Set Implicit Arguments.
Unset Strict Implicit.
Unset Printing Implicit Defensive.
Local Open Scope ring_scope.
Local Open Scope seq_scope.

Section Frozen.
  Variable C : numClosedFieldType.
  Lemma frozen_propagator d (expm : 'M[C]_d -> 'M[C]_d) D pulses timegrids : expm 0 = 1%:M -> last 0 (clamped [::] timegrids 0) = 0 ->
    get_propagator_AD expm D pulses timegrids = 1%:M.
  Proof.
    move=> E0 L. rewrite /get_propagator_AD L mul0r /pw_final_evolution_AD. elim: (iota 0 _) => [|i l IH] //. cbn [foldl]. by rewrite {2}mulr0 scale0r E0 mul1mx IH.
  Qed.
  (** A first time grid that ends with zero: the evolution stands still *)
  Theorem C77_ising_stands_still d (expm : 'M[C]_d -> 'M[C]_d) D pulses timegrids : expm 0 = 1%:M -> last 0 (clamped [::] timegrids 0) = 0 ->
    get_FoM_AD expm D pulses timegrids = `|\tr (adj (i_rho0 D) *m i_target D)|.
  Proof. move=> E0 L. rewrite /get_FoM_AD /fidelity_funct_AD frozen_propagator // mul1mx. by rewrite /adj trmx1 map_mx1 mulmx1. Qed.

  Variables (N : Verif.Num.Num) (c64 : Verif.Num.num -> Verif.Num.num) (read : Verif.Num.num -> C).
  Hypothesis read0 : read (Verif.Num.of_Z 0) = 0.
  (** Two or more spins, a first pulse with fewer bins than another one: the figure of merit is zero for every vector *)
  Theorem C77_ising_zero n (J g : C) slices is_max D expm pl tl rl c0 c traced x c' A f : (1 < n)%N -> ising_problem n J g slices is_max = Ok D -> expm 0 = 1%:M ->
    ModelControls.new_controls (N := N) pl tl rl = Ok c0 -> List.Forall SpecControls.plain_basis pl -> SpecControls.reachable c0 c ->
    ModelJax.get_controls_jax_obj c64 traced x c = Ok (c', A) ->
    List.nth_error pl 0 = Some f -> Nat.lt (ModelPulse.pf_bins f) (List.list_max (List.map ModelPulse.pf_bins pl)) ->
    get_FoM_AD expm D (map (map read) (ModelJax.j_pulses A)) (map (map read) (ModelJax.j_timegrids A)) = 0.
  Proof.
    move=> N1 ED E0 HC PB R HA Ef L. have [d [_ K]] := PropJax.C77_same_controls _ _ _ _ _ _ _ _ _ _ HC PB R HA.
    have [row [grid [_ [Eg La]]]] := PropJax.C77_shorter_pulse _ _ _ _ _ _ K Ef L.
    have P : (0 < 2 ^ n)%N by rewrite expn_gt0. have Q : (2 ^ n - 1 < 2 ^ n)%N by rewrite ltn_subrL P.
    have [H0 [Hc [_ [_ E]]]] := problem_ok N1 J g slices is_max (i0 := Ordinal P) (i1 := Ordinal Q) erefl erefl. rewrite E in ED. case: ED => <-.
    rewrite C77_ising_stands_still //; last first.
    { case: (ModelJax.j_timegrids A) Eg => [|g0 gs] //= [X]. subst g0. rewrite /clamped min0n /= -read0.
      have -> : forall l y, last (read y) (map read l) = read (List.last l y).
      { elim=> [|a l IH] y //=. rewrite IH. case: l {IH} => [|b l] //=. elim: l b => [|e l IH] b //=. }
      by rewrite (proj2 (La (Verif.Num.of_Z 0))). }
    cbn [i_rho0 i_target]. rewrite overlap_pure.
    have -> : (dagger (delta_mx (Ordinal Q) 0 : 'cV[C]_(2 ^ n)) *m (delta_mx (Ordinal P) 0 : 'cV[C]_(2 ^ n))) 0 0 = 0.
    { rewrite mxE big1 // => k _. rewrite !mxE. case: (k =P Ordinal P) => [->|_]; last by rewrite mulr0.
      have -> : (Ordinal P == Ordinal Q) = false; last by rewrite conjC0 mul0r.
      apply/eqP => -[X]. have : (2 ^ 1 <= 2 ^ n)%N by rewrite leq_exp2l // ltnW. rewrite expn1. lia. }
    by rewrite normr0 expr0n /= normr0.
  Qed.
End Frozen.
(** the pulses of [C77_example], which have two and three bins, in the problem with two spins *)
Example C77_ising_zero_example (C : numClosedFieldType) : exists D c0 c' A f,
  ising_problem (C := C) 2 1 1 10 true = Ok D /\
  ModelControls.new_controls (N := Verif.Num.F64) PropJax.jx_pulses [:: ExampleControls.ex_time 4 0 8 false] [:: ExampleControls.ex_param 0 2] = Ok c0 /\
  List.Forall SpecControls.plain_basis (PropJax.jx_pulses (N := Verif.Num.F64)) /\
  ModelJax.get_controls_jax_obj (fun y => y) true PropJax.jx_vector c0 = Ok (c', A) /\
  List.nth_error (PropJax.jx_pulses (N := Verif.Num.F64)) 0 = Some f /\
  Nat.lt (ModelPulse.pf_bins f) (List.list_max (List.map ModelPulse.pf_bins (PropJax.jx_pulses (N := Verif.Num.F64)))).
Proof.
  have [c0 [c' [A [H1 [H2 [_ [H3 _]]]]]]] := PropJax.C77_example.
  have P : (0 < 2 ^ 2)%N by []. have Q : (2 ^ 2 - 1 < 2 ^ 2)%N by [].
  have [H0 [Hc [_ [_ E]]]] := problem_ok (n := 2) isT (1 : C) 1 10 true (i0 := Ordinal P) (i1 := Ordinal Q) erefl erefl.
  exists (IsingData 10 (matrix_of 2 H0) (matrix_of 2 Hc) (pure (delta_mx (Ordinal P) 0)) (pure (delta_mx (Ordinal Q) 0)) (-1)), c0, c', A, (PropJax.jx_pulse 2).
  split; first exact: E. split; first exact: H1. split; first exact: H2. split; first exact: H3. split; first by []. cbn. lia.
Qed.
Print Assumptions C77_ising_stands_still.
Print Assumptions C77_ising_zero.
