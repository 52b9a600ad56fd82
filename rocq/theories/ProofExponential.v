(** Exponentials of hermitian matrices exist and are unique; sizes of density matrices; a slice in which the gradient misleads. *)
From Coq Require Import Reals Lra Epsilon.
From mathcomp Require Import all_ssreflect all_algebra.
From mathcomp.real_closed Require Import complex.
From Verif Require Import Py RealStruct SpecQuantum SpecFidelity SpecGrapeExact ModelQuantum ProofQuantum ProofSpectral ProofFidelity ProofWitness
  ProofMatrixCalculus ProofFrobenius ProofSliceChange ProofGrapeExact.
Import Order.TTheory GRing.Theory Num.Theory.
Set Implicit Arguments.
Unset Strict Implicit.
Unset Printing Implicit Defensive.
Local Open Scope ring_scope.

Definition phase (x s : R) : Cx := (cos (x * s)%coqR -i* sin (x * s)%coqR)%C.
Lemma phase_der x s : cder (phase x) s ((- 'i * creal x) * phase x s).
Proof.
  have D : derivable_pt_lim (fun u => x * u)%coqR s x.
  { apply: dval (derivable_pt_lim_scal _ x _ _ (derivable_pt_lim_id s)). ring. }
  split.
  - apply: (@dval _ _ (- sin (x * s) * x)%coqR); last exact: (derivable_pt_lim_comp _ cos s _ _ D (derivable_pt_lim_cos _)).
    rewrite !(re_mul, im_mul, re_opp, im_opp) re_i im_i re_creal im_creal /re /im /= /GRing.opp /=. ring.
  - apply: (@dval _ _ (- (cos (x * s) * x))%coqR); last first.
    { exact: (derivable_pt_lim_opp _ _ _ (derivable_pt_lim_comp _ sin s _ _ D (derivable_pt_lim_sin _))). }
    rewrite !(re_mul, im_mul, re_opp, im_opp) re_i im_i re_creal im_creal /re /im /= /GRing.opp /=. ring.
Qed.
Lemma phase0 x : phase x R0 = 1.
Proof. apply: cx_eq; rewrite /phase /re /im /= ?Rmult_0_r; [exact: cos_0|]. rewrite sin_0. exact: Ropp_0. Qed.

Lemma real_creal (z : Cx) : z \is Num.real -> z = creal (re z).
Proof. move=> /Creal_ReP E. by rewrite -{1}E -complexRe. Qed.

Lemma flow_exists d (H : 'M[Cx]_d) : hermitian H -> exists V, flow H V.
Proof.
  move=> /spectral [U [l [UU [L ->]]]]. pose D s := diag_mx (\row_i phase (re (l 0 i)) s).
  have U1 := proj1 (unitaryE U) UU. have U2 := unitary_r UU.
  exists (fun s => U *m D s *m adj U). split.
  - have -> : D R0 = 1%:M; last by rewrite mulmx1. apply/matrixP => i j. rewrite !mxE phase0. by [].
  - move=> s. have DD : mder D s (- 'i *: diag_mx l *m D s).
    { move=> i j. rewrite -scalemxAl mxE mul_diag_mx [D s]lock !mxE -lock. rewrite mxE mxE. case: (eqVneq i j) => [<-|N].
      - rewrite mulr1n. have := phase_der (re (l 0 i)) s. rewrite -(real_creal (L i)) mulrA. apply: cext => x. by rewrite !mxE eqxx mulr1n.
      - rewrite mulr0n !mulr0. apply: cext (cconst 0 s) => x. by rewrite !mxE (negbTE N) mulr0n. }
    have := mmulr (adj U) (mmull U DD). set X := _ *m _. set Y := _ *m _. have -> // : X = Y.
    rewrite /X /Y -!scalemxAl -!scalemxAr -!scalemxAl. congr (_ *: _). by rewrite !mulmxA -[U *m diag_mx l *m adj U *m U]mulmxA U1 mulmx1.
Qed.
Lemma expm_exists d : exists expm : 'M[Cx]_d -> 'M[Cx]_d, computes_exponentials expm.
Proof.
  exists (fun A => epsilon (inhabits 0) (exponential_of A)) => H HH. apply: epsilon_spec. have [V [V0 DV]] := flow_exists HH.
  exists (V R1), V. by [].
Qed.
Lemma flow_unique d (K : 'M[Cx]_d) V W : adj K = K -> flow K V -> flow K W -> forall s, V s = W s.
Proof.
  move=> HK FV FW s. have [A1 A2] := flow_unitary HK FV s.
  have E : adj (V s) *m W s = 1%:M.
  { rewrite (@constant_matrix _ _ (fun u => adj (V u) *m W u) _ s); first by rewrite (proj1 FV) (proj1 FW) adj1 mulmx1.
    move=> u. have := mmul (madj (proj2 FV u)) (proj2 FW u). rewrite adj_mul adj_scale conj_neg_i HK. set D := _ + _. have -> // : D = 0.
    by rewrite /D mulmxA -!scalemxAr -!scalemxAl scaleNr subrr. }
  by rewrite -[LHS]mulmx1 -E mulmxA A2 mul1mx.
Qed.
Lemma expm_unique d (expm : 'M[Cx]_d -> 'M[Cx]_d) K V : computes_exponentials expm -> adj K = K -> flow K V -> expm (- 'i *: K) = V R1.
Proof.
  move=> EX HK FV. have [W [FW <-]] := exponential_flow (EX K (proj2 (hermitianE K) HK)). symmetry. exact: (flow_unique HK FV FW).
Qed.

Lemma density_norm d (rho : 'M[Cx]_d) : density rho -> (nrm rho <= 1)%coqR.
Proof.
  move=> [/spectral_ge0 [U [l [UU [P ->]]]] T]. have U1 := proj1 (unitaryE U) UU. have U2 := unitary_r UU.
  rewrite -mulmxA nrm_ul // nrm_ur ?adjK //. rewrite mxtrace_mulC mulmxA U1 mul1mx mxtrace_diag in T.
  pose e i := re (l 0 i). have L0 : forall i, (0 <= e i)%coqR by move=> i; case: (cx_ge0 (P i)).
  have S : forall r : seq 'I_d, (re (\sum_(i <- r) l 0 i) = \sum_(i <- r) e i) /\ (0 <= \sum_(i <- r) e i)%coqR /\
    (\sum_(i <- r) (Rmult (e i) (e i)) <= (\sum_(i <- r) e i) * (\sum_(i <- r) e i))%coqR.
  { elim=> [|i r [IH1 [IH2 IH3]]]; first by rewrite !big_nil; split; [by []|split; [exact: Rle_refl|rewrite -[GRing.zero _]/(IZR 0); lra]].
    rewrite !big_cons re_add IH1. split; first by []. have := L0 i. rewrite -/(e i).
    move: IH2 IH3. set x := \sum_(j <- r) e j. set y := \sum_(j <- r) Rmult (e j) (e j). rewrite -[e i + x]/(Rplus (e i) x) -[Rmult (e i) (e i) + y]/(Rplus (Rmult (e i) (e i)) y).
    move=> IH2 IH3 LI. split; first lra. nra. }
  have [S1 [S2 S3]] := S (index_enum _). rewrite /nrm ip_entries. rewrite -sqrt_1. apply: sqrt_le_1_alt.
  have -> : \sum_j \sum_i n2 (diag_mx l i j) = \sum_i (Rmult (e i) (e i)).
  { apply: eq_bigr => j _. rewrite (bigD1 j) //= big1 ?addr0.
    - rewrite /n2 !mxE eqxx mulr1n. have [_ ->] := cx_ge0 (P j). rewrite Rmult_0_r Rplus_0_r. by [].
    - move=> i N. by rewrite !mxE (negbTE N) mulr0n /n2 re_0 im_0 Rmult_0_r Rplus_0_r. }
  apply: Rle_trans S3 _. rewrite -S1 T re_1. lra.
Qed.
