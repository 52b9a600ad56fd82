(** * C85: from a control parameter to the number GRAPE gives L-BFGS-B, for the bundled Ising problem.
    C81 follows a control parameter to the samples of the pulse, C82 follows a sample to the figure of merit; here is the whole way. *)
From Coq Require Import Reals Lra List.
From mathcomp Require Import all_ssreflect all_algebra.
From mathcomp.real_closed Require Import complex.
From Verif Require Import Num Py ModelPulse ModelBases ModelControls SpecControls RealStruct SpecQuantum SpecFidelity SpecGrapeExact SpecGrapeVector ModelQuantum
  ProofQuantum ProofGrape ProofProblems ProofIsing ProofMatrixCalculus ProofWitness ProofSpectral ProofFidelity ProofExponential ProofHalfTurn ProofFrobenius ProofGrapeExact PropQuantum PropFidelity PropGrapeExact PropGrapeVector ProofGrapeIsing ProofPipeline ExampleControls.
Import Order.TTheory GRing.Theory Num.Theory.
Set Implicit Arguments.
Unset Strict Implicit.
Unset Printing Implicit Defensive.
Local Open Scope ring_scope.
Local Open Scope seq_scope.

Lemma nth_list (l : list R) j : List.nth j l R0 = seq.nth R0 l j.
Proof. by elim: l j => [|a l IH] [|j] //=. Qed.
Lemma put_seq (l : list R) j w : (j < size l)%N -> put j w l = seq.set_nth R0 l j w.
Proof. elim: l j => [|a l IH] [|j] //= H. by rewrite /put /= -(IH j H). Qed.
Lemma real_number x : real_part (number x) = x.
Proof. by []. Qed.

Section C85.
  (** the controls: one pulse of steps *)
  Variables (F : funs Rnum) (s : basis_settings (N := Rnum)) (u : common_settings (N := Rnum)).
  Variables (pl : list (pulse_cfg (N := Rnum))) (tl : list (time_cfg (N := Rnum))) (rl : list (param_cfg (N := Rnum))) (ctl : controls (N := Rnum)) (x ss gs bs : list R).
  Hypothesis steps : of_steps F s u pl tl rl ctl x ss gs bs.
  (** its samples at [x], and at [x] with another number in place of entry [j] *)
  Variables (a grid : list R) (j : nat) (pulse : R -> list R).
  Hypothesis here : first_pulse (N := Rnum) x ctl a.
  Hypothesis there : forall t, first_pulse (N := Rnum) (put j t x) ctl (pulse t).
  Hypothesis times : first_grid (N := Rnum) x ctl grid.
  (** the problem: real target, initial state and target pure *)
  Variables (d : nat) (expm sqrtm : 'M[Cx]_d -> 'M[Cx]_d) (D : ising_data Cx d) (phi psi : 'cV[Cx]_d) (c : R).
  Hypothesis exact : computes_exponentials expm.
  Hypothesis roots : roots_pure sqrtm.
  Hypothesis drift : hermitian (i_drift D).
  Hypothesis control : hermitian (i_control D).
  Hypothesis initial : i_rho0 D = pure phi /\ sandwich phi 1%:M phi = 1.
  Hypothesis aim : i_target D = pure psi /\ sandwich psi 1%:M psi = 1 /\ forall i, psi i 0 \is Num.real.
  Hypothesis factor : i_factor D = number c.
  (** what GRAPE computes at [x], after any earlier calls *)
  Variables (X X' : ising Cx d) (G G' : grape Cx d) (grads : seq Cx).
  Notation n := (i_slices D).
  Notation dt := (last R0 grid / INR (size grid))%coqR.
  Hypothesis bins : cs_bins u = n.
  Hypothesis room : (n <= size (prop_store X))%N.
  Hypothesis propagators : get_propagator expm D [:: map number a] [:: map number grid] X = (X', Ok tt).
  Hypothesis before : reached true false n (i_rho0 D) (i_target D) G.
  Hypothesis gradient : get_gradient true false n (number dt) (i_control D) (prop_store X') G = Ok (G', grads).
  Hypothesis slice_there : (j < n)%N.
  Hypothesis entry_there : (j < size x)%N.
  Notation entry := (real_part (nth 0 grads j)).
  Notation lo := (Rmin (cs_lower u) (cs_upper u)).
  Notation hi := (Rmax (cs_lower u) (cs_upper u)).
  Notation v := (uncut (cs_lower u) (cs_upper u) ss gs bs x j).
  Notation answer p := (answers expm sqrtm D (ising_new D) [:: Merit (map number p, map number grid)]).

  Lemma j_bins : (j < cs_bins u)%coq_nat. Proof. rewrite bins. exact/ssrnat.ltP. Qed.
  Lemma at_x : pulse (List.nth j x R0) = a.
  Proof. have := there (List.nth j x R0). rewrite put_same; last exact/ssrnat.ltP. move=> H. exact: (@pulse_once ctl x _ _ H here). Qed.
  Lemma grid_there : grid <> [::].
  Proof. have L : length grid = n by rewrite -bins; exact: (@grid_size F s u pl tl rl ctl x ss gs bs steps grid times). move=> E. move: slice_there. by rewrite -L E. Qed.
  Lemma size_pulse y l : first_pulse (N := Rnum) y ctl l -> size l = n.
  Proof. move=> H. have [L _] := @C81_sample F s u pl tl rl ctl x ss gs bs steps y l j H j_bins. rewrite -bins. exact: L. Qed.
  Lemma pulse_put t : pulse t = put j (List.nth j (pulse t) R0) a.
  Proof.
    have SA : size a = n := size_pulse here. rewrite put_seq; last by rewrite SA.
    have SP : size (pulse t) = n := size_pulse (there t).
    apply: (@eq_from_nth _ R0). { rewrite size_set_nth SP SA. by rewrite (maxn_idPr slice_there). }
    move=> k; rewrite SP => K. rewrite nth_set_nth /=. case: eqP => [->|/eqP NK]; first by rewrite nth_list.
    have KB : (k < cs_bins u)%coq_nat by rewrite bins; exact/ssrnat.ltP.
    have [_ [_ H]] := @C81_derivative F s u pl tl rl ctl x ss gs bs steps pulse j k there (ssrnat.ltP entry_there) KB.
    have JK : j <> k by move=> E; move: NK; rewrite E eqxx.
    have := H JK t (List.nth j x R0). by rewrite at_x !nth_list.
  Qed.
  (** The grid is the same whatever control parameter [j] is. *)
  Theorem C85_grid t : first_grid (N := Rnum) (put j t x) ctl grid.
  Proof. exact: (@grid_stays F s u pl tl rl ctl x ss gs bs steps grid (put j t x) (pulse t) times (there t)). Qed.
  (** The figure of merit as a function of control parameter [j]: its slope is the sample of the scaling function times a number that is the
      entry GRAPE computes, times [c], up to the square of the slice length, while the sample is inside the limits; outside it is 0. *)
  Theorem C85_slope : exists merit m, (forall t, answer (pulse t) = [:: Some (Ok (number (merit t)))]) /\
    (Rabs (m - c * entry) <= Rabs c * (dt ^ 2 * frobenius (bracket (i_drift D) (i_control D))))%coqR /\
    (lo < v < hi -> derivable_pt_lim merit (List.nth j x R0) (List.nth j ss R0 * m))%coqR /\
    (v < lo \/ hi < v -> derivable_pt_lim merit (List.nth j x R0) 0)%coqR.
  Proof.
    have SA : size a = n := size_pulse here.
    have AN : (n <= size a)%N by rewrite SA.
    have [F0 [m [HA [HD HB]]]] := @C82_ising _ expm sqrtm D phi psi c exact roots drift control initial aim factor a grid X X' G G' grads j AN grid_there room propagators before gradient slice_there.
    pose M (q : list R) : R := match answer q with [:: Some (Ok z)] => real_part z | _ => R0 end.
    have MP w : M (put j w a) = F0 w. { rewrite /M put_seq ?SA // HA. by []. }
    exists (fun t => M (pulse t)), m. split; last split; first last.
    - have H := @C81_merit F s u pl tl rl ctl x ss gs bs steps pulse j M m there (ssrnat.ltP entry_there) j_bins.
      rewrite at_x in H. have HM : derivable_pt_lim (fun w => M (put j w a)) (List.nth j a R0) m.
      { rewrite nth_list. refine (@ext_derivable F0 _ _ m _ HD) => w. by rewrite MP. }
      exact: (H HM).
    - exact: HB.
    - move=> t. rewrite /M {2}pulse_put. rewrite {1}pulse_put !put_seq ?SA // !HA. by [].
  Qed.
  (** If drift and control commute, [c] times the entry times the sample of the scaling function is the slope. *)
  Theorem C85_exact : bracket (i_drift D) (i_control D) = 0 -> (lo < v < hi)%coqR -> exists merit,
    (forall t, answer (pulse t) = [:: Some (Ok (number (merit t)))]) /\ derivable_pt_lim merit (List.nth j x R0) (List.nth j ss R0 * (c * entry))%coqR.
  Proof.
    move=> C I. have [merit [m [HA [HB [HI _]]]]] := C85_slope. exists merit. split=> //. move: HB. rewrite C frobeniusE nrm0 Rmult_0_r Rmult_0_r => HB.
    have E : m = (c * entry)%coqR. { have := Rabs_pos (m - c * entry). move=> P. have Z : Rabs (m - c * entry) = R0 by lra. move: Z. rewrite /Rabs. by case: Rcase_abs => _ Q; lra. }
    rewrite -E. exact: HI.
  Qed.
  (** If the entry is larger than the bound, small steps of control parameter [j] against the entry lower the figure of merit. *)
  Theorem C85_descent : (lo < v < hi)%coqR -> (0 < c)%coqR -> (0 < List.nth j ss R0)%coqR ->
    (dt ^ 2 * frobenius (bracket (i_drift D) (i_control D)) < Rabs entry)%coqR -> exists merit e,
    (forall t, answer (pulse t) = [:: Some (Ok (number (merit t)))]) /\ (0 < e)%coqR /\
    forall h, (0 < h < e)%coqR -> (merit (List.nth j x R0 - h * entry) < merit (List.nth j x R0))%coqR.
  Proof.
    move=> I C0 S0 L. have [merit [m [HA [HB [HI _]]]]] := C85_slope. have HD := derivable_pt_lim_opp _ _ _ (HI I).
    have P : (- (List.nth j ss R0 * m) * entry < 0)%coqR.
    { set k := List.nth j ss R0 in S0 *. set b := (dt ^ 2 * _)%coqR in L HB. set g := entry in L HB *. rewrite (Rabs_pos_eq c) in HB; last lra.
      have A1 : (- (c * b) <= m - c * g)%coqR by move: HB; rewrite /Rabs; case: Rcase_abs => *; lra.
      have A2 : (m - c * g <= c * b)%coqR by move: HB; rewrite /Rabs; case: Rcase_abs => *; lra.
      have Q : (0 < m * g)%coqR.
      { move: L. rewrite /Rabs. case: Rcase_abs => W L.
        - have A : (m < 0)%coqR by have := Rmult_lt_compat_l c _ _ C0 L; lra. have := Rmult_lt_0_compat (- m) (- g); lra.
        - have A : (0 < m)%coqR by have := Rmult_lt_compat_l c _ _ C0 L; lra. have B : (0 < g)%coqR. { have : (0 <= b)%coqR by apply: Rmult_le_pos; [exact: pow2_ge_0|rewrite frobeniusE; exact: nrm_ge0]. lra. }
          exact: Rmult_lt_0_compat. }
      have := Rmult_lt_0_compat _ _ S0 Q. lra. }
    have [e [E0 H]] := @descent _ _ _ _ HD P. exists merit, e. split=> //. split=> // h Hh. have := H h Hh. rewrite /opp_fct. lra.
  Qed.
End C85.

(** the hypotheses are met: two steps scaled by 2 between -1 and 1, at the zero vector, for a qubit whose drift does not commute with the control *)
Example C85_case : exists ctl (expm sqrtm : 'M[Cx]_2 -> 'M[Cx]_2) D (phi psi : 'cV[Cx]_2) X' G' grads,
  let u := ex_common (N := Rnum) 2 (GArr [:: R0; R0]) (SArr [:: 2%coqR; 2%coqR]) false None false in
  of_steps ex_funs (ex_basis 1) u [::] [:: ex_time 1 0 2 false] [::] ctl [:: R0; R0] [:: 2%coqR; 2%coqR] [:: R0; R0] [:: R0; R0] /\
  first_pulse (N := Rnum) [:: R0; R0] ctl [:: R0; R0] /\ (forall t, first_pulse (N := Rnum) (put 0 t [:: R0; R0]) ctl (scaled_samples 2%coqR t)) /\
  first_grid (N := Rnum) [:: R0; R0] ctl [:: R0; R1] /\
  computes_exponentials expm /\ roots_pure sqrtm /\ hermitian (i_drift D) /\ hermitian (i_control D) /\
  (i_rho0 D = pure phi /\ sandwich phi 1%:M phi = 1) /\ (i_target D = pure psi /\ sandwich psi 1%:M psi = 1 /\ forall i, psi i 0 \is Num.real) /\
  i_factor D = number R1 /\ cs_bins u = i_slices D /\ i_slices D = 2%N /\ (2 <= size (prop_store (ising_new D)))%N /\
  get_propagator expm D [:: map number [:: R0; R0]] [:: map number [:: R0; R1]] (ising_new D) = (X', Ok tt) /\
  reached true false 2 (i_rho0 D) (i_target D) (grape_new false 2 (i_rho0 D) (i_target D)) /\
  get_gradient true false 2 (number (R1 / INR 2)%coqR) (i_control D) (prop_store X') (grape_new false 2 (i_rho0 D) (i_target D)) = Ok (G', grads) /\
  (Rmin (cs_lower u) (cs_upper u) < uncut (cs_lower u) (cs_upper u) [:: 2%coqR; 2%coqR] [:: R0; R0] [:: R0; R0] [:: R0; R0] 0 < Rmax (cs_lower u) (cs_upper u))%coqR /\
  bracket (i_drift D) (i_control D) <> 0.
Proof.
  have [ctl [_ [S H]]] := scaled_controls 2%coqR. have [expm EX] := expm_exists 2.
  pose D : ising_data Cx 2 := IsingData 2 (sigma_z Cx) (sigma_x Cx) (pure (ket (1 : Cx) 0)) (pure (ket (0 : Cx) 1)) 1.
  have FP t : first_pulse (N := Rnum) [:: t; R0] ctl (scaled_samples 2%coqR t).
  { have [c' [e [A [B _]]]] := H t. exists c', e. split; first exact: A. by rewrite B. }
  have C1 : covers [:: map number [:: R0; R0]] 1 2 by move=> k; rewrite ltnS leqn0 => /eqP ->.
  have P := @pw_evolutionE _ _ expm [:: map number [:: R0; R0]] (sigma_z Cx) [:: sigma_x Cx] (number R1 / 2%:R) 2 [:: 0; 0] C1 isT.
  set us := (_ ++ _) in P. have R2 : reached true false 2 (i_rho0 D) (i_target D) (grape_new false 2 (i_rho0 D) (i_target D)) by exact: reached_new.
  have [G' [grads [E _]]] := gradient_spec (number (R1 / INR 2)%coqR) (sigma_x Cx) R2 (us := us) isT.
  exists ctl, expm, (@pure_root Cx 2), D, (ket 1 0), (ket 0 1), (Ising us true), G', grads => u.
  split; first exact: S. split. { have := FP R0. rewrite /scaled_samples Rmult_0_r Rmin_left; last lra. rewrite Rmax_right; last lra. by []. }
  split; first exact: FP. split. { have [c' [e [A [_ [T _]]]]] := H R0. exists c', e. split; first exact: A. by rewrite T. }
  have N : forall a b : Cx, sandwich (ket a b) 1%:M (ket a b) = a * a^* + b * b^*.
  { move=> x y. by rewrite /sandwich mulmx1 -adjE ket_bra mulrC [y^* * y]mulrC. }
  split=> //. split; first exact: C54_root. split; first exact: hz. split; first exact: hx. split; first by rewrite N conjC1 conjC0 mulr1 mulr0 addr0. split.
  { split=> //. split; first by rewrite N conjC1 conjC0 mulr1 mulr0 add0r. move=> i. rewrite mxE. by case: ifP => _; rewrite ?rpred0 ?rpred1. }
  do 4 (split; first by []). split. { rewrite /get_propagator. change (let '(store, r) := pw_evolution expm [:: 0; 0] [:: map number [:: R0; R0]] (sigma_z Cx) [:: sigma_x Cx] 2 (number R1 / 2%:R) in match r with Ok _ => (Ising store true, Ok tt) | Err e => (Ising store false, Err e) end = (Ising us true, Ok tt)). by rewrite P. } split; first exact: R2. split; first exact: E. split.
  - rewrite /uncut /= Rcut_clip. rewrite (Rmin_left (-1) 1) ?(Rmax_right (-1) 1) ?(Rmin_left 0 1) ?Rmax_right; lra.
  - rewrite /= /bracket /sigma_z /sigma_x !mul22 => /matrixP /(_ 0 1). rewrite !mxE /= => /eqP. rewrite ?mulr0 ?mul0r ?addr0 ?add0r ?mulr1 ?mul1r ?mulN1r ?mulrN1 ?opprK ?oppr0 ?sub0r. by rewrite ?opprK (eqr_nat Cx 2 0).
Qed.
Print Assumptions C85_grid.
Print Assumptions C85_slope.
Print Assumptions C85_exact.
Print Assumptions C85_descent.
