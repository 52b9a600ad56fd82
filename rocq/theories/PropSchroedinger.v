(** * C83: the piecewise integrator and the Schroedinger equation.
    [expm] is any function that computes the exponentials of -i times hermitian matrices.  Amplitudes and durations are real numbers. *)
From Coq Require Import Reals Lra.
From mathcomp Require Import all_ssreflect all_algebra.
From mathcomp.real_closed Require Import complex.
From Verif Require SpecControls.
From Verif Require Import Py RealStruct SpecQuantum SpecFidelity SpecGrapeExact SpecSchroedinger ModelQuantum ProofQuantum ProofGrape ProofProblems ProofIsing ProofSpectral ProofFidelity ProofWitness
  ProofMatrixCalculus ProofFrobenius ProofSliceChange ProofGrapeExact ProofExponential ProofHalfTurn ProofTurns ProofSchroedinger PropQuantum PropFidelity.
Import Order.TTheory GRing.Theory Num.Theory.
Set Implicit Arguments.
Unset Strict Implicit.
Unset Printing Implicit Defensive.
Local Open Scope ring_scope.
Local Open Scope seq_scope.
Notation equally_spaced := SpecControls.equally_spaced.

Section C83.
  Variables (d : nat) (expm : 'M[Cx]_d -> 'M[Cx]_d) (A : 'M[Cx]_d) (B : seq 'M[Cx]_d).
  Notation M := 'M[Cx]_d.
  Hypothesis exact : computes_exponentials expm.
  Hypothesis drift : hermitian A.
  Hypothesis controls : forall b, b \in B -> hermitian b.
  Notation Bk k := (nth 0 B (nat_of_ord k)).
  (** rows of amplitudes, one row for each control *)
  Implicit Types (a : seq (seq R)).
  Notation drive a := (map (map number) a).
  Let HA : adj A = A. Proof. exact/hermitianE. Qed.
  Let HB : forall b, b \in B -> adj b = b. Proof. move=> b /controls. by move/hermitianE. Qed.
  Let HH a i : adj (hamiltonian (drive a) A B i) = hamiltonian (drive a) A B i. Proof. exact: adj_hamiltonian. Qed.

  (** the final propagator is the solution for the Hamiltonian that is constant in each slice, and there is no other *)
  Theorem C83_solution a n dt U0 : covers (drive a) (size B) n -> exists U,
    pw_final_evolution expm (drive a) A B n (number dt) U0 = Ok U /\
    forall U', steps_solution (hamiltonian (drive a) A B) dt n U0 U' <-> U' = U.
  Proof.
    move=> K. eexists. split; first exact: (final_evolved _ _ _ _ K). move=> U'. split.
    - move=> S. exact: (steps_unique exact (HH a) S).
    - move=> ->. exact: (steps_exist dt exact (HH a)).
  Qed.
  Local Open Scope R_scope.
  (** how much other amplitudes can change it *)
  Theorem C83_amplitudes a b n dt U0 U V : covers (drive a) (size B) n -> covers (drive b) (size B) n -> unitary U0 ->
    pw_final_evolution expm (drive a) A B n (number dt) U0 = Ok U -> pw_final_evolution expm (drive b) A B n (number dt) U0 = Ok V ->
    frobenius (U - V)%R <= Rabs dt * (\sum_(i < n) \sum_(k < size B) (Rabs (nth R0 (nth [::] a k) i - nth R0 (nth [::] b k) i) * frobenius (Bk k))%coqR)%R.
  Proof.
    move=> Ka Kb UU. rewrite (final_evolved _ _ _ _ Ka) (final_evolved _ _ _ _ Kb) => -[<-] [<-]. rewrite frobeniusE.
    have Q := steps_distance dt exact n (HH a) (HH b) (proj1 (unitaryE U0) UU).
    apply: Rle_trans Q _. apply: Rmult_le_compat_l; first exact: Rabs_pos.
    apply: sum_le => i _. rewrite !hamiltonian_real. have Q2 := hamiltonian_gap A B (fun k => nth R0 (nth [::] a k) i) (fun k => nth R0 (nth [::] b k) i).
    apply: Rle_trans Q2 _. apply: Req_le. apply: eq_bigr => k _. by rewrite frobeniusE.
  Qed.
  (** each slice cut into [r + 1] slices with the same amplitudes *)
  Theorem C83_refine a n r dt U0 : covers (drive a) (size B) n ->
    pw_final_evolution expm (drive (map (stretched r.+1) a)) A B (n * r.+1) (number (dt / INR r.+1)) U0 =
    pw_final_evolution expm (drive a) A B n (number dt) U0.
  Proof.
    move=> K. rewrite (final_evolved _ _ _ _ K) final_evolved.
    - congr Ok. rewrite -(refine_steps dt r n U0 exact (HH a)). apply: eq_evolved => i _. rewrite /propagator. do 2 f_equal.
      rewrite !hamiltonian_real. do 1 f_equal. apply: eq_bigr => k _. do 2 f_equal.
      case: (ltnP k (size a)) => L; first by rewrite (nth_map [::]) // nth_stretched. by rewrite [nth _ a k]nth_default // (nth_default [::]) ?size_map // !nth_nil.
    - move=> k L. have [K1 K2] := K k L. rewrite !size_map in K1 *. split=> //. rewrite -map_comp (nth_map [::]) //= size_map size_stretched.
      rewrite (nth_map [::]) // size_map in K2. by rewrite leq_mul2r K2 orbT.
  Qed.
End C83.

(** ** Pulses that are samples of a function of time *)
Lemma nth_errorE (l : seq R) j x : List.nth_error l j = Some x -> nth R0 l j = x.
Proof. elim: l j => [|y l IH] [|j] //=; [by case|exact: IH]. Qed.
Lemma grid_nth T n grid j : equally_spaced T n.+2 grid -> (j < n.+2)%N -> nth R0 grid j = (INR j * (T / INR n.+1))%coqR.
Proof. move=> [S E] L. have Q := E j (elimT ssrnat.ltP L). rewrite /= in Q. exact: nth_errorE Q. Qed.
Lemma grid_size T n grid : equally_spaced T n grid -> size grid = n. Proof. by case. Qed.
(** point [i] of the grid lies in slice [i] *)
Lemma point_in_slice T n i : (0 < T)%coqR -> (i < n.+2)%N ->
  (INR i * (T / INR n.+2) <= INR i * (T / INR n.+1) <= INR i.+1 * (T / INR n.+2))%coqR /\ (0 <= INR i * (T / INR n.+1) <= T)%coqR.
Proof.
  move=> T0 L. have N1 : (0 < INR n.+1)%coqR by apply: lt_0_INR; apply/ssrnat.ltP. have I0 := pos_INR i. have I1 : (INR i <= INR n.+1)%coqR by apply: le_INR; apply/ssrnat.leP.
  have E2 : INR n.+2 = (INR n.+1 + 1)%coqR by exact: S_INR. have E3 := S_INR i. rewrite E2 E3. move: (INR n.+1) (INR i) N1 I0 I1 => x y X Y YX.
  have P : (T / x - T / (x + 1) = T / (x * (x + 1)))%coqR by field; lra. have Q : (0 < T / (x * (x + 1)))%coqR by apply: Rdiv_lt_0_compat => //; nra.
  have E4 : (x * (T / (x * (x + 1))) = T / (x + 1))%coqR by field; lra. have E5 : (x * (T / x) = T)%coqR by field; lra.
  have Q5 : (0 < T / x)%coqR by apply: Rdiv_lt_0_compat. split; split; nra.
Qed.
Lemma in_same_slice a b s u : (a <= s <= b)%coqR -> (a <= u <= b)%coqR -> (Rabs (s - u) <= b - a)%coqR.
Proof. move=> S U. apply: Rabs_le. lra. Qed.

Section C83_Samples.
  Variables (d : nat) (expm : 'M[Cx]_d -> 'M[Cx]_d) (A : 'M[Cx]_d) (B : seq 'M[Cx]_d).
  Notation M := 'M[Cx]_d.
  Hypothesis exact : computes_exponentials expm.
  Hypothesis drift : hermitian A.
  Hypothesis controls : forall b, b \in B -> hermitian b.
  Notation Bk k := (nth 0 B (nat_of_ord k)).
  Variables (f : nat -> R -> R) (L : nat -> R) (T : R) (n : nat) (grid : seq R).
  Hypothesis duration : (0 < T)%coqR.
  Hypothesis times : equally_spaced T n.+2 grid.
  Hypothesis smooth : forall k, (k < size B)%N -> lipschitz (L k) T (f k).
  (** the samples of [f k] at the points of the grid, for each control *)
  Definition sampled : seq (seq R) := mkseq (fun k => map (f k) grid) (size B).
  Variables (U : R -> M).
  Hypothesis solution : schroedinger (driven_hamiltonian A B f) 0%coqR T U.
  Hypothesis start : unitary (U 0%coqR).
  Lemma sampled_covers m : (m <= n.+2)%N -> covers (map (map number) sampled) (size B) m.
  Proof.
    move=> Lm k K. rewrite size_map size_mkseq K. split=> //. rewrite (nth_map [::]) ?size_mkseq // nth_mkseq // !size_map (grid_size times). by [].
  Qed.
  Lemma sampled_hamiltonian i : (i < n.+2)%N -> hamiltonian (map (map number) sampled) A B i = driven_hamiltonian A B f (nth R0 grid i).
  Proof.
    move=> I. rewrite hamiltonian_real. congr (_ + _). apply: eq_bigr => k _. rewrite nth_mkseq // (nth_map R0) // (grid_size times). by [].
  Qed.
  Let HA : adj A = A. Proof. exact/hermitianE. Qed.
  Let HB : forall b, b \in B -> adj b = b. Proof. move=> b /controls. by move/hermitianE. Qed.
  Lemma adj_driven s : adj (driven_hamiltonian A B f s) = driven_hamiltonian A B f s.
  Proof. exact: (adj_real_hamiltonian HA HB (fun k => f k s)). Qed.
  Local Open Scope R_scope.
  Notation total := (\sum_(k < size B) (L k * frobenius (Bk k))%coqR)%R.
  Lemma near_slice i s h : (i < n.+2)%N -> Rabs (s - nth R0 grid i) <= h -> 0 <= s <= T ->
    nrm (driven_hamiltonian A B f s - hamiltonian (map (map number) sampled) A B i)%R <= h * total.
  Proof.
    move=> I S ST. rewrite (sampled_hamiltonian I). have Q := hamiltonian_gap A B (fun k => f k s) (fun k => f k (nth R0 grid i)). apply: Rle_trans Q _.
    rewrite sum_scale. apply: sum_le => k _. rewrite frobeniusE -Rmult_assoc. apply: Rmult_le_compat_r; first exact: nrm_ge0.
    have [_ GT] := point_in_slice duration I. rewrite -(grid_nth times I) in GT. have Lk := smooth (ltn_ord k). apply: Rle_trans (Lk _ _ ST GT) _.
    rewrite Rmult_comm. apply: Rmult_le_compat_r => //. have Z := Lk T 0. have A0 := Rabs_pos (f k T - f k 0).
    have : 0 <= L k * Rabs (T - 0) by apply: Rle_trans A0 (Z _ _); lra. rewrite Rminus_0_r Rabs_pos_eq; last lra. move=> P.
    case: (Rle_dec 0 (L k)) => // /Rnot_le_lt N. have := Rmult_lt_compat_r T _ _ duration N. lra.
  Qed.
  Lemma slice_time_range i s h m : 0 <= h -> (i < m)%N -> INR m * h <= T -> INR i * h <= s <= INR i.+1 * h -> 0 <= s <= T.
  Proof.
    move=> h0 I K [S1 S2]. have I0 := pos_INR i. have : INR i.+1 <= INR m by apply: le_INR; apply/ssrnat.leP. move=> I1.
    have P1 := Rmult_le_pos _ _ I0 h0. have P2 := Rmult_le_compat_r _ _ _ h0 I1. lra.
  Qed.
  (** slices of length T / n, as in the Ising problem and in GRAPE: the error at the end *)
  Theorem C83_converges : exists V, pw_final_evolution expm (map (map number) sampled) A B n.+2 (number (T / INR n.+2)) (U 0) = Ok V /\
    frobenius (U T - V)%R <= T ^ 2 / INR n.+2 * total.
  Proof.
    have N2 : 0 < INR n.+2 by apply: lt_0_INR; apply/ssrnat.ltP.
    eexists. split; first exact: (final_evolved _ _ _ _ (sampled_covers (leqnn _))). rewrite frobeniusE.
    set h := T / INR n.+2. have h0 : 0 <= h by apply: Rlt_le; apply: Rdiv_lt_0_compat. have Th : INR n.+2 * h = T by rewrite /h; field; lra.
    have := @steps_follow d expm h exact (driven_hamiltonian A B f) (hamiltonian (map (map number) sampled) A B) T U (U 0) (h * total)
      adj_driven (adj_hamiltonian HA HB sampled) (proj1 (unitaryE _) start) solution erefl h0 n.+2 (Req_le _ _ Th) _.
    rewrite Th => Q. apply: Rle_trans (Q _) _.
    - move=> i s I S. apply: near_slice => //.
      + rewrite (grid_nth times I). have [P _] := point_in_slice duration I. have := in_same_slice S P. rewrite (S_INR i) -/h. lra.
      + apply: (slice_time_range h0 I _ S). exact: Req_le.
    - apply: Req_le. rewrite /h. field. lra.
  Qed.
  (** slices as long as the distance of two points: one slice too many *)
  Lemma one_slice_more : exists V W, pw_final_evolution expm (map (map number) sampled) A B n.+1 (number (T / INR n.+1)) (U 0) = Ok V /\
    pw_final_evolution expm (map (map number) sampled) A B n.+2 (number (T / INR n.+1)) (U 0) = Ok W /\
    frobenius (U T - V)%R <= T ^ 2 / INR n.+1 * total /\
    frobenius (U T - W)%R <= T ^ 2 / INR n.+1 * total + T / INR n.+1 * frobenius (driven_hamiltonian A B f T).
  Proof.
    have N2 : 0 < INR n.+1 by apply: lt_0_INR; apply/ssrnat.ltP.
    have EV := final_evolved expm A (number (T / INR n.+1)) (U 0) (sampled_covers (leqnSn n.+1)).
    have EW := final_evolved expm A (number (T / INR n.+1)) (U 0) (sampled_covers (leqnn n.+2)).
    eexists. eexists. split; first exact: EV. split; first exact: EW. rewrite !frobeniusE.
    set h := T / INR n.+1. have h0 : 0 <= h by apply: Rlt_le; apply: Rdiv_lt_0_compat. have Th : INR n.+1 * h = T by rewrite /h; field; lra.
    have F : nrm (U T - evolved (propagator expm (map (map number) sampled) A B (number h)) (U 0) n.+1)%R <= T ^ 2 / INR n.+1 * total.
    { have := @steps_follow d expm h exact (driven_hamiltonian A B f) (hamiltonian (map (map number) sampled) A B) T U (U 0) (h * total)
        adj_driven (adj_hamiltonian HA HB sampled) (proj1 (unitaryE _) start) solution erefl h0 n.+1 (Req_le _ _ Th) _.
      rewrite Th => Q. apply: Rle_trans (Q _) _.
      - move=> i s I S. have I2 := ltn_trans I (ltnSn n.+1). apply: near_slice => //.
        + rewrite (grid_nth times I2) -/h. case: S. rewrite (S_INR i) => S1 S2. apply: Rabs_le. lra.
        + apply: (slice_time_range h0 I _ S). exact: Req_le.
      - apply: Req_le. rewrite /h. field. lra. }
    split=> //. rewrite [evolved _ _ n.+2]/=. set P := evolved _ _ n.+1 in F *. set E := propagator _ _ _ _ _ _.
    have -> : (U T - E *m P = (U T - P) + (1%:M - E) *m P)%R by rewrite mulmxBl mul1mx addrA subrK.
    apply: Rle_trans (nrm_add _ _) _. apply: Rplus_le_compat => //.
    have PU : (adj P *m P = 1%:M)%R by exact: (steps_unitary h exact (adj_hamiltonian HA HB sampled) n.+1 (proj1 (unitaryE _) start)).
    rewrite nrm_ur; last exact: mulmx1C. have := slice_distance h exact (adj_hamiltonian HA HB sampled n.+1) (@adj0 _ d d).
    rewrite subr0 scaler0 (sampled_hamiltonian (ltnSn n.+1)) (grid_nth times (ltnSn n.+1)) -/h Th Rabs_pos_eq // => Q.
    have Z : (expm 0 = 1%:M)%R.
    { have := @expm_flow d expm h exact 0%R (fun _ => 1%:M)%R (@adj0 _ d d). rewrite scaler0. apply. split=> // x. rewrite scaler0 mul0mx. exact: mconst. }
    move: Q. rewrite Z => Q. have -> : nrm (1%:M - E)%R = nrm (E - 1%:M)%R by rewrite -nrm_opp opprB.
    by rewrite /E /propagator (sampled_hamiltonian (ltnSn n.+1)) (grid_nth times (ltnSn n.+1)) -/h Th.
  Qed.
End C83_Samples.

(** ** The bundled Ising problem *)
Lemma merit_gap d (U V rho target : 'M[Cx]_d) (c x g : R) : U *m adj U = 1%:M -> adj V *m V = 1%:M -> (nrm rho <= 1)%coqR -> (nrm target <= 1)%coqR ->
  adj target = target -> (nrm (U - V)%R <= x * g)%coqR ->
  (Rabs (- c * real_part (overlap target (V *m rho *m dagger V)) - - c * real_part (overlap target (U *m rho *m dagger U))) <= 2 * Rabs c * (x * g))%coqR.
Proof.
  move=> UT VU RN TN AT Q. rewrite /overlap -!adjE -![real_part _]/(ip target _). set X := U *m rho *m adj U. set Y := V *m rho *m adj V.
  have E : (- c * ip target Y - - c * ip target X = c * ip target (X - Y)%R)%coqR by rewrite ip_addr ip_oppr; lra. rewrite E Rabs_mult.
  have E2 : X - Y = (U - V) *m rho *m adj U + V *m (rho *m adj (U - V)) by rewrite /X /Y adj_add adj_opp !mulmxBl !mulmxBr !mulmxA addrA subrK.
  have N1 : (nrm ((U - V) *m rho *m adj U)%R <= x * g)%coqR.
  { rewrite nrm_ur; last by rewrite adjK; exact: mulmx1C. have P := nrm_mul (U - V) rho. have := Rmult_le_compat_l _ _ _ (nrm_ge0 (U - V)%R) RN. lra. }
  have N2 : (nrm (V *m (rho *m adj (U - V)))%R <= x * g)%coqR.
  { rewrite nrm_ul //. have P := nrm_mul rho (adj (U - V)). rewrite nrm_adj in P. have := Rmult_le_compat_r _ _ _ (nrm_ge0 (U - V)%R) RN. lra. }
  have N : (nrm (X - Y)%R <= 2 * (x * g))%coqR by rewrite E2; apply: Rle_trans (nrm_add _ _) _; move: N1 N2; lra.
  have P := cs target (X - Y). have P2 := Rmult_le_compat _ _ _ _ (nrm_ge0 target) (nrm_ge0 (X - Y)%R) TN N. have A := Rabs_pos c.
  have P3 : (Rabs (ip target (X - Y)%R) <= 2 * (x * g))%coqR by apply: Rle_trans P _; rewrite Rmult_1_l in P2; exact: P2. have := Rmult_le_compat_l _ _ _ A P3. lra.
Qed.
Section C83_Ising.
  Variables (d : nat) (expm sqrtm : 'M[Cx]_d -> 'M[Cx]_d) (D : ising_data Cx d) (phi psi : 'cV[Cx]_d) (c : R).
  Hypothesis exact : computes_exponentials expm.
  Hypothesis roots : roots_pure sqrtm.
  Hypothesis drift : hermitian (i_drift D).
  Hypothesis control : hermitian (i_control D).
  Hypothesis initial : i_rho0 D = pure phi /\ sandwich phi 1%:M phi = 1.
  Hypothesis aim : i_target D = pure psi /\ sandwich psi 1%:M psi = 1 /\ forall i, psi i 0 \is Num.real.
  Hypothesis factor : i_factor D = number c.
  Variables (f : R -> R) (L T : R) (n : nat) (grid : seq R) (U : R -> 'M[Cx]_d).
  Hypothesis duration : (0 < T)%coqR.
  Hypothesis slices : i_slices D = n.+2.
  Hypothesis times : equally_spaced T n.+2 grid.
  Hypothesis smooth : lipschitz L T f.
  Hypothesis solution : schroedinger (fun s => i_drift D + number (f s) *: i_control D) 0%coqR T U.
  Hypothesis start : U 0%coqR = 1%:M.
  Lemma grid_last : last R0 grid = T.
  Proof.
    rewrite -nth_last (grid_size times) (grid_nth times) //. rewrite -[(n.+2).-1]/(n.+1). field. exact: not_0_INR.
  Qed.
  Lemma ising_driven : schroedinger (driven_hamiltonian (i_drift D) [:: i_control D] (fun _ => f)) 0%coqR T U.
  Proof. move=> s s0 s1. have := solution s0 s1. by rewrite /driven_hamiltonian /= big_ord1. Qed.
  Lemma one_control b : b \in [:: i_control D] -> hermitian b. Proof. by rewrite inE => /eqP ->. Qed.
  Theorem C83_ising : exists v, answers expm sqrtm D (ising_new D) [:: Merit (map number (map f grid), map number grid)] = [:: Some (Ok (number v))] /\
    (Rabs (v - - c * real_part (overlap (i_target D) (U T *m i_rho0 D *m dagger (U T)))) <= 2 * Rabs c * (L * T ^ 2 / INR n.+2 * frobenius (i_control D)))%coqR.
  Proof.
    have [EI NI] := initial. have [ET [NT RT]] := aim. have U1 : unitary (U 0%coqR) by rewrite start; apply/unitaryE; rewrite adj1 mulmx1.
    have [V [EV Q]] := C83_converges exact drift one_control duration times (fun k _ => smooth) ising_driven U1.
    have K : covers (map (map number) (sampled [:: i_control D] (fun _ => f) grid)) (size [:: i_control D]) n.+2 by exact: (@sampled_covers _ _ _ _ _ _ times _ (leqnn _)). rewrite (final_evolved _ _ _ _ K) in EV. case: EV => EV.
    have EF : final_of expm D (map number (map f grid), map number grid) = V.
    { rewrite /final_of slices /= size_map (grid_size times). have -> : last 0 (map number grid) = number T; last by rewrite div_number -EV start.
      rewrite -grid_last. have := grid_size times. by case: (grid) => //= x l _; rewrite last_map. }
    have fine : fits D (map number (map f grid), map number grid).
    { split; first by rewrite /= !size_map (grid_size times) slices. have := grid_size times. by case: (grid). }
    eexists. split.
    - have pos : (0 < i_slices D)%N by rewrite slices.
      rewrite [LHS](@C54_plain _ _ expm sqrtm D pos [:: _] (List.Forall_cons _ fine (List.Forall_nil _))) /own_answers /= (C54_real_target _ _ roots EI ET RT) factor EF.
      congr [:: Some (Ok _)]. exact: population_number.
    - rewrite ET EI. have H1 : adj (i_drift D) = i_drift D by exact/hermitianE. have H2 b : b \in [:: i_control D] -> adj b = b by move/one_control/hermitianE.
      have UU := sol_unitary (adj_driven drift one_control (fun _ => f)) ising_driven (proj1 (unitaryE _) U1).
      have [_ UT] := UU T (conj (Rlt_le _ _ duration) (Rle_refl T)).
      have VU : adj V *m V = 1%:M by rewrite -EV; exact: (steps_unitary (T / INR n.+2)%coqR exact (adj_hamiltonian H1 H2 (sampled [:: i_control D] (fun _ => f) grid)) n.+2 (proj1 (unitaryE _) U1)).
      have RN : (nrm (pure phi) <= 1)%coqR by apply: density_norm; exact: unit_density. have TN : (nrm (pure psi) <= 1)%coqR by apply: density_norm; exact: unit_density.
      have AT : adj (pure psi) = pure psi by rewrite /pure -adjE adj_mul adjK.
      rewrite frobeniusE big_ord1 /= in Q. apply: merit_gap UT VU RN TN AT _.
      have E : (T ^ 2 / INR n.+2 * (L * frobenius (i_control D)) = L * T ^ 2 / INR n.+2 * frobenius (i_control D))%coqR; last by rewrite -E.
      move: (frobenius _) (INR _) => b x. rewrite /Rdiv. ring.
  Qed.
End C83_Ising.

(** ** The bundled one-qubit problem *)
Lemma foldl_evolved (T : Type) d (g : T -> 'M[Cx]_d) x0 (l : seq T) U0 : foldl (fun U x => g x *m U) U0 l = evolved (fun i => g (nth x0 l i)) U0 (size l).
Proof.
  elim/last_ind: l => [|l x IH] //. rewrite -cats1 foldl_cat /= IH cats1 size_rcons /= nth_rcons ltnn eqxx. congr (_ *m _).
  apply: eq_evolved => i L. by rewrite nth_rcons L.
Qed.
Lemma number_sub x y : number (x - y)%coqR = number x - number y.
Proof. rewrite -![number _]/(creal _) /Rminus creal_add creal_opp. by []. Qed.
Lemma half_x_hermitian : hermitian half_x.
Proof. apply/hermitianE. rewrite /half_x adj_scale fmorphV rmorph_nat. by case: (sx_involution Cx) => ->. Qed.
Lemma qubit_split (x d1 d2 : Cx) : qubit_hamiltonian x d1 d2 = qubit_hamiltonian 0 d1 d2 + x *: half_x.
Proof.
  apply/matrixP => i j. rewrite /half_x /sigma_x !mxE. case: i => [[|[|i]] //] Hi; case: j => [[|[|j]] //] Hj; rewrite /= ?mulr0 ?addr0 ?mulr1 ?add0r //; by rewrite mulrDl addrC.
Qed.
Section C83_Qubit.
  Variables (expm : 'M[Cx]_2 -> 'M[Cx]_2) (d1 d2 : R) (f : R -> R) (L T : R) (n : nat) (grid : seq R) (U : R -> 'M[Cx]_2).
  Hypothesis exact : computes_exponentials expm.
  Hypothesis duration : (0 < T)%coqR.
  Hypothesis times : equally_spaced T n.+2 grid.
  Notation H x := (qubit_hamiltonian (number x) (number d1) (number d2)).
  Notation reached := (time_evolution expm (map number (map f grid)) (number (nth R0 grid 1) - number (nth R0 grid 0)) (number d1) (number d2)).
  Let A : 'M[Cx]_2 := qubit_hamiltonian 0 (number d1) (number d2).
  Lemma number_real x : number x \is Num.real. Proof. apply/CrealP. exact: real_number. Qed.
  Lemma qubit_drift : hermitian A. Proof. apply: qubit_hermitian; rewrite ?rpred0 //; exact: number_real. Qed.
  Lemma qubit_controls b : b \in [:: half_x] -> hermitian b. Proof. rewrite inE => /eqP ->. exact: half_x_hermitian. Qed.
  Lemma qubit_step : number (nth R0 grid 1) - number (nth R0 grid 0) = number (T / INR n.+1)%coqR.
  Proof. rewrite -number_sub !(grid_nth times) //. congr number. rewrite -[INR 0]/R0 -[INR 1]/R1. ring. Qed.
  Lemma qubit_evolved : reached = evolved (propagator expm (map (map number) (sampled [:: half_x] (fun _ => f) grid)) A [:: half_x] (number (T / INR n.+1)%coqR)) 1%:M n.+2.
  Proof.
    rewrite qubit_step /time_evolution (foldl_evolved (fun x => expm (_ *: hamiltonian_d1_d2 x _ _)) 0) !size_map (grid_size times).
    apply: eq_evolved => i I. rewrite /propagator. congr expm. congr (_ *: _). rewrite (@sampled_hamiltonian _ _ _ _ _ _ _ times i I) /driven_hamiltonian big_ord1 /=.
    rewrite qubit_hamiltonianE qubit_split. congr (_ + _ *: _). rewrite -map_comp (nth_map R0) //. by rewrite (grid_size times).
  Qed.
  (** it is the solution for slices of length T / (n - 1), of which there are n: the end of the last one is at T + T / (n - 1) *)
  Theorem C83_one_qubit_time : (forall V, steps_solution (fun i => H (f (nth R0 grid i))) (T / INR n.+1)%coqR n.+2 1%:M V <-> V = reached) /\
    (INR n.+2 * (T / INR n.+1) = T + T / INR n.+1)%coqR.
  Proof.
    split; last by rewrite (S_INR n.+1); field; apply: not_0_INR.
    have AH i : adj (H (f (nth R0 grid i))) = H (f (nth R0 grid i)) by apply/hermitianE; apply: qubit_hermitian; exact: number_real.
    have E : reached = evolved (fun i => expm (- 'i * number (T / INR n.+1)%coqR *: H (f (nth R0 grid i)))) 1%:M n.+2.
    { rewrite qubit_step /time_evolution (foldl_evolved (fun x => expm (_ *: hamiltonian_d1_d2 x _ _)) 0) !size_map (grid_size times).
      apply: eq_evolved => i I. rewrite qubit_hamiltonianE -map_comp (nth_map R0) //. by rewrite (grid_size times). }
    move=> V. rewrite E. split.
    - move=> S. exact: (steps_unique exact AH S).
    - move=> ->. exact: (steps_exist _ exact AH).
  Qed.
  Hypothesis smooth : lipschitz L T f.
  Hypothesis solution : schroedinger (fun s => H (f s)) 0%coqR T U.
  Hypothesis start : U 0%coqR = 1%:M.
  Theorem C83_one_qubit : (frobenius (U T - reached)%R <= T ^ 2 / INR n.+1 * (L * frobenius half_x) + T / INR n.+1 * frobenius (H (f T)))%coqR.
  Proof.
    have EH s : driven_hamiltonian A [:: half_x] (fun _ => f) s = H (f s) by rewrite /driven_hamiltonian big_ord1 /= [H _]qubit_split.
    have S : schroedinger (driven_hamiltonian A [:: half_x] (fun _ => f)) 0%coqR T U by move=> s s0 s1; rewrite EH; exact: solution.
    have U1 : unitary (U 0%coqR) by rewrite start; apply/unitaryE; rewrite adj1 mulmx1.
    have [V [W [_ [EW [_ Q]]]]] := one_slice_more exact qubit_drift qubit_controls duration times (fun k _ => smooth) S U1.
    have K : covers (map (map number) (sampled [:: half_x] (fun _ => f) grid)) (size [:: half_x]) n.+2 by exact: (@sampled_covers _ _ _ _ _ _ times _ (leqnn _)).
    rewrite (final_evolved _ _ _ _ K) start -qubit_evolved in EW. have -> : reached = W by case: EW. rewrite big_ord1 EH /= in Q. exact: Q.
  Qed.
End C83_Qubit.


(** a pulse of length pi that is a half turn: the solution at the time pi is the target, the problem finds nothing of it *)
Lemma still_qubit : qubit_hamiltonian 0 0 0 = 0 :> 'M[Cx]_2.
Proof. apply/matrixP => i j. rewrite !mxE. by case: ifP => _; [case: ifP => _|]; rewrite ?oppr0 ?addr0 mul0r. Qed.
Lemma unit_pulse : qubit_hamiltonian (number R1) (number R0) (number R0) = half_x.
Proof. by rewrite qubit_split -[number R1]/(1 : Cx) -[number R0]/(0 : Cx) still_qubit add0r scale1r. Qed.
Lemma half_solution T : schroedinger (fun _ => qubit_hamiltonian (number R1) (number R0) (number R0)) 0%coqR T (fun s => turn (s / 2)%coqR).
Proof. move=> s _ _. rewrite unit_pulse. have [_ F] := half_flow. exact: F. Qed.
Theorem C83_duration_refuted : let Q := OneQubit (ket 0 1) (ket 1 0) 0 0 None None (-1) 0 in
  (exists U, schroedinger (fun _ => qubit_hamiltonian (number R1) (number R0) (number R0)) 0%coqR PI U /\ U 0%coqR = 1%:M /\
    same_ray (q_target Q) (U PI *m q_initial Q)) /\
  forall expm, computes_exponentials expm ->
    (one_qubit_FoM expm Q [:: [:: number R1; number R1]] [::] [:: [:: number R0; number PI]] 0).2 = Ok 1.
Proof.
  move=> Q. have KX (a b : Cx) : (- 'i *: sigma_x Cx) *m ket a b = ket (- 'i * b) (- 'i * a).
  { rewrite /sigma_x scale22 ket_mul !mulr0 !mulr1 !mul0r addr0 add0r. by []. }
  split.
  - exists (fun s => turn (s / 2)%coqR). split; first exact: half_solution. split; first by rewrite /Rdiv Rmult_0_l turn0.
    rewrite turn_half /Q KX mulr0. exists (- 'i). by rewrite normrN normCi ket_scale mulr0.
  - move=> expm EX. rewrite C55_merit /=.
    have E : expm (- 'i * (number PI - number R0) *: qubit_hamiltonian (number R1) 0 0) = - 'i *: sigma_x Cx.
    { have -> : number PI - number R0 = number PI by rewrite subr0. rewrite (unit_pulse : qubit_hamiltonian (number R1) 0 0 = half_x) (expm_flow PI EX _ half_flow) ?turn_half //. apply/hermitianE. exact: half_x_hermitian. }
    rewrite E !KX. have -> : ket (- 'i * (- 'i * 1)) (- 'i * (- 'i * 0)) = ket (-1) 0 :> 'cV[Cx]_2 by rewrite !mulr0 mulr1 mulrNN -expr2 sqrCi.
    have F : get_fidelity (ket 0 1) (ket (-1) 0) = 0 :> Cx.
    { rewrite /get_fidelity. have -> : (adj (ket 0 1) *m ket (-1) 0) 0 0 = 0 :> Cx by rewrite ket_bra conjC0 mul0r add0r mulr0. by rewrite normr0 expr0n mul0r. }
    by rewrite F subr0 !addr0 opprK mulr1.
Qed.

(** a drive that grows with the time *)
Lemma ramp_solution T : schroedinger (fun s => 0 + number s *: sigma_x Cx) 0%coqR T (fun s => turn (s * s / 2)%coqR).
Proof.
  move=> s _ _. rewrite add0r. apply: (@turn_der (fun u => u * u / 2)%coqR).
  have D := derivable_pt_lim_scal _ (/ 2)%coqR _ _ (derivable_pt_lim_mult _ _ _ _ _ (derivable_pt_lim_id s) (derivable_pt_lim_id s)).
  have E : (/ 2 * (1 * id s + id s * 1) = s)%coqR by rewrite /id; lra. rewrite E in D. apply: dext D => x. rewrite /mult_real_fct /mult_fct /id /Rdiv. exact: Rmult_comm.
Qed.
Lemma two_points T : equally_spaced T 2 [:: R0; T].
Proof. split=> // -[|[|j]] /= L; rewrite ?Rmult_0_l ?Rmult_1_l /Rdiv ?Rinv_1 ?Rmult_1_r //. exfalso. by move/ssrnat.ltP: L. Qed.
Lemma identity_lipschitz T : lipschitz R1 T (fun s => s).
Proof. move=> x y _ _. rewrite -[R1]/(IZR 1) Rmult_1_l. exact: Rle_refl. Qed.
Example C83_case : exists expm : 'M[Cx]_2 -> 'M[Cx]_2, computes_exponentials expm /\ hermitian (0 : 'M[Cx]_2) /\ (forall b, b \in [:: sigma_x Cx] -> hermitian b) /\
  covers (map (map number) [:: [:: R1; R0]]) (size [:: sigma_x Cx]) 2 /\
  (0 < 1)%coqR /\ equally_spaced R1 2 [:: R0; R1] /\ lipschitz R1 R1 (fun s => s) /\
  schroedinger (driven_hamiltonian 0 [:: sigma_x Cx] (fun _ s => s)) 0%coqR R1 (fun s => turn (s * s / 2)%coqR) /\ unitary (turn (0 * 0 / 2)%coqR).
Proof.
  have [expm EX] := expm_exists 2. exists expm. split=> //. split; first by apply/hermitianE; rewrite adj0.
  split; first by move=> b; rewrite inE => /eqP ->; exact: hx. split; first by case.
  split; first lra. split; first exact: two_points. split; first exact: identity_lipschitz. split.
  - move=> s s0 s1. have := ramp_solution s0 s1. by rewrite /driven_hamiltonian /= big_ord1.
  - apply/unitaryE. by rewrite /Rdiv Rmult_0_l Rmult_0_l turn0 adj1 mulmx1.
Qed.
Example C83_ising_case : exists sqrtm : 'M[Cx]_2 -> 'M[Cx]_2, exists D, exists phi psi : 'cV[Cx]_2, roots_pure sqrtm /\ hermitian (i_drift D) /\ hermitian (i_control D) /\
  (i_rho0 D = pure phi /\ sandwich phi 1%:M phi = 1) /\ (i_target D = pure psi /\ sandwich psi 1%:M psi = 1 /\ forall i, psi i 0 \is Num.real) /\
  i_factor D = number 1%coqR /\ i_slices D = 2%N /\ equally_spaced R1 2 [:: R0; R1] /\ lipschitz R1 R1 (fun s => s) /\
  schroedinger (fun s => i_drift D + number s *: i_control D) 0%coqR R1 (fun s => turn (s * s / 2)%coqR) /\ turn (0 * 0 / 2)%coqR = 1%:M.
Proof.
  exists (@pure_root Cx 2), (IsingData 2 0 (sigma_x Cx) (pure (ket (1 : Cx) 0)) (pure (ket (0 : Cx) 1)) 1), (ket 1 0), (ket 0 1).
  have N : forall a b : Cx, sandwich (ket a b) 1%:M (ket a b) = a * a^* + b * b^*.
  { move=> x y. by rewrite /sandwich mulmx1 -adjE ket_bra mulrC [y^* * y]mulrC. }
  split; first exact: C54_root. split; first by apply/hermitianE; rewrite adj0. split; first exact: hx. split; first by rewrite N conjC1 conjC0 mulr1 mulr0 addr0. split.
  - split=> //. split; first by rewrite N conjC1 conjC0 mulr1 mulr0 add0r. move=> i. rewrite mxE. by case: ifP => _; rewrite ?rpred0 ?rpred1.
  - split; first by []. split; first by []. split; first exact: two_points. split; first exact: identity_lipschitz. split; first exact: ramp_solution.
    by rewrite /Rdiv Rmult_0_l Rmult_0_l turn0.
Qed.
Example C83_one_qubit_case : (0 < PI)%coqR /\ equally_spaced PI 2 [:: R0; PI] /\ lipschitz R0 PI (fun _ => R1) /\
  schroedinger (fun _ => qubit_hamiltonian (number R1) (number R0) (number R0)) 0%coqR PI (fun s => turn (s / 2)%coqR) /\ turn (0 / 2)%coqR = 1%:M.
Proof.
  split; first exact: PI_RGT_0. split; first exact: two_points. split.
  - move=> x y _ _. rewrite Rminus_eq_0 Rabs_R0 Rmult_0_l. exact: Rle_refl.
  - split; first exact: half_solution. by rewrite /Rdiv Rmult_0_l turn0.
Qed.
Print Assumptions C83_solution.
Print Assumptions C83_amplitudes.
Print Assumptions C83_refine.
Print Assumptions C83_converges.
Print Assumptions C83_ising.
Print Assumptions C83_one_qubit_time.
Print Assumptions C83_one_qubit.
Print Assumptions C83_duration_refuted.
