(** Solutions of the Schroedinger equation: unitarity, comparison of two Hamiltonians, slices. *)
From Coq Require Import Reals Lra Epsilon.
From mathcomp Require Import all_ssreflect all_algebra.
From mathcomp.real_closed Require Import complex.
From Verif Require Import Py RealStruct SpecQuantum SpecFidelity SpecGrapeExact SpecSchroedinger ModelQuantum ProofQuantum ProofSpectral ProofFidelity
  ProofMatrixCalculus ProofFrobenius ProofSliceChange ProofGrapeExact ProofExponential.
Import Order.TTheory GRing.Theory Num.Theory.
Set Implicit Arguments.
Unset Strict Implicit.
Unset Printing Implicit Defensive.
Local Open Scope ring_scope.
Local Open Scope seq_scope.

Section Chain.
  Variables (m n : nat).
  Lemma line_der a h s : derivable_pt_lim (fun u => a + h * u)%coqR s h.
  Proof.
    apply: dval (derivable_pt_lim_plus _ _ _ _ _ (derivable_pt_lim_const a s) (derivable_pt_lim_scal _ h _ _ (derivable_pt_lim_id s))). ring.
  Qed.
  Lemma cchain f a h s z : cder f (a + h * s)%coqR z -> cder (fun u => f (a + h * u)%coqR) s (creal h * z).
  Proof.
    move=> [A B]. split.
    - apply: dext (dval _ (derivable_pt_lim_comp (fun u => a + h * u)%coqR _ s _ _ (line_der a h s) A)) => //. rewrite re_mul re_creal im_creal. ring.
    - apply: dext (dval _ (derivable_pt_lim_comp (fun u => a + h * u)%coqR _ s _ _ (line_der a h s) B)) => //. rewrite im_mul re_creal im_creal. ring.
  Qed.
  Lemma mchain (F : R -> 'M[Cx]_(m, n)) a h s D : mder F (a + h * s)%coqR D -> mder (fun u => F (a + h * u)%coqR) s (creal h *: D).
  Proof. move=> H i j. rewrite mxE. exact: (cchain (H i j)). Qed.
End Chain.

Section Solutions.
  Variable d : nat.
  Notation M := 'M[Cx]_d.
  Local Open Scope R_scope.
  (** a matrix function with bounded derivative, on any interval *)
  Lemma moved_on (F F' : R -> M) a b c : a <= b -> (forall s, a <= s <= b -> mder F s (F' s)) -> (forall s, a <= s <= b -> nrm (F' s) <= c) ->
    nrm (F b - F a)%R <= c * (b - a).
  Proof.
    move=> L D B. pose G u := F (a + (b - a) * u). have I : forall s, 0 <= s <= 1 -> a <= a + (b - a) * s <= b by move=> s [S1 S2]; have := Rmult_le_pos (b - a) s; have := Rmult_le_pos (b - a) (1 - s); lra.
    have := @moved_by d G (fun s => (creal (b - a) *: F' (a + (b - a) * s))%R) (c * (b - a)) _ _ 1. rewrite /G Rmult_1_r Rmult_0_r Rplus_0_r.
    have -> : a + (b - a) = b by ring. rewrite Rmult_1_r. apply.
    - move=> s S. apply: mchain. apply: D. exact: I.
    - move=> s S. rewrite nrm_scale Rabs_pos_eq; last lra. rewrite Rmult_comm. apply: Rmult_le_compat_r; first lra. exact: (B _ (I _ S)).
    - lra.
  Qed.
  Local Close Scope R_scope.
  Lemma sol_mder (H : R -> M) a b U : schroedinger H a b U -> forall s, (a <= s <= b)%coqR -> mder U s ((- 'i *: H s) *m U s).
  Proof. move=> S s [A B]. exact: S. Qed.
  Lemma adj_step (K X Y : M) : adj K = K -> adj ((- 'i *: K) *m X) *m Y = adj X *m ('i *: K) *m Y.
  Proof. move=> E. by rewrite adj_mul adj_scale conj_neg_i E. Qed.
  Lemma overlap_mder (Hu Hv : R -> M) a b U V : (forall s, adj (Hu s) = Hu s) -> schroedinger Hu a b U -> schroedinger Hv a b V ->
    forall s, (a <= s <= b)%coqR -> mder (fun s => adj (U s) *m V s) s (adj (U s) *m ('i *: (Hu s - Hv s)) *m V s).
  Proof.
    move=> HU SU SV s I. have := mmul (madj (sol_mder SU I)) (sol_mder SV I). rewrite adj_step //. set X := _ + _. set Y := _ *m _ *m _. have -> // : X = Y.
    rewrite /X /Y scalerBr mulmxBr mulmxBl. rewrite -[adj (U s) *m ('i *: Hv s) *m V s]mulmxA. rewrite scaleNr mulNmx mulmxN. by [].
  Qed.
  Lemma sol_unitary (H : R -> M) a b U : (forall s, adj (H s) = H s) -> schroedinger H a b U -> adj (U a) *m U a = 1%:M ->
    forall s, (a <= s <= b)%coqR -> adj (U s) *m U s = 1%:M /\ U s *m adj (U s) = 1%:M.
  Proof.
    move=> HH S E s I. have Q : adj (U s) *m U s = 1%:M; last by split=> //; exact: mulmx1C.
    apply/eqP. rewrite -subr_eq0 -E. apply/eqP. apply: nrm0_eq. apply: Rle_antisym; last exact: nrm_ge0.
    apply: (Rle_trans _ (0 * (s - a))%coqR); last by rewrite Rmult_0_l; exact: Rle_refl.
    apply: (@moved_on (fun s => adj (U s) *m U s) (fun s => adj (U s) *m ('i *: (H s - H s)) *m U s)); first by case: I.
    - move=> u J. apply: (overlap_mder HH S S). case: I => I1 I2; case: J => J1 J2. by split=> //; apply: Rle_trans J2 I2.
    - move=> u _. rewrite subrr scaler0 mulmx0 mul0mx /nrm /ip mulmx0 mxtrace0 sqrt_0. exact: Rle_refl.
  Qed.
  Lemma sol_sub (H : R -> M) a b a' b' U : schroedinger H a b U -> (a <= a')%coqR -> (b' <= b)%coqR -> schroedinger H a' b' U.
  Proof. move=> S A B s A' B'. apply: S; lra. Qed.
  (** two solutions move apart no faster than their Hamiltonians differ *)
  Lemma apart (Hu Hv : R -> M) a b U V c : (a <= b)%coqR -> (forall s, adj (Hu s) = Hu s) -> (forall s, adj (Hv s) = Hv s) ->
    schroedinger Hu a b U -> schroedinger Hv a b V -> adj (U a) *m U a = 1%:M -> adj (V a) *m V a = 1%:M ->
    (forall s, (a <= s <= b)%coqR -> (nrm (Hu s - Hv s)%R <= c)%coqR) ->
    (nrm (adj (U b) *m V b - adj (U a) *m V a)%R <= c * (b - a))%coqR.
  Proof.
    move=> L HU HV SU SV EU EV B. apply: (@moved_on (fun s => adj (U s) *m V s) (fun s => adj (U s) *m ('i *: (Hu s - Hv s)) *m V s)) => // s I.
    - exact: (overlap_mder HU SU SV).
    - have [U1 U2] := sol_unitary HU SU EU I. have [V1 V2] := sol_unitary HV SV EV I.
      rewrite nrm_ur // nrm_ul ?adjK // nrm_i. exact: B.
  Qed.
  (** the flow of a constant Hamiltonian, from any time and any beginning *)
  Lemma flow_sol (K P : M) V t : flow K V -> forall s, mder (fun s => V (s - t)%coqR *m P) s ((- 'i *: K) *m (V (s - t)%coqR *m P)).
  Proof.
    move=> [_ D] s. rewrite mulmxA. apply: mmulr. have := @mchain _ _ V (- t)%coqR 1%coqR s _ (D (- t + 1 * s)%coqR).
    have -> : creal 1%coqR = 1 by []. rewrite scale1r. have -> : (- t + 1 * s = s - t)%coqR by ring. apply: mext => x. congr V. ring.
  Qed.
  Lemma flow_scaled (K : M) V h : flow K V -> flow (number h *: K) (fun s => V (h * s)%coqR).
  Proof.
    move=> [E D]. split; first by rewrite Rmult_0_r. move=> s. have := @mchain _ _ V 0%coqR h s _ (D (0 + h * s)%coqR). rewrite Rplus_0_l.
    have -> : - 'i *: (number h *: K) *m V (h * s)%coqR = creal h *: (- 'i *: K *m V (h * s)%coqR) by rewrite scalemxAl !scalerA mulrC.
    apply: mext => x. by rewrite Rplus_0_l.
  Qed.
  Lemma flow_group (K : M) V : adj K = K -> flow K V -> forall s t, V (s + t)%coqR = V s *m V t.
  Proof.
    move=> HK F s t. have [E D] := F. have [T1 T2] := flow_unitary HK F t.
    have G : flow K (fun s => V (s + t)%coqR *m adj (V t)).
    { split; first by rewrite Rplus_0_l T2. move=> u. have := flow_sol (adj (V t)) (- t)%coqR F u.
      have -> : (u - - t = u + t)%coqR by ring. apply: mext => x. congr (V _ *m _). ring. }
    by rewrite (flow_unique HK F G s) -mulmxA T1 mulmx1.
  Qed.

  (** ** Slices *)
  Section Slices.
    Variables (expm : M -> M) (h : R).
    Hypothesis EX : computes_exponentials expm.
    Lemma expm_flow (K : M) V : adj K = K -> flow K V -> expm (- 'i * number h *: K) = V h.
    Proof.
      move=> HK F. rewrite -scalerA. rewrite (expm_unique EX _ (flow_scaled h F)); first by rewrite Rmult_1_r.
      by rewrite adj_scale real_number HK.
    Qed.
    Lemma slice_distance (K L : M) : adj K = K -> adj L = L -> (nrm (expm (- 'i * number h *: K) - expm (- 'i * number h *: L))%R <= Rabs h * nrm (K - L)%R)%coqR.
    Proof.
      move=> HK HL. have [V F] := flow_exists (proj2 (hermitianE K) HK). have [W G] := flow_exists (proj2 (hermitianE L) HL).
      rewrite (expm_flow HK F) (expm_flow HL G). have S1 := flow_scaled h F. have S2 := flow_scaled h G.
      have A1 : adj (number h *: K) = number h *: K by rewrite adj_scale real_number HK.
      have A2 : adj (number h *: L) = number h *: L by rewrite adj_scale real_number HL.
      have U1 := flow_unitary A1 S1. have U2 := flow_unitary A2 S2.
      have := @apart (fun _ => number h *: K) (fun _ => number h *: L) 0%coqR 1%coqR _ _ (nrm (number h *: K - number h *: L)) Rle_0_1 (fun _ => A1) (fun _ => A2)
        (fun s _ _ => proj2 S1 s) (fun s _ _ => proj2 S2 s) (proj1 (U1 _)) (proj1 (U2 _)) (fun s _ => Rle_refl _).
      rewrite /= Rmult_1_r Rmult_0_r (proj1 F) (proj1 G) adj1 mulmx1 -scalerBr nrm_scale => Q.
      have [X1 X2] := U1 1%coqR. rewrite Rmult_1_r in X1 X2.
      have -> : nrm (V h - W h) = nrm (adj (V h) *m W h - 1%:M); last by apply: Rle_trans Q _; rewrite Rminus_0_r Rmult_1_r; exact: Rle_refl.
      rewrite -[in RHS](@nrm_ul _ _ (V h)) // mulmxBr mulmxA X2 mul1mx mulmx1 -nrm_opp opprB. by [].
    Qed.
    Variables (H : nat -> M).
    Hypothesis HH : forall i, adj (H i) = H i.
    Notation P := (evolved (fun i => expm (- 'i * number h *: H i))).
    Lemma flows_exist : exists V : nat -> R -> M, forall i, flow (H i) (V i).
    Proof.
      exists (fun i => epsilon (inhabits (fun _ => 0)) (flow (H i))) => i. apply: epsilon_spec. apply: flow_exists. exact/hermitianE.
    Qed.
    Lemma steps_exist n U0 : steps_solution H h n U0 (P U0 n).
    Proof.
      have [V F] := flows_exist. exists (fun i s => V i (s - INR i * h)%coqR *m P U0 i). split; last split.
      - rewrite /= Rmult_0_l Rminus_0_r (proj1 (F 0%N)) mul1mx. by [].
      - move=> i _. split; first by move=> s; exact: (flow_sol (P U0 i) (INR i * h)%coqR (F i) s).
        rewrite Rminus_diag_eq // (proj1 (F i.+1)) mul1mx S_INR. have -> : ((INR i + 1) * h - INR i * h = h)%coqR by ring.
        by rewrite /= (expm_flow (HH i) (F i)).
      - by rewrite Rminus_diag_eq // (proj1 (F n)) mul1mx.
    Qed.
    Lemma sol_flow (K : M) V (X : R -> M) t : adj K = K -> flow K V -> (forall s, mder X s ((- 'i *: K) *m X s)) -> forall s, X s = V (s - t)%coqR *m X t.
    Proof.
      move=> HK F D s. have U := flow_unitary HK F. have FS := flow_sol 1%:M t F.
      have C : forall u, adj (V (u - t)%coqR) *m X u = adj (V (R0 - t)%coqR) *m X R0.
      { move=> u. apply: (@constant_matrix _ _ (fun u => adj (V (u - t)%coqR) *m X u)) => v. have := mmul (madj (FS v)) (D v). rewrite adj_step // mulmx1.
        set Q := _ + _. have -> : Q = 0; last by apply: mext => y; rewrite mulmx1. by rewrite /Q scaleNr mulNmx mulmxN mulmxA subrr. }
      have E : adj (V (s - t)%coqR) *m X s = X t.
      { rewrite C -(C t) Rminus_diag_eq // (proj1 F) adj1 mul1mx. by []. }
      by rewrite -E mulmxA (proj2 (U _)) mul1mx.
    Qed.
    Lemma steps_unique n U0 U : steps_solution H h n U0 U -> U = P U0 n.
    Proof.
      have [W F] := flows_exist. move=> [V [V0 [D <-]]]. have E : forall i, (i <= n)%N -> V i (INR i * h)%coqR = P U0 i; last exact: E.
      elim=> [|i IH] L; first by rewrite /= Rmult_0_l V0. have [Di Ei] := D i L. rewrite Ei.
      rewrite (sol_flow (INR i * h)%coqR (HH i) (F i) Di) (IH (ltnW L)) S_INR. have -> : ((INR i + 1) * h - INR i * h = h)%coqR by ring.
      by rewrite /= (expm_flow (HH i) (F i)).
    Qed.
    Lemma slice_unit K : adj K = K -> adj (expm (- 'i * number h *: K)) *m expm (- 'i * number h *: K) = 1%:M.
    Proof. move=> HK. have [V F] := flow_exists (proj2 (hermitianE K) HK). rewrite (expm_flow HK F). by case: (flow_unitary HK F h). Qed.
    Lemma steps_unitary n U0 : adj U0 *m U0 = 1%:M -> adj (P U0 n) *m P U0 n = 1%:M.
    Proof. move=> E. apply/unitaryE. apply: evolved_unitary; last exact/unitaryE. move=> i _. apply/unitaryE. exact: slice_unit. Qed.
  End Slices.

  Section Compare.
    Variables (expm : M -> M) (h : R).
    Hypothesis EX : computes_exponentials expm.
    Notation P H := (evolved (fun i => expm (- 'i * number h *: H i))).
    Lemma steps_distance (H K : nat -> M) n U0 : (forall i, adj (H i) = H i) -> (forall i, adj (K i) = K i) -> adj U0 *m U0 = 1%:M ->
      (nrm (P H U0 n - P K U0 n)%R <= Rabs h * \sum_(i < n) nrm (H i - K i)%R)%coqR.
    Proof.
      move=> HH HK E. elim: n => [|n IH]; first by rewrite subrr /nrm /ip mulmx0 mxtrace0 sqrt_0 big_ord0 Rmult_0_r; exact: Rle_refl.
      rewrite big_ord_recr /=. set X := P H U0 n. set Y := P K U0 n. set A := expm _. set B := expm _. set S := \sum_(i < n) _ in IH *.
      have -> : A *m X - B *m Y = A *m (X - Y) + (A - B) *m Y by rewrite mulmxBr mulmxBl addrA subrK.
      have Q := slice_distance h EX (HH n) (HK n). have N := nrm_add (A *m (X - Y)) ((A - B) *m Y).
      rewrite nrm_ul in N; last exact: (slice_unit h EX (HH n)). rewrite nrm_ur in N; last by apply: mulmx1C; exact: (steps_unitary h EX HK n E).
      rewrite -/A -/B in Q. rewrite -/X -/Y in IH. rewrite -[S + _]/(Rplus S _) Rmult_plus_distr_l.
      apply: Rle_trans N _. exact: Rplus_le_compat.
    Qed.
    (** a Hamiltonian that changes with time, and slices that stay near it *)
    Lemma steps_follow (Hs : R -> M) (H : nat -> M) T U U0 c : (forall s, adj (Hs s) = Hs s) -> (forall i, adj (H i) = H i) -> adj U0 *m U0 = 1%:M ->
      schroedinger Hs 0%coqR T U -> U 0%coqR = U0 -> (0 <= h)%coqR -> forall n, (INR n * h <= T)%coqR ->
      (forall i s, (i < n)%N -> (INR i * h <= s <= INR i.+1 * h)%coqR -> (nrm (Hs s - H i)%R <= c)%coqR) ->
      (nrm (U (INR n * h)%coqR - P H U0 n)%R <= c * (INR n * h))%coqR.
    Proof.
      move=> AH AK E S U00 h0 n LT B. have [V F] := flows_exist AK.
      have UU : forall i, (i <= n)%N -> (0 <= INR i * h <= T)%coqR.
      { move=> i L. have I0 := pos_INR i. split; first exact: Rmult_le_pos. apply: Rle_trans LT. apply: Rmult_le_compat_r => //. apply: le_INR. exact/ssrnat.leP. }
      have U0u : adj (U 0%coqR) *m U 0%coqR = 1%:M by rewrite U00.
      have UN := fun i L => sol_unitary AH S U0u (UU i L).
      have G : forall i, (i <= n)%N -> (nrm (adj (U (INR i * h)%coqR) *m P H U0 i - 1%:M)%R <= c * (INR i * h))%coqR.
      { elim=> [|i IH] L; first by rewrite /= Rmult_0_l U00 E subrr /nrm /ip mulmx0 mxtrace0 sqrt_0 Rmult_0_r; exact: Rle_refl.
        have := IH (ltnW L). set a := (INR i * h)%coqR. set b := (INR i.+1 * h)%coqR => Q.
        have ab : b = (a + h)%coqR by rewrite /b /a S_INR; ring. have LL : (a <= b)%coqR by lra.
        pose X s := V i (s - a)%coqR *m P H U0 i. have Xa : X a = P H U0 i by rewrite /X Rminus_diag_eq // (proj1 (F i)) mul1mx.
        have Xb : X b = P H U0 i.+1. { rewrite /X ab. have -> : (a + h - a = h)%coqR by ring. by rewrite /= (expm_flow h EX (AK i) (F i)). }
        have Sab : schroedinger Hs a b U by apply: sol_sub S _ _; [case: (UU i (ltnW L))|case: (UU i.+1 L)].
        have := @apart Hs (fun _ => H i) a b U X c LL AH (fun _ => AK i) Sab (fun s _ _ => flow_sol (P H U0 i) a (F i) s) (proj1 (UN i (ltnW L))) _ (fun s I => B i s L I).
        rewrite Xa Xb => /(_ (steps_unitary h EX AK i E)) Q2.
        have -> : (c * b)%coqR = (c * (b - a) + c * a)%coqR by ring.
        set w := _ - _ in Q2. set v := _ - _ in Q. set z := _ - _. have -> : z = w + v by rewrite /z /w /v addrA subrK.
        apply: Rle_trans (nrm_add _ _) _. exact: Rplus_le_compat. }
      have := G n (leqnn n). have [X1 X2] := UN n (leqnn n). rewrite -(@nrm_ul _ _ (U (INR n * h)%coqR)) // mulmxBr mulmxA X2 mul1mx mulmx1 -nrm_opp opprB. by [].
    Qed.
  End Compare.
  Lemma many_slices (expm : M -> M) h r (K X : M) : computes_exponentials expm -> adj K = K ->
    evolved (fun _ => expm (- 'i * number (h / INR r.+1)%coqR *: K)) X r.+1 = expm (- 'i * number h *: K) *m X.
  Proof.
    move=> EX HK. have [V F] := flow_exists (proj2 (hermitianE K) HK). rewrite (expm_flow _ EX HK F) (expm_flow _ EX HK F).
    have N : INR r.+1 <> 0%coqR by apply: not_0_INR. set k := (h / INR r.+1)%coqR.
    have E : forall m, evolved (fun _ => V k) X m = V (INR m * k)%coqR *m X.
    { elim=> [|m IH]; first by rewrite /= Rmult_0_l (proj1 F) mul1mx. rewrite [LHS]/= IH mulmxA -(flow_group HK F). congr (V _ *m _). rewrite S_INR. ring. }
    rewrite E. congr (V _ *m _). rewrite /k. by field.
  Qed.
  Lemma refine_steps (expm : M -> M) h r n (H : nat -> M) X : computes_exponentials expm -> (forall i, adj (H i) = H i) ->
    evolved (fun i => expm (- 'i * number (h / INR r.+1)%coqR *: H (i %/ r.+1)%N)) X (n * r.+1) = evolved (fun i => expm (- 'i * number h *: H i)) X n.
  Proof.
    move=> EX HH. elim: n => [|n IH] //. rewrite mulSnr evolved_add IH [RHS]/=. rewrite -(many_slices h r _ EX (HH n)). apply: eq_evolved => i L.
    by rewrite divnMDl // (divn_small L) addn0.
  Qed.
End Solutions.

Lemma nth_stretched (T : Type) (x0 : T) r l i : nth x0 (stretched r.+1 l) i = nth x0 l (i %/ r.+1).
Proof.
  rewrite /stretched. elim: l i => [|x l IH] i; first by rewrite !nth_nil. have -> : flatten [seq nseq r.+1 y | y <- x :: l] = nseq r.+1 x ++ flatten [seq nseq r.+1 y | y <- l] by [].
  rewrite nth_cat size_nseq. case: ltnP => L; first by rewrite divn_small // nth_nseq L. rewrite IH. have {2}-> : i = (1 * r.+1 + (i - r.+1))%N by rewrite mul1n subnKC.
  by rewrite divnMDl.
Qed.
Lemma size_stretched (T : Type) r (l : seq T) : size (stretched r l) = (size l * r)%N.
Proof. rewrite /stretched. elim: l => [|x l IH] //=. by rewrite size_cat size_nseq IH mulSn. Qed.

(** Hamiltonians with real amplitudes *)
Section Amplitudes.
  Variable d : nat.
  Notation M := 'M[Cx]_d.
  Variables (A : M) (B : seq M).
  Hypotheses (HA : adj A = A) (HB : forall b, b \in B -> adj b = b).
  Lemma adj_sum (I : Type) (r : seq I) (F : I -> M) : adj (\sum_(i <- r) F i) = \sum_(i <- r) adj (F i).
  Proof. elim: r => [|i r IH]; first by rewrite !big_nil adj0. by rewrite !big_cons adj_add IH. Qed.
  Lemma adj_real_hamiltonian (x : nat -> R) : adj (A + \sum_(k < size B) number (x k) *: nth 0 B k) = A + \sum_(k < size B) number (x k) *: nth 0 B k.
  Proof.
    rewrite adj_add HA adj_sum. congr (_ + _). apply: eq_bigr => k _. rewrite adj_scale real_number HB //. exact: mem_nth.
  Qed.
  Lemma nrm_sum (I : Type) (r : seq I) (F : I -> M) : (nrm (\sum_(i <- r) F i)%R <= \sum_(i <- r) nrm (F i))%coqR.
  Proof.
    elim: r => [|i r IH]; first by rewrite !big_nil /nrm /ip mulmx0 mxtrace0 sqrt_0; exact: Rle_refl.
    rewrite !big_cons. apply: Rle_trans (nrm_add _ _) _. exact: Rplus_le_compat_l.
  Qed.
  Lemma sum_le (I : eqType) (r : seq I) (F G : I -> R) : (forall i, i \in r -> (F i <= G i)%coqR) -> (\sum_(i <- r) F i <= \sum_(i <- r) G i)%coqR.
  Proof.
    elim: r => [|i r IH] H; first by rewrite !big_nil; exact: Rle_refl.
    rewrite !big_cons. apply: Rplus_le_compat; first by apply: H; rewrite inE eqxx. apply: IH => j J. apply: H. by rewrite inE J orbT.
  Qed.
  Lemma sum_scale (I : Type) (r : seq I) (F : I -> R) c : (c * \sum_(i <- r) F i)%coqR = \sum_(i <- r) (c * F i)%coqR.
  Proof. elim: r => [|i r IH]; first by rewrite !big_nil Rmult_0_r. rewrite !big_cons -IH. exact: Rmult_plus_distr_l. Qed.
  Notation Bk k := (nth 0 B (nat_of_ord k)).
  Lemma hamiltonian_gap (x y : nat -> R) : (nrm ((A + \sum_(k < size B) number (x k) *: nth 0 B k) - (A + \sum_(k < size B) number (y k) *: nth 0 B k))%R
    <= \sum_(k < size B) (Rabs (x k - y k) * nrm (Bk k))%coqR)%coqR.
  Proof.
    rewrite opprD addrACA subrr add0r -sumrB. apply: Rle_trans (nrm_sum _ _) _. apply: Req_le. apply: eq_bigr => k _.
    rewrite -scalerBl. have -> : number (x k) - number (y k) = creal (x k - y k)%coqR; last exact: nrm_scale.
    apply: cx_eq; rewrite re_add re_opp || rewrite im_add im_opp; rewrite /number //. rewrite !im_real. ring.
  Qed.
  Definition drive_of (a : seq (seq R)) : seq (seq Cx) := map (map number) a.
  Lemma hamiltonian_real a i : hamiltonian (drive_of a) A B i = A + \sum_(k < size B) number (nth R0 (nth [::] a k) i) *: nth 0 B k.
  Proof.
    congr (_ + _). apply: eq_bigr => k _. congr (_ *: _). rewrite /amplitude /drive_of.
    case: (ltnP k (size a)) => K; last by rewrite (nth_default [::]) ?size_map // [nth [::] a k]nth_default // !nth_nil.
    rewrite (nth_map [::]) //. case: (ltnP i (size (nth [::] a k))) => I; first by rewrite (nth_map R0). rewrite (nth_default 0) ?size_map // (nth_default R0) //.
  Qed.
  Lemma adj_hamiltonian a i : adj (hamiltonian (drive_of a) A B i) = hamiltonian (drive_of a) A B i.
  Proof. rewrite hamiltonian_real. exact: (adj_real_hamiltonian (fun k => nth R0 (nth [::] a k) i)). Qed.
End Amplitudes.
