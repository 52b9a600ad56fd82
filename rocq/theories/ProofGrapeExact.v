(** The gradient of GRAPE next to the derivative with respect to an amplitude. *)
From Coq Require Import Reals Lra Epsilon.
From mathcomp Require Import all_ssreflect all_algebra.
From mathcomp.real_closed Require Import complex.
From Verif Require Import Py RealStruct SpecQuantum SpecFidelity SpecGrapeExact ModelQuantum ProofQuantum ProofSpectral ProofFidelity ProofWitness
  ProofMatrixCalculus ProofFrobenius ProofSliceChange.
Import Order.TTheory GRing.Theory Num.Theory.
Set Implicit Arguments.
Unset Strict Implicit.
Unset Printing Implicit Defensive.
Local Open Scope ring_scope.

Lemma frobeniusE d (X : 'M[Cx]_d) : frobenius X = nrm X.
Proof. rewrite /frobenius /nrm ip_entries. congr (sqrt _). Qed.
Lemma hermitian_adj d (X : 'M[Cx]_d) : hermitian X -> adj X = X. Proof. by move/hermitianE. Qed.
Lemma exponential_flow d (K E : 'M[Cx]_d) : exponential_of (- 'i *: K) E -> exists V, flow K V /\ V R1 = E.
Proof. move=> [V [V0 [DV V1]]]. by exists V. Qed.

Section Slices.
  Variables (d n : nat) (expm : 'M[Cx]_d -> 'M[Cx]_d) (H0 B rho0 target : 'M[Cx]_d) (dt : R).
  Hypotheses (EX : computes_exponentials expm) (HH : hermitian H0) (HB : hermitian B).
  Notation M := 'M[Cx]_d.
  Implicit Type a : seq R.
  Definition slice_of a (i : nat) : M := propagator expm [:: map number a] H0 [:: B] (number dt) i.
  Definition slices_of a : seq M := mkseq (slice_of a) n.
  Definition ham a (i : nat) : M := H0 + number (nth R0 a i) *: B.
  Lemma nth_number a i : nth 0 (map number a) i = number (nth R0 a i).
  Proof. case: (ltnP i (size a)) => L; first exact: nth_map. by rewrite !nth_default ?size_map. Qed.
  Lemma slice_ofE a i : slice_of a i = expm (- 'i *: (number dt *: ham a i)).
  Proof. by rewrite /slice_of /propagator /hamiltonian big_ord1 /amplitude /= nth_number scalerA. Qed.
  Lemma real_number x : (number x)^* = number x.
  Proof. rewrite -[number x]/(creal x). apply: cx_eq; rewrite ?re_conj ?im_conj ?im_creal //. ring. Qed.
  Lemma adj_ham a i : adj (number dt *: ham a i) = number dt *: ham a i.
  Proof. by rewrite adj_scale adj_add adj_scale !real_number (hermitian_adj HH) (hermitian_adj HB). Qed.
  Lemma slice_flow a i : exists V, flow (number dt *: ham a i) V /\ V R1 = slice_of a i.
  Proof. rewrite slice_ofE. apply: exponential_flow. apply: EX. apply/hermitianE. exact: adj_ham. Qed.
  Lemma slice_unitary a i : adj (slice_of a i) *m slice_of a i = 1%:M.
  Proof. have [V [F <-]] := slice_flow a i. by case: (flow_unitary (adj_ham a i) F R1). Qed.
  Lemma nth_slices a i : (i < n)%N -> nth 0 (slices_of a) i = slice_of a i. Proof. exact: nth_mkseq. Qed.
  Lemma size_slices a : size (slices_of a) = n. Proof. exact: size_mkseq. Qed.

  Lemma later_step (U : nat -> M) t : (t < n)%N -> later U n t = later U n t.+1 *m U t.
  Proof.
    move=> L. rewrite /later. have -> : (n - t = 1 + (n - t.+1))%N by rewrite add1n subnSK. rewrite evolved_add /= addn0 mulmx1.
    rewrite -[U t]mul1mx evolved_mul mul1mx. congr (_ *m _). apply: eq_evolved => i _. by rewrite addnCA add1n.
  Qed.
  Lemma costate_step (U : nat -> M) t : (t < n)%N -> costate_at U n target t = adj (U t) *m costate_at U n target t.+1 *m U t.
  Proof. move=> L. rewrite /costate_at -!adjE (later_step _ L) adj_mul !mulmxA. by []. Qed.
  Lemma state_step (U : nat -> M) t : state_at U rho0 t.+1 = U t *m state_at U rho0 t *m adj (U t).
  Proof. by rewrite /state_at -!adjE /= adj_mul !mulmxA. Qed.
  Lemma same_state (U U' : nat -> M) t : (forall i, (i < t)%N -> U i = U' i) -> state_at U rho0 t = state_at U' rho0 t.
  Proof. move=> H. by rewrite /state_at (eq_evolved _ H). Qed.
  Lemma same_costate (U U' : nat -> M) t : (t <= n)%N -> (forall i, (t <= i < n)%N -> U i = U' i) -> costate_at U n target t = costate_at U' n target t.
  Proof.
    move=> L H. rewrite /costate_at /later. have -> // : evolved (fun i => U (t + i)%N) 1%:M (n - t) = evolved (fun i => U' (t + i)%N) 1%:M (n - t).
    apply: eq_evolved => i I. apply: H. rewrite leq_addr /=. by rewrite -ltn_subRL.
  Qed.
  Lemma nrm_state (U : nat -> M) t : (forall i, (i < t)%N -> adj (U i) *m U i = 1%:M) -> nrm (state_at U rho0 t) = nrm rho0.
  Proof.
    move=> H. have E : unitary (evolved U 1%:M t) by apply: evolved_unitary; [move=> i I; apply/unitaryE; exact: H|exact: unitary1].
    have E1 := proj1 (unitaryE _) E. rewrite /state_at -adjE -mulmxA nrm_ul // nrm_ur // adjK. exact: E1.
  Qed.
  Lemma nrm_costate (U : nat -> M) t : (forall i, (i < n)%N -> adj (U i) *m U i = 1%:M) -> (t <= n)%N -> nrm (costate_at U n target t) = nrm target.
  Proof.
    move=> H L. have E : unitary (later U n t).
    { apply: evolved_unitary; last exact: unitary1. move=> i I. apply/unitaryE. apply: H. by rewrite -ltn_subRL. }
    have E1 := unitary_r E. rewrite /costate_at -adjE -mulmxA nrm_ul ?adjK // nrm_ur //.
  Qed.

  Section Entry.
  Variables (a : seq R) (t : nat).
  Hypothesis (Ht : (t < n)%N).
  Let lam : M := costate_at (slice_of a) n target t.+1.
  Let rho : M := state_at (slice_of a) rho0 t.
  Let mu : M := costate_at (slice_of a) n target t.
  Lemma overlap_at a' : (forall i, i != t -> nth R0 a' i = nth R0 a i) ->
    reached_overlap expm H0 B rho0 target dt n a' = ip lam (slice_of a' t *m rho *m adj (slice_of a' t)).
  Proof.
    move=> E. have S : forall i, i != t -> slice_of a' i = slice_of a i by move=> i I; rewrite !slice_ofE /ham E.
    rewrite /reached_overlap. rewrite (@same_state (propagator _ _ _ _ _) (nth 0 (slices_of a')) n); last by move=> i I; rewrite nth_slices.
    rewrite -(overlap_spec (slices_of a') rho0 target Ht) /overlap -adjE.
    have -> : costate_at (nth 0 (slices_of a')) n target t.+1 = lam.
    { apply: same_costate => // i /andP [I J]. rewrite nth_slices // S //. by rewrite neq_ltn I orbT. }
    rewrite state_step nth_slices //. have -> : state_at (nth 0 (slices_of a')) rho0 t = rho; last by [].
    apply: same_state => i I. rewrite nth_slices; last exact: ltn_trans Ht. apply: S. by rewrite neq_ltn I.
  Qed.
  Let K := number dt *: ham a t.
  Let B1 := number dt *: B.
  Lemma bracketE : nrm (commutator K B1) = (dt ^ 2 * nrm (commutator H0 B))%coqR.
  Proof.
    have -> : commutator K B1 = number dt *: (number dt *: commutator H0 B).
    { rewrite /commutator /K /B1 /ham -!scalemxAl -!scalemxAr -!scalerBr. congr (_ *: (_ *: _)).
      by rewrite mulmxDl mulmxDr -scalemxAl -scalemxAr opprD addrACA subrr addr0. }
    rewrite -[number dt]/(creal dt) !nrm_scale -Rmult_assoc. congr (_ * _)%coqR. rewrite -Rabs_mult Rabs_pos_eq; first ring. nra.
  Qed.
  Lemma square_B1 : (nrm B1 * nrm B1)%coqR = (dt ^ 2 * (nrm B * nrm B))%coqR.
  Proof.
    rewrite /B1 -[number dt]/(creal dt) !nrm_scale. transitivity (Rabs dt * Rabs dt * (nrm B * nrm B))%coqR; first ring.
    rewrite -Rabs_mult Rabs_pos_eq; first ring. nra.
  Qed.
  (** the entry that GRAPE computes *)
  Definition grape_entry : R := re ('Re (\tr (('i * number dt) *: dagger mu *m (B *m rho - rho *m B)))).
  Lemma entryE : entry_of mu B1 rho = (- grape_entry)%coqR.
  Proof.
    rewrite /grape_entry re_Re /entry_of /ip -re_opp. congr (re _). rewrite -adjE -raddfN /=. congr (\tr _).
    rewrite /commutator /B1 -!scalemxAl -!scalemxAr -scalerBr -!scalemxAr scalerA mulNr scaleNr. by [].
  Qed.
  Lemma mu_lam : forall V, flow K V -> V R1 = slice_of a t -> turned V lam R1 = mu.
  Proof. move=> V F E. by rewrite /turned E /mu (costate_step _ Ht). Qed.
  Lemma norms : nrm mu = nrm target /\ nrm rho = nrm rho0.
  Proof. split; [apply: nrm_costate (ltnW Ht)|apply: nrm_state] => i _; exact: slice_unitary. Qed.
  Lemma overlap_here : reached_overlap expm H0 B rho0 target dt n a = ip mu rho.
  Proof.
    have [V [F E]] := slice_flow a t. rewrite overlap_at // -E -(seen_end (adj_ham a t) F V rho lam) (mu_lam F E).
    have [U1 _] := flow_unitary (adj_ham a t) F R1. by rewrite /seen /relative U1 adj1 mul1mx mulmx1.
  Qed.
  Lemma overlap_there x : exists V W, flow K V /\ flow (K + creal (x - nth R0 a t)%coqR *: B1) W /\
    reached_overlap expm H0 B rho0 target dt n (seq.set_nth R0 a t x) = ip mu (seen V W rho R1).
  Proof.
    have [V [F E]] := slice_flow a t. have [W [FW EW]] := slice_flow (seq.set_nth R0 a t x) t. exists V, W. split=> //. split.
    - have <- // : number dt *: ham (seq.set_nth R0 a t x) t = K + creal (x - nth R0 a t)%coqR *: B1.
      rewrite /K /B1 /ham nth_set_nth /= eqxx !scalerDr !scalerA -addrA -scalerDl. congr (_ + _ *: _).
      apply: cx_eq; rewrite ?re_add ?im_add ?re_mul ?im_mul !re_creal !im_creal; ring.
    - rewrite overlap_at; last by move=> i /negbTE I; rewrite nth_set_nth /= I.
      by rewrite -EW -(seen_end (adj_ham a t) F W rho lam) (mu_lam F E).
  Qed.
  Lemma adj_B1 : adj B1 = B1. Proof. by rewrite /B1 adj_scale real_number (hermitian_adj HB). Qed.
  Local Open Scope R_scope.
  Lemma overlap_error x : Rabs (reached_overlap expm H0 B rho0 target dt n (seq.set_nth R0 a t x) - reached_overlap expm H0 B rho0 target dt n a + (x - nth R0 a t) * grape_entry)
    <= Rabs (x - nth R0 a t) * dt ^ 2 * (nrm target * nrm rho0) * (nrm (commutator H0 B) + 2 * Rabs (x - nth R0 a t) * (nrm B * nrm B)).
  Proof.
    have [V [W [F [FW E]]]] := overlap_there x. rewrite E overlap_here.
    have := change_linear (adj_ham a t) F rho mu adj_B1 FW. rewrite entryE bracketE square_B1 (proj1 norms) (proj2 norms) => H.
    have -> : ip mu (seen V W rho R1) - ip mu rho + (x - nth R0 a t) * grape_entry = ip mu (seen V W rho 1) - ip mu rho - (x - nth R0 a t) * - grape_entry.
    { rewrite -[R1]/1. ring. }
    apply: Rle_trans H _. apply: Req_le. ring.
  Qed.
  Lemma overlap_derivative : exists m, derivable_pt_lim (fun x => reached_overlap expm H0 B rho0 target dt n (seq.set_nth R0 a t x)) (nth R0 a t) m /\
    Rabs (m + grape_entry) <= dt ^ 2 * (nrm target * nrm rho0) * nrm (commutator H0 B).
  Proof.
    have [V [F E]] := slice_flow a t. have [L [LB LD]] := mean_entry (adj_ham a t) F B1 rho mu. exists L. split; last first.
    - move: LB. rewrite entryE bracketE (proj1 norms) (proj2 norms) => H. have -> : L + grape_entry = L - - grape_entry by ring. apply: Rle_trans H _. apply: Req_le. ring.
    - set q := 2 * (nrm mu * nrm rho) * (nrm B1 * nrm B1).
      have Q : 0 <= q. { rewrite /q. have := nrm_ge0 mu. have := nrm_ge0 rho. have := nrm_ge0 B1. move=> p1 p2 p3. repeat apply: Rmult_le_pos => //; lra. }
      have C : forall h, Rabs (reached_overlap expm H0 B rho0 target dt n (seq.set_nth R0 a t (nth R0 a t + h)) - ip mu rho - h * L) <= q * (Rabs h * Rabs h).
      { move=> h. rewrite overlap_at; last by move=> i /negbTE I; rewrite nth_set_nth /= I.
        have [W [FW EW]] := slice_flow (seq.set_nth R0 a t (nth R0 a t + h)) t.
        have FW' : flow (K + creal h *: B1)%R W.
        { have <- // : (number dt *: ham (seq.set_nth R0 a t (nth R0 a t + h)%coqR) t)%R = (K + creal h *: B1)%R.
          rewrite /K /B1 /ham nth_set_nth /= eqxx !scalerDr !scalerA -addrA -scalerDl. congr (_ + _ *: _)%R.
          apply: cx_eq; rewrite ?re_add ?im_add ?re_mul ?im_mul !re_creal !im_creal; ring. }
        have S := seen_end (adj_ham a t) F W rho lam. rewrite (mu_lam F E) EW in S. rewrite -S. exact: (LD h W adj_B1 FW'). }
      have H0' : reached_overlap expm H0 B rho0 target dt n (seq.set_nth R0 a t (nth R0 a t)) = ip mu rho.
      { have := C 0. rewrite !Rmult_0_l Rabs_R0 !Rmult_0_r Rplus_0_r Rminus_0_r => H. apply: Rminus_diag_uniq.
        apply: Rabs_eq_0 || (have H2 := Rabs_pos (reached_overlap expm H0 B rho0 target dt n (seq.set_nth R0 a t (nth R0 a t)) - ip mu rho); case: (Req_dec (reached_overlap expm H0 B rho0 target dt n (seq.set_nth R0 a t (nth R0 a t)) - ip mu rho) 0) => // N; have := Rabs_pos_lt _ N; lra). }
      move=> eps P. have P' : 0 < eps / (q + 1) by apply: Rdiv_lt_0_compat; lra. exists (mkposreal _ P') => h h0 /= Hh. rewrite H0'.
      have HP := Rabs_pos_lt _ h0.
      have -> : (reached_overlap expm H0 B rho0 target dt n (seq.set_nth R0 a t (nth R0 a t + h)) - ip mu rho) / h - L =
        (reached_overlap expm H0 B rho0 target dt n (seq.set_nth R0 a t (nth R0 a t + h)) - ip mu rho - h * L) / h by field.
      rewrite /Rdiv Rabs_mult Rabs_inv. apply: Rle_lt_trans (_ : q * Rabs h < eps).
      + apply: Rle_trans (Rmult_le_compat_r _ _ _ _ (C h)) _; first by apply: Rlt_le; exact: Rinv_0_lt_compat.
        apply: Req_le. field. lra.
      + have T : Rabs h * (q + 1) < eps. { have := Rmult_lt_compat_r (q + 1) _ _ ltac:(lra) Hh. have -> : eps / (q + 1) * (q + 1) = eps by field; lra. by []. }
        lra.
  Qed.
  Local Close Scope R_scope.
  End Entry.
End Slices.
