(** The GRAPE gradient, the Liouvillian helper and the fidelity of pure states. *)
From Coq Require Import ZArith.
From mathcomp Require Import all_ssreflect all_algebra.
From mathcomp.real_closed Require Import mxtens.
From Verif Require Import Py ModelQuantum SpecQuantum ProofQuantum.
Import GRing.Theory Num.Theory.
Set Implicit Arguments.
Unset Strict Implicit.
Unset Printing Implicit Defensive.
Local Open Scope ring_scope.
Local Open Scope seq_scope.

Lemma nth_set A (x0 : A) l i v j : (i < size l)%N -> nth x0 (take i l ++ v :: drop i.+1 l) j = if j == i then v else nth x0 l j.
Proof.
  move=> L. rewrite nth_cat size_take L. case: (ltngtP j i) => D.
  - by rewrite nth_take.
  - rewrite -(subnSK D) /= nth_drop. congr nth. by rewrite subnKC.
  - by rewrite D subnn.
Qed.
Lemma size_set A (l : seq A) i v : (i < size l)%N -> size (take i l ++ v :: drop i.+1 l) = size l.
Proof. move=> L. by rewrite size_cat size_take L /= size_drop addnS -addSn subnKC. Qed.
Lemma rmap_ok A B (f : A -> res B) (g : A -> B) l : (forall x, List.In x l -> f x = Ok (g x)) -> rmap f l = Ok (map g l).
Proof. elim: l => [|x l IH] H //=. rewrite H /=; last by left. by rewrite IH //= => y Y; apply: H; right. Qed.
Lemma In_mem (T : eqType) (l : seq T) x : List.In x l -> x \in l.
Proof. elim: l => [|y l IH] //= [->|/IH H]; by rewrite inE ?eqxx ?H ?orbT. Qed.
Lemma rev_iota_last n k : (k < n)%N -> rev (iota (n - k.+1) k.+1) = rcons (rev (iota (n - k) k)) (n - k.+1)%N.
Proof. move=> L. by rewrite /= rev_cons subnSK. Qed.

Section Loops.
  Variables (C : numClosedFieldType) (d : nat).
  Notation M := 'M[C]_d.
  Variables (g : M -> M -> M) (us : seq M).

  (** the states stored by the forward loop *)
  Fixpoint state (r0 : M) (t : nat) : M := if t is s.+1 then g (nth 0 us s) (state r0 s) else r0.
  Lemma forward_loop l0 n : (n < size l0)%N -> (n <= size us)%N ->
    exists l, for_list (iota 0 n) (fun l t => rbind (at_ us t) (fun U => rbind (at_ l t) (fun r => py_set l (Z.of_nat t.+1) (g U r)))) l0 = Ok l
      /\ size l = size l0 /\ (forall t, (t <= n)%N -> nth 0 l t = state (nth 0 l0 0) t).
  Proof.
    elim: n => [|n IH] L U.
    - exists l0. split=> //. split=> // t. by rewrite leqn0 => /eqP ->.
    - case: IH => [||l [E [S H]]]; [exact: ltnW|exact: ltnW|].
      rewrite iotaSr -cats1 for_list_cat E add0n. cbn [rbind for_list].
      rewrite (atE 0) U. cbn [rbind]. rewrite (atE 0) S (ltnW L). cbn [rbind]. rewrite py_setE S L. cbn [rbind]. eexists. split; first by [].
      rewrite size_set ?S //. split=> // t T. rewrite nth_set ?S //. case: eqP => [->|D]; first by rewrite /= H.
      apply: H. move: T. rewrite leq_eqVlt => /orP [/eqP //|]. by [].
  Qed.
  (** the co-states stored by the backward loop: [k] slices before the end *)
  Fixpoint costate (n : nat) (c : M) (k : nat) : M := if k is j.+1 then g (nth 0 us (n - j.+1)) (costate n c j) else c.
  Lemma backward_loop l0 n : (n < size l0)%N -> (n <= size us)%N -> forall k, (k <= n)%N ->
    exists l, for_list (rev (iota (n - k) k)) (fun l t => rbind (at_ us t) (fun U => rbind (at_ l t.+1) (fun r => py_set l (Z.of_nat t) (g U r)))) l0 = Ok l
      /\ size l = size l0 /\ (forall j, (j <= k)%N -> nth 0 l (n - j) = costate n (nth 0 l0 n) j).
  Proof.
    move=> L U. elim=> [|k IH] K.
    - exists l0. split=> //. split=> // j. rewrite leqn0 => /eqP ->. by rewrite subn0.
    - case: IH => [|l [E [S H]]]; first exact: ltnW.
      rewrite rev_iota_last // -cats1 for_list_cat E. cbn [rbind for_list].
      have T : (n - k.+1 < n)%N by rewrite ltn_subrL (leq_trans _ K).
      rewrite (atE 0) (leq_trans T U). cbn [rbind]. rewrite (atE 0) S subnSK // (leq_ltn_trans (leq_subr _ _) L). cbn [rbind].
      rewrite py_setE S (ltn_trans T L). cbn [rbind].
      eexists. split; first by []. rewrite size_set ?S ?(ltn_trans T L) //. split=> // j J.
      rewrite nth_set ?S ?(ltn_trans T L) //. case: eqP => [D|D].
      + have -> : j = k.+1 by rewrite -(subKn (leq_trans J K)) D subKn.
        by rewrite /= H.
      + apply: H. move: J. rewrite leq_eqVlt => /orP [/eqP E1|//]. by rewrite E1 in D.
  Qed.
End Loops.

Section Gradient.
  Variables (C : numClosedFieldType) (d : nat).
  Notation M := 'M[C]_d.
  Implicit Types (us : seq M).

  Definition fstep (st real : bool) (U r : M) : M := stored real (if st then U *m r *m adj U else U *m r).
  Definition bstep (st real : bool) (U c : M) : M := stored real (if st then adj U *m c *m U else c *m adj U).
  (** storage arrays as the constructor leaves them and every later call keeps them *)
  Definition grape_ok (n : nat) (r0 c0 : M) (G : grape C d) : Prop :=
    size (rho_storage G) = n.+1 /\ size (corho_storage G) = n.+1 /\ nth 0 (rho_storage G) 0 = r0 /\ nth 0 (corho_storage G) n = c0.
  Lemma grape_new_ok real n initial target : grape_ok n (stored real initial) (stored real target) (grape_new real n initial target).
  Proof. split; first by rewrite /= size_nseq. split; first by rewrite /= size_rcons size_nseq. by rewrite /= nth_rcons size_nseq ltnn eqxx. Qed.

  Lemma get_gradientE st real n dt B us G r0 c0 : grape_ok n r0 c0 G -> (n <= size us)%N ->
    exists l c, get_gradient st real n dt B us G =
      Ok (Grape l c, [seq (if st then 'Re (\tr (('i * dt) *: adj (costate (bstep st real) us n c0 (n - t)) *m commutator B (state (fstep st real) us r0 t))) else 0) | t <- iota 0 n])
      /\ grape_ok n r0 c0 (Grape l c)
      /\ (forall t, (t <= n)%N -> nth 0 l t = state (fstep st real) us r0 t)
      /\ (forall t, (t <= n)%N -> nth 0 c t = costate (bstep st real) us n c0 (n - t)).
  Proof.
    move=> [S1 [S2 [H1 H2]]] U.
    have L1 : (n < size (rho_storage G))%N by rewrite S1.
    have L2 : (n < size (corho_storage G))%N by rewrite S2.
    have [l [E1 [SL HL]]] := @forward_loop C d (fstep st real) us (rho_storage G) n L1 U.
    have [c [E2 [SC HC]]] := @backward_loop C d (bstep st real) us (corho_storage G) n L2 U n (leqnn n).
    rewrite subnn in E2. rewrite H1 in HL. rewrite H2 in HC. rewrite S1 in SL. rewrite S2 in SC.
    have HC' : forall t, (t <= n)%N -> nth 0 c t = costate (bstep st real) us n c0 (n - t).
    { move=> t T. rewrite -HC ?leq_subr //. by rewrite subKn. }
    exists l, c. split; last split; [|split=> //; split=> //; split; by [rewrite HL|rewrite HC' // subnn]|by []].
    rewrite /get_gradient.
    have -> : for_list (iota 0 n) (forward_step st real us) (rho_storage G) = Ok l by exact: E1. 
    have -> : for_list (rev (iota 0 n)) (backward_step st real us) (corho_storage G) = Ok c by exact: E2.
    cbn [rbind]. erewrite rmap_ok; first by []. move=> t /In_mem. rewrite mem_iota add0n => T.
    rewrite /gradient_entry (atE 0) SL (ltnW T : t < n.+1)%N. cbn [rbind]. rewrite (atE 0) SC (ltnW T : t < n.+1)%N. cbn [rbind].
    by rewrite HL ?HC' ?(ltnW T).
  Qed.
  Lemma get_gradient_short st real n dt B us G r0 c0 : grape_ok n r0 c0 G -> (size us < n)%N -> get_gradient st real n dt B us G = Err IndexError.
  Proof.
    move=> [S1 [S2 _]] U. rewrite /get_gradient.
    have F : forall k l, (k <= n)%N -> size l = n.+1 -> match for_list (iota 0 k) (forward_step st real us) l with Ok l' => size l' = n.+1 /\ (k <= size us)%N | Err e => e = IndexError end.
    { elim=> [|k IH] l K L; first by []. rewrite iotaSr -cats1 for_list_cat. move: (IH l (ltnW K) L). case: for_list => [l'|e]; cbn [rbind for_list]; last by [].
      move=> [L' KU]. rewrite add0n /forward_step (atE 0). case: ltnP => KU2; cbn [rbind]; last by [].
      rewrite (atE 0) L' ltnS (ltnW K). cbn [rbind]. rewrite py_setE L' ltnS K. cbn [rbind]. by rewrite size_set L' ?ltnS. }
    move: (F n _ (leqnn n) S1). case: for_list => [l'|e] //=; last by move->. by move=> [_]; rewrite leqNgt U.
  Qed.

  (** state transfer with complex storage *)
  Lemma state_evolved us r0 t : state (fstep true false) us r0 t = evolved (nth 0 us) 1%:M t *m r0 *m adj (evolved (nth 0 us) 1%:M t).
  Proof. elim: t => [|t IH] /=; first by rewrite adj1 mulmx1 mul1mx. by rewrite IH /fstep /= adj_mul !mulmxA. Qed.
  Lemma later_step us n t : (t < n)%N -> later (nth 0 us) n t = later (nth 0 us) n t.+1 *m nth 0 us t.
  Proof.
    move=> L. rewrite /later -(subnSK L) -[(n - t.+1).+1]add1n evolved_add /= addn0 mulmx1. 
    rewrite -[nth 0 us t in LHS]mul1mx evolved_mul. congr (_ *m _). apply: eq_evolved => i _. by rewrite add1n addSnnS.
  Qed.
  Lemma costate_evolved us n c0 k : (k <= n)%N -> costate (bstep true false) us n c0 k = adj (later (nth 0 us) n (n - k)) *m c0 *m later (nth 0 us) n (n - k).
  Proof.
    elim: k => [|k IH] K; first by rewrite subn0 /later subnn /= adj1 mulmx1 mul1mx.
    rewrite /= IH; last exact: ltnW. rewrite /bstep /= (@later_step us n (n - k.+1)); last by rewrite ltn_subrL (leq_trans _ K).
    by rewrite subnSK // adj_mul !mulmxA.
  Qed.
  Lemma later_evolved us n t : (t <= n)%N -> later (nth 0 us) n t *m evolved (nth 0 us) 1%:M t = evolved (nth 0 us) 1%:M n.
  Proof. move=> L. by rewrite -{2}(subnKC L) evolved_add -evolved_mul mul1mx. Qed.

  Lemma overlap_same us n r0 c0 t : (t <= n)%N ->
    \tr (adj (costate (bstep true false) us n c0 (n - t)) *m state (fstep true false) us r0 t) =
    \tr (adj c0 *m (evolved (nth 0 us) 1%:M n *m r0 *m adj (evolved (nth 0 us) 1%:M n))).
  Proof.
    move=> L. rewrite costate_evolved ?leq_subr // subKn // state_evolved.
    rewrite -(later_evolved us L) !adj_mul adjK.
    set W := later (nth 0 us) n t. set V := evolved _ _ t. set K := adj c0.
    rewrite -!mulmxA mxtrace_mulC !mulmxA. by rewrite -!mulmxA.
  Qed.

  (** a slice multiplied by 1 - i eps dt B *)
  Lemma nudged us n t X : (t < n)%N -> evolved (nudge (nth 0 us) t X) 1%:M n = later (nth 0 us) n t *m (1%:M + X) *m evolved (nth 0 us) 1%:M t.
  Proof.
    move=> L. have E : n = (t.+1 + (n - t.+1))%N by rewrite subnKC.
    rewrite {1}E evolved_add.
    have -> : evolved (nudge (nth 0 us) t X) 1%:M t.+1 = nth 0 us t *m (1%:M + X) *m evolved (nth 0 us) 1%:M t.
    { rewrite [LHS]/= {1}/nudge eqxx. congr (_ *m _). apply: eq_evolved => i I. by rewrite /nudge (ltn_eqF I). }
    set Y := _ *m _ *m evolved _ _ t. rewrite -[Y]mul1mx evolved_mul.
    have -> : evolved (fun i => nudge (nth 0 us) t X (t.+1 + i)) 1%:M (n - t.+1) = later (nth 0 us) n t.+1.
    { rewrite /later. apply: eq_evolved => i I. by rewrite /nudge gtn_eqF // addSn ltnS leq_addr. }
    by rewrite /Y (later_step us L) !mulmxA.
  Qed.
  Lemma expand_nudge (eps : C) (Y rho : M) :
    (1%:M - eps *: Y) *m rho *m (1%:M + eps *: Y) = rho - eps *: (Y *m rho - rho *m Y) - (eps ^+ 2) *: (Y *m rho *m Y).
  Proof.
    rewrite mulmxBl mul1mx mulmxDr mulmx1 mulmxBl -!scalemxAl -!scalemxAr scalerBr opprB expr2 -[(eps * eps) *: _]scalerA !addrA.
    by rewrite [rho + _ - _]addrAC.
  Qed.
  Lemma first_order us n r0 c0 t (dt : C) B : (t < n)%N -> hermitian B -> dt \is Num.real ->
    exists c : C, forall eps : C, eps \is Num.real ->
      let V := evolved (nudge (nth 0 us) t (- ('i * eps * dt) *: B)) 1%:M n in let V0 := evolved (nth 0 us) 1%:M n in
      'Re (\tr (adj c0 *m (V *m r0 *m adj V))) = 'Re (\tr (adj c0 *m (V0 *m r0 *m adj V0)))
        - eps * 'Re (\tr (('i * dt) *: adj (costate (bstep true false) us n c0 (n - t)) *m commutator B (state (fstep true false) us r0 t)))
        + eps ^+ 2 * c.
  Proof.
    move=> L HB Hdt. set co := costate _ _ _ _ _. set rho := state _ _ _ _. set Y : M := ('i * dt) *: B.
    exists (- 'Re (\tr (adj co *m (Y *m rho *m Y)))). move=> eps He. cbn zeta.
    set V := evolved (nudge _ _ _) _ _. set V0 := evolved _ _ n.
    have AY : adj Y = - Y.
    { rewrite /Y adj_scale rmorphM conjCi (CrealP Hdt) (proj1 (hermitianE B) HB) mulNr scaleNr. by []. }
    have HX : - ('i * eps * dt) *: B = - (eps *: Y).
    { rewrite /Y scalerA -scaleNr. congr (_ *: _). by rewrite mulrA [eps * 'i]mulrC. }
    have T : \tr (adj c0 *m (V *m r0 *m adj V)) = \tr (adj co *m ((1%:M - eps *: Y) *m rho *m (1%:M + eps *: Y))).
    { rewrite /V nudged // HX. have -> : rho = evolved (nth 0 us) 1%:M t *m r0 *m adj (evolved (nth 0 us) 1%:M t) by exact: state_evolved.
      rewrite /co costate_evolved ?leq_subr // subKn ?(ltnW L) // !adj_mul adjK.
      have -> : adj (1%:M - eps *: Y) = 1%:M + eps *: Y.
      { by rewrite adj_add adj1 adj_opp adj_scale AY (CrealP He) scalerN opprK. }
      set W := later _ _ _. set E := evolved _ _ t. rewrite -!mulmxA [in RHS]mxtrace_mulC -!mulmxA. by []. }
    have T0 : \tr (adj c0 *m (V0 *m r0 *m adj V0)) = \tr (adj co *m rho) by rewrite -(overlap_same us r0 c0 (ltnW L)).
    rewrite T T0.
    have -> : (1%:M - eps *: Y) *m rho *m (1%:M + eps *: Y) = rho - eps *: (Y *m rho - rho *m Y) - (eps ^+ 2) *: (Y *m rho *m Y).
    { exact: expand_nudge. }
    have HC : Y *m rho - rho *m Y = ('i * dt) *: commutator B rho by rewrite /Y /commutator scalerBr -scalemxAl -scalemxAr.
    rewrite HC. move: (commutator B rho) => K. clearbody Y.
    have RM : forall a z : C, a \is Num.real -> 'Re (a * z) = a * 'Re z.
    { move=> a z A. rewrite !ReE rmorphM (CrealP A) -mulrDr mulrA. by []. }
    rewrite mulmxBr mulmxBr !raddfB /= -scalemxAr mxtraceZ -[in X in _ - _ - X]scalemxAr [in X in _ - _ - X]mxtraceZ.
    rewrite !RM // ?rpredX // mulrN. congr (_ - _ * _ - _).
    by rewrite -scalemxAl scalemxAr.
  Qed.
End Gradient.
