(** Lemmas on the quantum part. *)
From Coq Require Import ZArith.
From mathcomp Require Import all_ssreflect all_algebra.
From mathcomp.real_closed Require Import mxtens.
From Verif Require Import Py ModelQuantum SpecQuantum.
Import GRing.Theory Num.Theory.
Set Implicit Arguments.
Unset Strict Implicit.
Unset Printing Implicit Defensive.
Local Open Scope ring_scope.
Local Open Scope seq_scope.

(** ** python lists *)
Lemma atE A (x0 : A) l i : at_ l i = if (i < size l)%N then Ok (nth x0 l i) else Err IndexError.
Proof.
  rewrite /at_. elim: l i => [|x l IH] [|i] //=. by rewrite IH.
Qed.
Lemma length_size A (l : seq A) : List.length l = size l.
Proof. by []. Qed.
Lemma py_setE A (l : seq A) i v : py_set l (Z.of_nat i) v = if (i < size l)%N then Ok (take i l ++ v :: drop i.+1 l) else Err IndexError.
Proof.
  rewrite /py_set length_size.
  have Z0E : Z.ltb (Z.of_nat i) Z0 = false by apply/Z.ltb_ge; apply: Zle_0_nat.
  rewrite !Z0E Znat.Nat2Z.id.
  case: ltnP => L.
  - have -> : Z.leb (Z.of_nat (size l)) (Z.of_nat i) = false by apply/Z.leb_gt/Znat.Nat2Z.inj_lt/ltP.
    rewrite /=. apply: f_equal. elim: l i L {Z0E} => [|x l IH] [|i] //= L; first by rewrite drop0.
    by rewrite IH.
  - by have -> : Z.leb (Z.of_nat (size l)) (Z.of_nat i) = true by apply/Z.leb_le/Znat.Nat2Z.inj_le/leP.
Qed.
Lemma for_list_cat S (f : S -> nat -> res S) a b s : for_list (a ++ b) f s = rbind (for_list a f s) (for_list b f).
Proof. elim: a s => [|t a IH] s //=. by case: (f s t). Qed.
Lemma for_list_err S (f : S -> nat -> res S) ts e : forall s,
  (forall s t, t \in ts -> match f s t with Ok _ => True | Err e' => e' = e end) ->
  (exists t, t \in ts /\ forall s, f s t = Err e) -> for_list ts f s = Err e.
Proof.
  elim: ts => [|t ts IH] s A [u [U H]] //=. move: U. rewrite inE => /orP [/eqP E|U].
  - by rewrite -E H.
  - move: (A s t). rewrite inE eqxx => /(_ isT). case: (f s t) => [s'|e'] /=; last by move->.
    move=> _. apply: IH; last by exists u. by move=> s2 t2 T2; apply: A; rewrite inE T2 orbT.
Qed.
Lemma iotaSr a n : iota a n.+1 = rcons (iota a n) (a + n)%N.
Proof. by rewrite -addn1 iotaD /= cats1. Qed.

Section Matrices.
  Variable C : numClosedFieldType.

  Lemma adjE m n (X : 'M[C]_(m, n)) : adj X = dagger X.
  Proof. by apply/matrixP => i j; rewrite !mxE. Qed.
  Lemma adj_mul m n p (X : 'M[C]_(m, n)) (Y : 'M[C]_(n, p)) : adj (X *m Y) = adj Y *m adj X.
  Proof. by rewrite /adj trmx_mul map_mxM. Qed.
  Lemma adjK m n (X : 'M[C]_(m, n)) : adj (adj X) = X.
  Proof. by apply/matrixP => i j; rewrite !mxE conjCK. Qed.
  Lemma adj_add m n (X Y : 'M[C]_(m, n)) : adj (X + Y) = adj X + adj Y.
  Proof. by apply/matrixP => i j; rewrite !mxE rmorphD. Qed.
  Lemma adj_opp m n (X : 'M[C]_(m, n)) : adj (- X) = - adj X.
  Proof. by apply/matrixP => i j; rewrite !mxE rmorphN. Qed.
  Lemma adj_scale m n a (X : 'M[C]_(m, n)) : adj (a *: X) = a^* *: adj X.
  Proof. by apply/matrixP => i j; rewrite !mxE rmorphM. Qed.
  Lemma adj1 n : adj (1%:M : 'M[C]_n) = 1%:M.
  Proof. by apply/matrixP => i j; rewrite !mxE rmorph_nat eq_sym. Qed.
  Lemma adj0 m n : adj (0 : 'M[C]_(m, n)) = 0.
  Proof. by apply/matrixP => i j; rewrite !mxE rmorph0. Qed.
  Lemma mxtrace_adj n (X : 'M[C]_n) : \tr (adj X) = (\tr X)^*.
  Proof. rewrite /adj trace_map_mx. by rewrite mxtrace_tr. Qed.
  Lemma hermitianE n (X : 'M[C]_n) : hermitian X <-> adj X = X.
  Proof.
    split=> [H|H i j]; first by apply/matrixP => i j; rewrite !mxE -H.
    by rewrite -[in LHS]H !mxE.
  Qed.
  Lemma unitary_mul n (X Y : 'M[C]_n) : unitary X -> unitary Y -> unitary (X *m Y).
  Proof.
    rewrite /unitary -!adjE => HX HY. rewrite adj_mul mulmxA -[adj Y *m adj X *m X]mulmxA HX mulmx1. exact: HY.
  Qed.
  Lemma unitary1 n : unitary (1%:M : 'M[C]_n).
  Proof. by rewrite /unitary -adjE adj1 mulmx1. Qed.
  Lemma hermitian_sum n (I : Type) (r : seq I) (P : pred I) (F : I -> 'M[C]_n) : (forall i, hermitian (F i)) -> hermitian (\sum_(i <- r | P i) F i).
  Proof. move=> H. apply: big_ind => // [i j|X Y HX HY i j]; first by rewrite !mxE rmorph0. by rewrite !mxE rmorphD HX HY. Qed.
  Lemma hermitian_scale n (a : C) (X : 'M[C]_n) : a \is Num.real -> hermitian X -> hermitian (a *: X).
  Proof. move=> /CrealP A H i j. by rewrite !mxE rmorphM A -H. Qed.
  Lemma hermitian_add n (X Y : 'M[C]_n) : hermitian X -> hermitian Y -> hermitian (X + Y).
  Proof. move=> HX HY i j. by rewrite !mxE rmorphD -HX -HY. Qed.
End Matrices.

Section Evolution.
  Variables (C : numClosedFieldType) (d : nat).
  Variable expm : 'M[C]_d -> 'M[C]_d.
  Notation M := 'M[C]_d.
  Implicit Types (drive : seq (seq C)) (A : M) (B : seq M).

  Lemma add_controlsE drive B i : forall k H,
    add_controls drive B k i H =
    if all (fun j => (k + j < size drive)%N && (i < size (nth [::] drive (k + j)))%N) (iota 0 (size B))
    then Ok (H + \sum_(j < size B) amplitude drive (k + j) i *: nth 0 B j) else Err IndexError.
  Proof.
    elim: B => [|b B IH] k H; first by rewrite /= big_ord0 addr0.
    rewrite /= (atE [::]) addn0. case: ltnP => L //=.
    rewrite (atE 0). case: ltnP => L2 //=. rewrite IH.
    have -> : all (fun j => (k.+1 + j < size drive)%N && (i < size (nth [::] drive (k.+1 + j)))%N) (iota 0 (size B)) =
              all (fun j => (k + j < size drive)%N && (i < size (nth [::] drive (k + j)))%N) (iota 1 (size B)).
    { rewrite (iotaDl 1 0) all_map. apply: eq_all => j /=. by rewrite addnA addn1. }
    case: all => //. apply: f_equal. rewrite big_ord_recl /= -addrA addn0. do 2 congr (_ + _).
    apply: eq_bigr => j _. by rewrite /= addnS addSn.
  Qed.
  Lemma add_controls_covers drive A B n i : covers drive (size B) n -> (i < n)%N ->
    add_controls drive B 0 i A = Ok (hamiltonian drive A B i).
  Proof.
    move=> H L. rewrite add_controlsE. have -> : all (fun j => (0 + j < size drive)%N && (i < size (nth [::] drive (0 + j)))%N) (iota 0 (size B)).
    { apply/allP => j. rewrite mem_iota /= !add0n => J. case: (H j J) => -> H2 /=. exact: (leq_trans L H2). }
    by [].
  Qed.
  Lemma slice_covers drive A B dt n i : covers drive (size B) n -> (i < n)%N ->
    slice expm drive A B dt i = Ok (propagator expm drive A B dt i).
  Proof. by move=> H L; rewrite /slice (add_controls_covers A H L). Qed.
  Lemma slice_or drive A B dt i : match slice expm drive A B dt i with Ok _ => True | Err e => e = IndexError end.
  Proof. rewrite /slice add_controlsE. by case: all. Qed.
  Lemma slice_short drive A B dt i k : (k < size B)%N -> ~~ ((k < size drive)%N && (i < size (nth [::] drive k))%N) ->
    slice expm drive A B dt i = Err IndexError.
  Proof.
    move=> K H. rewrite /slice add_controlsE ifF //. apply/negbTE/allPn. exists k; by rewrite ?mem_iota.
  Qed.

  Lemma final_evolvedE drive A B dt U0 n : (forall i, (i < n)%N -> slice expm drive A B dt i = Ok (propagator expm drive A B dt i)) ->
    pw_final_evolution expm drive A B n dt U0 = Ok (evolved (propagator expm drive A B dt) U0 n).
  Proof.
    rewrite /pw_final_evolution. elim: n => [|n IH] H //. rewrite iotaSr -cats1 for_list_cat IH; last by move=> i L; apply: H; apply: ltnW.
    by rewrite /= H.
  Qed.
  Lemma final_evolved drive A B dt U0 n : covers drive (size B) n ->
    pw_final_evolution expm drive A B n dt U0 = Ok (evolved (propagator expm drive A B dt) U0 n).
  Proof. move=> H. apply: final_evolvedE => i L. exact: (slice_covers _ _ H). Qed.
  (** an amplitude is missing *)
  Lemma final_short drive A B dt U0 n : ~ covers drive (size B) n -> (0 < n)%N ->
    pw_final_evolution expm drive A B n dt U0 = Err IndexError.
  Proof.
    move=> H N. have : ~~ all (fun k => (k < size drive)%N && (n <= size (nth [::] drive k))%N) (iota 0 (size B)).
    { apply/negP => /allP Q. apply: H => k K. move: (Q k). rewrite mem_iota K => /(_ isT) /andP [-> ->]. by []. }
    move=> /allPn [k]. rewrite mem_iota add0n => /andP [_ K] Q.
    apply: for_list_err.
    - move=> s t _. move: (slice_or drive A B dt t). by case: slice.
    - exists n.-1. split; first by rewrite mem_iota add0n /= prednK.
      move=> s. rewrite (slice_short A dt K) //. apply: contra Q => /andP [-> Q2] /=. by rewrite -(prednK N).
  Qed.

  Lemma evolution_fromE drive A B dt n : forall k store,
    (forall i, (i < n)%N -> slice expm drive A B dt (k + i) = Ok (propagator expm drive A B dt (k + i))) -> (k + n <= size store)%N ->
    evolution_from expm drive A B dt n k store =
    (take k store ++ [seq propagator expm drive A B dt i | i <- iota k n] ++ drop (k + n) store, Ok tt).
  Proof.
    elim: n => [|n IH] k store H L /=; first by rewrite addn0 cat_take_drop.
    have E := H 0%N isT. rewrite addn0 in E. rewrite E.
    have K : (k < size store)%N by apply: leq_trans L; rewrite addnS ltnS leq_addr.
    rewrite py_setE K IH.
    - congr (_, _).
      rewrite take_cat size_take K ltnNge leqnSn /= subSn // subnn /= take0 -catA /=. congr (_ ++ _ :: _ ++ _).
      rewrite drop_cat size_take K addSn ltnNge -addnS leq_addr /= addnS subSn ?leq_addr // addKn /=. 
      by rewrite drop_drop addnS addnC.
    - move=> i I. rewrite addSnnS. exact: H.
    - by rewrite size_cat size_take K /= size_drop addnS -addSn subnKC // addSnnS.
  Qed.
  Lemma pw_evolutionE drive A B dt n store : covers drive (size B) n -> (n <= size store)%N ->
    pw_evolution expm store drive A B n dt = ([seq propagator expm drive A B dt i | i <- iota 0 n] ++ drop n store, Ok tt).
  Proof.
    move=> H L. rewrite /pw_evolution evolution_fromE ?add0n ?take0 //. move=> i I. exact: (slice_covers _ _ H).
  Qed.
  Lemma evolution_from_err drive A B dt n : forall k store,
    (exists i, (k <= i < k + n)%N /\ (slice expm drive A B dt i = Err IndexError \/ (size store <= i)%N)) ->
    (evolution_from expm drive A B dt n k store).2 = Err IndexError.
  Proof.
    elim: n => [|n IH] k store [i [/andP [L1 L2] E]]; first by move: (leq_ltn_trans L1 L2); rewrite addn0 ltnn.
    rewrite /=. move: (slice_or drive A B dt k). case S: (slice expm drive A B dt k) => [U|e] //= ; last by move->.
    move=> _. rewrite py_setE. case: ltnP => K //. apply: IH. exists i.
    have D : (k < i)%N.
    { rewrite ltn_neqAle L1 andbT. apply/negP => /eqP D. case: E => E; first by rewrite -D S in E. by move: K; rewrite D ltnNge E. }
    split; first by rewrite D addSn -addnS.
    case: E => E; [by left|right]. by rewrite size_cat size_take K /= size_drop addnS -addSn subnKC.
  Qed.

  Lemma evolved_unitary (U : nat -> M) U0 n : (forall i, (i < n)%N -> unitary (U i)) -> unitary U0 -> unitary (evolved U U0 n).
  Proof. elim: n => [|n IH] H H0 //=. apply: unitary_mul; first exact: H. apply: IH => // i L. apply: H. exact: ltnW. Qed.
  Lemma propagator_unitary drive A B dt i : exponentiates expm -> hermitian A -> (forall b, b \in B -> hermitian b) ->
    (forall k, (k < size B)%N -> amplitude drive k i \is Num.real) -> dt \is Num.real -> unitary (propagator expm drive A B dt i).
  Proof.
    move=> E HA HB HD Hdt. rewrite /propagator -scalerA. apply: E. apply: hermitian_scale => //. apply: hermitian_add => //.
    apply: hermitian_sum => k. apply: hermitian_scale; first exact: HD. apply: HB. exact: mem_nth.
  Qed.
  Lemma evolved_add (U : nat -> M) U0 n m : evolved U U0 (n + m) = evolved (fun i => U (n + i)%N) (evolved U U0 n) m.
  Proof. elim: m => [|m IH]; first by rewrite addn0. by rewrite addnS /= IH. Qed.
  Lemma eq_evolved (U V : nat -> M) U0 n : (forall i, (i < n)%N -> U i = V i) -> evolved U U0 n = evolved V U0 n.
  Proof. elim: n => [|n IH] H //=. by rewrite H // IH // => i L; apply: H; apply: ltnW. Qed.
  Lemma evolved_mul (U : nat -> M) U0 X n : evolved U (U0 *m X) n = evolved U U0 n *m X.
  Proof. elim: n => [|n IH] //=. by rewrite IH mulmxA. Qed.
  Lemma reduce_evolved (U : nat -> M) n : (0 < n)%N -> reduce_ [seq U i | i <- iota 0 n] = Ok (evolved U 1%:M n).
  Proof.
    case: n => // n _. rewrite /reduce_ /=. apply: f_equal.
    elim: n => [|n IH]; first by rewrite /= mulmx1. rewrite -[n.+1]addn1 iotaD map_cat foldl_cat IH /= add1n. by rewrite addn1.
  Qed.

  (** jax *)
  Lemma clamped_in T (x0 : T) l i : (i < size l)%N -> clamped x0 l i = nth x0 l i.
  Proof. move=> L. rewrite /clamped. congr nth. apply/minn_idPl. by case: (size l) L. Qed.
  Lemma clamped_out T (x0 : T) l i : (size l <= i)%N -> clamped x0 l i = last x0 l.
  Proof.
    move=> L. rewrite /clamped (minn_idPr _); first by rewrite nth_last. exact: (leq_trans (leq_pred _) L).
  Qed.
  Lemma hamiltonian_ADE drive A B i :
    hamiltonian_AD drive A B i = A + \sum_(k < size B) clamped 0 (clamped [::] drive k) i *: nth 0 B k.
  Proof.
    rewrite /hamiltonian_AD. have Q : forall k H, foldl (fun H (kb : nat * M) => H + clamped 0 (clamped [::] drive kb.1) i *: kb.2) H (zip (iota k (size B)) B)
      = H + \sum_(j < size B) clamped 0 (clamped [::] drive (k + j)) i *: nth 0 B j; last by rewrite Q.
    elim: B => [|b B IH] k H; first by rewrite /= big_ord0 addr0.
    rewrite /= IH big_ord_recl /= addn0 -addrA. do 2 congr (_ + _). apply: eq_bigr => j _. by rewrite addSnnS.
  Qed.
  Lemma hamiltonian_AD_covers drive A B n i : covers drive (size B) n -> (i < n)%N -> hamiltonian_AD drive A B i = hamiltonian drive A B i.
  Proof.
    move=> H L. rewrite hamiltonian_ADE. congr (_ + _). apply: eq_bigr => k _. case: (H k (ltn_ord k)) => H1 H2.
    rewrite (clamped_in _ H1) clamped_in //. exact: (leq_trans L H2).
  Qed.
  Lemma final_AD drive A B dt U0 n :
    pw_final_evolution_AD expm drive A B n dt U0 = evolved (fun i => expm ((- 'i * dt) *: hamiltonian_AD drive A B i)) U0 n.
  Proof. rewrite /pw_final_evolution_AD. elim: n => [|n IH] //. by rewrite iotaSr -cats1 foldl_cat IH. Qed.
  Lemma final_AD_covers drive A B dt U0 n : covers drive (size B) n ->
    pw_final_evolution_AD expm drive A B n dt U0 = evolved (propagator expm drive A B dt) U0 n.
  Proof. move=> H. rewrite final_AD. apply: eq_evolved => i L. by rewrite /propagator (hamiltonian_AD_covers A H L). Qed.
  Lemma evolution_AD_nop drive A B dt n store : pw_evolution_AD expm store drive A B n dt = store.
  Proof. rewrite /pw_evolution_AD. by elim: (iota 0 n) store => [|i l IH]. Qed.
End Evolution.
