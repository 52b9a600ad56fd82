(** * Hamiltonians of the Ising problem: lemmas. *)
From Coq Require Import ZArith Lia.
From mathcomp Require Import all_ssreflect all_algebra zify ring.
From Verif Require Import Py ModelQuantum ModelIsing SpecTrace SpecIsing ModelTrace ProofQuantum ProofGrape ProofTrace.
Import GRing.Theory.
Set Implicit Arguments.
Unset Strict Implicit.
Unset Printing Implicit Defensive.
Local Open Scope ring_scope.
Local Open Scope seq_scope.

Section Kron.
  Variable R : comRingType.
  Notation square := (square R).
  Definition horner (n : nat) (s : seq nat) : nat := foldl (fun n b => (n * 2 + b)%N) n s.
  Lemma basis_horner s : basis_number s = horner 0 s.
  Proof. rewrite /basis_number /number /horner.
    suff H : forall n, foldl (fun n mi => (n * mi.1 + mi.2)%N) n (zip (nseq (size s) 2%N) s) = foldl (fun n b => (n * 2 + b)%N) n s by exact: H.
    by elim: s => [|b s IH] n //=. 
  Qed.
  Lemma spinsP n s : s \in spins n <-> size s = n /\ forall k, (k < n)%N -> (nth 0%N s k < 2)%N.
  Proof.
    rewrite /spins strings_nth size_nseq. split=> -[S H]; split=> // k K; move: (H k K); by rewrite nth_nseq K.
  Qed.
  Definition entry_product (As : seq square) (s t : seq nat) : R := \prod_(k < size As) ent (nth (i2 R) As k) (nth 0%N s k) (nth 0%N t k).
  Lemma fold_dim (l : seq square) A : all (fun B => dim B == 2%N) l -> dim (foldl (@kron R) A l) = (dim A * 2 ^ size l)%N.
  Proof.
    elim: l A => [|B l IH] A /=; first by rewrite muln1. move=> /andP [/eqP D H]. by rewrite IH //= D expnS mulnA.
  Qed.
  Lemma kron_entry (A B : square) i j b c : dim B = 2%N -> (b < 2)%N -> (c < 2)%N -> ent (kron A B) (i * 2 + b) (j * 2 + c) = ent A i j * ent B b c.
  Proof. move=> D L M. by rewrite /= D !divnMDl // !divn_small // !addn0 !modnMDl !modn_small. Qed.
  Lemma fold_entry (l : seq square) A i j s t : all (fun B => dim B == 2%N) l -> size s = size l -> size t = size l ->
    all (fun b => b < 2)%N s -> all (fun b => b < 2)%N t ->
    ent (foldl (@kron R) A l) (horner i s) (horner j t) = ent A i j * entry_product l s t.
  Proof.
    elim: l A i j s t => [|B l IH] A i j [|b s] [|c t] //=; first by rewrite /entry_product big_ord0 mulr1.
    move=> /andP [/eqP D H] [S] [S'] /andP [L Ls] /andP [M Mt]. rewrite IH // kron_entry // /entry_product big_ord_recl /= mulrA. by [].
  Qed.
  Lemma tensor_ok (As : seq square) : (1 < size As)%N -> all (fun B => dim B == 2%N) As -> exists A, tensor_together As = Ok A /\ dim A = (2 ^ size As)%N
    /\ forall s t, s \in spins (size As) -> t \in spins (size As) -> ent A (basis_number s) (basis_number t) = entry_product As s t.
  Proof.
    case: As => [|A0 [|A1 l]] // _ /= /and3P [/eqP D0 /eqP D1 H]. eexists. split; first by []. split.
    - by rewrite fold_dim //= D0 D1 !expnS mulnA.
    - move=> s t /spinsP [Ss Hs] /spinsP [St Ht]. rewrite !basis_horner.
      have a2 : forall u, size u = (size l).+2 -> (forall k, (k < (size l).+2)%N -> (nth 0%N u k < 2)%N) -> all (fun b => b < 2)%N u.
      { move=> u Su Hu. apply/(all_nthP 0%N) => k K. apply: Hu. by rewrite -Su. }
      have as_ := a2 _ Ss Hs. have at_ := a2 _ St Ht. case: s Ss Hs as_ => [|s0 [|s1 s]] //= [Ss] _ /and3P [L0 L1 L]. case: t St Ht at_ => [|t0 [|t1 t]] //= [St] _ /and3P [M0 M1 M].
      rewrite !mul0n !add0n. rewrite -/(horner _ _) -/(horner _ _) fold_entry // kron_entry //. rewrite /entry_product /= !big_ord_recl /= mulrA. by [].
  Qed.
  Lemma tensor_short (As : seq square) : (size As < 2)%N -> tensor_together As = Err IndexError.
  Proof. by case: As => [|A0 [|A1 l]]. Qed.

  (** ** Sums of terms *)
  Lemma add_terms_ok n js term x (H : square) (f : nat -> seq nat -> seq nat -> R) :
    (forall j, j \in js -> exists rest A, term j = Ok rest /\ tensor_together rest = Ok A
       /\ forall s t, s \in spins n -> t \in spins n -> ent A (basis_number s) (basis_number t) = f j s t) ->
    exists H', add_terms js term x H = Ok H' /\ dim H' = dim H
      /\ forall s t, s \in spins n -> t \in spins n -> ent H' (basis_number s) (basis_number t) = ent H (basis_number s) (basis_number t) + \sum_(j <- js) x * f j s t.
  Proof.
    elim: js H => [|j js IH] H Q; first by exists H; split=> //; split=> // s t _ _; rewrite big_nil addr0.
    case: (Q j); first by rewrite inE eqxx. move=> rest [A [E1 [E2 E3]]]. case: (IH (add_scaled x H A)); first by move=> k K; apply: Q; rewrite inE K orbT.
    move=> H' [F1 [F2 F3]]. exists H'. cbn [add_terms]. rewrite E1. cbn [rbind]. rewrite E2. cbn [rbind]. split; first by []. split; first by [].
    move=> s t S T. rewrite F3 // big_cons /= E3 // addrA. by [].
  Qed.

  (** ** Factors *)
  Lemma ent_i2 b c : (b < 2)%N -> (c < 2)%N -> ent (i2 R) b c = (b == c)%:R.
  Proof. by case: b c => [|[|]] [|[|]]. Qed.
  Lemma ent_sz b c : (b < 2)%N -> (c < 2)%N -> ent (sz R) b c = (b == c)%:R * (if b == 0%N then 1 else -1).
  Proof. by case: b c => [|[|]] [|[|]] // _ _; rewrite /= ?mul1r ?mul0r. Qed.
  Lemma ent_sx b c : (b < 2)%N -> (c < 2)%N -> ent (sx R) b c = (b != c)%:R.
  Proof. by case: b c => [|[|]] [|[|]]. Qed.
  Lemma prod_same n (s t : seq nat) : size s = n -> size t = n -> \prod_(k < n) (nth 0%N s k == nth 0%N t k)%:R = (s == t)%:R :> R.
  Proof.
    move=> S T. case: (s =P t) => [<-|N].
    - rewrite big1 // => k _. by rewrite eqxx.
    - have [k K D] : exists2 k, (k < n)%N & nth 0%N s k != nth 0%N t k.
      { have : ~~ all (fun k => nth 0%N s k == nth 0%N t k) (iota 0 n).
        { apply/negP => /allP H. apply: N. apply: (@eq_from_nth _ 0%N); first by rewrite S T. move=> k K. apply/eqP. apply: H. by rewrite mem_iota /= add0n -S. }
        move=> /allPn [k]. rewrite mem_iota /= add0n => K D. by exists k. }
      by rewrite (bigD1 (Ordinal K)) //= (negbTE D) mul0r.
  Qed.
  Lemma nth_py_set (l l' : seq square) i v : py_set l (Z.of_nat i) v = Ok l' -> size l' = size l /\ forall k, nth (i2 R) l' k = if k == i then v else nth (i2 R) l k.
  Proof. rewrite py_setE. case: ltnP => // L [<-]. split; first exact: size_set. move=> k. exact: nth_set. Qed.
  Lemma py_set_in (l : seq square) i v : (i < size l)%N -> exists l', py_set l (Z.of_nat i) v = Ok l'.
  Proof. move=> L. rewrite py_setE L. by eexists. Qed.
  Lemma dims_two (l : seq square) : (forall k, (k < size l)%N -> dim (nth (i2 R) l k) = 2%N) -> all (fun B => dim B == 2%N) l.
  Proof. move=> H. apply/(all_nthP (i2 R)) => k K. by rewrite H. Qed.

  (** one coupling *)
  Lemma coupling_term n i1 i2' : (1 < n)%N -> (i1 < n)%N -> (i2' < n)%N -> exists rest A, coupling R n i1 i2' = Ok rest /\ tensor_together rest = Ok A
    /\ forall s t, s \in spins n -> t \in spins n ->
       ent A (basis_number s) (basis_number t) = (s == t)%:R * (if i1 == i2' then z_of R s i1 else z_of R s i1 * z_of R s i2').
  Proof.
    move=> N L1 L2. rewrite /coupling. have [r1 E1] := @py_set_in (nseq n (i2 R)) i1 (sz R) ltac:(by rewrite size_nseq). rewrite E1. cbn [rbind].
    have [S1 H1] := nth_py_set E1. rewrite size_nseq in S1. have [r2 E2] := @py_set_in r1 i2' (sz R) ltac:(by rewrite S1). have [S2 H2] := nth_py_set E2. rewrite S1 in S2.
    have H : forall k, (k < n)%N -> nth (i2 R) r2 k = if (k == i1) || (k == i2') then sz R else i2 R.
    { move=> k K. rewrite H2 H1 nth_nseq K. case: (k == i2'); first by rewrite orbT. by case: (k == i1). }
    have [A [EA [_ HA]]] : exists A, tensor_together r2 = Ok A /\ dim A = (2 ^ size r2)%N
      /\ forall s t, s \in spins (size r2) -> t \in spins (size r2) -> ent A (basis_number s) (basis_number t) = entry_product r2 s t.
    { apply: tensor_ok; first by rewrite S2. apply: dims_two => k. rewrite S2 => K. rewrite H //. by case: ifP. }
    exists r2, A. split; first by []. split; first by []. move=> s t S T. rewrite HA ?S2 // /entry_product S2.
    case/spinsP: S => Ss Hs. case/spinsP: T => St Ht.
    rewrite -(prod_same Ss St). 
    have -> : (if i1 == i2' then z_of R s i1 else z_of R s i1 * z_of R s i2') = \prod_(k < n) (if (k == i1 :> nat) || (k == i2' :> nat) then z_of R s k else 1).
    { rewrite (bigD1 (Ordinal L1)) //= eqxx /=. case: (i1 =P i2') => [<-|D].
      - rewrite big1 ?mulr1 // => k /eqP K. rewrite orbb ifF //. apply/negbTE/eqP => E. apply: K. exact: val_inj.
      - rewrite (bigD1 (Ordinal L2)) /=; last by apply/eqP => -[] /esym. rewrite eqxx orbT big1 ?mulr1 // => k /andP [/eqP K1 /eqP K2].
        rewrite ifF //. apply/negbTE/norP. split; apply/eqP => E; [apply: K1|apply: K2]; exact: val_inj. }
    rewrite -big_split /=. apply: eq_bigr => k _. rewrite H // /z_of. case: ifP => _.
    - apply: ent_sz; [exact: Hs|exact: Ht].
    - rewrite mulr1. apply: ent_i2; [exact: Hs|exact: Ht].
  Qed.
  Lemma flip_term n j : (1 < n)%N -> (j < n)%N -> exists rest A, py_set (nseq n (i2 R)) (Z.of_nat j) (sx R) = Ok rest /\ tensor_together rest = Ok A
    /\ forall s t, s \in spins n -> t \in spins n ->
       ent A (basis_number s) (basis_number t) = \prod_(k < n) (if k == j :> nat then nth 0%N s k != nth 0%N t k else nth 0%N s k == nth 0%N t k)%:R.
  Proof.
    move=> N L. have [r1 E1] := @py_set_in (nseq n (i2 R)) j (sx R) ltac:(by rewrite size_nseq). have [S1 H1] := nth_py_set E1. rewrite size_nseq in S1.
    have [A [EA [_ HA]]] : exists A, tensor_together r1 = Ok A /\ dim A = (2 ^ size r1)%N
      /\ forall s t, s \in spins (size r1) -> t \in spins (size r1) -> ent A (basis_number s) (basis_number t) = entry_product r1 s t.
    { apply: tensor_ok; first by rewrite S1. apply: dims_two => k. rewrite S1 => K. rewrite H1 nth_nseq K. by case: ifP. }
    exists r1, A. split; first by []. split; first by []. move=> s t S T. rewrite HA ?S1 // /entry_product S1.
    case/spinsP: S => Ss Hs. case/spinsP: T => St Ht. apply: eq_bigr => k _. rewrite H1 nth_nseq ltn_ord. case: ifP => _.
    - apply: ent_sx; [exact: Hs|exact: Ht].
    - apply: ent_i2; [exact: Hs|exact: Ht].
  Qed.
  Lemma no_flip (s t : seq nat) : size s = size t -> (s == t) = (flips s t == 0%N).
  Proof.
    rewrite /flips. elim: s t => [|x s IH] [|y t] // [S]. rewrite eqseq_cons IH //=. by case: (x == y).
  Qed.
  Lemma one_flip n (s t : seq nat) : size s = n -> size t = n ->
    \sum_(j <- iota 0 n) 1 * \prod_(k < n) (if k == j :> nat then nth 0%N s k != nth 0%N t k else nth 0%N s k == nth 0%N t k)%:R = (flips s t == 1%N)%:R :> R.
  Proof.
    elim: n s t => [|n IH] [|b s] [|c t] // => [_ _|[S] [T]]; first by rewrite big_nil.
    have E0 : \prod_(k < n.+1) (if k == 0%N :> nat then nth 0%N (b :: s) k != nth 0%N (c :: t) k else nth 0%N (b :: s) k == nth 0%N (c :: t) k)%:R
      = (b != c)%:R * (flips s t == 0%N)%:R :> R.
    { rewrite big_ord_recl /=. congr (_ * _). rewrite (eq_bigr (fun i : 'I_n => (nth 0%N s i == nth 0%N t i)%:R)) // prod_same // no_flip //. by rewrite S T. }
    have E1 : \sum_(j <- iota 1 n) 1 * \prod_(k < n.+1) (if k == j :> nat then nth 0%N (b :: s) k != nth 0%N (c :: t) k else nth 0%N (b :: s) k == nth 0%N (c :: t) k)%:R
      = (b == c)%:R * (flips s t == 1%N)%:R :> R.
    { rewrite (iotaDl 1 0)  big_map -(IH s t S T) big_distrr /=. apply: eq_bigr => j _. by rewrite !mul1r big_ord_recl /=. }
    rewrite [iota _ _]/= big_cons E1 mul1r E0.
    rewrite /flips /=. case: (b =P c) => /= _; by rewrite ?mul0r ?mul1r ?add0r ?addr0 // add1n.
  Qed.

  (** ** The whole matrices *)
  Lemma zero_ok n : dim (zeros R (2 ^ n)) = (2 ^ n)%N /\ forall i j, ent (zeros R (2 ^ n)) i j = 0.
  Proof. by []. Qed.
  Lemma static_general n (J g : R) : (1 < n)%N -> exists H, get_static_hamiltonian n J g = Ok H /\ dim H = (2 ^ n)%N
    /\ forall s t, s \in spins n -> t \in spins n -> ent H (basis_number s) (basis_number t) =
      \sum_(j <- iota 0 n) - J * ((s == t)%:R * (if j == next_one n j then z_of R s j else z_of R s j * z_of R s (next_one n j)))
      + \sum_(j <- iota 0 n) - g * ((s == t)%:R * (if j == next_two n j then z_of R s j else z_of R s j * z_of R s (next_two n j))).
  Proof.
    move=> N. rewrite /get_static_hamiltonian.
    have [|H1 [E1 [D1 F1]]] := @add_terms_ok n (iota 0 n) (fun j => coupling R n j (next_one n j)) (- J) (zeros R (2 ^ n))
      (fun j s t => (s == t)%:R * (if j == next_one n j then z_of R s j else z_of R s j * z_of R s (next_one n j))).
    { move=> j. rewrite mem_iota /= add0n => L. apply: coupling_term => //. rewrite /next_one. case: eqP => X; lia. }
    rewrite E1. cbn [rbind].
    have [|H2 [E2 [D2 F2]]] := @add_terms_ok n (iota 0 n) (fun j => coupling R n j (next_two n j)) (- g) H1
      (fun j s t => (s == t)%:R * (if j == next_two n j then z_of R s j else z_of R s j * z_of R s (next_two n j))).
    { move=> j. rewrite mem_iota /= add0n => L. apply: coupling_term => //. rewrite /next_two. case: eqP => X; first by lia. case: eqP => Y; lia. }
    exists H2. split; first by []. split; first by rewrite D2 D1. move=> s t S T. rewrite F2 // F1 // add0r. by [].
  Qed.
  Lemma next_one_mod n j : (1 < n)%N -> (j < n)%N -> next_one n j = ((j + 1) %% n)%N /\ (j == next_one n j) = false.
  Proof.
    move=> N L. rewrite /next_one addn1. case: eqP => X.
    - split; first by rewrite -X modnn. apply/eqP. lia.
    - split; first by rewrite modn_small //; lia. apply/eqP. lia.
  Qed.
  Lemma next_two_mod n j : (2 < n)%N -> (j < n)%N -> next_two n j = ((j + 2) %% n)%N /\ (j == next_two n j) = false.
  Proof.
    move=> N L. rewrite /next_two. case: eqP => X.
    - split; last by apply/eqP; lia. have -> : (j + 2 = n + 1)%N by lia. rewrite modnDl modn_small //; lia.
    - case: eqP => Y.
      + split; last by apply/eqP; lia. have -> : (j + 2 = n)%N by lia. by rewrite modnn.
      + split; last by apply/eqP; lia. rewrite addn2 modn_small //; lia.
  Qed.
  Lemma static_energy n (J g : R) : (2 < n)%N -> exists H, get_static_hamiltonian n J g = Ok H /\ dim H = (2 ^ n)%N
    /\ forall s t, s \in spins n -> t \in spins n -> ent H (basis_number s) (basis_number t) = if s == t then chain_energy J g n s else 0.
  Proof.
    move=> N. have N1 : (1 < n)%N by lia. have [H [E [D F]]] := static_general J g N1. exists H. split; first by []. split; first by [].
    move=> s t S T. rewrite F // /chain_energy opprD -!sumrN.
    have -> : iota 0 n = index_iota 0 n by rewrite /index_iota subn0.
    rewrite !big_mkord. case: (s =P t) => _.
    - congr (_ + _); apply: eq_bigr => j _; have L := ltn_ord j.
      + have [-> ->] := next_one_mod N1 L. by rewrite mul1r mulNr.
      + have [-> ->] := next_two_mod N L. by rewrite mul1r mulNr.
    - by rewrite !big1 ?addr0 // => j _; rewrite mul0r mulr0.
  Qed.
  Lemma static_two (J g : R) : exists H, get_static_hamiltonian 2 J g = Ok H /\ dim H = 4%N
    /\ forall s t, s \in spins 2 -> t \in spins 2 -> ent H (basis_number s) (basis_number t) =
      if s == t then - (2%:R * J * (z_of R s 0 * z_of R s 1) + g * (z_of R s 0 + z_of R s 1)) else 0.
  Proof.
    have [H [E [D F]]] := @static_general 2 J g isT. exists H. split; first by []. split; first by []. move=> s t S T. rewrite F // !big_cons !big_nil /= !addr0.
    rewrite -[next_one 2 0]/1%N -[next_one 2 1]/0%N. case: (s == t); [rewrite !mul1r; ring|by rewrite !mul0r !mulr0 !addr0].
  Qed.
  Lemma static_one (J g : R) : get_static_hamiltonian 1 J g = Err IndexError.
  Proof. by []. Qed.
  Lemma control_ok n : (1 < n)%N -> exists H, get_control_hamiltonian R n = Ok H /\ dim H = (2 ^ n)%N
    /\ forall s t, s \in spins n -> t \in spins n -> ent H (basis_number s) (basis_number t) = (flips s t == 1%N)%:R.
  Proof.
    move=> N. have [|H [E [D F]]] := @add_terms_ok n (iota 0 n) (fun j => py_set (nseq n (i2 R)) (Z.of_nat j) (sx R)) 1 (zeros R (2 ^ n))
      (fun j s t => \prod_(k < n) (if k == j :> nat then nth 0%N s k != nth 0%N t k else nth 0%N s k == nth 0%N t k)%:R).
    { move=> j. rewrite mem_iota /= add0n => L. exact: flip_term. }
    exists H. split; first by []. split; first by []. move=> s t S T. rewrite F // add0r. case/spinsP: S => Ss _. case/spinsP: T => St _. exact: one_flip.
  Qed.
  Lemma state_ok n (b : nat) (P : square) : (1 < n)%N -> dim P = 2%N -> (forall i j, (i < 2)%N -> (j < 2)%N -> ent P i j = ((i == b) && (j == b))%:R) ->
    exists A, tensor_together (nseq n P) = Ok A /\ dim A = (2 ^ n)%N
    /\ forall s t, s \in spins n -> t \in spins n -> ent A (basis_number s) (basis_number t) = ((s == nseq n b) && (t == nseq n b))%:R.
  Proof.
    move=> N DP HP. have [| |A [E [D F]]] := @tensor_ok (nseq n P); first by rewrite size_nseq.
    { apply: dims_two => k. rewrite size_nseq => K. by rewrite nth_nseq K. }
    rewrite size_nseq in D F. exists A. split; first by []. split; first by []. move=> s t S T. rewrite F // /entry_product size_nseq.
    case/spinsP: S => Ss Hs. case/spinsP: T => St Ht. rewrite -mulnb natrM -(prod_same Ss (size_nseq n b)) -(prod_same St (size_nseq n b)) -big_split /=.
    apply: eq_bigr => k _. rewrite !nth_nseq ltn_ord HP; [|exact: Hs|exact: Ht]. by rewrite -natrM mulnb.
  Qed.
  Lemma initial_ok n : (1 < n)%N -> exists A, get_initial_state R n = Ok A /\ dim A = (2 ^ n)%N
    /\ forall s t, s \in spins n -> t \in spins n -> ent A (basis_number s) (basis_number t) = ((s == nseq n 0%N) && (t == nseq n 0%N))%:R.
  Proof. move=> N. apply: state_ok => //. by move=> [|[|]] [|[|]]. Qed.
  Lemma target_ok n : (1 < n)%N -> exists A, get_target_state R n = Ok A /\ dim A = (2 ^ n)%N
    /\ forall s t, s \in spins n -> t \in spins n -> ent A (basis_number s) (basis_number t) = ((s == nseq n 1%N) && (t == nseq n 1%N))%:R.
  Proof. move=> N. apply: state_ok => //. by move=> [|[|]] [|[|]]. Qed.
  (** the basis *)
  Lemma basis_all n : map basis_number (spins n) = iota 0 (2 ^ n).
  Proof.
    rewrite /spins. have -> : (2 ^ n = ModelTrace.total (nseq n 2))%N by elim: n => //= n IH; rewrite expnS IH.
    rewrite -ravel_strings. apply/eq_in_map => s S. rewrite /basis_number. have Z := size_strings S. rewrite size_nseq in Z. rewrite Z numberE ?size_nseq //.
  Qed.
  Lemma basis_inj n s t : s \in spins n -> t \in spins n -> basis_number s = basis_number t -> s = t.
  Proof.
    move=> S T. have Z1 := size_strings S. have Z2 := size_strings T. rewrite /basis_number !size_nseq in Z1 Z2 *. rewrite Z1 Z2 !numberE ?size_nseq // => E.
    by rewrite -(ravelK S) -(ravelK T) E.
  Qed.
End Kron.
