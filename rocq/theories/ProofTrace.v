(** * Partial trace: lemmas. *)
From Coq Require Import ZArith Lia.
From mathcomp Require Import all_ssreflect all_algebra zify.
From Verif Require Import Py ModelTrace SpecTrace.
Import GRing.Theory.
Set Implicit Arguments.
Unset Strict Implicit.
Unset Printing Implicit Defensive.
Local Open Scope ring_scope.
Local Open Scope seq_scope.

(** ** Digit strings *)
Lemma totalE dims : total dims = dimension dims.
Proof. by rewrite /dimension unlock /total /reducebig; elim: dims => [|m l IH] //=; rewrite IH. Qed.
Lemma total_cat s1 s2 : total (s1 ++ s2) = (total s1 * total s2)%N.
Proof. elim: s1 => [|m s IH] /=; first by rewrite mul1n. by rewrite IH mulnA. Qed.
Lemma numberE dims s : size s = size dims -> number dims s = ravel dims s.
Proof.
  rewrite /number => H. have Q : forall n, foldl (fun n (mi : nat * nat) => (n * mi.1 + mi.2)%N) n (zip dims s) = (n * total dims + ravel dims s)%N; last by rewrite Q mul0n.
  elim: dims s H => [|m dims IH] [|i s] //= => [_ n|[H] n]; first by rewrite muln1 addn0. rewrite IH // mulnDl mulnA addnA. by [].
Qed.
Lemma mem_strings dims s : (s \in strings dims) = (size s == size dims) && all (fun mi => mi.2 < mi.1)%N (zip dims s).
Proof.
  elim: dims s => [|m dims IH] s; first by rewrite inE; case: s.
  apply/allpairsP/idP => [[[i t] /= [Hi Ht ->]]|].
  - move: Ht Hi. by rewrite IH mem_iota /= eqSS => /andP [-> ->] ->.
  - case: s => [|i s] //=. rewrite eqSS => /and3P [H1 H2 H3]. exists (i, s). by rewrite /= mem_iota IH H1 H3.
Qed.
Lemma size_strings dims s : s \in strings dims -> size s = size dims.
Proof. by rewrite mem_strings => /andP [/eqP]. Qed.
Lemma ravel_lt dims s : s \in strings dims -> (ravel dims s < total dims)%N.
Proof.
  elim: dims s => [|m dims IH] s; first by rewrite inE => /eqP ->.
  move=> /allpairsP [[i t] /= [Hi Ht ->]] /=. move: Hi (IH _ Ht). rewrite mem_iota /= add0n => Hi Hr.
  apply: (@leq_trans (i.+1 * total dims)); first by rewrite mulSn addnC ltn_add2r. by rewrite leq_mul2r Hi orbT.
Qed.
Lemma ravelK dims s : s \in strings dims -> unravel dims (ravel dims s) = s.
Proof.
  elim: dims s => [|m dims IH] s; first by rewrite inE => /eqP ->.
  move=> /allpairsP [[i t] /= [Hi Ht ->]] /=. have L := ravel_lt Ht. have P : (0 < total dims)%N by apply: leq_ltn_trans L.
  by rewrite divnMDl // divn_small // addn0 modnMDl modn_small // IH.
Qed.
Lemma ravel_cat s1 s2 a b : size a = size s1 -> ravel (s1 ++ s2) (a ++ b) = (ravel s1 a * total s2 + ravel s2 b)%N.
Proof.
  elim: s1 a => [|m s IH] [|i a] //= [H]. by rewrite IH // total_cat mulnDl mulnA addnA.
Qed.
Lemma strings_cat s1 s2 a b : a \in strings s1 -> b \in strings s2 -> a ++ b \in strings (s1 ++ s2).
Proof.
  rewrite !mem_strings => /andP [/eqP A1 A2] /andP [/eqP B1 B2]. by rewrite !size_cat A1 B1 eqxx zip_cat // all_cat A2 B2.
Qed.
Lemma ravel_strings dims : map (ravel dims) (strings dims) = iota 0 (total dims).
Proof.
  elim: dims => [|m dims IH] //=. rewrite map_allpairs.
  have -> : [seq (i * total dims + ravel dims s)%N | i <- iota 0 m, s <- strings dims] = flatten [seq iota (i * total dims) (total dims) | i <- iota 0 m].
  { congr flatten. apply: eq_map => i. rewrite (map_comp (addn (i * total dims)) (ravel dims)) IH -iotaDl addn0. by []. }
  elim: m => [|m IHm] //. by rewrite -[m.+1]addn1 iotaD map_cat flatten_cat IHm /= add0n cats0 mulnDl mul1n iotaD add0n.
Qed.
Lemma unravel_strings dims k : (k < total dims)%N -> unravel dims k \in strings dims.
Proof.
  move=> H. have : k \in map (ravel dims) (strings dims) by rewrite ravel_strings mem_iota. move=> /mapP [s S ->]. by rewrite ravelK.
Qed.
Lemma uniq_strings dims : uniq (strings dims).
Proof. apply: (@map_uniq _ _ (ravel dims)). rewrite ravel_strings. exact: iota_uniq. Qed.
Section Sums.
  Variable T : zmodType.
  Lemma sum_strings dims (f : nat -> T) : \sum_(k <- iota 0 (dimension dims)) f k = \sum_(s <- strings dims) f (number dims s).
  Proof. rewrite -totalE -ravel_strings big_map. rewrite big_seq [RHS]big_seq. apply: eq_bigr => s S. by rewrite numberE // (size_strings S). Qed.
  Lemma sum_cons n ms (f : seq nat -> T) : \sum_(t <- strings (n :: ms)) f t = \sum_(i <- iota 0 n) \sum_(t <- strings ms) f (i :: t).
  Proof. by rewrite /= big_allpairs_dep. Qed.
  Lemma sum_rcons ms m (f : seq nat -> T) : \sum_(t <- strings (rcons ms m)) f t = \sum_(t <- strings ms) \sum_(k <- iota 0 m) f (rcons t k).
  Proof.
    elim: ms f => [|n ms IH] f.
    - rewrite [rcons _ _]/= sum_cons big_seq1. apply: eq_bigr => i _. by rewrite big_seq1.
    - rewrite rcons_cons !sum_cons. apply: eq_bigr => i _. rewrite IH. by [].
  Qed.

  (** ** Repeated traces *)
  Definition doubled (t : seq nat) : seq nat := flatten [seq [:: k; k] | k <- t].
  Lemma doubled_rcons t k : doubled (rcons t k) = doubled t ++ [:: k; k].
  Proof. by rewrite /doubled map_rcons -cats1 flatten_cat. Qed.
  Lemma repeat_traceE ms s (a : array T) : shape a = s ++ doubled ms ->
    exists f, repeat_trace (size ms) a = Ok (Array s f) /\ forall idx, f idx = \sum_(t <- strings ms) entry a (idx ++ doubled t).
  Proof.
    elim/last_ind: ms a => [|ms m IH] a.
    - rewrite cats0 => <-. case: a => sh f. exists f. split=> // idx. by rewrite big_seq1 cats0.
    - rewrite doubled_rcons => E. rewrite size_rcons. cbn [repeat_trace]. rewrite /trace_last E !size_cat addnA addn2 ltnNge /= !subSS subn0 -!size_cat.
      have N1 : nth 0%N (s ++ doubled ms ++ [:: m; m]) (size (s ++ doubled ms)) = m by rewrite catA nth_cat ltnn subnn.
      have N2 : nth 0%N (s ++ doubled ms ++ [:: m; m]) ((size (s ++ doubled ms)).+1 - 0) = m.
      { by rewrite subn0 catA nth_cat ltnNge leqnSn /= subSn // subnn. }
      rewrite ?subn0 in N2 *. rewrite N1 N2 minnn.
      have -> : take (size (s ++ doubled ms)) (s ++ doubled ms ++ [:: m; m]) = s ++ doubled ms by rewrite catA take_size_cat.
      cbn [rbind]. set a' := Array _ _. case: (IH a' erefl) => f [E1 E2]. exists f. split; first exact: E1.
      move=> idx. rewrite E2 sum_rcons. apply: eq_bigr => t _ /=. apply: eq_bigr => k _. by rewrite doubled_rcons catA.
  Qed.
End Sums.

(** ** The mask *)
Section Mask.
  Variables (n : nat) (pos : seq nat).
  Definition doubled_pos := flatten [seq [:: p; (p + n)%N] | p <- pos].
  Definition mask := kept n pos ++ [seq (i + n)%N | i <- kept n pos] ++ doubled_pos.
  Lemma listedE i : listed (map Z.of_nat pos) i = (i \in pos).
  Proof.
    rewrite /listed. elim: pos => [|p l IH] //=. rewrite inE IH. congr (_ || _). apply/Z.eqb_spec/eqP => [/Nat2Z.inj //|-> //].
  Qed.
  Lemma create_maskE : all (fun p => p < n)%N pos -> create_mask (map Z.of_nat pos) n = Ok mask.
  Proof.
    move=> H. rewrite /create_mask ifF; last first.
    { rewrite has_map. apply/negbTE. rewrite -all_predC. apply/allP => p P /=. move/allP: H => /(_ p P) L. apply/norP. split; lia. }
    rewrite /mask. have -> : [seq i <- iota 0 n | ~~ listed (map Z.of_nat pos) i] = kept n pos by apply: eq_filter => i; rewrite listedE.
    do 3 apply: f_equal. rewrite /doubled_pos -map_comp. congr flatten. apply: eq_map => p /=. by rewrite Nat2Z.id.
  Qed.
  Lemma mem_kept i : (i \in kept n pos) = (i < n)%N && (i \notin pos).
  Proof. by rewrite mem_filter mem_iota andbC. Qed.
  Lemma mem_doubled i : (i \in doubled_pos) = (i \in pos) || (n <= i)%N && ((i - n)%N \in pos).
  Proof.
    apply/flatten_mapP/idP => [[p P]|].
    - rewrite !inE => /orP [/eqP ->|/eqP ->]; first by rewrite P. by rewrite leq_addl addnK P orbT.
    - move=> /orP [P|/andP [L P]]; [exists i|exists (i - n)%N] => //; rewrite !inE ?eqxx //. by rewrite subnK // eqxx orbT.
  Qed.
  Lemma mem_mask i : all (fun p => p < n)%N pos -> (i \in mask) = (i < n + n)%N.
  Proof.
    move=> /allP H. rewrite !mem_cat mem_doubled mem_kept. have -> : (i \in [seq (i + n)%N | i <- kept n pos]) = (n <= i)%N && ((i - n)%N \in kept n pos).
    { apply/mapP/andP => [[k K ->]|[L K]]; first by rewrite leq_addl addnK. exists (i - n)%N => //. by rewrite subnK. }
    rewrite mem_kept. case I : (i \in pos) => /=.
    - rewrite !orbT. move: (H i I). lia.
    - rewrite andbT. case J : ((i - n)%N \in pos) => /=; rewrite ?andbT ?andbF ?orbF.
      + move: (H _ J). lia.
      + lia.
  Qed.
  Lemma size_mask : size mask = (size (kept n pos) * 2 + size pos * 2)%N.
  Proof.
    rewrite !size_cat size_map addnA addnn -muln2. congr addn. rewrite /doubled_pos. by elim: pos => [|p l /= ->].
  Qed.
  Lemma size_kept : all (fun p => p < n)%N pos -> (size (kept n pos) + size (undup pos))%N = n.
  Proof.
    move=> H. rewrite -[RHS](size_iota 0 n) -(count_predC (mem pos) (iota 0 n)) addnC size_filter. congr (_ + _)%N.
    rewrite -size_filter. apply/perm_size/uniq_perm; rewrite ?filter_uniq ?undup_uniq ?iota_uniq // => i.
    rewrite mem_undup mem_filter mem_iota /= add0n. case P: (i \in pos) => //=. by move/allP: H => /(_ i P) ->.
  Qed.
  Lemma mask_perm : all (fun p => p < n)%N pos -> (sort leq mask == iota 0 (n + n)) = uniq pos.
  Proof.
    move=> H. have K := size_kept H. apply/eqP/idP => [E|U].
    - have := congr1 size E. rewrite size_sort size_mask size_iota => S. have Q : size pos = size (undup pos) by move: K S; set x := size (kept n pos); set y := size (undup pos); set z := size pos; clearbody x y z; lia.
      have := ltn_size_undup pos. rewrite -Q ltnn. by case: uniq.
    - rewrite undup_id // in K. rewrite -[RHS](sorted_sort leq_trans (iota_sorted 0 (n + n))). apply/(perm_sortP leq_total leq_trans anti_leq).
      have M : mask =i iota 0 (n + n) by move=> i; rewrite mem_mask // mem_iota.
      have S : (size (iota 0 (n + n)) = size mask)%N by rewrite size_iota size_mask -mulnDl K muln2 addnn.
      rewrite perm_sym. apply: uniq_perm; [exact: iota_uniq| |by move=> i; rewrite M].
      by rewrite (uniq_size_uniq (iota_uniq 0 (n + n)) (fun i => esym (M i))) S.
  Qed.
  (** where an axis is found *)
  Hypothesis inr : all (fun p => p < n)%N pos.
  Lemma index_doubled1 p : p \in pos -> (p < n)%N -> index p doubled_pos = (index p pos * 2)%N.
  Proof.
    rewrite /doubled_pos. move: inr. elim: pos => [|q l IH] //= /andP [Q A]. rewrite inE. case: (p =P q) => [->|N] /=; first by rewrite eqxx.
    move=> P L. rewrite eq_sym (introF eqP N) ifF; last by lia. by rewrite IH // mulSn.
  Qed.
  Lemma index_doubled2 p : p \in pos -> index (p + n)%N doubled_pos = (index p pos * 2 + 1)%N.
  Proof.
    rewrite /doubled_pos. move: inr. elim: pos => [|q l IH] //= /andP [Q A]. rewrite inE. rewrite ifF; last by lia.
    case: (p =P q) => [->|N] /=; first by rewrite !eqxx. move=> P. rewrite ifF; last by lia. rewrite IH // eq_sym (introF eqP N). lia.
  Qed.
  Lemma nth_doubled t k : nth 0%N (doubled t) (k * 2) = nth 0%N t k /\ nth 0%N (doubled t) (k * 2 + 1) = nth 0%N t k.
  Proof. elim: t k => [|x t IH] [|k] //=. Qed.
  Lemma gathered t a b : size a = size (kept n pos) -> size b = size (kept n pos) ->
    [seq nth 0%N (a ++ b ++ doubled t) (index p mask) | p <- iota 0 (n + n)] = place n pos t a ++ place n pos t b.
  Proof.
    move=> Sa Sb. rewrite iotaD map_cat /place. congr (_ ++ _); last rewrite add0n -{1}[n]addn0 iotaDl -map_comp; apply/eq_in_map => p; rewrite mem_iota /= add0n => L.
    - rewrite /mask index_cat mem_kept L /=. case P: (p \in pos) => /=.
      + rewrite index_cat ifF; last by apply/mapP => -[k _ E]; lia. rewrite index_doubled1 // size_map catA nth_cat size_cat Sa Sb ifF; last by lia.
        rewrite addnA addKn. exact: (proj1 (nth_doubled _ _)).
      + rewrite nth_cat Sa ifT ?index_mem ?mem_kept ?L ?P //.
    - rewrite /mask index_cat mem_kept ifF; last by lia. rewrite index_cat.
      have -> : ((n + p)%N \in [seq (i + n)%N | i <- kept n pos]) = (p \in kept n pos) by rewrite [(n + p)%N]addnC (mem_map (f := fun i => (i + n)%N)) // => i j; lia.
      rewrite mem_kept L /=. case P: (p \in pos) => /=.
      + rewrite [(n + p)%N]addnC index_doubled2 // size_map catA nth_cat size_cat Sa Sb ifF; last by lia.
        rewrite [(size _ + (size _ + _))%N]addnA addKn.
        exact: (proj2 (nth_doubled _ _)).
      + rewrite [(n + p)%N]addnC (index_map (f := fun i => (i + n)%N)); last by move=> i j; lia. rewrite nth_cat Sa ifF; last by lia. rewrite addKn nth_cat Sb ifT ?index_mem ?mem_kept ?L ?P //.
  Qed.
End Mask.

(** ** Digits on some subsystems and on the others *)
Section Place.
  Variables (dims pos : seq nat).
  Let n := size dims.
  Hypothesis inr : all (fun p => p < n)%N pos.
  Hypothesis uni : uniq pos.
  Lemma strings_nth ds s : s \in strings ds <-> size s = size ds /\ forall k, (k < size ds)%N -> (nth 0%N s k < nth 0%N ds k)%N.
  Proof.
    rewrite mem_strings. split=> [/andP [/eqP S /all_nthP H]|[S H]].
    - split=> // k K. move: (H (0, 0)%N k). rewrite size_zip S minnn nth_zip //. by apply.
    - rewrite S eqxx. apply/(all_nthP (0, 0)%N) => k. rewrite size_zip S minnn => K. rewrite nth_zip //. exact: H.
  Qed.
  Lemma nth_place t a p : (p < n)%N -> nth 0%N (place n pos t a) p = if p \in pos then nth 0%N t (index p pos) else nth 0%N a (index p (kept n pos)).
  Proof. move=> L. by rewrite (nth_map 0%N) ?size_iota // nth_iota. Qed.
  Lemma place_strings t a : t \in strings (dims_of dims pos) -> a \in strings (dims_of dims (kept n pos)) -> place n pos t a \in strings dims.
  Proof.
    move=> /strings_nth [St Ht] /strings_nth [Sa Ha]. rewrite !size_map in St Sa Ht Ha. apply/strings_nth. split; first by rewrite size_map size_iota.
    move=> p P. rewrite nth_place //. case: ifP => I.
    - move: (Ht (index p pos)). rewrite index_mem I (nth_map 0%N) ?index_mem // nth_index //. by apply.
    - have K : p \in kept n pos by rewrite mem_kept P I. move: (Ha (index p (kept n pos))). rewrite index_mem K (nth_map 0%N) ?index_mem // nth_index //. by apply.
  Qed.
  Lemma kept_uniq : uniq (kept n pos).
  Proof. by rewrite filter_uniq ?iota_uniq. Qed.
  (** the digits are found again *)
  Lemma place_pos t a : size t = size pos -> [seq nth 0%N (place n pos t a) p | p <- pos] = t.
  Proof.
    move=> S. apply: (@eq_from_nth _ 0%N); rewrite size_map //. move=> k K. rewrite (nth_map 0%N) // nth_place; last by move/allP: inr; apply; rewrite mem_nth.
    by rewrite mem_nth // index_uniq.
  Qed.
  Lemma place_kept t a : size a = size (kept n pos) -> [seq nth 0%N (place n pos t a) p | p <- kept n pos] = a.
  Proof.
    move=> S. apply: (@eq_from_nth _ 0%N); rewrite size_map //. move=> k K. rewrite (nth_map 0%N) //. have M := mem_nth 0%N K.
    move: (M). rewrite mem_kept => /andP [L N]. by rewrite nth_place // (negbTE N) index_uniq // kept_uniq.
  Qed.
  Lemma place_split s : size s = n -> place n pos [seq nth 0%N s p | p <- pos] [seq nth 0%N s p | p <- kept n pos] = s.
  Proof.
    move=> S. apply: (@eq_from_nth _ 0%N); rewrite ?size_map ?size_iota // => p P. rewrite nth_place //. case: ifP => I.
    - by rewrite (nth_map 0%N) ?index_mem // nth_index.
    - have K : p \in kept n pos by rewrite mem_kept P I. by rewrite (nth_map 0%N) ?index_mem // nth_index.
  Qed.
  Lemma take_strings q s : all (fun p => p < n)%N q -> s \in strings dims -> [seq nth 0%N s p | p <- q] \in strings (dims_of dims q).
  Proof.
    move=> Q /strings_nth [S H]. apply/strings_nth. rewrite !size_map. split=> // k K. rewrite !(nth_map 0%N) //. apply: H. move/allP: Q. apply. exact: mem_nth.
  Qed.
  Lemma kept_inr : all (fun p => p < n)%N (kept n pos).
  Proof. apply/allP => p. by rewrite mem_kept => /andP []. Qed.
  Lemma sum_place (T : zmodType) (f : seq nat -> T) :
    \sum_(a <- strings (dims_of dims (kept n pos))) \sum_(t <- strings (dims_of dims pos)) f (place n pos t a) = \sum_(s <- strings dims) f s.
  Proof.
    have -> : \sum_(a <- strings (dims_of dims (kept n pos))) \sum_(t <- strings (dims_of dims pos)) f (place n pos t a) =
      \sum_(s <- [seq place n pos t a | a <- strings (dims_of dims (kept n pos)), t <- strings (dims_of dims pos)]) f s by rewrite big_allpairs_dep.
    apply: perm_big. apply: uniq_perm; last first.
    - move=> s. apply/allpairsP/idP => [[[a t] /= [A B ->]]|H]; first exact: place_strings.
      exists ([seq nth 0%N s p | p <- kept n pos], [seq nth 0%N s p | p <- pos]). rewrite /= place_split ?(size_strings H) //. split=> //; apply: take_strings => //. exact: kept_inr.
    - exact: uniq_strings.
    - apply: allpairs_uniq; try exact: uniq_strings. move=> [a t] [a' t'] /allpairsP [[x y] /= [X Y [-> ->]]] /allpairsP [[x' y'] /= [X' Y' [-> ->]]] E.
      have Sx := size_strings X. have Sy := size_strings Y. have Sx' := size_strings X'. have Sy' := size_strings Y'. rewrite !size_map in Sx Sy Sx' Sy'.
      congr (_, _); [rewrite -(place_kept y Sx) -(place_kept y' Sx')|rewrite -(place_pos x Sy) -(place_pos x' Sy')]; by rewrite E.
  Qed.
End Place.

(** ** The partial trace *)
Section Main.
  Variable T : zmodType.
  Variables (dims pos : seq nat) (state : array T).
  Let n := size dims.
  Let rem := dims_of dims (kept n pos).
  Hypothesis inr : all (fun p => p < n)%N pos.
  Hypothesis square : shape state = [:: dimension dims; dimension dims].
  Lemma in_square m i j : (i < m)%N -> (j < m)%N -> [:: i; j] \in strings [:: m; m].
  Proof. move=> I J. by rewrite mem_strings /= I J. Qed.
  Lemma nth_dims p : (p < n)%N -> nth 0%N (dims ++ dims) p = nth 0%N dims p /\ nth 0%N (dims ++ dims) (p + n) = nth 0%N dims p.
  Proof. move=> L. rewrite !nth_cat -/n L ifF; last by lia. by rewrite addnK. Qed.
  Lemma mask_shape : [seq nth 0%N (dims ++ dims) m | m <- mask n pos] = (rem ++ rem) ++ doubled (dims_of dims pos).
  Proof.
    rewrite /mask !map_cat -catA. congr (_ ++ _ ++ _).
    - apply/eq_in_map => p. rewrite mem_kept => /andP [L _]. by case: (nth_dims L).
    - rewrite -map_comp. apply/eq_in_map => p. rewrite mem_kept => /andP [L _]. by case: (nth_dims L).
    - rewrite /doubled_pos /doubled. move: inr. rewrite -/n. elim: pos => [|p l IH] //= /andP [L A]. case: (nth_dims L) => -> ->. by rewrite IH.
  Qed.
  Lemma partial_traceE : uniq pos -> (size pos < n)%N -> exists r, partial_trace dims (map Z.of_nat pos) state = Ok r
    /\ shape r = [:: dimension rem; dimension rem]
    /\ forall a b, a \in strings rem -> b \in strings rem -> entry r [:: number rem a; number rem b] = reduced dims pos (fun i j => entry state [:: i; j]) a b.
  Proof.
    move=> U small. have K := size_kept inr. rewrite (undup_id U) in K. rewrite /partial_trace (create_maskE inr). cbn [rbind].
    have -> : [seq nth 0%N dims i | i <- iota 0 (size dims) & ~~ listed (map Z.of_nat pos) i] = rem.
    { rewrite /rem /dims_of /kept. congr map. apply: eq_filter => i. by rewrite listedE. }
    rewrite /reshape square totalE. have ED : dimension [:: dimension dims; dimension dims] = total (dims ++ dims).
    { by rewrite total_cat totalE /dimension !big_cons big_nil muln1. }
    rewrite ED eqxx. cbn [rbind shape]. rewrite /transpose. cbn [shape]. rewrite size_cat (mask_perm inr) U. cbn [rbind].
    set a2 := Array _ _. have S2 : shape a2 = (rem ++ rem) ++ doubled (dims_of dims pos).
    { exact: mask_shape. }
    have [f [E2 F2]] := repeat_traceE S2. rewrite size_map size_map in E2 *. rewrite E2. cbn [rbind].
    have NR : rem <> [::]. { move=> E. have := congr1 size E. rewrite size_map /= => Z. move: K. rewrite Z add0n -/n => Q. move: small. by rewrite Q ltnn. }
    case ER : {1}rem => [|r0 rs] //. cbn [shape]. rewrite total_cat !totalE.
    have -> : dimension [:: dimension rem; dimension rem] = (dimension rem * dimension rem)%N by rewrite /dimension !big_cons big_nil muln1.
    rewrite eqxx. eexists. split; first by []. split; first by []. move=> a b A B. cbn [entry].
    have Sa := size_strings A. have Sb := size_strings B.
    have -> : ravel [:: dimension rem; dimension rem] [:: number rem a; number rem b] = ravel (rem ++ rem) (a ++ b).
    { by rewrite ravel_cat // !numberE // /= !muln1 addn0 totalE. }
    rewrite ravelK; last exact: strings_cat. rewrite F2 /reduced. rewrite big_seq [RHS]big_seq. apply: eq_bigr => t Ht. rewrite /a2. cbn [entry]. rewrite -catA gathered; rewrite ?Sa ?Sb ?size_map //.
    have P1 := place_strings Ht A. have P2 := place_strings Ht B. rewrite -/n ravel_cat; last exact: (size_strings P1).
    rewrite (numberE (size_strings P1)) (numberE (size_strings P2)). apply: f_equal. have L1 := ravel_lt P1. have L2 := ravel_lt P2.
    rewrite totalE in L1 L2. rewrite -[RHS](ravelK (in_square L1 L2)). apply: f_equal. by rewrite /= !muln1 addn0 totalE.
  Qed.
  (** repeated positions *)
  Lemma partial_trace_repeated : ~~ uniq pos -> partial_trace dims (map Z.of_nat pos) state = Err TypeError.
  Proof.
    move=> U. rewrite /partial_trace (create_maskE inr). cbn [rbind]. rewrite /reshape square totalE.
    have ED : dimension [:: dimension dims; dimension dims] = total (dims ++ dims) by rewrite total_cat totalE /dimension !big_cons big_nil muln1.
    rewrite ED eqxx. cbn [rbind shape]. rewrite /transpose. cbn [shape]. by rewrite size_cat (mask_perm inr) (negbTE U).
  Qed.
  (** all subsystems *)
  Lemma partial_trace_all : uniq pos -> size pos = n -> partial_trace dims (map Z.of_nat pos) state = Err TypeError.
  Proof.
    move=> U full. have K := size_kept inr. rewrite (undup_id U) in K. rewrite /partial_trace (create_maskE inr). cbn [rbind].
    have -> : [seq nth 0%N dims i | i <- iota 0 (size dims) & ~~ listed (map Z.of_nat pos) i] = rem.
    { rewrite /rem /dims_of /kept. congr map. apply: eq_filter => i. by rewrite listedE. }
    case ER : {1}rem => [|r0 rs]; last first.
    { have := congr1 size ER. rewrite (size_map (nth 0%N dims)) /= => Z. have : size (kept n pos) == 0%N by rewrite -(eqn_add2r (size pos)) K full add0n. by rewrite Z. }
    rewrite /reshape square totalE. have ED : dimension [:: dimension dims; dimension dims] = total (dims ++ dims).
    { by rewrite total_cat totalE /dimension !big_cons big_nil muln1. }
    rewrite ED eqxx. cbn [rbind shape]. rewrite /transpose. cbn [shape]. rewrite size_cat (mask_perm inr) U. cbn [rbind].
    set a2 := Array _ _. have S2 : shape a2 = (rem ++ rem) ++ doubled (dims_of dims pos) by exact: mask_shape.
    have [f [E2 F2]] := repeat_traceE S2. rewrite size_map size_map in E2 *. by rewrite E2.
  Qed.
End Main.

Lemma partial_trace_outside (T : zmodType) dims positions (state : array T) :
  has (fun p => Z.ltb p Z0 || Z.leb (Z.of_nat (size dims)) p) positions -> partial_trace dims positions state = Err ValueError.
Proof. move=> H. by rewrite /partial_trace /create_mask H. Qed.
Lemma partial_trace_size (T : zmodType) dims pos (state : array T) : all (fun p => p < size dims)%N pos ->
  dimension (shape state) <> (dimension dims * dimension dims)%N -> partial_trace dims (map Z.of_nat pos) state = Err TypeError.
Proof.
  move=> inr N. rewrite /partial_trace (create_maskE inr). cbn [rbind]. rewrite /reshape total_cat !totalE. by rewrite (introF eqP N).
Qed.

Section Order.
  Variables (n : nat) (pos pos' : seq nat).
  Hypothesis same : perm_eq pos pos'.
  Hypothesis uni : uniq pos.
  Lemma kept_same : kept n pos = kept n pos'.
  Proof. apply: eq_filter => i. by rewrite (perm_mem same). Qed.
  Definition reorder (t : seq nat) : seq nat := [seq nth 0%N t (index p pos) | p <- pos'].
  Lemma place_reorder t a : place n pos t a = place n pos' (reorder t) a.
  Proof.
    apply: eq_map => p. rewrite -kept_same (perm_mem same). case: ifP => // P. rewrite /reorder (nth_map 0%N) ?index_mem // nth_index //.
  Qed.
End Order.
Lemma reorderK pos pos' t : perm_eq pos pos' -> uniq pos -> size t = size pos -> reorder pos' pos (reorder pos pos' t) = t.
Proof.
  move=> H U S. apply: (@eq_from_nth _ 0%N); rewrite size_map // => k K. have M := mem_nth 0%N K. rewrite (nth_map 0%N) // /reorder (nth_map 0%N) ?index_mem -?(perm_mem H) //.
  by rewrite nth_index -?(perm_mem H) // index_uniq.
Qed.
Lemma reorder_strings dims pos pos' t : perm_eq pos pos' -> t \in strings (dims_of dims pos) -> reorder pos pos' t \in strings (dims_of dims pos').
Proof.
  move=> H /strings_nth [S Q]. rewrite !size_map in S Q. apply/strings_nth. rewrite !size_map. split=> // k K. rewrite !(nth_map 0%N) //.
  have M : nth 0%N pos' k \in pos by rewrite (perm_mem H) mem_nth. move: (Q (index (nth 0%N pos' k) pos)). rewrite index_mem M (nth_map 0%N) ?index_mem // nth_index //. by apply.
Qed.
Lemma reduced_order (T : zmodType) dims pos pos' (rho : nat -> nat -> T) a b : perm_eq pos pos' -> uniq pos ->
  reduced dims pos rho a b = reduced dims pos' rho a b.
Proof.
  move=> H U. have H' : perm_eq pos' pos by rewrite perm_sym. have U' : uniq pos' by rewrite -(perm_uniq H). rewrite /reduced.
  have P : perm_eq (strings (dims_of dims pos')) (map (reorder pos pos') (strings (dims_of dims pos))).
  { apply: uniq_perm; first exact: uniq_strings.
    - rewrite map_inj_in_uniq ?uniq_strings // => x y X Y E. have Sx := size_strings X. have Sy := size_strings Y. rewrite !size_map in Sx Sy.
      by rewrite -(reorderK H U Sx) -(reorderK H U Sy) E.
    - move=> t. apply/idP/mapP => [Ht|[x X ->]]; last exact: reorder_strings. have St := size_strings Ht. rewrite size_map in St.
      exists (reorder pos' pos t); first exact: reorder_strings. by rewrite reorderK. }
  rewrite (perm_big _ P) big_map. apply: eq_bigr => t _. by rewrite -!(place_reorder _ H).
Qed.
