(** * Best-controls file: lemmas. *)
From Coq Require Import String Decimal DecimalString List Arith Bool Lia.
From Verif Require Import Num Py ModelDump SpecDump.
Import ListNotations.
Open Scope string_scope.
Open Scope list_scope.

Section Dump.
  Context {V : Type}.
  Notation dict := (dict V).
  Definition keys (d : dict) : list string := map fst d.
  Lemma get_in (d : dict) k v : get d k = Some v -> In (k, v) d.
  Proof. induction d as [|[k' v'] d IH]; simpl; try discriminate. destruct (String.eqb_spec k k'); [intros [= ->]; subst; auto|auto]. Qed.
  Lemma get_none (d : dict) k : get d k = None <-> ~ In k (keys d).
  Proof.
    induction d as [|[k' v'] d IH]; simpl; [tauto|]. destruct (String.eqb_spec k k').
    - subst. split; [discriminate|]. intros H. exfalso. auto.
    - rewrite IH. split; intros H; intuition congruence.
  Qed.
  Lemma mem_in (d : dict) k : mem d k = true <-> In k (keys d).
  Proof.
    unfold mem. destruct (get d k) eqn:E.
    - split; [intros _|auto]. apply get_in in E. apply (in_map fst) in E. exact E.
    - split; [discriminate|]. apply get_none in E. tauto.
  Qed.
  Lemma mem_notin (d : dict) k : mem d k = false <-> ~ In k (keys d).
  Proof. rewrite <- mem_in. destruct (mem d k); intuition congruence. Qed.
  Lemma get_nodup (d : dict) k v : NoDup (keys d) -> In (k, v) d -> get d k = Some v.
  Proof.
    induction d as [|[k' v'] d IH]; simpl; [tauto|]. intros H I. inversion H; subst. destruct I as [E|I].
    - injection E as -> ->. now rewrite String.eqb_refl.
    - destruct (String.eqb_spec k k'); [|auto]. subst. exfalso. apply (in_map fst) in I. auto.
  Qed.
  Lemma put_fresh (d : dict) k v : ~ In k (keys d) -> put d k v = d ++ [(k, v)].
  Proof.
    induction d as [|[k' v'] d IH]; simpl; auto. intros H. destruct (String.eqb_spec k k'); [subst; exfalso; auto|]. rewrite IH; auto.
  Qed.
  Lemma merge_fresh (d e : dict) : NoDup (keys (d ++ e)) -> merge d e = d ++ e.
  Proof.
    revert d. induction e as [|[k v] e IH]; intros d H; simpl; [now rewrite app_nil_r|]. unfold keys in H. rewrite map_app in H. simpl in H.
    rewrite put_fresh; [|intro I; apply NoDup_remove_2 in H; apply H; apply in_or_app; auto].
    change (merge (d ++ [(k, v)]) e = d ++ (k, v) :: e). rewrite IH; rewrite <- app_assoc; auto. unfold keys. now rewrite map_app.
  Qed.
  Lemma get_put (d : dict) k v k' : get (put d k v) k' = if String.eqb k' k then Some v else get d k'.
  Proof.
    induction d as [|[a w] d IH]; simpl; [reflexivity|]. destruct (String.eqb_spec k a); simpl.
    - subst. destruct (String.eqb_spec k' a); auto.
    - destruct (String.eqb_spec k' a); [|auto]. subst. destruct (String.eqb_spec a k); [congruence|auto].
  Qed.
  Lemma get_merge (d e : dict) k : NoDup (keys e) -> get (merge d e) k = match get e k with Some v => Some v | None => get d k end.
  Proof.
    revert d. induction e as [|[a v] e IH]; intros d H; simpl; auto. simpl in H. inversion H; subst. change (get (merge (put d a v) e) k = match (if String.eqb k a then Some v else get e k) with Some v0 => Some v0 | None => get d k end).
    rewrite IH by assumption. rewrite get_put. destruct (String.eqb_spec k a); auto. subst. destruct (get e a) eqn:E; auto. apply get_in in E. apply (in_map fst) in E. contradiction.
  Qed.

  (** ** names *)
  Lemma listed_in x l : listed x l = true <-> In x l.
  Proof. unfold listed. rewrite existsb_exists. split; [intros [y [I E]]; apply String.eqb_eq in E; now subst|intro; exists x; split; auto; apply String.eqb_refl]. Qed.
  Lemma first_seen names i x : In x (firstn i names) -> exists j, j < i /\ name_of names j = x /\ listed x (firstn j names) = false.
  Proof.
    induction i as [|i IH]; [simpl; tauto|]. intros H. destruct (listed x (firstn i names)) eqn:E.
    - apply listed_in in E. destruct (IH E) as [j [L Q]]. exists j. split; [lia|exact Q].
    - exists i. split; [lia|]. split; [|exact E]. destruct (Nat.lt_ge_cases i (length names)) as [L|L].
      + assert (X : firstn (S i) names = firstn i names ++ [name_of names i]).
        { clear - L. revert i L. induction names as [|a l IHl]; intros [|i] L; simpl in *; try lia; auto. f_equal. unfold name_of in *. simpl. apply IHl. lia. }
        rewrite X in H. apply in_app_or in H. destruct H as [H|[H|[]]]; [|exact H]. apply listed_in in H. congruence.
      + rewrite firstn_all2 in H by lia. rewrite firstn_all2 in E by lia. apply listed_in in H. congruence.
  Qed.
  Lemma map_nodup_inj {A} (f : A -> string) l : NoDup (map f l) -> forall x y, In x l -> In y l -> f x = f y -> x = y.
  Proof.
    induction l as [|a l IH]; simpl; [tauto|]. intros H x y [X|X] [Y|Y] E; inversion H; subst; auto.
    - exfalso. apply H2. rewrite E. apply in_map, Y.
    - exfalso. apply H2. rewrite <- E. apply in_map, X.
  Qed.
  Lemma nodup_app {A} (l m : list A) : NoDup (l ++ m) <-> NoDup l /\ NoDup m /\ forall x, In x l -> ~ In x m.
  Proof.
    induction l as [|a l IH]; simpl.
    - split; [intros H; repeat split; auto; constructor|tauto].
    - split.
      + intros H. inversion H; subst. apply IH in H3. destruct H3 as [A1 [A2 A3]]. split; [constructor; auto; intro I; apply H2, in_or_app; auto|]. split; auto.
        intros x [->|I]; [intro J; apply H2, in_or_app; auto|auto].
      + intros [H1 [H2 H3]]. inversion H1; subst. constructor; [intros I; apply in_app_or in I; destruct I as [I|I]; [auto|apply (H3 a); auto]|]. apply IH. auto.
  Qed.
  Lemma nth_ok {A} (l : list A) i d : i < length l -> nth_ l i = Ok (nth i l d).
  Proof. intros L. unfold nth_. rewrite (nth_error_nth' l d L). reflexivity. Qed.

  (** ** pulses *)
  Section Pulses.
    Variables (names : list string) (n : nat).
    Hypothesis enough : n <= length names.
    Hypothesis distinct : NoDup (pulse_keys names n).
    Notation pk := (pulse_key names).
    Notation gk := (grid_key names).
    Lemma pk_inj i j : i < n -> j < n -> pk i = pk j -> i = j.
    Proof. intros I J E. apply nodup_app in distinct. destruct distinct as [D1 [D2 D3]]. apply (map_nodup_inj pk _ D1); auto; apply in_seq; lia. Qed.
    Lemma pk_gk i j : i < n -> j < n -> pk i <> gk j.
    Proof.
      intros I J E. assert (A : In (pk i) (map pk (seq 0 n))) by (apply in_map, in_seq; lia). assert (B : In (gk j) (map gk (seq 0 n))) by (apply in_map, in_seq; lia).
      apply nodup_app in distinct. destruct distinct as [D1 [D2 D3]]. rewrite E in A. exact (D3 _ A B).
    Qed.
    Lemma gk_inj i j : i < n -> j < n -> gk i = gk j -> i = j.
    Proof. intros I J E. apply nodup_app in distinct. destruct distinct as [D1 [D2 D3]]. apply (map_nodup_inj gk _ D2); auto; apply in_seq; lia. Qed.
    Definition pulse_entries (ps : list (V * V)) (i : nat) : dict :=
      concat (map (fun jp => [(pk (fst jp), fst (snd jp)); (gk (fst jp), snd (snd jp))]) (combine (seq i (length ps)) ps)).
    Lemma put_pulses_ok ps i d : i + length ps <= n -> (forall k, In k (keys d) <-> exists j, j < i /\ (k = pk j \/ k = gk j)) ->
      put_pulses names i ps d = Ok (d ++ pulse_entries ps i).
    Proof.
      revert i d. induction ps as [|[p g] ps IH]; intros i d L H; simpl; [now rewrite app_nil_r|]. simpl in L.
      rewrite (nth_ok names i "") by lia. simpl. 
      assert (E : (if mem d (nth i names "") then (nth i names "" ++ str (i + 1))%string else nth i names "") = pk i).
      { unfold pulse_key, unrepeated. destruct (listed (name_of names i) (firstn i names)) eqn:Q.
        - assert (M : mem d (nth i names "") = true).
          { apply mem_in, H. apply listed_in in Q. destruct (first_seen _ _ _ Q) as [j [J [N F]]]. exists j. split; auto. left. unfold pulse_key, unrepeated. rewrite N, F. reflexivity. }
          rewrite M. unfold numeral, str, name_of. now rewrite Nat.add_1_r.
        - destruct (mem d (nth i names "")) eqn:M; auto. exfalso. apply mem_in, H in M. destruct M as [j [J M]].
          assert (P : pk i = nth i names "") by (unfold pulse_key, unrepeated; rewrite Q; reflexivity). destruct M as [M|M]; rewrite <- P in M.
          + apply pk_inj in M; lia.
          + apply pk_gk in M; auto; lia. }
      rewrite E. change ("time_grid_for_" ++ pk i)%string with (gk i).
      assert (F1 : ~ In (pk i) (keys d)).
      { intros I. apply H in I. destruct I as [j [J [M|M]]]; [apply pk_inj in M; lia|apply pk_gk in M; auto; lia]. }
      rewrite (put_fresh d _ _ F1).
      assert (F2 : ~ In (gk i) (keys (d ++ [(pk i, p)]))).
      { unfold keys. rewrite map_app. intros I. apply in_app_or in I. destruct I as [I|[I|[]]]; simpl in I.
        - apply H in I. destruct I as [j [J [M|M]]]; [symmetry in M; apply pk_gk in M; auto; lia|apply gk_inj in M; lia].
        - apply pk_gk in I; auto; lia. }
      rewrite (put_fresh _ _ _ F2). rewrite IH.
      - unfold pulse_entries. simpl. rewrite <- !app_assoc. simpl. now rewrite Nat.add_1_r.
      - lia.
      - intros k. unfold keys. rewrite !map_app. simpl. split.
        + intros I. apply in_app_or in I. destruct I as [I|[I|[]]]; [apply in_app_or in I; destruct I as [I|[I|[]]]|].
          * apply H in I. destruct I as [j [J M]]. exists j. split; [lia|auto].
          * exists i. split; [lia|auto].
          * exists i. split; [lia|auto].
        + intros [j [J M]]. destruct (Nat.eq_dec j i) as [->|D].
          * destruct M as [->| ->]; apply in_or_app; [left; apply in_or_app; right; simpl; auto|right; simpl; auto].
          * apply in_or_app. left. apply in_or_app. left. apply H. exists j. split; [lia|auto].
    Qed.
  End Pulses.

  (** ** parameters *)
  Section Parameters.
    Variables (names : list string) (used : list string) (m : nat).
    Notation rk := (fun j => unrepeated (used ++ firstn j names) (name_of names j) j).
    Hypothesis enough : m <= length names.
    Hypothesis distinct : NoDup (used ++ map rk (seq 0 m)).
    Definition parameter_entries (xs : list V) (i : nat) : dict := map (fun jx => (rk (fst jx), snd jx)) (combine (seq i (length xs)) xs).
    Lemma rk_inj i j : i < m -> j < m -> rk i = rk j -> i = j.
    Proof. intros I J E. apply nodup_app in distinct. destruct distinct as [D1 [D2 D3]]. apply (map_nodup_inj rk _ D2); auto; apply in_seq; lia. Qed.
    Lemma rk_used i : i < m -> ~ In (rk i) used.
    Proof. intros I U. apply nodup_app in distinct. destruct distinct as [D1 [D2 D3]]. apply (D3 _ U). apply (in_map rk). apply in_seq. lia. Qed.
    Lemma put_parameters_ok xs i d : i + length xs <= m -> (forall k, In k (keys d) <-> In k used \/ exists j, j < i /\ k = rk j) ->
      put_parameters names i xs d = Ok (d ++ parameter_entries xs i).
    Proof.
      revert i d. induction xs as [|x xs IH]; intros i d L H; simpl; [now rewrite app_nil_r|]. simpl in L.
      rewrite (nth_ok names i "") by lia. simpl.
      assert (E : (if mem d (nth i names "") then (nth i names "" ++ str (i + 1))%string else nth i names "") = rk i).
      { unfold unrepeated. destruct (listed (name_of names i) (used ++ firstn i names)) eqn:Q.
        - assert (M : mem d (nth i names "") = true).
          { apply mem_in, H. apply listed_in, in_app_or in Q. destruct (listed (name_of names i) used) eqn:U; [left; apply listed_in; exact U|].
            destruct Q as [Q|Q]; [left; exact Q|]. right. destruct (first_seen _ _ _ Q) as [j [J [N F]]]. exists j. split; auto. unfold unrepeated. rewrite N.
            destruct (listed (name_of names i) (used ++ firstn j names)) eqn:W; [|reflexivity]. exfalso. apply listed_in, in_app_or in W. destruct W as [W|W]; apply listed_in in W; congruence. }
          rewrite M. unfold numeral, str, name_of. now rewrite Nat.add_1_r.
        - destruct (mem d (nth i names "")) eqn:M; auto. exfalso. apply mem_in, H in M.
          assert (P : rk i = nth i names "") by (unfold unrepeated; rewrite Q; reflexivity). destruct M as [M|[j [J M]]].
          + apply (rk_used i); [lia|]. rewrite P. exact M.
          + rewrite <- P in M. apply rk_inj in M; lia. }
      rewrite E.
      assert (F1 : ~ In (rk i) (keys d)).
      { intros I. apply H in I. destruct I as [I|[j [J M]]]; [apply (rk_used i); auto; lia|apply rk_inj in M; lia]. }
      rewrite (put_fresh d _ _ F1). rewrite IH.
      - unfold parameter_entries. simpl. rewrite <- !app_assoc. simpl. now rewrite Nat.add_1_r.
      - lia.
      - intros k. unfold keys. rewrite map_app. simpl. split.
        + intros I. apply in_app_or in I. destruct I as [I|[I|[]]].
          * apply H in I. destruct I as [I|[j [J M]]]; [left; exact I|]. right. exists j. split; [lia|auto].
          * right. exists i. split; [lia|auto].
        + intros [I|[j [J M]]]; apply in_or_app; [left; apply H; auto|]. destruct (Nat.eq_dec j i) as [->|D].
          * right. left. auto.
          * left. apply H. right. exists j. split; [lia|auto].
    Qed.
  End Parameters.

  (** ** the whole dictionary *)
  Definition all_entries (pn rn : list string) (ps gs xs : list V) : dict :=
    pulse_entries pn (combine ps gs) 0 ++ parameter_entries rn (pulse_keys pn (length ps)) xs 0.
  Lemma keys_pulse_entries pn ps i k : In k (keys (pulse_entries pn ps i)) <-> exists j, i <= j < i + length ps /\ (k = pulse_key pn j \/ k = grid_key pn j).
  Proof.
    unfold pulse_entries, keys. revert i. induction ps as [|[p g] ps IH]; intros i; simpl.
    - split; [tauto|]. intros [j [J _]]. lia.
    - rewrite IH. split.
      + intros [I|[I|[j [J M]]]]; [exists i|exists i|exists j]; split; auto; lia.
      + intros [j [J M]]. destruct (Nat.eq_dec j i) as [->|D]; [destruct M; auto|]. right. right. exists j. split; [lia|auto].
  Qed.
  Lemma keys_parameter_entries rn used xs i : keys (parameter_entries rn used xs i) = map (fun j => unrepeated (used ++ firstn j rn) (name_of rn j) j) (seq i (length xs)).
  Proof. unfold keys, parameter_entries. rewrite map_map. revert i. induction xs as [|x xs IH]; intros i; simpl; [reflexivity|]. now rewrite IH. Qed.
  Lemma in_pulse_keys pn n k : In k (pulse_keys pn n) <-> exists j, j < n /\ (k = pulse_key pn j \/ k = grid_key pn j).
  Proof.
    unfold pulse_keys. rewrite in_app_iff, !in_map_iff. split.
    - intros [[j [E I]]|[j [E I]]]; apply in_seq in I; exists j; split; auto; lia.
    - intros [j [J [E|E]]]; [left|right]; exists j; split; auto; apply in_seq; lia.
  Qed.
  Lemma full_dict_ok pn rn ps gs xs (kw : dict) : length ps <= length pn -> length xs <= length rn -> length gs = length ps ->
    NoDup (control_keys pn (length ps) rn (length xs)) -> NoDup (keys kw) -> disjoint (control_keys pn (length ps) rn (length xs)) (keys kw) ->
    full_dict (Some pn) (Some rn) ps gs xs kw = Ok (all_entries pn rn ps gs xs ++ kw) /\ NoDup (keys (all_entries pn rn ps gs xs ++ kw))
    /\ (forall k, In k (keys (all_entries pn rn ps gs xs)) <-> In k (control_keys pn (length ps) rn (length xs))).
  Proof.
    intros L1 L2 L3 D K X. unfold full_dict. cbn [names_or].
    assert (LC : length (combine ps gs) = length ps) by (rewrite combine_length; lia).
    assert (DP : NoDup (pulse_keys pn (length ps))) by (apply nodup_app in D; tauto).
    rewrite (put_pulses_ok pn (length ps) L1 DP); [|rewrite LC; lia|intros k; split; [simpl; tauto|intros [j [J _]]; lia]]. cbn [rbind]. rewrite app_nil_l.
    rewrite (put_parameters_ok rn (pulse_keys pn (length ps)) (length xs) L2 D).
    2: lia.
    2:{ intros k. rewrite keys_pulse_entries, in_pulse_keys, LC. split.
        - intros [j [J M]]. left. exists j. split; [lia|auto].
        - intros [[j [J M]]|[j [J M]]]; [|lia]. exists j. split; [lia|auto]. }
    cbn [rbind]. fold (all_entries pn rn ps gs xs).
    assert (KE : forall k, In k (keys (all_entries pn rn ps gs xs)) <-> In k (control_keys pn (length ps) rn (length xs))).
    { intros k. unfold all_entries, keys, control_keys. rewrite map_app, !in_app_iff. change (map fst) with keys. rewrite keys_pulse_entries, keys_parameter_entries, in_pulse_keys, LC.
      split; intros [A|A]; [left|right|left|right]; try exact A; destruct A as [j [J M]]; exists j; split; auto; lia. }
    assert (ND : NoDup (keys (all_entries pn rn ps gs xs))).
    { unfold all_entries, keys. rewrite map_app. apply nodup_app. apply nodup_app in D. destruct D as [_ [D2 D3]]. split; [|split].
      - clear - DP LC L1. assert (G : forall qs i, i + length qs <= length ps -> NoDup (map fst (pulse_entries pn qs i))).
        { induction qs as [|[p g] qs IH]; intros i L; simpl; [constructor|]. simpl in L. assert (N1 : i + length qs < length ps) by lia.
          constructor; [|constructor].
          - intros [E|I]; [symmetry in E; apply (pk_gk pn _ L1 DP) in E; auto; lia|]. apply keys_pulse_entries in I. destruct I as [j [J [M|M]]]; [apply (pk_inj pn _ L1 DP) in M; lia|apply (pk_gk pn _ L1 DP) in M; auto; lia].
          - intros I. apply keys_pulse_entries in I. destruct I as [j [J [M|M]]]; [symmetry in M; apply (pk_gk pn _ L1 DP) in M; auto; lia|apply (gk_inj pn _ L1 DP) in M; lia].
          - apply IH. lia. }
        apply G. lia.
      - change (NoDup (keys (parameter_entries rn (pulse_keys pn (length ps)) xs 0))). rewrite keys_parameter_entries. exact D2.
      - intros k A B. apply keys_pulse_entries in A. apply (D3 k).
        + apply in_pulse_keys. destruct A as [j [J M]]. exists j. split; auto; lia.
        + change (In k (keys (parameter_entries rn (pulse_keys pn (length ps)) xs 0))) in B. rewrite keys_parameter_entries in B. exact B. }
    assert (NA : NoDup (keys (all_entries pn rn ps gs xs ++ kw))).
    { unfold keys. rewrite map_app. apply nodup_app. split; [exact ND|]. split; [exact K|]. intros k A B. apply KE in A. exact (X k A B). }
    rewrite merge_fresh by exact NA. auto.
  Qed.
  Lemma keys_combine l (vs : list V) : length vs = length l -> keys (combine l vs) = l.
  Proof. revert vs. induction l as [|a l IH]; intros [|v vs] L; simpl in *; try discriminate; auto. f_equal. apply IH. lia. Qed.
  (** ** names missing *)
  Lemma put_pulses_err names ps i (d : dict) e : put_pulses names i ps d = Err e -> e = IndexError.
  Proof.
    revert i d. induction ps as [|[p g] ps IH]; intros i d H; cbn in H; [discriminate|]. unfold nth_ in H. destruct (nth_error names i); cbn [rbind] in H; [exact (IH _ _ H)|congruence].
  Qed.
  Lemma put_pulses_short names ps i (d : dict) : length names < i + length ps -> put_pulses names i ps d = Err IndexError \/ ps = [].
  Proof.
    revert i d. induction ps as [|[p g] ps IH]; intros i d L; [right; reflexivity|left]. cbn in L |- *. unfold nth_. destruct (nth_error names i) eqn:E; cbn [rbind]; [|reflexivity].
    match goal with |- put_pulses _ _ _ ?d' = _ => destruct (IH (i + 1) d') as [Q|Q]; [lia|exact Q|] end. subst ps. exfalso. assert (i < length names) by (apply nth_error_Some; congruence). simpl in L. lia.
  Qed.
  Lemma put_parameters_short names xs i (d : dict) : length names < i + length xs -> put_parameters names i xs d = Err IndexError \/ xs = [].
  Proof.
    revert i d. induction xs as [|x xs IH]; intros i d L; [right; reflexivity|left]. cbn in L |- *. unfold nth_. destruct (nth_error names i) eqn:E; cbn [rbind]; [|reflexivity].
    match goal with |- put_parameters _ _ _ ?d' = _ => destruct (IH (i + 1) d') as [Q|Q]; [lia|exact Q|] end. subst xs. exfalso. assert (i < length names) by (apply nth_error_Some; congruence). simpl in L. lia.
  Qed.
End Dump.
