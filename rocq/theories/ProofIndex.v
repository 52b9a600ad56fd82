(** Assignment of the entries of the optimisation vector to the controls. *)
From Coq Require Import String ZArith List Bool Lia.
From Verif Require Import Num NumFacts Py PyFacts ModelPulse ModelControls SpecControls ProofControls.
Import ListNotations.
Open Scope list_scope.

Section Index.
  Context {N : Num}.

  (** the parts of the objects that no operation changes (for plain bases) *)
  Definition pfix (p : pulse) := (pc_nctrl (core p), pc_indices (core p), pc_last (core p), chop p, pc_offset (core p), pc_scale (core p)).
  Definition rfix (r : param) := (pa_name r, pa_lower r, pa_upper r, pa_ampl r, pa_indices r, pa_last r).

  Definition plain (p : pulse) : Prop := forall x, chop p x = x.

  Fixpoint chained (m : Z) (ps : list pulse) (m' : Z) : Prop :=
    match ps with
    | [] => m' = m
    | p :: ps => pc_indices (core p) = index_list m (pc_nctrl (core p)) /\
                 pc_last (core p) = (m + Z.of_nat (pc_nctrl (core p)))%Z /\
                 chained (pc_last (core p)) ps m'
    end.
  Fixpoint rchained (m : Z) (rs : list param) : Prop :=
    match rs with
    | [] => True
    | r :: rs => pa_indices r = index_list m 1 /\ pa_last r = (m + 1)%Z /\ rchained (pa_last r) rs
    end.

  Lemma chained_pfix m ps m' qs : map pfix ps = map pfix qs -> chained m ps m' -> chained m qs m'.
  Proof.
    revert m qs; induction ps as [|p ps IH]; intros m [|q qs] E H; cbn in E; try discriminate; [exact H|].
    injection E as E1 E2 E3 E4 E5 E6. cbn in H |- *. rewrite <- E1, <- E2, <- E3.
    destruct H as (A & B & C). repeat split; auto.
  Qed.
  Lemma rchained_rfix m rs qs : map rfix rs = map rfix qs -> rchained m rs -> rchained m qs.
  Proof.
    revert m qs; induction rs as [|r rs IH]; intros m [|q qs] E H; cbn in E; try discriminate; [exact H|].
    injection E as E1 E2 E3 E4 E5 E6. cbn in H |- *. rewrite <- E5, <- E6.
    destruct H as (A & B & C). repeat split; auto.
  Qed.
  Lemma plain_pfix ps qs : map pfix ps = map pfix qs -> Forall plain ps -> Forall plain qs.
  Proof.
    revert qs; induction ps as [|p ps IH]; intros [|q qs] E H; cbn in E; try discriminate; auto.
    injection E as E1 E2 E3 E4 E5 E6. inversion H; subst. constructor; auto. unfold plain in *. now rewrite <- E4.
  Qed.

  Lemma py_nth_last {A} (l : list A) a : py_nth (l ++ [a]) (-1) = Ok a.
  Proof.
    unfold py_nth. rewrite app_length. cbn [length].
    destruct (Z.ltb_spec (-1) 0); [|lia].
    destruct (Z.ltb_spec (-1 + Z.of_nat (length l + 1)) 0); [lia|].
    destruct (Z.leb_spec (Z.of_nat (length l + 1)) (-1 + Z.of_nat (length l + 1))); [lia|]. cbn [orb].
    replace (Z.to_nat (-1 + Z.of_nat (length l + 1))) with (length l) by lia.
    rewrite nth_error_app2 by lia. now rewrite Nat.sub_diag.
  Qed.

  Lemma index_list_last m n : n <> 0%nat -> py_nth (index_list m n) (-1) = Ok (m + Z.of_nat n)%Z.
  Proof.
    intros H. destruct n; [congruence|]. unfold index_list. rewrite seq_S, map_app. cbn [map].
    rewrite py_nth_last. f_equal. lia.
  Qed.
  Lemma index_list_0 m : py_nth (index_list m 0) (-1) = Err IndexError.
  Proof. reflexivity. Qed.

  Lemma new_pulses_chained m l ps m' :
    new_pulses m l = Ok (ps, m') -> chained m ps m' /\ map (fun p => chop p) ps = map pf_chop l /\
      map (fun p => pc_nctrl (core p)) ps = map pf_nctrl l /\
      map (fun p => pc_offset (core p)) ps = map pf_offset l /\
      map (fun p => pc_scale (core p)) ps = map pf_scale l /\
      Forall (fun f => pf_nctrl f <> 0%nat) l.
  Proof.
    revert m ps; induction l as [|f l IH]; intros m ps H; cbn in H; [rinv; cbn; auto 7|].
    rinv.
    match goal with H : new_pulses _ _ = Ok _ |- _ => specialize (IH _ _ H) as (C & E1 & E2 & E3 & E4 & F) end.
    match goal with H : new_pulse _ _ = Ok _ |- _ => unfold new_pulse in H; rename H into HP end.
    destruct (pf_nctrl f) as [|n] eqn:En; [discriminate|].
    rewrite index_list_last in HP by congruence. cbn [rbind] in HP. injection HP as <-.
    cbn in *. rewrite E1, E2, E3, E4, En. repeat split; auto. constructor; auto. congruence.
  Qed.

  Lemma new_params_chained m l : rchained m (new_params m l).
  Proof. revert m; induction l; intros m; cbn; auto. repeat split; auto. lia. Qed.
  Lemma new_params_cfg m l :
    map (fun r => (pa_name r, pa_lower r, pa_upper r, pa_ampl r)) (new_params m l) =
    map (fun f => (rf_name f, rf_lower f, rf_upper f, rf_ampl f)) l.
  Proof. revert m; induction l; intros m; cbn; [reflexivity|]. now rewrite IHl. Qed.
  Lemma new_params_value m l : map pa_value (new_params m l) = map rf_value l.
  Proof. revert m; induction l; intros m; cbn; [reflexivity|]. now rewrite IHl. Qed.

  Lemma reindex_pfix m ps m' : chained m ps m' ->
    map pfix (fst (reindex_pulses m ps)) = map pfix ps /\ snd (reindex_pulses m ps) = m'.
  Proof.
    revert m; induction ps as [|p ps IH]; intros m H; cbn [chained reindex_pulses fst snd map] in *; [auto|].
    destruct H as (A & B & C).
    change (pc_last (core (set_control_parameters_list m p))) with (pc_last (core p)).
    specialize (IH _ C). destruct (reindex_pulses (pc_last (core p)) ps) as [qs m2]. cbn in *.
    destruct IH as [IH1 IH2]. split; [|assumption]. rewrite IH1. f_equal. unfold pfix; cbn. now rewrite A.
  Qed.
  Lemma rreindex_rfix m rs : rchained m rs -> map rfix (reindex_params m rs) = map rfix rs.
  Proof.
    revert m; induction rs as [|r rs IH]; intros m H; cbn [rchained reindex_params map] in *; [auto|].
    destruct H as (A & B & C). change (pa_last (set_param_indices m r)) with (pa_last r).
    rewrite (IH _ C). f_equal. unfold rfix; cbn. now rewrite A.
  Qed.
  Lemma rreindex_value m rs : map pa_value (reindex_params m rs) = map pa_value rs.
  Proof. revert m; induction rs; intros m; cbn; [reflexivity|]. now rewrite IHrs. Qed.

  (** invariant of every Controls object built from plain bases *)
  Definition well_indexed (c : controls) : Prop :=
    Forall plain (c_pulses c) /\
    exists mid, chained (-1) (c_pulses c) mid /\ rchained mid (c_params c).

  Definition same_fix (c c' : controls) : Prop :=
    map pfix (c_pulses c') = map pfix (c_pulses c) /\ map rfix (c_params c') = map rfix (c_params c).

  Lemma same_fix_refl c : same_fix c c.
  Proof. split; reflexivity. Qed.
  Lemma same_fix_trans a b c : same_fix a b -> same_fix b c -> same_fix a c.
  Proof. intros [] []; split; congruence. Qed.
  Lemma same_fix_wi c c' : same_fix c c' -> well_indexed c -> well_indexed c'.
  Proof.
    intros [A B] (P & mid & C & D). split; [eapply plain_pfix; [symmetry; exact A|exact P]|].
    exists mid. split; [eapply chained_pfix|eapply rchained_rfix]; try eassumption; symmetry; assumption.
  Qed.

  Lemma update_indexes_fix c : well_indexed c -> same_fix c (update_control_parameter_indexes c).
  Proof.
    intros (P & mid & C & D). unfold update_control_parameter_indexes, same_fix.
    destruct (reindex_pfix _ _ _ C) as [E1 E2].
    destruct (reindex_pulses (-1) (c_pulses c)) as [ps m]. cbn in *. subst m.
    split; [assumption|]. now apply rreindex_rfix.
  Qed.

  Lemma map_set_nth_same {A B} (f : A -> B) l i a b :
    nth_error l i = Some a -> f b = f a -> map f (set_nth l i b) = map f l.
  Proof.
    revert i; induction l as [|x l IH]; intros [|i] E H; cbn in *; try discriminate; auto.
    - injection E as ->. now rewrite H.
    - now rewrite (IH i E H).
  Qed.

  Lemma Forall_nth_error {A} (P : A -> Prop) l i a : Forall P l -> nth_error l i = Some a -> P a.
  Proof. intros H E. rewrite Forall_forall in H. apply H. eapply nth_error_In; eauto. Qed.

  Lemma select_from_fix rs idx pos c c' pos' :
    well_indexed c -> select_basis_from rs idx pos c = Ok (c', pos') -> same_fix c c'.
  Proof.
    revert pos c. induction idx as [|j idx IH]; intros pos c W H; cbn in H; [rinv; apply same_fix_refl|].
    destruct (nth_error (c_pulses c) j) as [q|] eqn:Ej; [|rinv; apply same_fix_refl].
    destruct (pc_dist (core q)) as [[[k a] b]|]; [|now apply (IH pos c)].
    apply rbind_ok in H as (w & Hw & H).
    match type of H with select_basis_from _ _ _ (update_control_parameter_indexes ?x) = _ => set (c1 := x) in * end.
    assert (F1 : same_fix c c1).
    { split; [|reflexivity]. cbn. apply (map_set_nth_same pfix _ _ q); [assumption|].
      destruct W as [P _]. pose proof (Forall_nth_error _ _ _ _ P Ej) as PQ.
      unfold pfix. cbn. rewrite PQ. reflexivity. }
    assert (W1 : well_indexed c1) by (eapply same_fix_wi; eauto).
    pose proof (update_indexes_fix _ W1) as F2.
    assert (W2 : well_indexed (update_control_parameter_indexes c1)) by (eapply same_fix_wi; eauto).
    specialize (IH _ _ W2 H). eapply same_fix_trans; [exact F1|]. eapply same_fix_trans; [exact F2|exact IH].
  Qed.

  Lemma rmap_map_eq {A B C} (f : A -> res B) (g : A -> C) (h : B -> C) l l' :
    rmap f l = Ok l' -> (forall a b, In a l -> f a = Ok b -> h b = g a) -> map h l' = map g l.
  Proof.
    revert l'; induction l as [|a l IH]; intros l' H E; cbn in H; [now rinv|].
    rinv. cbn. rewrite (IH _ ltac:(eassumption)) by (intros; eapply E; [right; eassumption|assumption]).
    f_equal. apply E; [now left|assumption].
  Qed.

  Lemma get_controls_fix x c c' d : get_controls_lists x c = Ok (c', d) -> same_fix c c'.
  Proof.
    intros H. unfold get_controls_lists in H. rinv. split; cbn; rewrite map_map.
    - eapply rmap_map_eq; [eassumption|]. intros a b _ E. cbn in E. rinv. unfold get_pulse in E. rinv. reflexivity.
    - eapply rmap_map_eq; [eassumption|]. intros a b _ E. cbn in E. rinv. unfold get_parameter, set_parameter in E. rinv. reflexivity.
  Qed.
  Lemma get_bare_fix x c c' d : get_bare_controls_lists x c = Ok (c', d) -> same_fix c c'.
  Proof.
    intros H. unfold get_bare_controls_lists in H. rinv. split; cbn; [rewrite map_map|reflexivity].
    eapply rmap_map_eq; [eassumption|]. intros a b _ E. cbn in E. rinv. unfold get_bare_pulse in E. rinv. reflexivity.
  Qed.
  Lemma update_base_fix x c c' : update_base_controls x c = Ok c' -> same_fix c c'.
  Proof.
    intros H. unfold update_base_controls in H. rinv. split; cbn.
    - eapply rmap_map_eq; [eassumption|]. intros a b _ E. cbn in E. rinv. unfold set_base_pulse in E. rinv.
      destruct (pc_overwrite _); rinv; reflexivity.
    - eapply rmap_map_eq; [eassumption|]. intros a b _ E. cbn in E. rinv. unfold set_parameter in E. rinv. reflexivity.
  Qed.

  Lemma reachable_fix c0 c : well_indexed c0 -> reachable c0 c -> same_fix c0 c.
  Proof.
    intros W R; induction R.
    - apply same_fix_refl.
    - eapply same_fix_trans; [now apply IHR|eapply get_controls_fix; eassumption].
    - eapply same_fix_trans; [now apply IHR|eapply get_bare_fix; eassumption].
    - eapply same_fix_trans; [now apply IHR|eapply update_base_fix; eassumption].
    - eapply same_fix_trans; [now apply IHR|].
      eapply select_from_fix; [|eassumption]. eapply same_fix_wi; [now apply IHR|assumption].
  Qed.

  Lemma new_controls_wi pl tl rl c : new_controls pl tl rl = Ok c -> Forall plain_basis pl -> well_indexed c.
  Proof.
    intros H P. unfold new_controls in H. rinv.
    match goal with H : new_pulses _ _ = Ok _ |- _ => destruct (new_pulses_chained _ _ _ _ H) as (C & E & _) end.
    split; cbn.
    - clear - E P. revert pl E P. induction l; intros [|f pl] E P; cbn in E; try discriminate; constructor.
      + injection E as E1 E2. inversion P; subst. unfold plain. rewrite E1. assumption.
      + injection E as E1 E2. inversion P; subst. eauto.
    - exists z. split; [assumption|]. apply new_params_chained.
  Qed.

  #[local] Arguments list_sum l : simpl never.
  Lemma lsum_cons a l : list_sum (a :: l) = a + list_sum l. Proof. reflexivity. Qed.
  Lemma lsum_nil : list_sum [] = 0. Proof. reflexivity. Qed.

  (** number of control parameters *)
  Lemma fold_add_nctrl ps n : fold_left (fun n p => n + pc_nctrl (core p)) ps n = n + list_sum (map (fun p => pc_nctrl (core p)) ps).
  Proof. revert n; induction ps; intros n; cbn [fold_left map]; rewrite ?lsum_cons, ?lsum_nil; [lia|]. rewrite IHps. lia. Qed.
  Lemma fold_count {A} (rs : list A) n : fold_left (fun n (_ : A) => n + 1) rs n = n + length rs.
  Proof. revert n; induction rs; intros n; cbn; [lia|]. rewrite IHrs. lia. Qed.
  Lemma number_eq c : get_control_parameters_number c =
    list_sum (map (fun p => pc_nctrl (core p)) (c_pulses c)) + length (c_params c).
  Proof. unfold get_control_parameters_number. rewrite fold_count, fold_add_nctrl. lia. Qed.

  Lemma index_list_seq (m : nat) n : index_list (Z.of_nat m - 1) n = map Z.of_nat (seq m n).
  Proof.
    assert (K : seq m n = map (fun i => m + i) (seq 0 n)).
    { revert m; induction n; intros m; [reflexivity|]. cbn [seq map]. f_equal; [lia|].
      rewrite (IHn (S m)), <- seq_shift, map_map. apply map_ext. intros; lia. }
    rewrite K, map_map. unfold index_list. apply map_ext. intros; lia.
  Qed.

  Lemma chained_concat (m : nat) ps m' : chained (Z.of_nat m - 1) ps m' ->
    let k := list_sum (map (fun p => pc_nctrl (core p)) ps) in
    concat (map (fun p => pc_indices (core p)) ps) = map Z.of_nat (seq m k) /\ m' = (Z.of_nat (m + k) - 1)%Z.
  Proof.
    revert m; induction ps as [|p ps IH]; intros m H; cbn in *; rewrite ?lsum_cons, ?lsum_nil.
    - split; [reflexivity|]. rewrite H. lia.
    - destruct H as (A & B & C). rewrite A, index_list_seq.
      replace (pc_last (core p)) with (Z.of_nat (m + pc_nctrl (core p)) - 1)%Z in C by lia.
      specialize (IH _ C) as [E1 E2]. rewrite E1, E2. split; [|lia].
      rewrite <- map_app. f_equal. now rewrite <- seq_app.
  Qed.
  Lemma rchained_concat (m : nat) rs : rchained (Z.of_nat m - 1) rs ->
    concat (map pa_indices rs) = map Z.of_nat (seq m (length rs)).
  Proof.
    revert m; induction rs as [|r rs IH]; intros m H; cbn [rchained map concat length] in *; [reflexivity|].
    destruct H as (A & B & C). rewrite A.
    replace (pa_last r) with (Z.of_nat (S m) - 1)%Z in C by lia.
    rewrite (IH _ C), index_list_seq. reflexivity.
  Qed.

  (** position of the first entry of block [i] *)
  Definition offset_of (sizes : list nat) (i : nat) : nat := list_sum (firstn i sizes).

  Lemma chained_nth (m : nat) ps m' i p : chained (Z.of_nat m - 1) ps m' -> nth_error ps i = Some p ->
    pc_indices (core p) = map Z.of_nat (seq (m + offset_of (map (fun p => pc_nctrl (core p)) ps) i) (pc_nctrl (core p))).
  Proof.
    revert m i; induction ps as [|q ps IH]; intros m [|i] H E; cbn in *; try discriminate.
    - injection E as ->. destruct H as (A & _). rewrite A, index_list_seq. unfold offset_of; cbn [firstn map]; rewrite lsum_nil. now rewrite Nat.add_0_r.
    - destruct H as (A & B & C). replace (pc_last (core q)) with (Z.of_nat (m + pc_nctrl (core q)) - 1)%Z in C by lia.
      rewrite (IH _ _ C E). unfold offset_of; cbn [firstn map]. rewrite lsum_cons. do 2 f_equal. lia.
  Qed.
  Lemma rchained_nth (m : nat) rs i r : rchained (Z.of_nat m - 1) rs -> nth_error rs i = Some r ->
    pa_indices r = [Z.of_nat (m + i)].
  Proof.
    revert m i; induction rs as [|q rs IH]; intros m [|i] H E; cbn [rchained nth_error] in *; try discriminate.
    - injection E as ->. destruct H as (A & _). rewrite A, index_list_seq. cbn [seq map]. now rewrite Nat.add_0_r.
    - destruct H as (A & B & C). replace (pa_last q) with (Z.of_nat (S m) - 1)%Z in C by lia.
      rewrite (IH _ _ C E). do 2 f_equal; lia.
  Qed.

  Lemma Z_m1 : (-1)%Z = (Z.of_nat 0 - 1)%Z. Proof. reflexivity. Qed.

  Definition sizes_of (c : controls) := map (fun p => pc_nctrl (core p)) (c_pulses c).

  Lemma wi_pulse_indices c i p : well_indexed c -> nth_error (c_pulses c) i = Some p ->
    pc_indices (core p) = map Z.of_nat (seq (offset_of (sizes_of c) i) (pc_nctrl (core p))).
  Proof. intros (_ & mid & C & _) E. rewrite Z_m1 in C. exact (chained_nth _ _ _ _ _ C E). Qed.
  Lemma wi_param_indices c i r : well_indexed c -> nth_error (c_params c) i = Some r ->
    pa_indices r = [Z.of_nat (list_sum (sizes_of c) + i)].
  Proof.
    intros (_ & mid & C & D) E. rewrite Z_m1 in C. destruct (chained_concat _ _ _ C) as [_ ->].
    exact (rchained_nth _ _ _ _ D E).
  Qed.
  Lemma wi_concat c : well_indexed c ->
    concat (map (fun p => pc_indices (core p)) (c_pulses c) ++ map pa_indices (c_params c))
    = map Z.of_nat (seq 0 (get_control_parameters_number c)).
  Proof.
    intros (_ & mid & C & D). rewrite Z_m1 in C. destruct (chained_concat _ _ _ C) as [E ->].
    rewrite concat_app, E, (rchained_concat _ _ D), number_eq, <- map_app. f_equal. now rewrite seq_app.
  Qed.

  Lemma new_controls_sizes pl tl rl c : new_controls pl tl rl = Ok c ->
    sizes_of c = map pf_nctrl pl /\ length (c_params c) = length rl.
  Proof.
    intros H. unfold new_controls in H. rinv.
    match goal with H : new_pulses _ _ = Ok _ |- _ => destruct (new_pulses_chained _ _ _ _ H) as (_ & _ & E & _) end.
    split; [exact E|]. cbn. clear. revert z. induction rl; intros; cbn; auto.
  Qed.
  Lemma same_fix_sizes c c' : same_fix c c' -> sizes_of c' = sizes_of c /\ length (c_params c') = length (c_params c).
  Proof.
    intros [A B]. split.
    - unfold sizes_of. apply (f_equal (map (fun x => fst (fst (fst (fst (fst x))))))) in A. rewrite !map_map in A. exact A.
    - apply (f_equal (@length _)) in B. now rewrite !map_length in B.
  Qed.
End Index.
