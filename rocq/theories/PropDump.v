(** * C46 The best-controls file. *)
From Coq Require Import String List Arith Bool Lia.
From Verif Require Import Num Py ModelDump SpecDump ProofDump.
Import ListNotations.
Open Scope string_scope.
Open Scope list_scope.

Section C46.
  Context {V : Type}.
  (** what the format can store *)
  Variable storable : format -> V -> bool.
  Implicit Types (pn rn : list string) (ps gs xs vs : list V) (old : file (V := V)).
  (** every control is found under its key *)
  Theorem C46_saved is_dcrab f old pn rn ps gs xs vs :
    let keys := control_keys pn (length ps) rn (length xs) in
    length ps <= length pn -> length xs <= length rn -> length gs = length ps -> length vs = length (call_keys is_dcrab) ->
    NoDup keys -> disjoint keys (call_keys is_dcrab) -> (f = Npz -> ~ In "file" keys) ->
    (forall v, In v (ps ++ gs ++ xs ++ vs) -> storable f v = true) ->
    let call := update_controls storable is_dcrab f true pn rn ps gs xs vs in
    snd call = Ok tt /\ exists d, load (disk_after old call) = Some d
    /\ (forall i, i < length ps -> get d (pulse_key pn i) = nth_error ps i /\ get d (grid_key pn i) = nth_error gs i)
    /\ (forall j, j < length xs -> get d (parameter_key pn (length ps) rn j) = nth_error xs j)
    /\ (forall k, k < length vs -> get d (nth k (call_keys is_dcrab) "") = nth_error vs k)
    /\ (forall k, (exists v, get d k = Some v) <-> In k (keys ++ call_keys is_dcrab)).
  Proof.
    intros keys L1 L2 L3 L4 D X F ST call. set (kw := combine (call_keys is_dcrab) vs).
    assert (KW : ProofDump.keys kw = call_keys is_dcrab) by (apply keys_combine; auto).
    assert (KD : NoDup (call_keys is_dcrab)) by (destruct is_dcrab; repeat constructor; simpl; intuition congruence).
    destruct (full_dict_ok pn rn ps gs xs kw) as [E [N KE]]; auto; try (rewrite KW; auto). set (d := all_entries pn rn ps gs xs ++ kw) in *.
    assert (KALL : forall k, In k (ProofDump.keys d) <-> In k (keys ++ call_keys is_dcrab)).
    { intros k. unfold d, ProofDump.keys. rewrite map_app, !in_app_iff. change (map fst kw) with (ProofDump.keys kw). rewrite KW. change (map fst (all_entries pn rn ps gs xs)) with (ProofDump.keys (all_entries pn rn ps gs xs)). rewrite KE. tauto. }
    assert (LC : length (combine ps gs) = length ps) by (rewrite combine_length; lia).
    assert (PE : forall (qs : list (V * V)) i b k p g, nth_error qs k = Some (p, g) -> i = b + k -> In (pulse_key pn i, p) (pulse_entries pn qs b) /\ In (grid_key pn i, g) (pulse_entries pn qs b)).
    { clear. induction qs as [|[p g] qs IH]; intros i b [|k] p' g' H E; simpl in *; try discriminate.
      - injection H as -> ->. subst. rewrite Nat.add_0_r. unfold pulse_entries. simpl. auto.
      - destruct (IH i (S b) k p' g' H) as [A B]; [lia|]. unfold pulse_entries in *. simpl. auto. }
    assert (RE : forall (ys : list V) i b k y, nth_error ys k = Some y -> i = b + k -> In (parameter_key pn (length ps) rn i, y) (parameter_entries rn (pulse_keys pn (length ps)) ys b)).
    { clear. induction ys as [|y ys IH]; intros i b [|k] y' H E; simpl in *; try discriminate.
      - injection H as ->. subst. rewrite Nat.add_0_r. left. reflexivity.
      - right. apply (IH i (S b) k y' H). lia. }
    assert (AS : forall k v, In (k, v) d -> In v (ps ++ gs ++ xs ++ vs)).
    { intros k v I. unfold d, all_entries in I. rewrite !in_app_iff in I. rewrite !in_app_iff. destruct I as [[I|I]|I].
      - unfold pulse_entries in I. apply in_concat in I. destruct I as [l [I1 I2]]. apply in_map_iff in I1. destruct I1 as [[j [p g]] [<- I1]]. apply in_combine_r in I1.
        simpl in I2. destruct I2 as [I2|[I2|[]]]; injection I2 as _ <-; [left; apply in_combine_l in I1; exact I1|right; left; apply in_combine_r in I1; exact I1].
      - right. right. left. revert I. generalize 0. generalize (pulse_keys pn (length ps)). clear. induction xs as [|x xs IH]; intros u b I; [destruct I|]. simpl in I. destruct I as [I|I]; [left; injection I; auto|right; exact (IH _ _ I)].
      - right. right. right. unfold kw in I. apply in_combine_r in I. exact I. }
    assert (SA : forall g, (forall v, In v (ps ++ gs ++ xs ++ vs) -> storable g v = true) -> all_storable storable g d = true) by (intros g Q; unfold all_storable; apply forallb_forall; intros [k v] I; apply Q, (AS k v I)).
    assert (W : call = (growing d ++ [Closed d], Ok tt)).
    { unfold call, update_controls, dump_controls. simpl negb. cbv iota. fold kw. rewrite E. unfold write_file. destruct f.
      - unfold write_npz. destruct (mem d "file") eqn:M.
        + exfalso. apply mem_in, KALL, in_app_or in M. destruct M as [M|M]; [apply F in M; auto|]. destruct is_dcrab; simpl in M; intuition congruence.
        + rewrite (SA Npz ST). reflexivity.
      - unfold write_json. rewrite (SA Json ST). reflexivity. }
    split; [rewrite W; reflexivity|]. exists d. split; [rewrite W; unfold disk_after; cbn [fst]; rewrite last_last; reflexivity|].
    split; [|split; [|split]].
    - intros i I. destruct (nth_error ps i) as [p|] eqn:EP; [|apply nth_error_None in EP; lia]. destruct (nth_error gs i) as [g|] eqn:EG; [|apply nth_error_None in EG; lia].
      assert (EC : nth_error (combine ps gs) i = Some (p, g)).
      { clear - EP EG. revert gs i EP EG. induction ps as [|a ps IH]; intros [|b gs] [|i] EP EG; simpl in *; try discriminate; [congruence|auto]. }
      destruct (PE _ i 0 i p g EC) as [A B]; [lia|]. split; apply get_nodup; auto; unfold d, all_entries; rewrite !in_app_iff; auto.
    - intros j J. destruct (nth_error xs j) as [x|] eqn:EX; [|apply nth_error_None in EX; lia]. apply get_nodup; auto. unfold d, all_entries. rewrite !in_app_iff. left. right. apply (RE xs j 0 j x EX). lia.
    - intros k K. destruct (nth_error vs k) as [v|] eqn:EV; [|apply nth_error_None in EV; lia]. apply get_nodup; auto. unfold d. rewrite in_app_iff. right. unfold kw.
      clear - EV L4. revert vs k L4 EV. generalize (call_keys is_dcrab). induction l as [|a l IH]; intros [|v' vs] [|k] L EV; simpl in *; try discriminate; [injection EV as ->; auto|right; apply (IH vs k); [lia|auto]].
    - intros k. rewrite <- KALL. split.
      + intros [v G]. apply get_in in G. apply (in_map fst) in G. exact G.
      + intros I. apply mem_in in I. unfold mem in I. destruct (get d k) as [v|]; [exists v; reflexivity|discriminate].
  Qed.
  (** names that are all different are used as they are *)
  Theorem C46_names pn rn n m : n <= length pn -> m <= length rn -> NoDup (pn ++ map (fun k => ("time_grid_for_" ++ k)%string) pn ++ rn) ->
    (forall i, i < n -> pulse_key pn i = name_of pn i) /\ (forall j, j < m -> parameter_key pn n rn j = name_of rn j) /\ NoDup (control_keys pn n rn m).
  Proof.
    intros Ln Lm D. apply nodup_app in D. destruct D as [D1 [D2 D3]]. apply nodup_app in D2. destruct D2 as [D4 [D5 D6]].
    assert (FN : forall l i, i < length l -> NoDup l -> listed (name_of l i) (firstn i l) = false).
    { clear. intros l i L D. destruct (listed (name_of l i) (firstn i l)) eqn:E; auto. exfalso. apply listed_in in E. destruct (first_seen _ _ _ E) as [j [J [Q _]]].
      assert (j = i); [|lia]. apply (proj1 (NoDup_nth l "") D); auto; lia. }
    assert (FP : forall i, i < n -> pulse_key pn i = name_of pn i) by (intros i I; unfold pulse_key, unrepeated; rewrite FN; auto; lia).
    assert (IN : forall i, i < n -> In (name_of pn i) pn) by (intros i I; apply nth_In; lia).
    assert (PK : forall k, In k (pulse_keys pn n) -> In k pn \/ In k (map (fun k => ("time_grid_for_" ++ k)%string) pn)).
    { intros k K. apply in_pulse_keys in K. destruct K as [i [I [E|E]]]; [left; rewrite E, FP; auto|right]. unfold grid_key in E. rewrite FP in E by auto. subst. apply (in_map (fun k => ("time_grid_for_" ++ k)%string)). auto. }
    assert (FR : forall j, j < m -> parameter_key pn n rn j = name_of rn j).
    { intros j J. unfold parameter_key, unrepeated. destruct (listed (name_of rn j) (pulse_keys pn n ++ firstn j rn)) eqn:E; auto. exfalso. apply listed_in, in_app_or in E.
      assert (IR : In (name_of rn j) rn) by (apply nth_In; lia). destruct E as [E|E].
      - apply PK in E. destruct E as [E|E]; [apply (D3 _ E), in_or_app; auto|apply (D6 _ E); auto].
      - apply listed_in in E. rewrite FN in E; auto; [discriminate|lia]. }
    split; [exact FP|]. split; [exact FR|]. unfold control_keys. apply nodup_app. split; [|split].
    - unfold pulse_keys. apply nodup_app.
      assert (MN : forall l k, k <= length l -> map (name_of l) (seq 0 k) = firstn k l).
      { clear. induction l as [|a l IH]; intros [|k] L; simpl in *; try lia; auto. f_equal. rewrite <- (IH k) by lia. rewrite <- seq_shift, map_map. reflexivity. }
      assert (E1 : map (pulse_key pn) (seq 0 n) = firstn n pn). { rewrite <- MN by auto. apply map_ext_in. intros i I. apply in_seq in I. apply FP. lia. }
      assert (E2 : map (grid_key pn) (seq 0 n) = map (fun k => ("time_grid_for_" ++ k)%string) (firstn n pn)). { rewrite <- MN by auto. rewrite map_map. apply map_ext_in. intros i I. apply in_seq in I. unfold grid_key. rewrite FP; [reflexivity|lia]. }
      rewrite E1, E2. assert (SP : pn = firstn n pn ++ skipn n pn) by (symmetry; apply firstn_skipn). rewrite SP in D1, D4. rewrite map_app in D4. apply nodup_app in D1. apply nodup_app in D4. split; [tauto|]. split; [tauto|].
      intros k A B. apply (D3 k).
      + rewrite SP. apply in_or_app. auto.
      + apply in_or_app. left. rewrite SP, map_app. apply in_or_app. auto.
    - assert (E : map (parameter_key pn n rn) (seq 0 m) = firstn m rn).
      { assert (MN : forall l k, k <= length l -> map (name_of l) (seq 0 k) = firstn k l).
        { clear. induction l as [|a l IH]; intros [|k] L; simpl in *; try lia; auto. f_equal. rewrite <- (IH k) by lia. rewrite <- seq_shift, map_map. reflexivity. }
        rewrite <- MN by auto. apply map_ext_in. intros i I. apply in_seq in I. apply FR. lia. }
      rewrite E. rewrite <- (firstn_skipn m rn) in D5. apply nodup_app in D5. tauto.
    - intros k A B. apply in_map_iff in B. destruct B as [j [E J]]. apply in_seq in J. rewrite FR in E by lia. assert (IR : In k rn) by (rewrite <- E; apply nth_In; lia). apply PK in A. destruct A as [A|A]; [apply (D3 _ A), in_or_app; auto|apply (D6 _ A); auto].
  Qed.
  (** controls that are no record leave the file alone; so does a list of names that is too short *)
  Theorem C46_kept is_dcrab f old is_record pn rn ps gs xs vs : let call := update_controls storable is_dcrab f is_record pn rn ps gs xs vs in
    (is_record = false -> snd call = Ok tt /\ disk_after old call = old) /\
    (is_record = true -> length gs = length ps -> length pn < length ps \/ length rn < length xs -> snd call = Err IndexError /\ disk_after old call = old).
  Proof.
    intros call. unfold call, update_controls, dump_controls. split; [intros ->; split; reflexivity|]. intros -> LG SH. simpl negb. cbv iota. unfold full_dict. cbn [names_or].
    assert (LC : length (combine ps gs) = length ps) by (rewrite combine_length; lia).
    destruct (put_pulses pn 0 (combine ps gs) []) as [d1|e1] eqn:E1; cbn [rbind].
    - assert (length ps <= length pn) by (destruct (Nat.le_gt_cases (length ps) (length pn)); [assumption|]; destruct (put_pulses_short pn (combine ps gs) 0 []) as [Q|Q]; [rewrite LC; assumption|congruence|rewrite Q in LC; simpl in LC; lia]).
      destruct SH as [SH|SH]; [lia|]. destruct (put_parameters_short rn xs 0 d1) as [Q|Q]; [exact SH|rewrite Q; split; reflexivity|subst xs; simpl in SH; lia].
    - assert (e1 = IndexError) as -> by exact (put_pulses_err _ _ _ _ _ E1). split; reflexivity.
  Qed.
  (** bookkeeping entries win over controls of the same name *)
  Theorem C46_reserved is_dcrab f old pn rn ps gs xs vs d : length vs = length (call_keys is_dcrab) ->
    let call := update_controls storable is_dcrab f true pn rn ps gs xs vs in snd call = Ok tt -> load (disk_after old call) = Some d ->
    forall k, k < length vs -> get d (nth k (call_keys is_dcrab) "") = nth_error vs k.
  Proof.
    intros L call H HD k K. unfold call, update_controls, dump_controls in H, HD. clear call. simpl negb in H, HD. cbv iota in H, HD. unfold full_dict in H, HD. cbn [names_or] in H, HD.
    destruct (put_pulses pn 0 (combine ps gs) []) as [d1|e]; cbn [rbind] in H, HD; [|discriminate]. destruct (put_parameters rn 0 xs d1) as [d2|e]; cbn [rbind] in H, HD; [|discriminate].
    assert (E : d = merge d2 (combine (call_keys is_dcrab) vs)).
    { revert H HD. unfold disk_after, write_file, write_npz, write_json. destruct f; [destruct (mem _ _); [discriminate|]|]; (destruct (all_storable _ _ _); [|discriminate]);
        intros _; cbn [fst]; rewrite last_last; cbn [load]; congruence. }
    subst d.
    assert (KW : ProofDump.keys (combine (call_keys is_dcrab) vs) = call_keys is_dcrab) by (apply keys_combine; auto).
    assert (KD : NoDup (call_keys is_dcrab)) by (destruct is_dcrab; repeat constructor; simpl; intuition congruence).
    rewrite get_merge by (rewrite KW; exact KD). destruct (nth_error vs k) as [v|] eqn:EV; [|apply nth_error_None in EV; lia].
    rewrite (get_nodup _ _ v); auto; [rewrite KW; exact KD|].
    clear - EV L. revert vs k L EV. generalize (call_keys is_dcrab). induction l as [|a l IH]; intros [|v' vs] [|k] L EV; simpl in *; try discriminate; [injection EV as ->; auto|right; apply (IH vs k); [lia|auto]].
  Qed.
End C46.

(** three pulses p3, p, p: the last is renamed to p3 and the first is lost *)
Theorem C46_renamed_refuted : exists d, let call := update_controls (fun _ _ => true) false Json true ["p3"; "p"; "p"] [] [10; 20; 30] [11; 21; 31] [] [0; 0; 0; 0; 0; 0] in
  snd call = Ok tt /\ load (disk_after Missing call) = Some d /\ get d "p3" = Some 30 /\ forall k, get d k <> Some 10.
Proof.
  eexists. split; [reflexivity|]. split; [reflexivity|]. split; [reflexivity|]. intros k H. apply get_in in H. cbn in H. intuition congruence.
Qed.
(** a pulse called FoM is lost *)
Theorem C46_reserved_refuted : exists d, let call := update_controls (fun _ _ => true) true Npz true ["FoM"] [] [10] [11] [] [0; 0; 0; 5; 0; 0; 0] in
  snd call = Ok tt /\ load (disk_after Missing call) = Some d /\ get d "FoM" = Some 5 /\ forall k, get d k <> Some 10.
Proof.
  eexists. split; [reflexivity|]. split; [reflexivity|]. split; [reflexivity|]. intros k H. apply get_in in H. cbn in H. intuition congruence.
Qed.
(** a control called file: nothing can be saved in the default format *)
Theorem C46_file_refuted (V : Type) (storable : format -> V -> bool) is_dcrab old pn rn ps gs xs (vs : list V) : length ps <= length pn -> length xs <= length rn -> length gs = length ps -> length vs = length (call_keys is_dcrab) ->
  let keys := control_keys pn (length ps) rn (length xs) in NoDup keys -> disjoint keys (call_keys is_dcrab) -> In "file" keys ->
  let call := update_controls storable is_dcrab Npz true pn rn ps gs xs vs in snd call = Err TypeError /\ disk_after old call = old.
Proof.
  intros L1 L2 L3 L4 keys D X F. assert (KW : ProofDump.keys (combine (call_keys is_dcrab) vs) = call_keys is_dcrab) by (apply keys_combine; auto).
  assert (KD : NoDup (call_keys is_dcrab)) by (destruct is_dcrab; repeat constructor; simpl; intuition congruence).
  destruct (full_dict_ok pn rn ps gs xs (combine (call_keys is_dcrab) vs)) as [E [N KE]]; auto; try (rewrite KW; auto).
  unfold update_controls, dump_controls. simpl negb. cbv iota. rewrite E. unfold write_file, write_npz.
  assert (M : mem (all_entries pn rn ps gs xs ++ combine (call_keys is_dcrab) vs) "file" = true).
  { apply mem_in. unfold ProofDump.keys. rewrite map_app. apply in_or_app. left. apply KE. exact F. }
  rewrite M. split; reflexivity.
Qed.
(** a case of [C46_saved]: a repeated pulse name and a parameter with the name of a pulse *)
Example C46_case : exists d, let call := update_controls (fun _ _ => true) true Npz true ["amp"; "amp"] ["amp"; "phase"] [10; 20] [11; 21] [1; 2] [0; 0; 0; 5; 7; 1; 0] in
  snd call = Ok tt /\ load (disk_after Missing call) = Some d
  /\ get d "amp" = Some 10 /\ get d "amp2" = Some 20 /\ get d "time_grid_for_amp2" = Some 21 /\ get d "amp1" = Some 1 /\ get d "phase" = Some 2 /\ get d "FoM" = Some 5.
Proof. eexists. repeat split. Qed.
Example C46_case_names : control_keys ["amp"; "amp"] 2 ["amp"; "phase"] 2 = ["amp"; "amp2"; "time_grid_for_amp"; "time_grid_for_amp2"; "amp1"; "phase"]
  /\ NoDup (control_keys ["amp"; "amp"] 2 ["amp"; "phase"] 2) /\ disjoint (control_keys ["amp"; "amp"] 2 ["amp"; "phase"] 2) (call_keys true)
  /\ ~ In "file" (control_keys ["amp"; "amp"] 2 ["amp"; "phase"] 2).
Proof.
  split; [reflexivity|]. split; [repeat (constructor; [cbn; intuition congruence|]); constructor|]. split; [intros k A B; cbn in A, B; intuition congruence|cbn; intuition congruence].
Qed.
Print Assumptions C46_saved.
Print Assumptions C46_names.
Print Assumptions C46_kept.
Print Assumptions C46_reserved.
Print Assumptions C46_renamed_refuted.
Print Assumptions C46_reserved_refuted.
Print Assumptions C46_file_refuted.
