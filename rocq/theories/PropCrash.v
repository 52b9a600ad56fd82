(** * C62 What is left of the best controls when a run is cut off. *)
From Coq Require Import String List Arith Bool Lia ZArith.
From Flocq Require Import BinarySingleNaN.
From RecordUpdate Require Import RecordSet.
From Verif Require Import Num NumFacts Py ModelPulse ModelControls ModelBases ModelLinalg ModelState ModelSearch ModelRun SpecRun
  ProofHistory ExampleControls ExampleRun PropRun ModelDump SpecDump ProofDump.
Import ListNotations RecordSetNotations.
Open Scope string_scope.
Open Scope list_scope.

Section C62.
  Context {V : Type} (storable : format -> V -> bool).
  Implicit Types (pn rn : list string) (ps gs xs vs : list V) (old : file (V := V)).
  (** A process killed while the file is being written leaves a file that cannot be loaded, whatever was on the disk before. *)
  Theorem C62_torn is_dcrab f is_record pn rn ps gs xs vs k old : let call := update_controls storable is_dcrab f is_record pn rn ps gs xs vs in
    0 < k < length (fst call) -> load (disk_killed k old call) = None.
  Proof.
    intros call K. unfold disk_killed.
    assert (G : forall d e, k < length (growing d ++ [Closed e]) -> load (last (firstn k (growing d ++ [Closed e])) old) = None).
    { intros d e L. rewrite app_length in L. change (length [Closed e]) with 1 in L. rewrite firstn_app. replace (k - length (growing d)) with 0 by lia. cbn [firstn]. rewrite app_nil_r.
      assert (A : forall x, In x (firstn k (growing d)) -> load x = None).
      { intros x X. assert (Y : In x (growing d)) by (rewrite <- (firstn_skipn k (growing d)); apply in_or_app; auto). unfold growing in Y. apply in_map_iff in Y. destruct Y as [n [<- _]]. reflexivity. }
      destruct (firstn k (growing d)) as [|x l] eqn:E.
      - apply (f_equal (length (A := file))) in E. rewrite firstn_length in E. unfold growing in E at 1. rewrite map_length, seq_length in E. simpl in E. lia.
      - rewrite <- E in *. destruct (exists_last (l := firstn k (growing d))) as [l' [y Y]]; [rewrite E; discriminate|]. rewrite Y, last_last. apply A. rewrite Y. apply in_or_app. right. left. reflexivity. }
    revert K. unfold call, update_controls, dump_controls. destruct (negb is_record); [simpl; lia|]. destruct (full_dict _ _ _ _ _ _) as [d|e]; [|simpl; lia].
    unfold write_file, write_npz, write_json. destruct f.
    - destruct (mem d "file"); [simpl; lia|]. destruct (all_storable _ _ _); cbn [fst]; intros K; apply G; lia.
    - destruct (all_storable _ _ _); cbn [fst]; intros K; [apply G; lia|]. simpl in K. assert (k = 1) as -> by lia. reflexivity.
  Qed.
  (** Killed before or after: the old file, or the new one. *)
  Theorem C62_whole is_dcrab f is_record pn rn ps gs xs vs k old : let call := update_controls storable is_dcrab f is_record pn rn ps gs xs vs in
    (k = 0 -> disk_killed k old call = old) /\ (length (fst call) <= k -> disk_killed k old call = disk_after old call).
  Proof. intros call. unfold disk_killed, disk_after. split; [intros ->; reflexivity|]. intros L. now rewrite firstn_all2. Qed.
  (** Every dump of a record has such a moment: no record survives on the disk while the next one is written. *)
  Theorem C62_always_readable_refuted is_dcrab f pn rn ps gs xs vs old : let call := update_controls storable is_dcrab f true pn rn ps gs xs vs in
    snd call = Ok tt -> exists k, load (disk_killed k old call) = None.
  Proof.
    intros call H. exists 1. apply C62_torn. fold call. split; [lia|]. revert H. unfold call, update_controls, dump_controls. simpl negb. cbv iota.
    destruct (full_dict _ _ _ _ _ _) as [d|e]; [|discriminate]. unfold write_file, write_npz, write_json.
    destruct f; [destruct (mem d "file"); [discriminate|]|]; (destruct (all_storable _ _ _); [|discriminate]); intros _; cbn [fst]; rewrite app_length; unfold growing; rewrite map_length, seq_length; simpl; lia.
  Qed.
  (** A value that json cannot store raises after the file was emptied: the record before is lost as well.  In the npz format the entries before that
      value are all that is left. *)
  Theorem C62_unstorable_refuted is_dcrab f pn rn ps gs xs vs old :
    let keys := control_keys pn (length ps) rn (length xs) in
    length ps <= length pn -> length xs <= length rn -> length gs = length ps -> length vs = length (call_keys is_dcrab) ->
    NoDup keys -> disjoint keys (call_keys is_dcrab) -> ~ In "file" keys ->
    (exists v, In v (ps ++ gs ++ xs ++ vs) /\ storable f v = false) ->
    let call := update_controls storable is_dcrab f true pn rn ps gs xs vs in
    match f with
    | Json => snd call = Err TypeError /\ load (disk_after old call) = None
    | Npz => snd call = Err ValueError /\ exists d, load (disk_after old call) = Some d /\ forall k v, get d k = Some v -> storable f v = true
    end.
  Proof.
    intros keys L1 L2 L3 L4 D X F (v & IV & SV) call.
    assert (KW : ProofDump.keys (combine (call_keys is_dcrab) vs) = call_keys is_dcrab) by (apply keys_combine; auto).
    assert (KD : NoDup (call_keys is_dcrab)) by (destruct is_dcrab; repeat constructor; simpl; intuition congruence).
    destruct (full_dict_ok pn rn ps gs xs (combine (call_keys is_dcrab) vs)) as [E [N KE]]; auto; try (rewrite KW; auto).
    set (d := all_entries pn rn ps gs xs ++ combine (call_keys is_dcrab) vs) in *.
    assert (IN : exists k, In (k, v) d).
    { unfold d, all_entries. rewrite !in_app_iff in IV. destruct IV as [IV|[IV|[IV|IV]]].
      - apply In_nth_error in IV. destruct IV as [i I]. destruct (nth_error gs i) as [g|] eqn:EG; [|apply nth_error_None in EG; assert (i < length ps) by (apply nth_error_Some; congruence); lia].
        exists (pulse_key pn i). rewrite !in_app_iff. left. left. unfold pulse_entries. apply in_concat. exists [(pulse_key pn i, v); (grid_key pn i, g)]. split; [|left; reflexivity].
        apply in_map_iff. exists (i, (v, g)). split; [reflexivity|]. assert (EC : nth_error (combine ps gs) i = Some (v, g)).
        { clear - I EG. revert gs i I EG. induction ps as [|a l IH]; intros [|b gs] [|i] I EG; simpl in *; try discriminate; [congruence|auto]. }
        clear - EC. assert (Q : forall (l : list (V * V)) b, nth_error l i = Some (v, g) -> In (b + i, (v, g)) (combine (seq b (length l)) l)).
        { clear. revert i. induction i as [|i IH]; intros [|a l] b H; simpl in *; try discriminate; [injection H as ->; left; f_equal; lia|]. right. replace (b + S i) with (S b + i) by lia. apply IH. exact H. }
        apply (Q _ 0 EC).
      - apply In_nth_error in IV. destruct IV as [i I]. destruct (nth_error ps i) as [p|] eqn:EP; [|apply nth_error_None in EP; assert (i < length gs) by (apply nth_error_Some; congruence); lia].
        exists (grid_key pn i). rewrite !in_app_iff. left. left. unfold pulse_entries. apply in_concat. exists [(pulse_key pn i, p); (grid_key pn i, v)]. split; [|right; left; reflexivity].
        apply in_map_iff. exists (i, (p, v)). split; [reflexivity|]. assert (EC : nth_error (combine ps gs) i = Some (p, v)).
        { clear - I EP. revert gs i I EP. induction ps as [|a l IH]; intros [|b gs] [|i] I EP; simpl in *; try discriminate; [congruence|auto]. }
        clear - EC. assert (Q : forall (l : list (V * V)) b, nth_error l i = Some (p, v) -> In (b + i, (p, v)) (combine (seq b (length l)) l)).
        { clear. revert i. induction i as [|i IH]; intros [|a l] b H; simpl in *; try discriminate; [injection H as ->; left; f_equal; lia|]. right. replace (b + S i) with (S b + i) by lia. apply IH. exact H. }
        apply (Q _ 0 EC).
      - apply In_nth_error in IV. destruct IV as [i I]. exists (parameter_key pn (length ps) rn i). rewrite !in_app_iff. left. right. unfold parameter_entries. apply in_map_iff. exists (i, v). split; [reflexivity|].
        clear - I. assert (Q : forall (l : list V) b, nth_error l i = Some v -> In (b + i, v) (combine (seq b (length l)) l)).
        { clear. revert i. induction i as [|i IH]; intros [|a l] b H; simpl in *; try discriminate; [injection H as ->; left; f_equal; lia|]. right. replace (b + S i) with (S b + i) by lia. apply IH. exact H. }
        apply (Q _ 0 I).
      - assert (exists k, In (k, v) (combine (call_keys is_dcrab) vs)) as [k K].
        { clear - IV L4. revert vs IV L4. generalize (call_keys is_dcrab). induction l as [|a l IH]; intros [|b vs] IV L; simpl in *; try discriminate; [destruct IV|]. destruct IV as [->|IV]; [exists a; auto|].
          destruct (IH vs IV) as [k K]; [lia|]. exists k. auto. }
        exists k. rewrite in_app_iff. auto. }
    destruct IN as [k IN].
    assert (AS : all_storable storable f d = false). { unfold all_storable. destruct (forallb _ d) eqn:Q; auto. rewrite forallb_forall in Q. specialize (Q _ IN). simpl in Q. congruence. }
    assert (NF : mem d "file" = false).
    { apply mem_notin. unfold d, ProofDump.keys. rewrite map_app, in_app_iff. change (map fst (combine (call_keys is_dcrab) vs)) with (ProofDump.keys (combine (call_keys is_dcrab) vs)). rewrite KW.
      intros [I|I]; [apply F, KE, I|]. destruct is_dcrab; simpl in I; intuition congruence. }
    unfold call, update_controls, dump_controls. simpl negb. cbv iota. rewrite E. unfold write_file, write_npz, write_json. destruct f.
    - rewrite NF, AS. split; [reflexivity|]. exists (good_part storable Npz d). split; [unfold disk_after; cbn [fst]; now rewrite last_last|].
      intros k' v' G. apply get_in in G. clear - G. induction d as [|[a w] d IH]; simpl in G; [destruct G|]. destruct (storable Npz w) eqn:Q; [|destruct G]. destruct G as [G|G]; [congruence|auto].
    - rewrite AS. split; reflexivity.
  Qed.
End C62.
(** a pulse of complex numbers (3 here) in the json format *)
Example C62_case : let call := update_controls (fun f v => match f with Json => negb (Nat.eqb v 3) | Npz => true end) false Json true ["p"] ["q"] [3] [1] [2] [0; 0; 0; 5; 7; 0] in
  snd call = Err TypeError /\ disk_after (Closed [("p", 8)]) call = Cut [] /\
  let call := update_controls (fun f v => match f with Json => negb (Nat.eqb v 3) | Npz => true end) false Npz true ["p"] ["q"] [3] [1] [2] [0; 0; 0; 5; 7; 0] in
  snd call = Ok tt /\ load (disk_killed 4 (Closed [("p", 8)]) call) = None /\ disk_killed 4 (Closed [("p", 8)]) call = Cut [("p", 3); ("time_grid_for_p", 1); ("q", 2)].
Proof. repeat split. Qed.

(** ** During a run
    [tr1] are the events up to any moment of a run and [tr2] those that would have followed. *)
(** At every moment the last file that was written completely is that of the best successful evaluation so far (none: 1e10), except between an improvement and the end
    of writing it: then it is that of the best one before. *)
Theorem C62_moment (N : Num) (O : NumOrder N) (S : NumSign N) (G : settings) (W : world) r s tr1 tr2 :
  plain_run G -> optimise G W = Ok (r, s) -> history s = tr1 ++ tr2 ->
  let best_of tr := is_best (good_costs G tr) (match SpecRun.disk tr1 with Some f => sv_fom f | None => ceiling end) in
  best_of tr1 \/ exists tr0 x d a f tr3, tr1 = tr0 ++ [EvEval x d a] /\ tr2 = EvSave f :: tr3 /\ best_of tr0.
Proof. exact (fun P => disk_prefix O S G W P r s tr1 tr2). Qed.
(** [3; 1; 2] are evaluated; the run is killed after the second evaluation, when 1 is being written *)
Definition moment (s : st (N := F64)) (n : nat) : bool :=
  match nth_error (history s) n, SpecRun.disk (firstn n (history s)) with
  | Some (EvSave g), Some f => f64_same (sv_fom g) (z 1) && f64_same (sv_fom f) (z 3)
  | _, _ => false
  end.
Example C62_moment_case : exists r s tr1 tr2 f g, optimise (frun KGRAPE) (fworld [3; 1; 2]%Z) = Ok (r, s) /\ plain_run (frun KGRAPE) /\
  history s = tr1 ++ EvSave g :: tr2 /\ sv_fom g = z 1 /\ SpecRun.disk tr1 = Some f /\ sv_fom f = z 3.
Proof.
  destruct (run_ok_exists (frun KGRAPE) (fworld [3; 1; 2]%Z) (fun r s => existsb (moment s) (seq 0 (length (history s))))) as (r & s & E & H).
  { vm_compute. reflexivity. }
  apply existsb_exists in H as (n & _ & H). unfold moment in H. destruct (nth_error (history s) n) as [[]|] eqn:En; lazymatch type of H with false = true => discriminate H | _ => idtac end.
  destruct (SpecRun.disk (firstn n (history s))) as [f'|] eqn:Ef; [|discriminate H]. apply andb_true_iff in H as [H1 H2].
  apply nth_error_split in En as (l1 & l2 & E1 & L). exists r, s, l1, l2, f', f. split; [exact E|]. split; [repeat split|]. split; [exact E1|].
  split; [now apply f64_same_eq|]. split; [|now apply f64_same_eq]. rewrite E1, <- L, firstn_app, Nat.sub_diag, firstn_all in Ef. cbn [firstn] in Ef. now rewrite app_nil_r in Ef.
Qed.
Print Assumptions C62_torn.
Print Assumptions C62_whole.
Print Assumptions C62_always_readable_refuted.
Print Assumptions C62_unstorable_refuted.
Print Assumptions C62_moment.
