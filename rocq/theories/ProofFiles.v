(** * Exchange of files: lemmas. *)
From Coq Require Import String Ascii Decimal DecimalString DecimalNat DecimalFacts List Bool Arith QArith Qround ZArith Lia.
From Verif Require Import Num Py ModelDump SpecDump ProofDump ModelFiles SpecFiles.
Import ListNotations.
Open Scope nat_scope.
Open Scope list_scope.

Section Files.
  Context {V : Type}.
  Variables (read_value : string -> option V) (max_time : Q) (ext : extension) (text : string).
  Notation step := (step read_value max_time ext text).
  Notation do_move := (do_move read_value max_time ext text).
  Notation run := (run read_value max_time ext text).
  Notation state := (@state V).
  Lemma run_app ms ms' (S : state) : run (ms ++ ms') S = run ms' (run ms S).
  Proof. apply fold_left_app. Qed.
  Lemma run_snoc ms m (S : state) : run (ms ++ [m]) S = do_move (run ms S) m.
  Proof. rewrite run_app. reflexivity. Qed.

  (** where the content of the file comes from *)
  Definition from_call (F K : option string) (ms : list move) (c : string) : Prop :=
    exists ms1 ms2, ms = ms1 ++ Outside (Write c) :: ms2 /\ past_removal (at_phase (run ms1 (call F K))).
  Lemma from_call_more F K ms m c : from_call F K ms c -> from_call F K (ms ++ [m]) c.
  Proof. intros [ms1 [ms2 [-> P]]]. exists ms1, (ms2 ++ [m]). split; [|exact P]. now rewrite <- app_assoc. Qed.
  Lemma origin F K ms : let S := run ms (call F K) in
    (past_removal (at_phase S) -> forall c, FoM_file S = Some c -> from_call F K ms c)
    /\ (forall v, at_phase S = Done (Value v) -> exists c, read_value c = Some v /\ from_call F K ms c).
  Proof.
    induction ms as [|m ms [IH1 IH2]] using rev_ind; cbn zeta.
    - cbn. split; [tauto|discriminate].
    - rewrite run_snoc. set (S := run ms (call F K)) in *. destruct m as [|[c0|]]; cbn [do_move].
      + unfold ModelFiles.step. destruct S as [Fi Ki ph] eqn:ES. cbn [FoM_file controls_file at_phase] in *. destruct ph; cbn [FoM_file at_phase].
        * destruct Fi; cbn; split; try tauto; try discriminate.
        * destruct Fi; cbn; split; try tauto; try discriminate.
        * split; [|discriminate]. intros _ c E. apply from_call_more, IH1; cbn; auto.
        * destruct Fi; cbn; (split; [|discriminate]); intros _ c E; apply from_call_more, IH1; cbn; auto.
        * destruct (Qle_bool _ _); cbn; (split; [|discriminate]); [tauto|]. intros _ c E. apply from_call_more, IH1; cbn; auto.
        * cbn. split; [|discriminate]. intros _ c E. apply from_call_more, IH1; cbn; auto.
        * cbn. split; [tauto|]. intros v E. destruct Fi as [c|]; [|discriminate]. exists c. destruct (read_value c) eqn:R; [|discriminate]. injection E as ->. split; auto. apply from_call_more, IH1; cbn; auto.
        * cbn. split; [tauto|]. intros v E. destruct (IH2 v E) as [c [R C]]. exists c. split; auto. apply from_call_more, C.
      + cbn. split.
        * intros P c [= <-]. exists ms, []. split; auto.
        * intros v E. destruct (IH2 v E) as [c [R C]]. exists c. split; auto. apply from_call_more, C.
      + cbn. split; [discriminate|]. intros v E. destruct (IH2 v E) as [c [R C]]. exists c. split; auto. apply from_call_more, C.
  Qed.

  (** ** number of polls *)
  Lemma patience_spec n : Qle_bool max_time (inject_Z (Z.of_nat n)) = true <-> (Z.to_nat (Qceiling max_time) <= n).
  Proof.
    rewrite Qle_bool_iff. split; intros H.
    - apply Qceiling_resp_le in H. rewrite Qceiling_Z in H. lia.
    - apply Qle_trans with (inject_Z (Qceiling max_time)); [apply Qle_ceiling|]. rewrite <- Zle_Qle. lia.
  Qed.
  Definition bound := patience max_time.
  (** steps left at most *)
  Definition left_steps (p : @phase V) : nat :=
    match p with
    | CheckOld => 2 * bound + 5 | RemoveOld => 2 * bound + 4 | PutControls => 2 * bound + 3
    | Poll n => 2 * (bound - n) + 2 | Sleep n => 2 * (bound - n) + 3 | Pause => 2 | Read => 1 | Done _ => 0
    end.
  Definition counter_ok (p : @phase V) : Prop := match p with Poll n => n < bound | Sleep n => 1 <= n <= bound | _ => True end.
  Lemma step_left (S : state) : counter_ok (at_phase S) -> counter_ok (at_phase (step S)) /\ (left_steps (at_phase (step S)) <= left_steps (at_phase S) - 1).
  Proof.
    destruct S as [F K ph]. unfold ModelFiles.step. assert (B : 1 <= bound) by (unfold bound, patience; lia). destruct ph; cbn [at_phase FoM_file controls_file]; intros C.
    - destruct F; cbn [left_steps counter_ok at_phase]; split; auto; lia.
    - destruct F; cbn [left_steps counter_ok at_phase]; split; auto; lia.
    - cbn [left_steps counter_ok at_phase]. split; lia.
    - destruct F; cbn [left_steps counter_ok at_phase] in *; split; auto; lia.
    - destruct (Qle_bool _ _) eqn:E; cbn [left_steps counter_ok at_phase] in *; split; auto; try lia.
      assert (~ Z.to_nat (Qceiling max_time) <= time_counter) by (rewrite <- patience_spec; congruence). unfold bound, patience in *. lia.
    - cbn [left_steps counter_ok at_phase]. split; auto.
    - cbn [left_steps counter_ok at_phase]. split; auto.
    - cbn [left_steps counter_ok at_phase]. split; auto.
  Qed.
  Lemma run_left ms (S : state) : counter_ok (at_phase S) -> counter_ok (at_phase (run ms S)) /\ left_steps (at_phase (run ms S)) <= left_steps (at_phase S) - count_steps ms.
  Proof.
    revert S. induction ms as [|m ms IH]; intros S C; cbn [run fold_left count_steps]; [split; auto; lia|]. destruct m as [|a].
    - destruct (step_left S C) as [C1 L1]. destruct (IH (step S) C1) as [C2 L2]. change (fold_left do_move ms (do_move S Step)) with (run ms (step S)). split; auto. lia.
    - assert (E : at_phase (do_move S (Outside a)) = at_phase S) by reflexivity. destruct (IH (do_move S (Outside a))) as [C2 L2]; [rewrite E; auto|]. rewrite E in L2. split; auto.
  Qed.
End Files.

(** ** patience is exact *)
Section Patience.
  Context {V : Type}.
  Variables (read_value : string -> option V) (max_time : Q) (ext : extension) (text : string).
  Notation run := (run read_value max_time ext text).
  (** a run without the other program *)
  Definition alone (n : nat) : list move := repeat Step n.
  Lemma run_alone_S n (S : @state V) : run (alone (1 + n)) S = run (alone n) (step read_value max_time ext text S).
  Proof. reflexivity. Qed.
  Lemma run_alone_app n m (S : @state V) : run (alone (n + m)) S = run (alone m) (run (alone n) S).
  Proof. unfold alone. rewrite repeat_app. apply run_app. Qed.
  Lemma waits K n : n < bound max_time -> run (alone (2 * n)) (State None K (Poll 0)) = State None K (Poll n).
  Proof.
    induction n as [|n IH]; intros L; [reflexivity|]. replace (2 * S n) with (2 * n + 2) by lia. rewrite run_alone_app, IH by lia. cbn -[Qle_bool inject_Z Z.of_nat bound]. rewrite Nat.add_1_r.
    destruct (Qle_bool _ _) eqn:E; [|reflexivity]. apply patience_spec in E. unfold bound, patience in L. lia.
  Qed.
  Lemma gives_up K : run (alone (2 * bound max_time)) (State None K (Poll 0)) = State None K (Done TimedOut).
  Proof.
    assert (B : 1 <= bound max_time) by (unfold bound, patience; lia). replace (2 * bound max_time) with (2 * (bound max_time - 1) + 2) by lia. rewrite run_alone_app, waits by lia. cbn -[Qle_bool inject_Z Z.of_nat bound].
    replace (bound max_time - 1 + 1) with (bound max_time) by lia. rewrite (proj2 (patience_spec max_time (bound max_time))); [reflexivity|]. unfold bound, patience. lia.
  Qed.
End Patience.

(** ** the controls *)
Lemma to_uint_nonnil n : Nat.to_uint n <> Nil.
Proof. rewrite <- (Unsigned.of_to n), Unsigned.to_of. apply DecimalFacts.unorm_nonnil. Qed.
Lemma numeral_inj n m : numeral n = numeral m -> n = m.
Proof.
  intros E. apply (f_equal NilZero.uint_of_string) in E. unfold numeral in E. rewrite !NilZero.usu in E.
  - injection E as E. now apply Unsigned.to_uint_inj.
  - apply to_uint_nonnil.
  - apply to_uint_nonnil.
Qed.
Lemma prefixed_inj p n m : (p ++ numeral n = p ++ numeral m)%string -> n = m.
Proof. induction p as [|a p IH]; cbn; [apply numeral_inj|]. now intros [= E]; apply IH. Qed.
Section Controls.
  Context {V : Type}.
  Open Scope string_scope.
  Notation pk i := ("pulse" ++ numeral i).
  Notation gk i := ("time_grid" ++ numeral i).
  Notation xk i := ("parameter" ++ numeral i).
  Lemma eqb_pre p n m : String.eqb (p ++ numeral n) (p ++ numeral m) = Nat.eqb n m.
  Proof. destruct (Nat.eqb_spec n m) as [->|D]; [apply String.eqb_refl|]. apply String.eqb_neq. intros E. apply D. now apply prefixed_inj in E. Qed.
  Lemma json_pulses_get ps i (d : dict V) : forall k,
    (get (json_pulses i ps d) (pk k) = if ((i <=? k) && (k <? i + length ps))%nat then nth_error (map fst ps) (k - i) else get d (pk k))
    /\ (get (json_pulses i ps d) (gk k) = if ((i <=? k) && (k <? i + length ps))%nat then nth_error (map snd ps) (k - i) else get d (gk k)).
  Proof.
    revert i d. induction ps as [|[p g] ps IH]; intros i d k; cbn [json_pulses length map].
    - rewrite Nat.add_0_r. destruct (Nat.leb_spec i k), (Nat.ltb_spec k i); cbn; try lia; auto.
    - destruct (IH (i + 1) (put (put d (pk i) p) (gk i) g) k) as [E1 E2]. change (str i) with (numeral i). rewrite E1, E2. rewrite !get_put, !eqb_pre. cbn [String.append String.eqb Ascii.eqb Bool.eqb].
      destruct (Nat.leb_spec (i + 1) k), (Nat.leb_spec i k), (Nat.ltb_spec k (i + 1 + length ps)), (Nat.ltb_spec k (i + S (length ps))), (Nat.eqb_spec k i); cbn [andb]; try lia; try (now split).
      + replace (k - i) with (S (k - (i + 1))) by lia. now split.
      + subst k. rewrite Nat.sub_diag. now split.
  Qed.
  Lemma json_pulses_parameter ps i (d : dict V) k : get (json_pulses i ps d) (xk k) = get d (xk k).
  Proof. revert i d. induction ps as [|[p g] ps IH]; intros i d; cbn [json_pulses]; [reflexivity|]. rewrite IH, !get_put. reflexivity. Qed.
  Lemma json_parameters_get xs j (d : dict V) k : get (json_parameters j xs d) (xk k) = if ((j <=? k) && (k <? j + length xs))%nat then nth_error xs (k - j) else get d (xk k).
  Proof.
    revert j d. induction xs as [|x xs IH]; intros j d; cbn [json_parameters length].
    - rewrite Nat.add_0_r. destruct (Nat.leb_spec j k), (Nat.ltb_spec k j); cbn; try lia; auto.
    - rewrite IH. change (str j) with (numeral j). rewrite get_put, eqb_pre.
      destruct (Nat.leb_spec (j + 1) k), (Nat.leb_spec j k), (Nat.ltb_spec k (j + 1 + length xs)), (Nat.ltb_spec k (j + S (length xs))), (Nat.eqb_spec k j); cbn [andb]; try lia; try reflexivity.
      + replace (k - j) with (S (k - (j + 1))) by lia. reflexivity.
      + subst k. now rewrite Nat.sub_diag.
  Qed.
  Lemma json_parameters_other xs j (d : dict V) k : (forall i, k <> xk i) -> get (json_parameters j xs d) k = get d k.
  Proof.
    intros N. revert j d. induction xs as [|x xs IH]; intros j d; cbn [json_parameters]; [reflexivity|]. rewrite IH, get_put. change (str j) with (numeral j).
    destruct (String.eqb_spec k (xk j)) as [->|_]; [|reflexivity]. now destruct (N j).
  Qed.
End Controls.
