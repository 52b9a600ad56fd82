(** * C48: figure of merit by exchange of files. *)
From Coq Require Import String List Bool Arith QArith Qround ZArith Lia.
From Verif Require Import Num Py ModelDump SpecDump ProofDump ModelFiles SpecFiles ProofFiles.
Import ListNotations.
Open Scope nat_scope.
Open Scope string_scope.
Open Scope list_scope.

Section Props.
  Context {V : Type}.
  Variables (read_value : string -> option V) (max_time : Q) (ext : extension) (text : string).
  Notation run := (run read_value max_time ext text).

  (** The value returned was read from a file which the other program wrote after this call had removed the old one:
      whatever file was there before the call, and whatever the other program does and when. *)
  Theorem C48_fresh F K ms v : at_phase (run ms (call F K)) = Done (Value v) ->
    exists ms1 c ms2, ms = ms1 ++ Outside (Write c) :: ms2 /\ past_removal (at_phase (run ms1 (call F K))) /\ read_value c = Some v.
  Proof. intros E. destruct (origin read_value max_time ext text F K ms) as [_ H]. destruct (H v E) as [c [R [ms1 [ms2 [E1 P]]]]]. exists ms1, c, ms2. auto. Qed.

  (** The call ends after a bounded number of its own steps. *)
  Theorem C48_ends F K ms : 2 * patience max_time + 5 <= count_steps ms -> exists a, at_phase (run ms (call F K)) = Done a.
  Proof.
    intros L. destruct (run_left read_value max_time ext text ms (call F K) I) as [_ H]. cbn [left_steps at_phase call] in H. unfold bound in H.
    assert (Z : left_steps max_time (at_phase (run ms (call F K))) = 0) by lia. destruct (at_phase (run ms (call F K))); cbn [left_steps] in Z; try lia; eauto.
  Qed.
  (** It never sleeps more often than [patience max_time] times half a second ... *)
  Theorem C48_sleeps F K ms n : at_phase (run ms (call F K)) = Sleep n -> 1 <= n <= patience max_time.
  Proof. intros E. destruct (run_left read_value max_time ext text ms (call F K) I) as [H _]. rewrite E in H. exact H. Qed.
  (** What each way of ending means. *)
  Theorem C48_outcome F K ms a : at_phase (run ms (call F K)) = Done a ->
    exists ms1 ms2, ms = ms1 ++ Step :: ms2 /\
    match a with
    | Value v => at_phase (run ms1 (call F K)) = Read /\ exists c, FoM_file (run ms1 (call F K)) = Some c /\ read_value c = Some v
    | Unreadable => at_phase (run ms1 (call F K)) = Read /\ forall c, FoM_file (run ms1 (call F K)) = Some c -> read_value c = None
    | TimedOut => at_phase (run ms1 (call F K)) = Sleep (patience max_time)
    | FileNotFoundError => at_phase (run ms1 (call F K)) = RemoveOld /\ FoM_file (run ms1 (call F K)) = None
    end.
  Proof.
    induction ms as [|m ms IH] using rev_ind; [discriminate|]. assert (RS : run (ms ++ [m]) (call F K) = do_move read_value max_time ext text (run ms (call F K)) m) by (unfold ModelFiles.run; now rewrite fold_left_app).
    rewrite RS. intros E.
    assert (D : at_phase (run ms (call F K)) = Done a \/ m = Step /\ at_phase (run ms (call F K)) <> Done a).
    { destruct m; [|left; exact E]. cbn in E. destruct (at_phase (run ms (call F K))) eqn:P; try (right; split; [reflexivity|discriminate]).
      unfold step in E. rewrite P in E. rewrite P in E. now left. }
    destruct D as [D|[-> D]].
    - destruct (IH D) as (ms1 & ms2 & -> & H). exists ms1, (ms2 ++ [m]). split; [now rewrite <- app_assoc|exact H].
    - exists ms, []. split; [reflexivity|]. pose proof (fun n => C48_sleeps F K ms n) as SL. cbn in E. clear IH RS. revert E D SL. destruct (run ms (call F K)) as [Fi Ki ph]. unfold step. cbn [at_phase FoM_file controls_file].
      destruct ph; cbn [at_phase FoM_file controls_file]; intros E D SL; try discriminate E; cbn in E.
      + destruct Fi; discriminate E.
      + destruct Fi; [discriminate E|]. cbn in E. injection E as <-. split; reflexivity.
      + destruct Fi; discriminate E.
      + specialize (SL time_counter eq_refl). destruct (Qle_bool max_time (inject_Z (Z.of_nat time_counter))) eqn:Q; [|discriminate E]. injection E as <-. f_equal.
        apply Qle_bool_iff in Q. unfold patience in *. assert (C : (Qceiling max_time <= Z.of_nat time_counter)%Z).
        { rewrite <- (Qceiling_Z (Z.of_nat time_counter)). now apply Qceiling_resp_le. }
        lia.
      + injection E as <-. destruct Fi as [c|]; [destruct (read_value c) eqn:R|]; split; eauto; intros c' [= <-]; exact R.
      + now elim D.
  Qed.
  (** ... and, when nobody answers, exactly as often: it then times out. *)
  Theorem C48_times_out F K : exists ms K', (forall m, In m ms -> m = Step) /\ run ms (call F K) = State None K' (Done TimedOut)
    /\ (K' = match ext with Other => K | _ => Some text end)
    /\ forall n, 1 <= n <= patience max_time -> exists ms1 ms2, ms = ms1 ++ ms2 /\ at_phase (run ms1 (call F K)) = Sleep n.
  Proof.
    set (k := match F with Some _ => 3 | None => 2 end). set (K' := match ext with Other => K | _ => Some text end).
    assert (P : run (alone k) (call F K) = State None K' (Poll 0)) by (destruct F; reflexivity).
    exists (alone (k + 2 * bound max_time)), K'. split; [|split; [|split; [reflexivity|]]].
    - intros m I. now apply repeat_spec in I.
    - rewrite run_alone_app, P. apply gives_up.
    - intros n L. exists (alone (k + (2 * (n - 1) + 1))), (alone (2 * bound max_time - (2 * (n - 1) + 1))). split.
      + unfold alone. rewrite <- repeat_app. f_equal. unfold bound. lia.
      + rewrite run_alone_app, P, run_alone_app, waits by (unfold bound; lia). cbn. f_equal. lia.
  Qed.

  (** The controls written for the other program: the json dictionary holds pulse, time grid and parameter number i under pulse<i>, time_grid<i>, parameter<i>. *)
  Theorem C48_controls (pulses grids parameters : list V) : length grids = length pulses ->
    (forall i, i < length pulses -> get (json_controls pulses grids parameters) ("pulse" ++ numeral (S i)) = nth_error pulses i
                                 /\ get (json_controls pulses grids parameters) ("time_grid" ++ numeral (S i)) = nth_error grids i)
    /\ (forall j, j < length parameters -> get (json_controls pulses grids parameters) ("parameter" ++ numeral (S j)) = nth_error parameters j).
  Proof.
    intros L. assert (LC : length (combine pulses grids) = length pulses) by (rewrite combine_length; lia).
    assert (M : map fst (combine pulses grids) = pulses /\ map snd (combine pulses grids) = grids).
    { clear LC. revert grids L. induction pulses as [|p ps IH]; intros [|g gs] L; cbn in *; try discriminate; auto. injection L as L. destruct (IH gs L) as [-> ->]. auto. }
    destruct M as [M1 M2]. unfold json_controls. split.
    - intros i H. rewrite !json_parameters_other by (intros j; discriminate). destruct (json_pulses_get (combine pulses grids) 1 [] (S i)) as [E1 E2].
      rewrite E1, E2, M1, M2, LC. replace ((1 <=? S i) && (S i <? 1 + length pulses))%nat with true; [now rewrite Nat.sub_succ, Nat.sub_0_r|].
      symmetry. apply andb_true_intro. split; [apply Nat.leb_le; lia|apply Nat.ltb_lt; lia].
    - intros j H. rewrite json_parameters_get. replace ((1 <=? S j) && (S j <? 1 + length parameters))%nat with true; [now rewrite Nat.sub_succ, Nat.sub_0_r|].
      symmetry. apply andb_true_intro. split; [apply Nat.leb_le; lia|apply Nat.ltb_lt; lia].
  Qed.
End Props.
Print Assumptions C48_fresh.
Print Assumptions C48_ends.
Print Assumptions C48_sleeps.
Print Assumptions C48_times_out.
Print Assumptions C48_controls.

(** A value arrives (possibly multiplied by the sign of the goal) and leaves the run going; without a value the communication object raises TypeError,
    with is_user_running as it was: the status codes -2 and -3 never stop the run. *)
Theorem C48_used {V} (multiply : V -> V) (running : bool) (a : @answer V) :
  match a with
  | Value v => get_data multiply running (answer_dict a) = (running, Ok (multiply v))
  | TimedOut | Unreadable => get_data multiply running (answer_dict a) = (running, Err TypeError)
  | FileNotFoundError => get_data multiply running (answer_dict a) = (running, Err UserError)
  end.
Proof. destruct a; reflexivity. Qed.
Print Assumptions C48_outcome.
Print Assumptions C48_used.

(** ** Where the exchange is not safe.  Values are texts here. *)
Definition any (c : string) : option string := Some c.
(** a fresh file need not answer this call: written (by a slow program, for the controls of an earlier call) before the controls of this call, it is returned;
    the program never acts after these controls were written *)
Theorem C48_late_refuted : exists ms c, controls_file (run any (3 # 1) JsonFile "new controls" ms (call None (Some "old controls"))) = Some "new controls"
  /\ at_phase (run any (3 # 1) JsonFile "new controls" ms (call None (Some "old controls"))) = Done (Value c)
  /\ forall ms1 a ms2, ms = ms1 ++ Outside a :: ms2 -> controls_file (run any (3 # 1) JsonFile "new controls" ms1 (call None (Some "old controls"))) = Some "old controls".
Proof.
  exists [Step; Outside (Write "0.5"); Step; Step; Step; Step], "0.5". split; [reflexivity|split; [reflexivity|]].
  intros [|m [|m1 [|m2 [|m3 [|m4 [|m5 [|m6 ms1]]]]]]] a ms2 E; cbn in E; try discriminate E.
  injection E as <- E1 E2. reflexivity.
Qed.
(** a file being written can be read in part *)
Theorem C48_torn_refuted : exists ms, at_phase (run any (3 # 1) JsonFile "controls" (ms ++ [Outside (Write "0.25")]) (call None None)) = Done (Value "0.2").
Proof. exists [Step; Step; Outside (Write "0.2"); Step; Step; Step]. reflexivity. Qed.
(** the old file may vanish between test and removal *)
Theorem C48_vanished_refuted : exists ms, at_phase (run any (3 # 1) JsonFile "controls" ms (call (Some "0.5") None)) = Done FileNotFoundError.
Proof. exists [Step; Outside Remove; Step]. reflexivity. Qed.
(** a file written during the last sleep is not looked at *)
Theorem C48_last_sleep_refuted : exists ms, run any (1 # 2) JsonFile "controls" ms (call None None) = State (Some "0.5") (Some "controls") (Done TimedOut).
Proof. exists [Step; Step; Step; Outside (Write "0.5"); Step]. reflexivity. Qed.
(** max_time is documented as seconds; the call gives up after half of them *)
Theorem C48_seconds_refuted (n : positive) : (inject_Z (Z.of_nat (patience (Zpos n # 1))) * (1 # 2) == (1 # 2) * (Zpos n # 1))%Q.
Proof.
  assert (E : Z.of_nat (patience (Zpos n # 1)) = Zpos n).
  { unfold patience. change (Zpos n # 1)%Q with (inject_Z (Zpos n)). rewrite Qceiling_Z. lia. }
  rewrite E. apply Qmult_comm.
Qed.
(** with an extension other than txt and json the other program never gets controls *)
Theorem C48_extension_refuted {V} (read_value : string -> option V) max_time text F ms : controls_file (run read_value max_time Other text ms (call F None)) = None.
Proof.
  assert (H : forall (S : @state V), controls_file S = None -> controls_file (run read_value max_time Other text ms S) = None).
  { induction ms as [|m ms IH]; intros S E; [exact E|]. cbn. apply IH. destruct m; [|exact E]. destruct S as [Fi Ki ph]. cbn in *. unfold step. cbn. destruct ph; cbn; try exact E. destruct Fi; exact E. }
  apply H. reflexivity.
Qed.
Print Assumptions C48_late_refuted.
Print Assumptions C48_extension_refuted.

(** an exchange as intended: an old file, one idle sleep, then the answer *)
Example C48_case : at_phase (run any (60 # 1) JsonFile "controls" [Step; Step; Step; Step; Outside (Write "0.75"); Step; Step; Step; Step] (call (Some "0.5") None)) = Done (Value "0.75").
Proof. reflexivity. Qed.
Example C48_case_controls : json_controls ["p"] ["t"] ["x"; "y"] = [("pulse1", "p"); ("time_grid1", "t"); ("parameter1", "x"); ("parameter2", "y")].
Proof. reflexivity. Qed.
