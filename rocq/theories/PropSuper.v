(** Theorems on super-iterations of dCRAB: C26, C27, C28. *)
From Coq Require Import String ZArith List Bool Lia Reals QArith Qcanon.
From RecordUpdate Require Import RecordSet.
From Flocq Require Import BinarySingleNaN.
From Verif Require Import Num NumFacts NumQ Py PyFacts ModelPulse ModelControls ModelBases ModelLinalg ModelState ModelSearch ModelRun
  SpecControls SpecRun ProofBases ProofSuper ProofFinal ExampleControls ExampleRun.
Import ListNotations RecordSetNotations.
Open Scope list_scope.
Open Scope bool_scope.

(** ** Concrete runs *)
Section Runs.
  Context {N : Num}.
  (** one pulse with one sample, optimised by dCRAB with two super-iterations of at most six evaluations *)
  Definition pulse_run (f : pulse_cfg) : settings :=
    ex_run KdCRAB <|g_pulses := [f]|> <|g_times := [ex_time 1 0 2 false]|> <|g_params := []|> <|g_max_si := 2%Z|>
      <|g_max_eval := 6%Z|>.
  (** first sample of the newest delivered pulse *)
  Definition newest_sample (h : list delivered) : num :=
    match h with d :: _ => match d_pulses d with Ar (v :: _) :: _ => v | _ => of_Z 0 end | [] => of_Z 0 end.
  (** the figure of merit is the squared distance from 1/3 *)
  Definition pulse_world : world :=
    ex_world [] <|w_fom := fun h => says ((newest_sample h - of_Z 1 / of_Z 3) * (newest_sample h - of_Z 1 / of_Z 3))%num|>
      <|w_np := fun _ => (of_Z 3 / of_Z 4)%num|>.

  Lemma ex_plain_fine o n : forall f, In f [ex_pulse (N := N) Piecewise n GOther SOther false None o] ->
    plain_basis f /\ pf_overwrite f = o /\ regular_update f /\ zero_at_offset f /\ base_beside_update (names_of f).
  Proof.
    intros f [<-|[]]. split; [intros c; reflexivity|]. split; [reflexivity|]. split; [|split].
    - apply shipped_regular. discriminate.
    - split; [apply repeat_length|]. intros c C EO _. cbn. unfold piecewise_shape. now rewrite EO.
    - exists ["add_initial_guess"%string], ["scale_pulse"; "limit_pulse"]%string. split; [now left|].
      split; cbn; intuition discriminate.
  Qed.
  Lemma ex_no_time : no_optimised_time [ex_time (N := N) 1 0 2 false].
  Proof. intros t [<-|[]]. reflexivity. Qed.
End Runs.

(** decidable equality of concrete results *)
Definition qsamples (d : delivered (N := Qcnum)) : list (list Qc) := map samples (d_pulses d).
Definition qc (a : Z) (b : positive) : Qc := Q2Qc (a # b).
Definition Qc_list_eqb (l m : list (list Qc)) : bool := if list_eq_dec (list_eq_dec Qc_eq_dec) l m then true else false.
Lemma Qc_list_eqb_eq l m : Qc_list_eqb l m = true -> l = m.
Proof. unfold Qc_list_eqb. destruct (list_eq_dec _ l m); [auto|discriminate]. Qed.

(** ** C26 *)
(** At most super_iteration_number super-iterations are started; one parameter vector and one list of super-parameters is
    kept per completed super-iteration.  After a normal end all started ones are complete and the results file holds
    both lists; an exception can only leave the last one incomplete. *)
Theorem C26_super_iterations (N : Num) (G : settings) (W : world) r s : g_kind G = KdCRAB -> optimise G W = Ok (r, s) ->
  let k := length (b_params (s_book s)) in
  length (b_supers (s_book s)) = k /\ (Z.of_nat (b_super_it (s_book s)) <= Z.max 0 (g_max_si G))%Z /\
  match r with
  | Ok _ => b_super_it (s_book s) = k /\
      exists f, In (EvFinal f) (history s) /\ f_params f = Some (b_params (s_book s)) /\ f_super f = Some (b_supers (s_book s))
  | Err _ => b_super_it (s_book s) = k \/ b_super_it (s_book s) = S k
  end.
Proof. exact (super_counts G W r s). Qed.

(** a run of two super-iterations; the same with a user function that raises at the eighth evaluation *)
Definition failing_at (n : nat) (W : world (N := Qcnum)) : world (N := Qcnum) :=
  W <|w_fom := fun h => if Nat.eqb (length h) n then Raise else w_fom W h|>.
Example C26_example : exists s, optimise (N := Qcnum) (pulse_run (ex_plain 1)) pulse_world = Ok (Ok tt, s) /\
  b_super_it (s_book s) = 2%nat /\ length (b_params (s_book s)) = 2%nat.
Proof.
  assert (V : run_ok (N := Qcnum) (pulse_run (ex_plain 1)) pulse_world (fun r s => fine_end r && Nat.eqb (b_super_it (s_book s)) 2 &&
            Nat.eqb (length (b_params (s_book s))) 2) = true) by (vm_compute; reflexivity).
  apply run_ok_exists in V as (r & s & H & V). apply andb_prop in V as [V V3]. apply andb_prop in V as [V1 V2].
  destruct r as [[]|]; [|discriminate V1]. apply Nat.eqb_eq in V2, V3. exists s. auto.
Qed.
Example C26_example_exception : exists e s, optimise (N := Qcnum) (pulse_run (ex_plain 1)) (failing_at 8 pulse_world) = Ok (Err e, s) /\
  b_super_it (s_book s) = 2%nat /\ length (b_params (s_book s)) = 1%nat.
Proof.
  assert (V : run_ok (N := Qcnum) (pulse_run (ex_plain 1)) (failing_at 8 pulse_world) (fun r s => negb (fine_end r) &&
            Nat.eqb (b_super_it (s_book s)) 2 && Nat.eqb (length (b_params (s_book s))) 1) = true) by (vm_compute; reflexivity).
  apply run_ok_exists in V as (r & s & H & V). apply andb_prop in V as [V V3]. apply andb_prop in V as [V1 V2].
  destruct r as [[]|e]; [discriminate V1|]. apply Nat.eqb_eq in V2, V3. exists e, s. auto.
Qed.
Print Assumptions C26_super_iterations.

(** ** C27 *)
(** [s2] is the state after some super-iterations, [s3] the state after one more, whose events are [l]. *)
Theorem C27_no_improvement (N : Num) (O : NumOrder N) (S : NumSign N) (X : NumExact N) (G : settings) (W : world)
    n k s0 s1 s2 s3 l :
  plain_run G -> g_kind G = KdCRAB ->
  (forall f, In f (g_pulses G) -> plain_basis f /\ pf_overwrite f = false /\ regular_update f /\ zero_at_offset f /\
     base_beside_update (names_of f)) ->
  no_optimised_time (g_times G) -> (forall t, In t (g_times G) -> tf_value t <> of_Z 0) ->
  new_state G W = Ok s0 -> begin W s0 = (Ok tt, s1) -> dcrab_loop G W (seq 1 n) s1 = (Ok tt, s2) ->
  super_iteration G W k s2 = (Ok tt, s3) -> history s3 = history s2 ++ l ->
  (forall x d a v, In (EvEval x d a) l -> user_value a = Some v -> (cost G v <? s_best s2)%num = false) ->
  forall i, base_of (s_controls s3) i = base_of (s_controls s2) i.
Proof. intros PR KD HF NT HZ. exact (no_improvement O S X G W PR KD HF NT HZ n k s0 s1 s2 s3 l). Qed.
(** in particular in exact real arithmetic *)
Corollary C27_no_improvement_R (G : settings (N := Rnum)) (W : world) n k s0 s1 s2 s3 l :
  plain_run G -> g_kind G = KdCRAB ->
  (forall f, In f (g_pulses G) -> plain_basis f /\ pf_overwrite f = false /\ regular_update f /\ zero_at_offset f /\
     base_beside_update (names_of f)) ->
  no_optimised_time (g_times G) -> (forall t, In t (g_times G) -> tf_value t <> 0%R) ->
  new_state G W = Ok s0 -> begin W s0 = (Ok tt, s1) -> dcrab_loop G W (seq 1 n) s1 = (Ok tt, s2) ->
  super_iteration G W k s2 = (Ok tt, s3) -> history s3 = history s2 ++ l ->
  (forall x d a v, In (EvEval x d a) l -> user_value a = Some v -> (cost G v <? s_best s2)%num = false) ->
  forall i, base_of (s_controls s3) i = base_of (s_controls s2) i.
Proof. exact (C27_no_improvement Rnum Rnum_order Rnum_sign Rnum_exact G W n k s0 s1 s2 s3 l). Qed.

(** the first super-iteration, then the second; evaluated to a boolean *)
Definition two_phases (G : settings (N := Qcnum)) (W : world (N := Qcnum))
    (P : st (N := Qcnum) -> st (N := Qcnum) -> list (event (N := Qcnum)) -> bool) : bool :=
  match new_state G W with
  | Err _ => false
  | Ok s0 =>
      match begin W s0 with
      | (Ok tt, s1) =>
          match dcrab_loop G W (seq 1 1) s1 with
          | (Ok tt, s2) =>
              match super_iteration G W 2 s2 with
              | (Ok tt, s3) => P s2 s3 (skipn (length (history s2)) (history s3))
              | _ => false
              end
          | _ => false
          end
      | _ => false
      end
  end.
Lemma two_phases_exists G W P : two_phases G W P = true -> exists s0 s1 s2 s3, new_state G W = Ok s0 /\ begin W s0 = (Ok tt, s1) /\
  dcrab_loop G W (seq 1 1) s1 = (Ok tt, s2) /\ super_iteration G W 2 s2 = (Ok tt, s3) /\
  P s2 s3 (skipn (length (history s2)) (history s3)) = true.
Proof.
  unfold two_phases. intros H. destruct (new_state G W) as [s0|]; [|discriminate H].
  destruct (begin W s0) as [[[]|] s1] eqn:E1; try discriminate H.
  destruct (dcrab_loop G W (seq 1 1) s1) as [[[]|] s2] eqn:E2; try discriminate H.
  destruct (super_iteration G W 2 s2) as [[[]|] s3] eqn:E3; try discriminate H.
  exists s0, s1, s2, s3. auto.
Qed.
Definition is_idle (G : settings (N := Qcnum)) (b : Qc) (e : event (N := Qcnum)) : bool :=
  match e with
  | EvEval _ _ a => match user_value a with Some v => negb (cost G v <? (b : @num Qcnum))%num | None => true end
  | _ => true
  end.
Definition arr_is (a : option (arr (N := Qcnum))) (l : list Qc) : bool :=
  match a with Some (Ar m) => Qc_list_eqb [m] [l] | _ => false end.
Lemma arr_is_eq a l : arr_is a l = true -> a = Some (Ar (N := Qcnum) l).
Proof.
  unfold arr_is. destruct a as [[m|m]|]; try discriminate. intros H. apply Qc_list_eqb_eq in H. now injection H as ->.
Qed.
Lemma history_ext {N : Num} (s s' : st) evs : s_trace s' = evs ++ s_trace s ->
  history s' = history s ++ skipn (length (history s)) (history s').
Proof. intros T. unfold history. now rewrite T, rev_app_distr, skipn_app, Nat.sub_diag, skipn_all. Qed.

(** Non-vacuity: after the first super-iteration the base pulse is [1/4] (figure of merit 1/144); none of the six
    evaluations of the second one is below 1/144, and the base pulse is still [1/4]. *)
Example C27_example : exists s0 s1 s2 s3 l, let G := pulse_run (N := Qcnum) (ex_plain 1) in let W := pulse_world in
  plain_run G /\ new_state G W = Ok s0 /\ begin W s0 = (Ok tt, s1) /\ dcrab_loop G W (seq 1 1) s1 = (Ok tt, s2) /\
  super_iteration G W 2 s2 = (Ok tt, s3) /\ history s3 = history s2 ++ l /\
  length (filter is_call l) = 6%nat /\
  (forall x d a v, In (EvEval x d a) l -> user_value a = Some v -> (cost G v <? s_best s2)%num = false) /\
  base_of (s_controls s2) 0 = Some (Ar (N := Qcnum) [qc 1 4]) /\ base_of (s_controls s3) 0 = Some (Ar (N := Qcnum) [qc 1 4]).
Proof.
  set (G := pulse_run (N := Qcnum) (ex_plain 1)). set (W := pulse_world (N := Qcnum)).
  assert (PR : plain_run G) by (repeat split).
  assert (V : two_phases G W (fun s2 s3 l => forallb (is_idle G (s_best s2)) l && Nat.eqb (length (filter is_call l)) 6 &&
            arr_is (base_of (s_controls s2) 0) [qc 1 4] && arr_is (base_of (s_controls s3) 0) [qc 1 4]) = true)
    by (vm_compute; reflexivity).
  apply two_phases_exists in V as (s0 & s1 & s2 & s3 & E0 & E1 & E2 & E3 & V).
  exists s0, s1, s2, s3, (skipn (length (history s2)) (history s3)). cbv zeta.
  destruct (new_state_reachable G W s0 s1 E0 E1) as (c0 & EC & C1 & P1 & _ & _).
  destruct (loop_reachable Qcnum_order Qcnum_sign G W PR eq_refl c0 (seq 1 1) s1 s2) as [_ P2]; auto; [rewrite C1; apply reach_refl|].
  destruct (super_summary Qcnum_order Qcnum_sign G W PR 2 s2 s3 eq_refl P2 E3) as (_ & (evs & T) & _).
  apply andb_prop in V as [V V4]. apply andb_prop in V as [V V3]. apply andb_prop in V as [V1 V2].
  apply Nat.eqb_eq in V2.
  repeat (split; [assumption || exact (history_ext _ _ _ T)|]). split; [|split; apply arr_is_eq; assumption].
  intros x d a v HI U. rewrite forallb_forall in V1. specialize (V1 _ HI). cbn in V1. rewrite U in V1.
  now apply negb_true_iff in V1.
Qed.
(** With overwrite_base_pulse the base pulse is lost: after the same two super-iterations it is [0]. *)
Theorem C27_overwrite_refuted : exists s0 s1 s2 s3 l,
  let G := pulse_run (N := Qcnum) (ex_pulse Piecewise 1 GOther SOther false None true) in let W := pulse_world in
  plain_run G /\ new_state G W = Ok s0 /\ begin W s0 = (Ok tt, s1) /\ dcrab_loop G W (seq 1 1) s1 = (Ok tt, s2) /\
  super_iteration G W 2 s2 = (Ok tt, s3) /\ history s3 = history s2 ++ l /\ length (filter is_call l) = 6%nat /\
  (forall x d a v, In (EvEval x d a) l -> user_value a = Some v -> (cost G v <? s_best s2)%num = false) /\
  base_of (s_controls s2) 0 = Some (Ar (N := Qcnum) [qc 1 4]) /\ base_of (s_controls s3) 0 = Some (Ar (N := Qcnum) [qc 0 1]).
Proof.
  set (G := pulse_run (N := Qcnum) (ex_pulse Piecewise 1 GOther SOther false None true)). set (W := pulse_world (N := Qcnum)).
  assert (PR : plain_run G) by (repeat split).
  assert (V : two_phases G W (fun s2 s3 l => forallb (is_idle G (s_best s2)) l && Nat.eqb (length (filter is_call l)) 6 &&
            arr_is (base_of (s_controls s2) 0) [qc 1 4] && arr_is (base_of (s_controls s3) 0) [qc 0 1]) = true)
    by (vm_compute; reflexivity).
  apply two_phases_exists in V as (s0 & s1 & s2 & s3 & E0 & E1 & E2 & E3 & V).
  exists s0, s1, s2, s3, (skipn (length (history s2)) (history s3)). cbv zeta.
  destruct (new_state_reachable G W s0 s1 E0 E1) as (c0 & EC & C1 & P1 & _ & _).
  destruct (loop_reachable Qcnum_order Qcnum_sign G W PR eq_refl c0 (seq 1 1) s1 s2) as [_ P2]; auto; [rewrite C1; apply reach_refl|].
  destruct (super_summary Qcnum_order Qcnum_sign G W PR 2 s2 s3 eq_refl P2 E3) as (_ & (evs & T) & _).
  apply andb_prop in V as [V V4]. apply andb_prop in V as [V V3]. apply andb_prop in V as [V1 V2].
  apply Nat.eqb_eq in V2.
  repeat (split; [assumption || exact (history_ext _ _ _ T)|]). split; [|split; apply arr_is_eq; assumption].
  intros x d a v HI U. rewrite forallb_forall in V1. specialize (V1 _ HI). cbn in V1. rewrite U in V1.
  now apply negb_true_iff in V1.
Qed.
Print Assumptions C27_no_improvement.
Print Assumptions C27_no_improvement_R.
Print Assumptions C27_overwrite_refuted.

(** ** C28 *)
(** After a run that ended normally and evaluated something below 1e10, get_best_controls() returns exactly the controls
    that were handed to the user's function at the evaluation which set the final best figure of merit. *)
Theorem C28_best_controls (N : Num) (O : NumOrder N) (S : NumSign N) (X : NumExact N) (G : settings) (W : world) s :
  plain_run G -> g_kind G = KdCRAB ->
  (forall f, In f (g_pulses G) -> plain_basis f /\ pf_overwrite f = false /\ regular_update f /\ zero_at_offset f /\
     base_beside_update (names_of f)) ->
  no_optimised_time (g_times G) -> (forall t, In t (g_times G) -> tf_value t <> of_Z 0) ->
  optimise G W = Ok (Ok tt, s) ->
  (exists x d a v, In (EvEval x d a) (history s) /\ user_value a = Some v /\ (cost G v <? ceiling)%num = true) ->
  exists tr1 x d a tr2 v, history s = tr1 ++ EvEval x d a :: tr2 /\ user_value a = Some v /\ cost G v = s_best s /\
    improves G tr1 a /\ get_best_controls s = Ok d.
Proof. intros PR KD HF NT HZ. exact (dcrab_best_controls O S X G W PR KD HF NT HZ s). Qed.
Corollary C28_best_controls_R (G : settings (N := Rnum)) (W : world) s :
  plain_run G -> g_kind G = KdCRAB ->
  (forall f, In f (g_pulses G) -> plain_basis f /\ pf_overwrite f = false /\ regular_update f /\ zero_at_offset f /\
     base_beside_update (names_of f)) ->
  no_optimised_time (g_times G) -> (forall t, In t (g_times G) -> tf_value t <> 0%R) ->
  optimise G W = Ok (Ok tt, s) ->
  (exists x d a v, In (EvEval x d a) (history s) /\ user_value a = Some v /\ (cost G v <? ceiling)%num = true) ->
  exists tr1 x d a tr2 v, history s = tr1 ++ EvEval x d a :: tr2 /\ user_value a = Some v /\ cost G v = s_best s /\
    improves G tr1 a /\ get_best_controls s = Ok d.
Proof. exact (C28_best_controls Rnum Rnum_order Rnum_sign Rnum_exact G W s). Qed.

Definition best_is (s : st (N := Qcnum)) (l : list (list Qc)) : bool :=
  match get_best_controls s with Ok d => Qc_list_eqb (qsamples d) l | Err _ => false end.
Lemma best_is_eq s l : best_is s l = true -> exists d, get_best_controls s = Ok d /\ qsamples d = l.
Proof. unfold best_is. destruct (get_best_controls s) as [d|]; [|discriminate]. intros H. exists d. split; [reflexivity|now apply Qc_list_eqb_eq]. Qed.
Definition some_low (G : settings (N := Qcnum)) (s : st (N := Qcnum)) : bool :=
  existsb (fun e => match e with EvEval _ _ a => match user_value a with Some v => (cost G v <? ceiling)%num | None => false end | _ => false end)
    (history s).
Lemma some_low_exists G s : some_low G s = true ->
  exists x d a v, In (EvEval x d a) (history s) /\ user_value a = Some v /\ (cost G v <? ceiling)%num = true.
Proof.
  unfold some_low. rewrite existsb_exists. intros ([x d a| | | | | | |] & HI & H); try discriminate H.
  destruct (user_value a) as [v|] eqn:U; [|discriminate H]. exists x, d, a, v. auto.
Qed.
(** a dCRAB run of two super-iterations, both of which improve: the best figure of merit is 1/9216, at the pulse [11/32] *)
Example C28_example : exists s, let G := pulse_run (N := Qcnum) (ex_plain 1) <|g_max_eval := 12%Z|> in
  plain_run G /\ (forall f, In f (g_pulses G) -> plain_basis f /\ pf_overwrite f = false /\ regular_update f /\ zero_at_offset f /\
     base_beside_update (names_of f)) /\ no_optimised_time (g_times G) /\ (forall t, In t (g_times G) -> tf_value t <> of_Z 0) /\
  optimise G pulse_world = Ok (Ok tt, s) /\
  (exists x d a v, In (EvEval x d a) (history s) /\ user_value a = Some v /\ (cost G v <? ceiling)%num = true) /\
  s_best s = qc 1 9216 /\ exists d, get_best_controls s = Ok d /\ qsamples d = [[qc 11 32]].
Proof.
  set (G := pulse_run (N := Qcnum) (ex_plain 1) <|g_max_eval := 12%Z|>).
  assert (V : run_ok (N := Qcnum) G pulse_world (fun r s => fine_end r && some_low G s && Qc_list_eqb [[s_best s]] [[qc 1 9216]] &&
            best_is s [[qc 11 32]]) = true) by (vm_compute; reflexivity).
  apply run_ok_exists in V as (r & s & H & V). apply andb_prop in V as [V V4]. apply andb_prop in V as [V V3]. apply andb_prop in V as [V1 V2].
  destruct r as [[]|]; [|discriminate V1]. exists s. cbv zeta.
  split; [repeat split|]. split; [exact (ex_plain_fine false 1)|]. split; [exact ex_no_time|].
  split; [intros t [<-|[]]; discriminate|]. split; [exact H|]. split; [now apply some_low_exists|].
  split; [apply Qc_list_eqb_eq in V3; now injection V3|now apply best_is_eq].
Qed.
(** With overwrite_base_pulse get_best_controls() returns the pulse [0] after a run whose best figure of merit was 1/144;
    the user's function had answered 1/9 for that pulse. *)
Theorem C28_overwrite_refuted : exists s d x d' a v,
  let G := pulse_run (N := Qcnum) (ex_pulse Piecewise 1 GOther SOther false None true) in
  plain_run G /\ optimise G pulse_world = Ok (Ok tt, s) /\ s_best s = qc 1 144 /\
  get_best_controls s = Ok d /\ qsamples d = [[qc 0 1]] /\
  In (EvEval x d' a) (history s) /\ qsamples d' = [[qc 0 1]] /\ user_value a = Some v /\ v = qc 1 9.
Proof.
  set (G := pulse_run (N := Qcnum) (ex_pulse Piecewise 1 GOther SOther false None true)).
  assert (V : run_ok (N := Qcnum) G pulse_world (fun r s => fine_end r && Qc_list_eqb [[s_best s]] [[qc 1 144]] &&
            best_is s [[qc 0 1]] && existsb (fun e => match e with EvEval _ d' a =>
               Qc_list_eqb (qsamples d') [[qc 0 1]] && match user_value a with Some v => Qc_list_eqb [[v]] [[qc 1 9]] | None => false end
              | _ => false end) (history s)) = true) by (vm_compute; reflexivity).
  apply run_ok_exists in V as (r & s & H & V). apply andb_prop in V as [V V4]. apply andb_prop in V as [V V3]. apply andb_prop in V as [V1 V2].
  destruct r as [[]|]; [|discriminate V1]. apply best_is_eq in V3 as (d & D1 & D2).
  apply existsb_exists in V4 as ([x d' a| | | | | | |] & HI & V4); try discriminate V4. apply andb_prop in V4 as [V4 V5].
  destruct (user_value a) as [v|] eqn:U; [|discriminate V5]. apply Qc_list_eqb_eq in V4, V5, V2. injection V5 as V5. injection V2 as V2.
  exists s, d, x, d', a, v. cbv zeta. split; [repeat split|]. auto 10.
Qed.
Print Assumptions C28_best_controls.
Print Assumptions C28_best_controls_R.
Print Assumptions C28_overwrite_refuted.
