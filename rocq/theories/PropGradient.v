(** Theorems on Ctrl-C and on the ends of GRAPE and AD runs: C35, C36, C37. *)
From Coq Require Import String ZArith List Bool Lia Reals QArith Qcanon.
From RecordUpdate Require Import RecordSet.
From Verif Require Import Num NumFacts NumQ Py ModelPulse ModelControls ModelBases ModelLinalg ModelState ModelSearch ModelRun
  SpecControls SpecRun SpecGradient ProofBases ProofHistory ProofCancel ProofGradient ExampleControls ExampleRun PropRun PropSuper PropDirect.
Import ListNotations RecordSetNotations.
Open Scope nat_scope.
Open Scope list_scope.
Open Scope bool_scope.

(** ** C35 *)
(** Ctrl-C at any point that a dCRAB or direct-search run passes: the run is marked as stopped, one of the reasons of
    OptimizationAlgorithm is recorded, and a normal end writes the results with this reason. *)
Theorem C35_direct (N : Num) (G : settings) (W : world) r s :
  (g_kind G = KdCRAB \/ g_kind G = KDirect) -> optimise G W = Ok (r, s) -> cancelled W s ->
  s_running s = false /\ In (s_reason s) stop_reasons /\
  (r = Ok tt -> exists f tr, history s = tr ++ [EvFinal f; EvLogged f (Some (s_reason s))]).
Proof. intros K. apply cancel_dsm. unfold has_dsm. now destruct K as [-> | ->]. Qed.
(** the handling of Ctrl-C raises nothing *)
Theorem C35_direct_no_exception (N : Num) (G : settings) (W : world) s :
  (g_kind G = KdCRAB \/ g_kind G = KDirect) -> w_async W (k_poll (s_cnt s)) = ASigint ->
  exists s', poll G W s = (Ok tt, s') /\ s_running s' = false /\ s_reason s' = "User stopped the optimization"%string.
Proof.
  intros K E. assert (D : has_dsm G = true) by (unfold has_dsm; now destruct K as [-> | ->]).
  unfold poll, bind, get, upd. rewrite E. unfold handle_user_cancellation. rewrite D. cbn. eexists. split; [reflexivity|]. split; reflexivity.
Qed.
(** Ctrl-C during GRAPE or AD ends the run with an AttributeError; the run is not marked as stopped by it and no results
    are written. *)
Theorem C35_gradient (N : Num) (G : settings) (W : world) r s :
  (g_kind G = KGRAPE \/ g_kind G = KAD) -> optimise G W = Ok (r, s) -> cancelled W s ->
  r = Err AttributeError /\ s_reason s = "User stopped the optimization"%string /\ (forall f, ~ In (EvFinal f) (history s)) /\
  (In (EvCleared ByAsync) (history s) -> exists n, n < k_poll (s_cnt s) /\ w_async W n = AStop).
Proof.
  intros K E C. destruct (cancel_gradient G W r s (no_dsm G K) E C) as (-> & A & B). split; [reflexivity|]. split; [exact A|].
  split; [intros f; exact (no_results G W _ _ f E)|exact B].
Qed.
Example C35_direct_example : exists s, optimise (frun KdCRAB) (interfering 10 ASigint (fworld [])) = Ok (Ok tt, s) /\
  cancelled (interfering 10 ASigint (fworld [])) s /\ calls (history s) = 2 /\ s_reason s = "User stopped the optimization"%string.
Proof.
  destruct (run_ok_exists (frun KdCRAB) (interfering 10 ASigint (fworld []))
    (fun r s => fine_end r && Nat.ltb 10 (k_poll (s_cnt s)) && Nat.eqb (calls (history s)) 2 && String.eqb (s_reason s) "User stopped the optimization"))
    as (r & s & E & H); [vm_compute; reflexivity|].
  apply andb_prop in H as [H H4]. apply andb_prop in H as [H H3]. apply andb_prop in H as [H1 H2].
  destruct r as [[]|]; [|discriminate]. exists s. apply Nat.ltb_lt in H2. apply Nat.eqb_eq in H3. apply String.eqb_eq in H4.
  split; [exact E|]. split; [exists 10; split; [exact H2|reflexivity]|]. auto.
Qed.
Example C35_gradient_example : exists s, optimise (frun KGRAPE) (interfering 4 ASigint (fworld [3; 5]%Z)) = Ok (Err AttributeError, s) /\
  cancelled (interfering 4 ASigint (fworld [3; 5]%Z)) s /\ calls (history s) = 1 /\ s_running s = true.
Proof.
  destruct (run_ok_exists (frun KGRAPE) (interfering 4 ASigint (fworld [3; 5]%Z))
    (fun r s => raised AttributeError r && Nat.ltb 4 (k_poll (s_cnt s)) && Nat.eqb (calls (history s)) 1 && s_running s))
    as (r & s & E & H); [vm_compute; reflexivity|].
  apply andb_prop in H as [H H4]. apply andb_prop in H as [H H3]. apply andb_prop in H as [H1 H2].
  destruct r as [[]|e]; [discriminate|]. unfold raised, exn_eqb in H1. destruct (exn_eq_dec _ _) as [<-|]; [|discriminate H1].
  exists s. apply Nat.ltb_lt in H2. apply Nat.eqb_eq in H3.
  split; [exact E|]. split; [exists 4; split; [exact H2|reflexivity]|]. auto.
Qed.
(** The recorded reason need not be the user's: Ctrl-C during the last evaluation of the budget. *)
Theorem C35_reason_refuted : exists G W s, g_kind G = KDirect /\ optimise (N := F64) G W = Ok (Ok tt, s) /\ cancelled W s /\
  s_reason s = "Maximum number of total function evaluations reached"%string.
Proof.
  destruct (run_ok_exists (frun KDirect <|g_max_total := 1%Z|>) (interfering 3 ASigint (fworld []))
    (fun r s => fine_end r && Nat.ltb 3 (k_poll (s_cnt s)) && String.eqb (s_reason s) "Maximum number of total function evaluations reached"))
    as (r & s & E & H); [vm_compute; reflexivity|].
  apply andb_prop in H as [H H3]. apply andb_prop in H as [H1 H2].
  destruct r as [[]|]; [|discriminate]. do 2 eexists. exists s. split; [|split; [exact E|]]; [reflexivity|]. apply Nat.ltb_lt in H2. apply String.eqb_eq in H3.
  split; [|exact H3]. exists 3. split; [exact H2|reflexivity].
Qed.
(** A direct search cancelled before its first evaluation has no result to report and raises. *)
Theorem C35_before_first_evaluation_refuted : exists G W s, g_kind G = KDirect /\ optimise (N := F64) G W = Ok (Err AttributeError, s) /\
  cancelled W s /\ calls (history s) = 0.
Proof.
  destruct (run_ok_exists (frun KDirect) (interfering 0 ASigint (fworld []))
    (fun r s => raised AttributeError r && Nat.ltb 0 (k_poll (s_cnt s)) && Nat.eqb (calls (history s)) 0))
    as (r & s & E & H); [vm_compute; reflexivity|].
  apply andb_prop in H as [H H3]. apply andb_prop in H as [H1 H2].
  destruct r as [[]|e]; [discriminate|]. unfold raised, exn_eqb in H1. destruct (exn_eq_dec _ _) as [<-|]; [|discriminate H1].
  do 2 eexists. exists s. split; [|split; [exact E|]]; [reflexivity|]. apply Nat.ltb_lt in H2. apply Nat.eqb_eq in H3.
  split; [|exact H3]. exists 0. split; [exact H2|reflexivity].
Qed.
Print Assumptions C35_direct.
Print Assumptions C35_direct_no_exception.
Print Assumptions C35_gradient.
Print Assumptions C35_reason_refuted.
Print Assumptions C35_before_first_evaluation_refuted.

(** ** C36 *)
(** a normal end needs an evaluation below 1e10 *)
Theorem C36_normal_end (N : Num) (O : NumOrder N) (S : NumSign N) (G : settings) (W : world) s : plain_run G ->
  (g_kind G = KGRAPE \/ g_kind G = KAD /\ (1 <= g_max_si G)%Z) -> optimise G W = Ok (Ok tt, s) ->
  exists v, In v (costs G (history s)) /\ (v <? ceiling)%num = true.
Proof.
  intros P K. apply (normal_end O S G W P); [|exact K]. apply no_dsm. tauto.
Qed.
(** without one, AttributeError is raised as soon as the minimiser has returned *)
Theorem C36_nothing_recorded (N : Num) (O : NumOrder N) (S : NumSign N) (G : settings) (W : world) s : plain_run G ->
  (g_kind G = KGRAPE \/ g_kind G = KAD) -> minimised G W s -> (forall v, In v (costs G (history s)) -> (v <? ceiling)%num = false) ->
  optimise G W = Ok (Err AttributeError, s).
Proof. intros P K. exact (nothing_recorded O S G W P (no_dsm G K) s). Qed.
(** With one, a usable configuration and a minimiser that asks for vectors of the right size, the base pulses are updated
    with the best vector, and a GRAPE run ends normally. *)
Theorem C36_recorded (N : Num) (O : NumOrder N) (S : NumSign N) (G : settings) (W : world) s n : plain_run G ->
  (g_kind G = KGRAPE \/ g_kind G = KAD) -> minimised G W s ->
  usable (g_pulses G) (g_times G) -> n = list_sum (map pf_nctrl (g_pulses G)) + length (g_params G) -> n <> 0 ->
  (forall k x0, asks_only (fun x => length x = n) (w_lbfgs W k x0)) ->
  (exists v, In v (costs G (history s)) /\ (v <? ceiling)%num = true) ->
  (exists x s', update_base s = (Ok x, s') /\ s_best_xx s = Some x) /\ (g_kind G = KGRAPE -> exists t, optimise G W = Ok (Ok tt, t)).
Proof. intros P K. exact (something_recorded O S G W P (no_dsm G K) s n). Qed.

(** GRAPE up to the return of the minimiser *)
Definition grape_search {N : Num} (G : settings) (W : world) (P : st -> bool) : bool :=
  match new_state G W with
  | Ok s0 => match begin W s0 with
             | (Ok tt, s1) => match random_start G W s1 with
                              | (Ok x0, s2) => match minimise G W (w_lbfgs W 1 x0) s2 with (Ok tt, s) => P s | _ => false end
                              | _ => false
                              end
             | _ => false
             end
  | Err _ => false
  end.
Lemma grape_search_spec {N : Num} G W P : g_kind G = KGRAPE -> grape_search G W P = true -> exists s, minimised G W s /\ P s = true.
Proof.
  intros K. unfold grape_search, minimised. rewrite K. destruct (new_state G W) as [s0|] eqn:E0; [|discriminate]. destruct (begin W s0) as [[[]|] s1] eqn:E1; [|discriminate].
  destruct (random_start G W s1) as [[x0|] s2] eqn:E2; [|discriminate].
  destruct (minimise G W (w_lbfgs W 1 x0) s2) as [[[]|] s] eqn:E3; [|discriminate]. intros H. exists s. split; [|exact H].
  exists s0, s1. split; [reflexivity|]. split; [exact E1|]. exists x0, s2. auto.
Qed.
(** the user's function answers 2e10 and then 1e10: the run raises *)
Example C36_example_nothing : exists s, let W := answering (fun n _ => says (N := F64) (z (if Nat.eqb n 1 then 20000000000 else 10000000000))) (fworld [3; 5]%Z) in
  minimised (frun KGRAPE) W s /\ calls (history s) = 2 /\ (forall v, In v (costs (frun KGRAPE) (history s)) -> (v <? ceiling)%num = false).
Proof.
  destruct (grape_search_spec (frun KGRAPE) (answering (fun n _ => says (N := F64) (z (if Nat.eqb n 1 then 20000000000 else 10000000000))) (fworld [3; 5]%Z))
    (fun s => Nat.eqb (calls (history s)) 2 && forallb (fun v => negb (v <? ceiling)%num) (costs (frun KGRAPE) (history s))) eq_refl) as (s & M & H);
    [vm_compute; reflexivity|].
  apply andb_prop in H as [H1 H2]. apply Nat.eqb_eq in H1. exists s. split; [exact M|]. split; [exact H1|].
  intros v K. rewrite forallb_forall in H2. apply H2 in K. now apply negb_true_iff in K.
Qed.
(** the user's function answers 2e10 and then 5 *)
Example C36_example_recorded : exists s, let W := answering (fun n _ => says (N := F64) (z (if Nat.eqb n 1 then 20000000000 else 5))) (fworld [3; 5]%Z) in
  minimised (frun KGRAPE) W s /\ calls (history s) = 2 /\ usable (g_pulses (frun KGRAPE)) (g_times (frun KGRAPE)) /\
  (forall k x0, asks_only (fun x => length x = 1) (w_lbfgs W k x0)) /\
  exists v, In v (costs (frun KGRAPE) (history s)) /\ (v <? ceiling)%num = true.
Proof.
  destruct (grape_search_spec (frun KGRAPE) (answering (fun n _ => says (N := F64) (z (if Nat.eqb n 1 then 20000000000 else 5))) (fworld [3; 5]%Z))
    (fun s => Nat.eqb (calls (history s)) 2 && existsb (fun v => (v <? ceiling)%num) (costs (frun KGRAPE) (history s))) eq_refl) as (s & M & H);
    [vm_compute; reflexivity|].
  apply andb_prop in H as [H1 H2]. apply Nat.eqb_eq in H1. exists s. split; [exact M|]. split; [exact H1|].
  split; [constructor; try constructor; intros t []|]. split; [intros k x0; cbn; auto|]. apply existsb_exists in H2. exact H2.
Qed.
Print Assumptions C36_normal_end.
Print Assumptions C36_nothing_recorded.
Print Assumptions C36_recorded.

(** ** C37 *)
(** [s2] is the state after some super-iterations of AD, the last of which updated the base pulses with the vector [x];
    [s3] is the state after the minimisation of the next one.  If that one evaluated nothing below the best value of [s2],
    the base pulses are updated with [x] again. *)
Theorem C37_added_again (N : Num) (O : NumOrder N) (S : NumSign N) (G : settings) (W : world) k s0 s1 s2 s3 : plain_run G ->
  g_kind G = KAD -> new_state G W = Ok s0 -> begin W s0 = (Ok tt, s1) ->
  ad_loop G W (seq 1 (Datatypes.S k)) s1 = (Ok tt, s2) -> ad_search G W (Datatypes.S (Datatypes.S k)) s2 = (Ok tt, s3) ->
  exists x c new, update_base_controls x c = Ok (s_controls s2) /\ history s3 = history s2 ++ new /\
    ((forall v, In v (costs G new) -> (v <? s_best s2)%num = false) ->
     forall c', update_base_controls x (s_controls s3) = Ok c' ->
       ad_loop G W (seq 1 (Datatypes.S (Datatypes.S k))) s1 = (Ok tt, s3 <|s_controls := c'|>)).
Proof. intros P K. exact (added_again O S G W P (no_dsm G (or_intror K)) k s0 s1 s2 s3 K). Qed.

(** the minimiser asks for 1/4 in the first super-iteration and for 1 in the second *)
Definition ad_run : settings (N := Qcnum) := pulse_run (N := Qcnum) (ex_plain 1) <|g_kind := KAD|>.
Definition ad_world : world (N := Qcnum) :=
  pulse_world <|w_lbfgs := fun k _ => asks (N := Qcnum) (if Nat.eqb k 1 then [qc 1 4 : @num Qcnum] else [qc 1 1 : @num Qcnum])|>.
(** two super-iterations of AD, the second one up to the return of the minimiser *)
Definition ad_phases (G : settings (N := Qcnum)) (W : world (N := Qcnum))
    (P : st (N := Qcnum) -> st (N := Qcnum) -> list (event (N := Qcnum)) -> bool) : bool :=
  match new_state G W with
  | Ok s0 => match begin W s0 with
             | (Ok tt, s1) => match ad_loop G W (seq 1 1) s1 with
                              | (Ok tt, s2) => match ad_search G W 2 s2 with
                                               | (Ok tt, s3) => P s2 s3 (skipn (length (history s2)) (history s3))
                                               | _ => false
                                               end
                              | _ => false
                              end
             | _ => false
             end
  | Err _ => false
  end.
Example C37_example : exists s0 s1 s2 s3 new c', plain_run ad_run /\ new_state ad_run ad_world = Ok s0 /\ begin ad_world s0 = (Ok tt, s1) /\
  ad_loop ad_run ad_world (seq 1 1) s1 = (Ok tt, s2) /\ ad_search ad_run ad_world 2 s2 = (Ok tt, s3) /\
  history s3 = history s2 ++ new /\ calls new = 1 /\ (forall v, In v (costs ad_run new) -> (v <? s_best s2)%num = false) /\
  base_of (s_controls s2) 0 = Some (Ar (N := Qcnum) [qc 1 4]) /\
  update_base_controls ([qc 1 4] : vec (N := Qcnum)) (s_controls s3) = Ok c' /\ base_of c' 0 = Some (Ar (N := Qcnum) [qc 1 2]).
Proof.
  assert (V : ad_phases ad_run ad_world (fun s2 s3 new => Nat.eqb (calls new) 1 && forallb (fun v => negb (v <? s_best s2)%num) (costs ad_run new) &&
    arr_is (base_of (s_controls s2) 0) [qc 1 4] &&
    match update_base_controls ([qc 1 4] : vec (N := Qcnum)) (s_controls s3) with Ok c' => arr_is (base_of c' 0) [qc 1 2] | Err _ => false end) = true)
    by (vm_compute; reflexivity).
  unfold ad_phases in V. destruct (new_state ad_run ad_world) as [s0|] eqn:E0; [|discriminate V].
  destruct (begin ad_world s0) as [[[]|] s1] eqn:E1; [|discriminate V].
  destruct (ad_loop ad_run ad_world (seq 1 1) s1) as [[[]|] s2] eqn:E2; [|discriminate V].
  destruct (ad_search ad_run ad_world 2 s2) as [[[]|] s3] eqn:E3; [|discriminate V].
  assert (P : plain_run ad_run) by (repeat split).
  destruct (C37_added_again _ Qcnum_order Qcnum_sign ad_run ad_world 0 s0 s1 s2 s3 P eq_refl E0 E1 E2 E3) as (x & c & new & _ & T & _).
  assert (EN : skipn (length (history s2)) (history s3) = new) by (rewrite T, skipn_app, skipn_all, Nat.sub_diag; reflexivity).
  rewrite EN in V. apply andb_prop in V as [V V4]. apply andb_prop in V as [V V3]. apply andb_prop in V as [V1 V2].
  destruct (update_base_controls _ (s_controls s3)) as [c'|] eqn:EU; [|discriminate V4].
  exists s0, s1, s2, s3, new, c'. apply Nat.eqb_eq in V1. repeat (split; [assumption || reflexivity|]).
  split; [intros v K; rewrite forallb_forall in V2; apply V2 in K; now apply negb_true_iff in K|].
  split; [now apply arr_is_eq|]. split; [exact EU|now apply arr_is_eq].
Qed.
Definition samples_are (l : list (list Qc)) (s : st (N := Qcnum)) : bool :=
  match get_best_controls s with Ok d => Qc_list_eqb (qsamples d) l | Err _ => false end.
(** The pulse [1/4] gave the best value 1/144 and the second super-iteration found nothing better; yet get_best_controls()
    returns the pulse [1/2], which was never evaluated. *)
Theorem C37_best_controls_refuted : exists s d, plain_run ad_run /\ g_kind ad_run = KAD /\ optimise ad_run ad_world = Ok (Ok tt, s) /\
  map qsamples (map fst (flat_map (fun e => match e with EvEval _ d a => [(d, a)] | _ => [] end) (history s))) = [[[qc 1 4]]; [[qc 1 1]]] /\
  s_best s = (qc 1 144 : @num Qcnum) /\ get_best_controls s = Ok d /\ qsamples d = [[qc 1 2]].
Proof.
  assert (V : run_ok ad_run ad_world (fun r s => fine_end r && vec_is [s_best s] [qc 1 144] && samples_are [[qc 1 2]] s &&
     Qc_list_eqb (concat (map qsamples (map fst (flat_map (fun e : event (N := Qcnum) => match e with EvEval _ d a => [(d, a)] | _ => [] end) (history s)))))
       [[qc 1 4]; [qc 1 1]] && Nat.eqb (calls (history s)) 2 &&
     forallb (fun p => Nat.eqb (length (qsamples p)) 1) (map fst (flat_map (fun e : event (N := Qcnum) => match e with EvEval _ d a => [(d, a)] | _ => [] end) (history s)))) = true)
    by (vm_compute; reflexivity).
  apply run_ok_exists in V as (r & s & E & V).
  apply andb_prop in V as [V V6]. apply andb_prop in V as [V V5]. apply andb_prop in V as [V V4]. apply andb_prop in V as [V V3]. apply andb_prop in V as [V1 V2].
  destruct r as [[]|]; [|discriminate V1]. unfold samples_are in V3. destruct (get_best_controls s) as [d|] eqn:ED; [|discriminate V3].
  exists s, d. split; [repeat split|]. split; [reflexivity|]. split; [exact E|]. apply Qc_list_eqb_eq in V3, V4. apply vec_is_eq in V2. injection V2 as V2.
  split; [|auto]. set (ds := map fst _) in *. rewrite forallb_forall in V6. clear -V4 V6.
  destruct ds as [|d1 [|d2 [|d3 ds]]]; cbn [map concat] in *; pose proof (fun p K => proj1 (Nat.eqb_eq _ _) (V6 p K)) as L.
  - discriminate V4.
  - specialize (L d1 (or_introl eq_refl)). rewrite app_nil_r in V4. rewrite V4 in L. discriminate L.
  - pose proof (L d1 (or_introl eq_refl)) as L1. pose proof (L d2 (or_intror (or_introl eq_refl))) as L2.
    destruct (qsamples d1) as [|a [|]]; try discriminate L1. destruct (qsamples d2) as [|b [|]]; try discriminate L2.
    cbn in V4. now injection V4 as -> ->.
  - pose proof (L d1 (or_introl eq_refl)) as L1. pose proof (L d2 (or_intror (or_introl eq_refl))) as L2.
    pose proof (L d3 (or_intror (or_intror (or_introl eq_refl)))) as L3.
    destruct (qsamples d1) as [|a [|]]; try discriminate L1. destruct (qsamples d2) as [|b [|]]; try discriminate L2.
    destruct (qsamples d3) as [|c [|]]; try discriminate L3. discriminate V4.
Qed.
Print Assumptions C37_added_again.
Print Assumptions C37_best_controls_refuted.
