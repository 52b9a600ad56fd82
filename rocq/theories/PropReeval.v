(** Theorems on re-evaluation and drift compensation: C31, C32, C33, C34. *)
From Coq Require Import String ZArith List Bool Lia Reals Lra QArith Qcanon.
From RecordUpdate Require Import RecordSet.
From Verif Require Import Num NumFacts NumQ Py ModelPulse ModelControls ModelLinalg ModelState ModelSearch ModelRun
  SpecControls SpecRun ProofReeval ExampleControls ExampleRun PropSuper PropDirect.
Import ListNotations RecordSetNotations.
Open Scope nat_scope.
Open Scope list_scope.
Open Scope bool_scope.

(** ** C31 *)
(** One call of the search method for the point [x], in exact arithmetic.  The candidate is evaluated at [x] only; the
    values obtained for it are [vs], where 1e10 stands for each evaluation refused because the run was stopped; it is
    tested against the thresholds; their mean is handed to the search method; it becomes the record exactly if all tests
    are passed and its final probability exceeds the last threshold. *)
Theorem C31_session (N : Num) (S : NumSign N) (X : NumExact N) (G : settings) (W : world) steps x it s y s' :
  has_dsm G = true -> g_steps G = Some steps -> ready steps s -> inner_routine_call G W x it None s = (Ok y, s') ->
  exists new vs ss rest k ps,
    history s' = history s ++ new /\
    vs = costs G new ++ repeat ceiling k /\ (k <> 0 -> s_running s' = false) /\ ss = spreads new ++ rest /\
    (forall x' d a, In (EvEval x' d a) new -> x' = x) /\ calls new = length (costs G new) /\
    (ps = steps \/ ps = [half]) /\ (calls new <> 0 -> ps = if Nat.eqb (s_iter s) 0 then [half] else steps) /\
    tested W ps (s_best s) (re_best_sigma (s_re s)) vs ss /\ y = average vs /\
    (accepted W ps (s_best s) (re_best_sigma (s_re s)) vs ss ->
       s_best s' = y /\ s_best_xx s' = s_xx s' /\ re_best_sigma (s_re s') = average ss /\
       (calls new <> 0 -> s_xx s' = Some x /\ exists f, saves new = [f] /\ sv_fom f = y /\ sv_sigma f = Some (average ss) /\
          (k = 0 -> exists tr1 d a tr2, new = tr1 ++ EvEval x d a :: tr2 /\ no_call tr2 /\ sv_controls f = d))) /\
    (~ accepted W ps (s_best s) (re_best_sigma (s_re s)) vs ss ->
       s_best s' = s_best s /\ s_best_xx s' = s_best_xx s /\ re_best_sigma (s_re s') = re_best_sigma (s_re s) /\ saves new = []) /\
    ready steps s'.
Proof.
  intros D E R H. destruct (session S G W steps D E X x it s y s' R H) as (new & vs & ss & rest & k & ps & H1 & H2 & H3 & H4 & H5 & H6 & H7 & H8 & H9 & H10 & H11 & H12 & _ & H13).
  exists new, vs, ss, rest, k, ps. repeat (split; [assumption|]). assumption.
Qed.
(** the count of evaluations, from the definition of [tested] *)
Corollary C31_at_most (N : Num) (S : NumSign N) (X : NumExact N) (G : settings) (W : world) steps x it s y s' :
  has_dsm G = true -> g_steps G = Some steps -> ready steps s -> inner_routine_call G W x it None s = (Ok y, s') ->
  exists new, history s' = history s ++ new /\ (s_iter s <> 0 -> calls new <= length steps + 1) /\ (s_iter s = 0 -> calls new <= 2).
Proof.
  intros D E R H. destruct (C31_session N S X G W steps x it s y s' D E R H) as (new & vs & ss & rest & k & ps & H1 & H2 & _ & _ & _ & H6 & _ & H8 & T & _).
  exists new. split; [exact H1|]. assert (L : calls new <= Datatypes.S (length ps)).
  { rewrite H6. pose proof (te_most _ _ _ _ _ _ T) as L. rewrite H2, app_length in L. lia. }
  destruct (calls new) eqn:EC; [lia|]. rewrite H8 in L by discriminate.
  destruct (Nat.eqb_spec (s_iter s) 0) as [K|K]; split; intros K'; try lia; cbn in L; lia.
Qed.
(** the states of a run are ready for it: at the beginning, after each call (above), and at the end *)
Theorem C31_run_ready (N : Num) (G : settings) (W : world) steps r s :
  g_steps G = Some steps -> optimise G W = Ok (r, s) -> ready steps s.
Proof. exact (always_ready G W steps r s). Qed.
Corollary C31_session_R (G : settings (N := Rnum)) (W : world) steps x it s y s' :
  has_dsm G = true -> g_steps G = Some steps -> ready steps s -> inner_routine_call G W x it None s = (Ok y, s') ->
  exists new vs ss rest k ps,
    history s' = history s ++ new /\
    vs = costs G new ++ repeat ceiling k /\ (k <> 0 -> s_running s' = false) /\ ss = spreads new ++ rest /\
    (forall x' d a, In (EvEval x' d a) new -> x' = x) /\ calls new = length (costs G new) /\
    (ps = steps \/ ps = [half]) /\ (calls new <> 0 -> ps = if Nat.eqb (s_iter s) 0 then [half] else steps) /\
    tested W ps (s_best s) (re_best_sigma (s_re s)) vs ss /\ y = average vs /\
    (accepted W ps (s_best s) (re_best_sigma (s_re s)) vs ss ->
       s_best s' = y /\ s_best_xx s' = s_xx s' /\ re_best_sigma (s_re s') = average ss /\
       (calls new <> 0 -> s_xx s' = Some x /\ exists f, saves new = [f] /\ sv_fom f = y /\ sv_sigma f = Some (average ss) /\
          (k = 0 -> exists tr1 d a tr2, new = tr1 ++ EvEval x d a :: tr2 /\ no_call tr2 /\ sv_controls f = d))) /\
    (~ accepted W ps (s_best s) (re_best_sigma (s_re s)) vs ss ->
       s_best s' = s_best s /\ s_best_xx s' = s_best_xx s /\ re_best_sigma (s_re s') = re_best_sigma (s_re s) /\ saves new = []) /\
    ready steps s'.
Proof. exact (C31_session Rnum Rnum_sign Rnum_exact G W steps x it s y s'). Qed.

(** the user's function answers with the listed values and standard deviation 0; the distribution function is linear
    near 0 *)
Definition sure (v : Qc) : answer (N := Qcnum) := Dict (mk_adict (FVal (v : @num Qcnum)) (Some (of_Z 0)) None).
Definition linear_cdf (u : Qc) : Qc :=
  let p := (qc 1 2 + u * qc 1 10)%Qc in if Qle_bool p 0 then 0%Qc else if Qle_bool 1 p then 1%Qc else p.
Definition script (l : list Qc) : world (N := Qcnum) :=
  answering (N := Qcnum) (fun n _ => sure (nth (n - 1) l (qc 0 1))) (ex_world [] <|w_cdf := linear_cdf : @num Qcnum -> @num Qcnum|>
    <|w_np := fun _ => (of_Z 3 / of_Z 4)%num|>).
Definition again_run (ps : list Qc) : settings (N := Qcnum) :=
  ex_run (N := Qcnum) KDirect <|g_max_eval := 5%Z|> <|g_steps := Some (ps : list (@num Qcnum))|>.
(** three candidates in turn: points 1, 2, 3 *)
Definition three_calls (G : settings (N := Qcnum)) (W : world (N := Qcnum))
    (P : Qc * Qc * Qc -> st (N := Qcnum) -> st (N := Qcnum) -> st (N := Qcnum) -> st (N := Qcnum) -> bool) : bool :=
  match new_state G W with
  | Err _ => false
  | Ok s0 =>
      match begin W s0 with
      | (Ok tt, s1) =>
          match inner_routine_call G W [qc 1 1 : @num Qcnum] 1 None s1 with
          | (Ok y1, s2) =>
              match inner_routine_call G W [qc 2 1 : @num Qcnum] 2 None s2 with
              | (Ok y2, s3) =>
                  match inner_routine_call G W [qc 3 1 : @num Qcnum] 3 None s3 with
                  | (Ok y3, s4) => P (y1, y2, y3) s1 s2 s3 s4
                  | _ => false
                  end
              | _ => false
              end
          | _ => false
          end
      | _ => false
      end
  end.
Lemma three_calls_exists G W P : three_calls G W P = true -> exists s0 s1 s2 s3 s4 y1 y2 y3,
  new_state G W = Ok s0 /\ begin W s0 = (Ok tt, s1) /\ inner_routine_call G W [qc 1 1 : @num Qcnum] 1 None s1 = (Ok y1, s2) /\
  inner_routine_call G W [qc 2 1 : @num Qcnum] 2 None s2 = (Ok y2, s3) /\
  inner_routine_call G W [qc 3 1 : @num Qcnum] 3 None s3 = (Ok y3, s4) /\ P (y1, y2, y3) s1 s2 s3 s4 = true.
Proof.
  unfold three_calls. destruct (new_state G W) as [s0|] eqn:E0; [|discriminate].
  destruct (begin W s0) as [[[]|] s1] eqn:E1; [|discriminate].
  destruct (inner_routine_call G W [_ 1%Z _] 1 None s1) as [[y1|] s2] eqn:E2; [|discriminate].
  destruct (inner_routine_call G W [_ 2%Z _] 2 None s2) as [[y2|] s3] eqn:E3; [|discriminate].
  destruct (inner_routine_call G W [_ 3%Z _] 3 None s3) as [[y3|] s4] eqn:E4; [|discriminate].
  intros H. exists s0, s1, s2, s3, s4, y1, y2, y3. repeat split; assumption.
Qed.
Definition ready_b (n : nat) (s : st (N := Qcnum)) : bool := Nat.eqb (length (re_fom (s_re s))) n && Nat.eqb (length (re_sigma (s_re s))) n.
Lemma ready_b_spec ps s : ready_b (Datatypes.S (length ps)) s = true -> ready ps s.
Proof. unfold ready_b. intros H. apply andb_prop in H as [A B]. split; now apply Nat.eqb_eq. Qed.
(** Thresholds 2/5 and 1/2; the first point gets the values 2, 4 (record 3), the second 1, 5, 1 (record 7/3), the third is
    dropped after the value 7. *)
Example C31_example : exists s0 s1 s2 s3 s4 y1 y2 y3,
  let G := again_run [qc 2 5; qc 1 2] in let W := script [qc 2 1; qc 4 1; qc 1 1; qc 5 1; qc 1 1; qc 7 1] in
  has_dsm G = true /\ g_steps G = Some ([qc 2 5; qc 1 2] : list (@num Qcnum)) /\
  new_state G W = Ok s0 /\ begin W s0 = (Ok tt, s1) /\ inner_routine_call G W [qc 1 1 : @num Qcnum] 1 None s1 = (Ok y1, s2) /\
  inner_routine_call G W [qc 2 1 : @num Qcnum] 2 None s2 = (Ok y2, s3) /\
  inner_routine_call G W [qc 3 1 : @num Qcnum] 3 None s3 = (Ok y3, s4) /\
  ready (N := Qcnum) [qc 2 5; qc 1 2] s1 /\ ready (N := Qcnum) [qc 2 5; qc 1 2] s2 /\ ready (N := Qcnum) [qc 2 5; qc 1 2] s3 /\
  y1 = qc 3 1 /\ y2 = qc 7 3 /\ y3 = qc 7 1 /\ s_best s2 = qc 3 1 /\ s_best s3 = qc 7 3 /\ s_best s4 = qc 7 3 /\
  costs G (history s2) = [qc 2 1; qc 4 1] /\ costs G (history s3) = [qc 2 1; qc 4 1; qc 1 1; qc 5 1; qc 1 1] /\
  costs G (history s4) = [qc 2 1; qc 4 1; qc 1 1; qc 5 1; qc 1 1; qc 7 1].
Proof.
  set (G := again_run _). set (W := script _).
  assert (V : three_calls G W (fun '(y1, y2, y3) s1 s2 s3 s4 => ready_b 3 s1 && ready_b 3 s2 && ready_b 3 s3 &&
    vec_is [y1; y2; y3; s_best s2; s_best s3; s_best s4] [qc 3 1; qc 7 3; qc 7 1; qc 3 1; qc 7 3; qc 7 3] &&
    vec_is (costs G (history s2)) [qc 2 1; qc 4 1] && vec_is (costs G (history s3)) [qc 2 1; qc 4 1; qc 1 1; qc 5 1; qc 1 1] &&
    vec_is (costs G (history s4)) [qc 2 1; qc 4 1; qc 1 1; qc 5 1; qc 1 1; qc 7 1]) = true) by (vm_compute; reflexivity).
  apply three_calls_exists in V as (s0 & s1 & s2 & s3 & s4 & y1 & y2 & y3 & E0 & E1 & E2 & E3 & E4 & V).
  exists s0, s1, s2, s3, s4, y1, y2, y3. cbv zeta. do 6 (apply andb_prop in V as [V ?]).
  repeat match goal with K : vec_is _ _ = true |- _ => apply vec_is_eq in K end.
  match goal with K : [y1; _; _; _; _; _] = _ |- _ => injection K as -> -> -> ? ? ? end.
  split; [reflexivity|]. split; [reflexivity|].
  repeat (split; [first [assumption | apply ready_b_spec; assumption | reflexivity]|]). assumption.
Qed.
Print Assumptions C31_session.
Print Assumptions C31_at_most.
Print Assumptions C31_run_ready.

(** ** C32 *)
(** If the thresholds are at least 1/2 and the distribution function is at most 1/2 for non-positive arguments, a
    record is only ever replaced by a strictly smaller mean. *)
Theorem C32_better_on_average (G : settings (N := Rnum)) (W : world) steps x it s y s' :
  has_dsm G = true -> g_steps G = Some steps -> ready steps s ->
  (forall qs p, steps = qs ++ [p] -> (1 / 2 <= p)%R) -> (forall u, (u <= 0)%R -> (w_cdf W u <= 1 / 2)%R) ->
  inner_routine_call G W x it None s = (Ok y, s') ->
  s_best s' = s_best s \/ (s_best s' = y /\ (y < s_best s)%R).
Proof. exact (fun D E R => record_smaller G W D steps E x it s y s' R). Qed.
(** With a smaller threshold a worse mean can become the record: thresholds 2/5, records 3 and then 7/2. *)
Theorem C32_small_threshold_refuted : exists s0 s1 s2 s3 s4 y1 y2 y3,
  let G := again_run [qc 2 5] in let W := script [qc 2 1; qc 4 1; qc 7 2; qc 7 2; qc 5 1] in
  (forall u : Qc, (u <= 0)%Qc -> (w_cdf W u <= qc 1 2)%Qc) /\
  new_state G W = Ok s0 /\ begin W s0 = (Ok tt, s1) /\ inner_routine_call G W [qc 1 1 : @num Qcnum] 1 None s1 = (Ok y1, s2) /\
  inner_routine_call G W [qc 2 1 : @num Qcnum] 2 None s2 = (Ok y2, s3) /\
  inner_routine_call G W [qc 3 1 : @num Qcnum] 3 None s3 = (Ok y3, s4) /\
  s_best s2 = qc 3 1 /\ s_best s3 = qc 7 2 /\ s_best s4 = qc 7 2.
Proof.
  set (G := again_run _). set (W := script _).
  assert (V : three_calls G W (fun _ s1 s2 s3 s4 => vec_is [s_best s2; s_best s3; s_best s4] [qc 3 1; qc 7 2; qc 7 2]) = true)
    by (vm_compute; reflexivity).
  apply three_calls_exists in V as (s0 & s1 & s2 & s3 & s4 & y1 & y2 & y3 & E0 & E1 & E2 & E3 & E4 & V).
  exists s0, s1, s2, s3, s4, y1, y2, y3. cbv zeta. apply vec_is_eq in V. injection V as ? ? ?.
  split; [|repeat split; assumption]. intros u U. change (w_cdf W u) with (linear_cdf u). unfold linear_cdf. cbv zeta.
  assert (P : (qc 1 2 + u * qc 1 10 <= qc 1 2)%Qc).
  { replace (qc 1 2) with (qc 1 2 + 0 * qc 1 10)%Qc at 2 by ring. apply Qcplus_le_compat; [apply Qcle_refl|].
    apply Qcmult_le_compat_r; [assumption|]. discriminate. }
  destruct (Qle_bool (qc 1 2 + u * qc 1 10)%Qc 0); [discriminate|].
  destruct (Qle_bool 1 (qc 1 2 + u * qc 1 10)%Qc) eqn:Q1; [|exact P].
  exfalso. apply Qle_bool_iff in Q1. pose proof (Qle_trans _ _ _ Q1 P) as K. now apply Qle_bool_iff in K.
Qed.
Print Assumptions C32_better_on_average.
Print Assumptions C32_small_threshold_refuted.

(** ** C33 *)
(** The values logged for one candidate, if the answers are all of status success. *)
Theorem C33_logged (N : Num) (S : NumSign N) (X : NumExact N) (G : settings) (W : world) steps x it s y s' :
  has_dsm G = true -> g_steps G = Some steps -> ready steps s -> inner_routine_call G W x it None s = (Ok y, s') ->
  exists new, history s' = history s ++ new /\ (all_success new -> s_fom_list s' = s_fom_list s ++ readings G [] (costs G new)).
Proof.
  intros D E R H. destruct (session S G W steps D E X x it s y s' R H) as (new & vs & ss & rest & k & ps & H1 & _ & _ & _ & _ & _ & _ & _ & _ & _ & _ & _ & H12 & _).
  eauto.
Qed.
(** the value logged for the k-th re-evaluation, over the reals *)
Theorem C33_formula (l : list R) (v : R) : l <> [] -> let k := INR (length l) in
  reading (N := Rnum) l v = ((k - 1) / k * average (N := Rnum) l + v / k)%R.
Proof. exact (reading_formula l v). Qed.
(** it is the mean of all values obtained only if the new value equals the mean of the earlier ones *)
Theorem C33_not_the_mean (l : list R) (v : R) : l <> [] ->
  (reading (N := Rnum) l v = average (N := Rnum) (l ++ [v]) <-> v = average (N := Rnum) l).
Proof. exact (reading_mean l v). Qed.
(** the candidates of C31_example: logged are 2, 4 | 1, 5, 2 | 7; the second value of each is not averaged at all, the
    third one of the second candidate is logged as 2 while the mean is 7/3 *)
Theorem C33_mean_refuted : exists s0 s1 s2 s3 s4 y1 y2 y3,
  let G := again_run [qc 2 5; qc 1 2] in let W := script [qc 2 1; qc 4 1; qc 1 1; qc 5 1; qc 1 1; qc 7 1] in
  new_state G W = Ok s0 /\ begin W s0 = (Ok tt, s1) /\ inner_routine_call G W [qc 1 1 : @num Qcnum] 1 None s1 = (Ok y1, s2) /\
  inner_routine_call G W [qc 2 1 : @num Qcnum] 2 None s2 = (Ok y2, s3) /\
  inner_routine_call G W [qc 3 1 : @num Qcnum] 3 None s3 = (Ok y3, s4) /\
  s_fom_list s4 = [qc 2 1; qc 4 1; qc 1 1; qc 5 1; qc 2 1; qc 7 1] /\
  costs G (history s4) = [qc 2 1; qc 4 1; qc 1 1; qc 5 1; qc 1 1; qc 7 1] /\ y2 = qc 7 3.
Proof.
  set (G := again_run _). set (W := script _).
  assert (V : three_calls G W (fun '(y1, y2, y3) s1 s2 s3 s4 => vec_is (s_fom_list s4) [qc 2 1; qc 4 1; qc 1 1; qc 5 1; qc 2 1; qc 7 1] &&
    vec_is (costs G (history s4)) [qc 2 1; qc 4 1; qc 1 1; qc 5 1; qc 1 1; qc 7 1] && vec_is [y2] [qc 7 3]) = true)
    by (vm_compute; reflexivity).
  apply three_calls_exists in V as (s0 & s1 & s2 & s3 & s4 & y1 & y2 & y3 & E0 & E1 & E2 & E3 & E4 & V).
  exists s0, s1, s2, s3, s4, y1, y2, y3. cbv zeta. repeat (apply andb_prop in V as [V ?]).
  repeat match goal with K : vec_is _ _ = true |- _ => apply vec_is_eq in K end.
  match goal with K : [y2] = _ |- _ => injection K as -> end. repeat split; assumption.
Qed.
Print Assumptions C33_logged.
Print Assumptions C33_formula.
Print Assumptions C33_not_the_mean.

(** ** C34 *)
(** Compensation before a super-iteration of dCRAB: the best value becomes the mean of num_average values of the current
    start point; 1e10 stands for each evaluation refused because the run was stopped. *)
Theorem C34_after_super_iteration (N : Num) (S : NumSign N) (X : NumExact N) (G : settings) (W : world) s s' :
  update_FoM G W s = (Ok tt, s') -> (0 < g_drift_avg G)%Z ->
  exists x0 new k, get_mean_value (s_controls s) = Ok x0 /\ history s' = history s ++ new /\
    (forall x d a, In (EvEval x d a) new -> x = x0) /\ calls new = length (costs G new) /\
    length (costs G new ++ repeat ceiling k) = Z.to_nat (g_drift_avg G) /\ (k <> 0 -> s_running s' = false) /\
    s_best s' = average (costs G new ++ repeat ceiling k).
Proof. exact (update_FoM_average S X G W s s'). Qed.
(** so if the run is still going on afterwards, the best value is the mean of exactly num_average evaluations *)
Corollary C34_fresh_mean (N : Num) (S : NumSign N) (X : NumExact N) (G : settings) (W : world) s s' :
  update_FoM G W s = (Ok tt, s') -> (0 < g_drift_avg G)%Z -> s_running s' = true ->
  exists new, history s' = history s ++ new /\ calls new = Z.to_nat (g_drift_avg G) /\ s_best s' = average (costs G new).
Proof.
  intros H K R. destruct (C34_after_super_iteration N S X G W s s' H K) as (x0 & new & k & _ & A & _ & C & L & Q & B).
  assert (k = 0) as -> by (destruct k; [reflexivity|]; rewrite Q in R; [discriminate|lia]).
  cbn [repeat] in L, B. rewrite app_nil_r in L, B. exists new. split; [exact A|]. split; [now rewrite C|exact B].
Qed.
(** Compensation in Nelder-Mead, for every function to be minimised: the vertices stay and all values are shifted by
    the same amount. *)
Theorem C34_simplex_shift (N : Num) (X : NumExact N) (G : settings) (W : world) func drift_min drift_avg L s L' s' :
  nm_drift G W func drift_min drift_avg L s = (Ok L', s') ->
  n_sim L' = n_sim L /\ exists delta, n_fsim L' = map (fun f => (f + delta)%num) (n_fsim L).
Proof. exact (drift_shifts X G W drift_min drift_avg func L s L' s'). Qed.
(** For the library's own function (without re-evaluation): either nothing happens or the shift is the difference between
    the mean of num_average new values of the best vertex and its old value, and this mean becomes the best value. *)
Theorem C34_simplex_values (N : Num) (S : NumSign N) (X : NumExact N) (G : settings) (W : world) drift_min drift_avg L s L' s' :
  g_steps G = None -> has_dsm G = true ->
  nm_drift G W (inner_routine_call G W) drift_min drift_avg L s = (Ok L', s') -> (0 < drift_avg)%Z ->
  exists new, history s' = history s ++ new /\
  ((L' = L /\ no_call new /\ s_best s' = s_best s) \/
   exists x0 prev k, hd_error (n_sim L) = Some x0 /\ hd_error (n_fsim L) = Some prev /\
    (forall x d a, In (EvEval x d a) new -> x = x0) /\ calls new = length (costs G new) /\
    length (costs G new ++ repeat ceiling k) = Z.to_nat drift_avg /\ (k <> 0 -> s_running s' = false) /\
    s_best s' = average (costs G new ++ repeat ceiling k) /\
    n_fsim L' = map (fun v => (v + (average (costs G new ++ repeat ceiling k) - prev))%num) (n_fsim L)).
Proof. exact (fun E D => drift_values S X G W drift_min drift_avg E D L s L' s'). Qed.
(** over the reals: order and differences of the simplex values are kept *)
Corollary C34_simplex_order (G : settings (N := Rnum)) (W : world) func drift_min drift_avg L s L' s' :
  nm_drift G W func drift_min drift_avg L s = (Ok L', s') ->
  length (n_fsim L') = length (n_fsim L) /\
  forall i j a b a' b', nth_error (n_fsim L) i = Some a -> nth_error (n_fsim L) j = Some b ->
    nth_error (n_fsim L') i = Some a' -> nth_error (n_fsim L') j = Some b' ->
    (a' - b' = a - b)%R /\ ((a' <= b')%R <-> (a <= b)%R).
Proof.
  intros H. destruct (C34_simplex_shift Rnum Rnum_exact G W func drift_min drift_avg L s L' s' H) as (_ & d & E).
  rewrite E. split; [apply map_length|]. intros i j a b a' b' A B A' B'. rewrite nth_error_map, A in A'. rewrite nth_error_map, B in B'.
  injection A' as <-. injection B' as <-. cbn. split; [ring|]. split; intros K; lra.
Qed.

(** dCRAB with compensation by two evaluations after a super-iteration, and at most [n] evaluations in total *)
Definition drift_run (n : Z) : settings (N := Qcnum) :=
  pulse_run (ex_plain 1) <|g_drift_si := true|> <|g_drift_avg := 2%Z|> <|g_max_total := n|>.
Definition final_is (v : Qc) (s : st (N := Qcnum)) : bool :=
  existsb (fun e : event (N := Qcnum) => match e with EvFinal f => vec_is [f_fom f] [v] | _ => false end) (history s).
Lemma final_is_spec v s : final_is v s = true -> exists f, In (EvFinal f) (history s) /\ f_fom f = (v : @num Qcnum).
Proof.
  unfold final_is. rewrite existsb_exists. intros ([| | | | | |f|] & HI & H); try discriminate H.
  apply vec_is_eq in H. injection H as H. eauto.
Qed.
Definition some_value (v : Qc) (s : st (N := Qcnum)) : bool := existsb (fun w => vec_is [w] [v]) (costs (drift_run 7) (history s)).
(** Non-vacuity: the super-iteration is completed with the compensation, 14 evaluations. *)
Example C34_example : exists s, optimise (drift_run 100) pulse_world = Ok (Ok tt, s) /\ calls (history s) = 14 /\
  exists f, In (EvFinal f) (history s) /\ f_fom f = qc 1 144.
Proof.
  assert (V : run_ok (drift_run 100) pulse_world (fun r s => fine_end r && Nat.eqb (calls (history s)) 14 && final_is (qc 1 144) s) = true)
    by (vm_compute; reflexivity).
  apply run_ok_exists in V as (r & s & E & V). apply andb_prop in V as [V V3]. apply andb_prop in V as [V1 V2].
  destruct r as [[]|]; [|discriminate V1]. exists s. split; [exact E|]. split; [now apply Nat.eqb_eq|]. now apply final_is_spec.
Qed.
(** The limit of 7 evaluations is reached during the compensation: the value 1/144 was obtained twice, the reported best
    one is (1/144 + 1e10) / 2. *)
Theorem C34_stopped_refuted : exists s f, optimise (drift_run 7) pulse_world = Ok (Ok tt, s) /\
  In (qc 1 144 : @num Qcnum) (costs (drift_run 7) (history s)) /\ In (EvFinal f) (history s) /\ f_fom f = qc 1440000000001 288.
Proof.
  assert (V : run_ok (drift_run 7) pulse_world (fun r s => fine_end r && some_value (qc 1 144) s && final_is (qc 1440000000001 288) s) = true)
    by (vm_compute; reflexivity).
  apply run_ok_exists in V as (r & s & E & V). apply andb_prop in V as [V V3]. apply andb_prop in V as [V1 V2].
  destruct r as [[]|]; [|discriminate V1]. apply final_is_spec in V3 as (f & F1 & F2). exists s, f. split; [exact E|].
  split; [|auto]. apply existsb_exists in V2 as (w & I & K). apply vec_is_eq in K. injection K as <-. exact I.
Qed.
(** num_average = 0 ends every such run with a division by zero, whatever the values *)
Theorem C34_no_average_refuted (N : Num) (G : settings) (W : world) s r s' : g_drift_avg G = 0%Z -> update_FoM G W s = (r, s') -> r <> Ok tt.
Proof. exact (no_average G W s r s'). Qed.
(** Non-vacuity for Nelder-Mead: the function grows by 1 with every evaluation; after two evaluations of the best vertex
    the values of the simplex are shifted. *)
Definition growing_world : world (N := Qcnum) :=
  answering (N := Qcnum) (fun n v => says ((v - of_Z 2) * (v - of_Z 2) + of_Z (Z.of_nat n))%num) (ex_world []).
Definition small_simplex : nm (N := Qcnum) := mk_nm [[qc 1 1 : @num Qcnum]; [qc 3 1 : @num Qcnum]] [qc 1 1 : @num Qcnum; qc 2 1 : @num Qcnum] 2 1 0%Z.
Definition drifted (P : nm (N := Qcnum) -> st (N := Qcnum) -> bool) : bool :=
  match new_state square_run growing_world with
  | Err _ => false
  | Ok s0 =>
      match begin growing_world s0 with
      | (Ok tt, s1) =>
          match nm_drift square_run growing_world (inner_routine_call square_run growing_world) (qc 1 2 : @num Qcnum) 2 small_simplex s1 with
          | (Ok L, s2) => P L s2
          | _ => false
          end
      | _ => false
      end
  end.
Example C34_simplex_example : exists s0 s1 L s2, new_state square_run growing_world = Ok s0 /\ begin growing_world s0 = (Ok tt, s1) /\
  nm_drift square_run growing_world (inner_routine_call square_run growing_world) (qc 1 2 : @num Qcnum) 2 small_simplex s1 = (Ok L, s2) /\
  n_fsim small_simplex = [qc 1 1; qc 2 1] /\ costs square_run (history s2) = [qc 2 1; qc 3 1] /\
  n_fsim L = [qc 5 2; qc 7 2] /\ s_best s2 = qc 5 2.
Proof.
  assert (V : drifted (fun L s => vec_is (costs square_run (history s)) [qc 2 1; qc 3 1] && vec_is (n_fsim L) [qc 5 2; qc 7 2] &&
    vec_is [s_best s] [qc 5 2]) = true) by (vm_compute; reflexivity).
  unfold drifted in V. destruct (new_state _ _) as [s0|] eqn:E0; [|discriminate V].
  destruct (begin _ s0) as [[[]|] s1] eqn:E1; [|discriminate V].
  destruct (nm_drift _ _ _ _ _ _ _) as [[L|] s2] eqn:E2; [|discriminate V].
  repeat (apply andb_prop in V as [V ?]). repeat match goal with K : vec_is _ _ = true |- _ => apply vec_is_eq in K end.
  match goal with K : [s_best _] = _ |- _ => injection K as ? end.
  exists s0, s1, L, s2. repeat (split; [first [assumption | reflexivity]|]). assumption.
Qed.
Print Assumptions C34_after_super_iteration.
Print Assumptions C34_simplex_shift.
Print Assumptions C34_simplex_values.
Print Assumptions C34_simplex_order.
