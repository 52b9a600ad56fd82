(** * C88 for whole searches. *)
From Coq Require Import String ZArith List Bool Lia.
From Flocq Require Import BinarySingleNaN.
From RecordUpdate Require Import RecordSet.
From Verif Require Import Num NumFacts Py PyFacts ModelPulse ModelControls ModelLinalg ModelState ModelSearch ModelRun ModelCma64 ModelCma64Run
  SpecControls SpecRun SpecSearch SpecCmaRun SpecCma64 ProofBase ProofNM ProofCma ProofCmaRun PropCma64 ExampleControls ExampleRun ExampleSearch.
Import ListNotations RecordSetNotations.
Open Scope nat_scope.
Open Scope list_scope.

(** A search with CMA-ES where some width is zero: the vectors evaluated after the first generation have one entry per parameter, none of them finite.
    Only the first [l_pop] evaluations of the search can have any use. *)
Theorem C88_run K eigh fexp population G (W : world (N := F64)) func log (x0 sg : list f64) k s r s' :
  observes func log -> draws_nothing func ->
  pos (r_cs K /! r_damps K) -> pos (r_chi K) -> fexp f64_inf = f64_inf -> fexp f64_nan = f64_nan ->
  length sg = length x0 -> k < length x0 -> nth k sg (fz 0) = B754_zero false \/ nth k sg (fz 0) = B754_zero true ->
  run_cma G (code_world64 K eigh fexp population W) func population x0 sg s = (Ok r, s') ->
  exists L, log s' = log s ++ L /\
    forall j x y, nth_error L j = Some (x, y) -> match population with Some p => p | None => w_pop W (length x0) end <= j ->
      length x = length x0 /\ forall v, In v x -> is_finite v = false.
Proof.
  intros OB DN H1 H2 H3 H4 LS HK Z H.
  assert (P : 2 <= match population with Some p => p | None => w_pop W (length x0) end).
  { pose proof H as H'. unfold run_cma in H'. apply bind_ok in H' as ([] & s1 & _ & H'). apply bind_ok in H' as ([] & s2 & _ & H'). cbv zeta in H'.
    match type of H' with (if ?b then _ else _) _ = _ => destruct b eqn:E end; [discriminate|]. apply Nat.ltb_ge in E. exact E. }
  destruct (run_chain G (code_world64 K eigh fexp population W) func x0 sg log OB DN _ _ _ _ H) as (L & E & C & _).
  exists L. split; [exact E|]. intros j x y J PJ. destruct (C j x y J) as (c & EC & EX). cbn [app] in EC, EX.
  assert (LJ : length (firstn j L) = j).
  { apply firstn_length_le. apply Nat.lt_le_incl. apply nth_error_Some. intros Q. pose proof (eq_trans (eq_sym Q) J). discriminate. }
  assert (EX' : x = c).
  { destruct (firstn j L) as [|e l]; [cbn in LJ; lia|exact EX]. }
  rewrite EX'. change (cma_oracle64 K eigh fexp population W x0 sg (firstn j L) (drawn (code_world64 K eigh fexp population W) x0 (k_randn (s_cnt s) + j * length x0)) = Ok c) in EC.
  unfold cma_oracle64 in EC. cbv zeta in EC.
  refine (C88_not_finite _ _ _ _ _ _ _ _ k _ _ _ H1 H2 H3 H4 LS HK Z _ _ EC); [lia|exact (eq_ind_r (fun m => _ <= m) PJ LJ)].
Qed.

(** What the user gets to see of such a vector: every parameter is at one of its limits, or NaN. *)
Theorem C88_delivered pl tl rl c0 c (x : list f64) c' d i f v :
  new_controls (N := F64) pl tl rl = Ok c0 -> Forall plain_basis pl -> reachable c0 c -> get_controls_lists (N := F64) x c = Ok (c', d) ->
  nth_error rl i = Some f -> nth_error (d_parameters d) i = Some v -> is_finite (rf_lower f) = true -> is_finite (rf_upper f) = true ->
  (forall u, In u x -> is_finite u = false) -> v = rf_lower f \/ v = rf_upper f \/ v = f64_nan.
Proof.
  intros HC PB RC HG Hf Hv FL FU NF. destruct (delivered_parameter _ _ _ _ _ _ _ _ _ _ _ HC PB RC HG Hf Hv) as (y & Hy & E & _).
  pose proof (NF _ (nth_error_In _ _ Hy)) as Q. rewrite E. clear - FL FU Q. revert FL FU. generalize (rf_lower f) (rf_upper f). intros a b FL FU.
  destruct y as [sy|[]| |sy my ey By]; try discriminate Q; destruct a as [sa|sa| |sa ma ea Ba]; try discriminate FL; destruct b as [sb|sb| |sb mb eb Bb]; try discriminate FU;
    unfold npmin, npmax; repeat match goal with |- context [if ?c then _ else _] => destruct c eqn:? end; auto; try discriminate.
Qed.
Lemma zero_times (x : f64) s : is_finite x = true -> exists t, B754_zero s *! x = B754_zero t.
Proof. destruct x as [t|t| |t m e B]; intros H; try discriminate; eexists; reflexivity. Qed.
Lemma fsum_zero n (f : nat -> f64) : (forall j, j < n -> exists t, f j = B754_zero t) -> fsum n f = B754_zero false.
Proof.
  intros H. induction n as [|n IH]; [reflexivity|]. cbn [fsum]. rewrite IH by (intros; apply H; lia). destruct (H n) as [t ->]; [lia|]. destruct t; reflexivity.
Qed.
Lemma one_zero : fz 1 *! B754_zero false = B754_zero false. Proof. vm_compute. reflexivity. Qed.
Lemma one_zero' t : fz 1 *! B754_zero t = B754_zero t. Proof. destruct t; vm_compute; reflexivity. Qed.

(** In the first generation the parameter itself stays at its start value (up to the sign of a zero), if the products of the widths with the normal numbers
    do not overflow. *)
Theorem C88_first_generation n l_pop K eigh fexp argsort (x0 sg : list f64) k hist z x :
  length sg = n -> k < n -> nth k sg (fz 0) = B754_zero false \/ nth k sg (fz 0) = B754_zero true -> length hist < l_pop ->
  is_finite (nth k z (fz 0)) = true -> (forall j, j < n -> is_finite (nth j sg (fz 0) *! nth j z (fz 0)) = true) -> is_finite (nth k x0 (fz 0)) = true ->
  candidate64 n (l_pop / 2) l_pop K eigh fexp argsort x0 sg hist z = Ok x ->
  nth k x (fz 0) = nth k x0 (fz 0) \/ nth k x0 (fz 0) = B754_zero true /\ nth k x (fz 0) = B754_zero false.
Proof.
  intros L HK Z LH FZ FN FX H. unfold candidate64 in H. rewrite (Nat.div_small (length hist) l_pop LH) in H. cbn [after_generations64 rbind] in H.
  apply (f_equal (fun r => match r with Ok l => nth k l (fz 0) | Err _ => fz 0 end)) in H. cbv beta iota in H. rewrite <- H.
  rewrite (nth_indep _ (fz 0) (cma_sample64 n (cma_start64 (array64 x0) (widths64 n sg)) (array64 z) n)) by (now rewrite map_length, seq_length).
  rewrite map_nth, seq_nth by exact HK. cbn [Nat.add]. unfold cma_sample64. cbn [cma_start64 f_mean f_sigma f_B f_D]. unfold fapply, widths64, array64. rewrite L, Nat.eqb_refl.
  rewrite fsum_zero.
  - rewrite one_zero. destruct (nth k x0 (fz 0)) as [s|s| |s m e B]; try discriminate FX; [destruct s; [right; now split|now left]|left; reflexivity].
  - intros j J. unfold eye64. destruct (Nat.eqb_spec k j) as [<-|N].
    + destruct Z as [-> | ->]; [destruct (zero_times _ false FZ) as [t ->]|destruct (zero_times _ true FZ) as [t ->]]; rewrite one_zero'; now exists t.
    + apply (zero_times _ false). now apply FN.
Qed.
(** ** A search for the minimum of the sum of two parameters, the second with width zero, two candidates per generation, max_eval = 3: two generations.
    The third and fourth evaluation are not finite. *)
Definition zero_run : settings (N := F64) := ex_run (N := F64) KDirect <|g_method := MCMAES (Some 2)|> <|g_max_eval := 3%Z|>.
Definition zero_world : world (N := F64) := ex_world (N := F64) [] <|w_randn := fun _ => fz 1 /! fz 4|>.
Definition zero_sum (x : list f64) : f64 := nth 0 x (fz 0) +! nth 1 x (fz 0).
Definition zero_search (P : st (N := F64) -> st (N := F64) -> bool) : bool :=
  match new_state (N := F64) zero_run zero_world with
  | Ok s => match run_cma zero_run (code_world64 two_rates two_eigh two_exp (Some 2) zero_world) (toy (N := F64) zero_sum) (Some 2) [fz 1; fz 2] [fz 1; fz 0] s with
            | (Ok r, s') => P s s' | _ => false end
  | Err _ => false
  end.
Definition four (s s' : st (N := F64)) : bool :=
  Nat.eqb (length (toy_log s)) 0 && Nat.eqb (length (toy_log s')) 4 && forallb (fun p => forallb is_finite (fst p)) (firstn 2 (toy_log s')).
Lemma toy_quiet (f : list f64 -> f64) : draws_nothing (toy (N := F64) f).
Proof. intros x it v s y s' H. apply toy_ok in H as [_ ->]. reflexivity. Qed.
Example C88_run_case : exists s r s', new_state (N := F64) zero_run zero_world = Ok s /\
  run_cma zero_run (code_world64 two_rates two_eigh two_exp (Some 2) zero_world) (toy (N := F64) zero_sum) (Some 2) [fz 1; fz 2] [fz 1; fz 0] s = (Ok r, s') /\
  toy_log s = [] /\ length (toy_log s') = 4 /\ forallb (fun p => forallb is_finite (fst p)) (firstn 2 (toy_log s')) = true /\
  observes (toy (N := F64) zero_sum) toy_log /\ draws_nothing (toy (N := F64) zero_sum).
Proof.
  assert (V : zero_search four = true) by (vm_compute; reflexivity). unfold zero_search in V.
  destruct (new_state (N := F64) zero_run zero_world) as [s|]; [|discriminate].
  destruct (run_cma _ _ _ _ _ _ s) as [[r|] s'] eqn:E; [|discriminate]. unfold four in V.
  apply andb_prop in V as [V V3]. apply andb_prop in V as [V1 V2]. apply Nat.eqb_eq in V1, V2.
  exists s, r, s'. split; [reflexivity|]. split; [exact E|]. split; [now apply length_zero_iff_nil|]. split; [exact V2|]. split; [exact V3|].
  split; [apply toy_observes|apply toy_quiet].
Qed.

(** all three outcomes *)
Example C88_delivered_case : exists c0 c c' d,
  new_controls (N := F64) [ex_plain 1] [ex_time 1 0 2 false] [ex_param 0 2; ex_param 0 2; ex_param 0 2] = Ok c0 /\ reachable c0 c /\
  get_controls_lists (N := F64) [f64_nan; f64_inf; B754_infinity true; f64_nan] c = Ok (c', d) /\ d_parameters d = [f64_of_Z 2; f64_of_Z 0; f64_nan].
Proof.
  destruct (case_ok_exists (N := F64) [ex_plain 1] [ex_time 1 0 2 false] [ex_param 0 2; ex_param 0 2; ex_param 0 2] []
    [f64_nan; f64_inf; B754_infinity true; f64_nan] (fun _ _ d => same_list (d_parameters d) [f64_of_Z 2; f64_of_Z 0; f64_nan]))
    as (c0 & c & c' & d & H1 & H2 & _ & H3 & H4).
  { vm_compute. reflexivity. }
  exists c0, c, c', d. repeat (split; [assumption|]). now apply same_list_eq.
Qed.

(** The second candidate of [C88_case]: the first parameter moves, the second keeps its start value 2. *)
Example C88_first_generation_case : exists x, two_search [fz 1; fz 0] (firstn 1 first_two) [fz 1 /! fz 4; fz 1] = Ok x /\
  x = [fz 1 +! fz 1 /! fz 4; fz 2] /\ forall j, j < 2 -> is_finite (nth j [fz 1; fz 0] (fz 0) *! nth j [fz 1 /! fz 4; fz 1] (fz 0)) = true.
Proof.
  eexists. split; [exact (proj1 (proj2 (proj2 (proj2 (proj2 (proj2 C88_case))))))|]. split; [reflexivity|].
  intros [|[|j]] J; [vm_compute; reflexivity|vm_compute; reflexivity|lia].
Qed.

Print Assumptions C88_run.
Print Assumptions C88_delivered.
Print Assumptions C88_first_generation.
