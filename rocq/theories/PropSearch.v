(** Theorems on the Nelder-Mead search: C38, C39, C40, C41. *)
From Coq Require Import String ZArith List Bool Lia Reals Lra QArith Qcanon Permutation Sorted.
From Flocq Require Import BinarySingleNaN Core.Raux.
From RecordUpdate Require Import RecordSet.
From Verif Require Import Num NumFacts NumQ Py PyFacts ModelPulse ModelControls ModelLinalg ModelState ModelSearch ModelRun
  SpecControls SpecRun SpecSearch ProofNM ProofSearch ProofNMBound ProofNMValues ProofSearchCount ProofSearchMore ProofSearchRun ProofSort
  ExampleControls ExampleRun ExampleSearch PropSuper PropDirect.
Import ListNotations RecordSetNotations.
Open Scope nat_scope.
Open Scope list_scope.
Open Scope bool_scope.

(** ** C38 *)
(** n+1 vertices with n coordinates and n+1 values at every loop head, whatever the function answers or does. *)
Theorem C38_shape (N : Num) (G : settings) (W : world) func adaptive x0 sim drift_min drift_avg s0 L s :
  sorts W -> proper_start x0 sim -> boundary G W func adaptive x0 sim drift_min drift_avg s0 L s ->
  simplex_of (length x0) (n_sim L) (n_fsim L).
Proof.
  intros SO PS B.
  apply (boundary_sane G W SO func adaptive x0 sim drift_min drift_avg PS (fun _ => True) s0 L s); auto.
Qed.
(** The values increase: without drift compensation for every function that never answers NaN ... *)
Theorem C38_sorted (N : Num) (G : settings) (W : world) func adaptive x0 sim drift_min drift_avg s0 L s :
  sorts W -> proper_start x0 sim -> answers_numbers func -> no_drift drift_min ->
  boundary G W func adaptive x0 sim drift_min drift_avg s0 L s -> increasing (n_fsim L).
Proof.
  intros SO PS AN ND B.
  apply (boundary_sane G W SO func adaptive x0 sim drift_min drift_avg PS (fun y => nisnan y = false) s0 L s); auto.
  intros x it s1 y s2 H. exact (AN _ _ _ _ _ _ H).
Qed.
(** ... and with drift compensation over the real numbers. *)
Theorem C38_sorted_drift (G : settings (N := Rnum)) (W : world) func adaptive x0 sim drift_min drift_avg s0 L s :
  sorts W -> proper_start x0 sim -> boundary G W func adaptive x0 sim drift_min drift_avg s0 L s ->
  StronglySorted Rle (n_fsim L).
Proof. intros SO PS B. apply (proj1 (sorted_R _)). exact (boundary_sorted_R G W SO func adaptive x0 sim drift_min drift_avg s0 L s PS B). Qed.
(** For a function that computes [f], every stored value is the value of [f] at its vertex, unless Ctrl-C is pressed or
    drift compensation is used. *)
Theorem C38_values (N : Num) (G : settings) (W : world) func f adaptive x0 sim drift_min drift_avg s0 L s :
  sorts W -> proper_start x0 sim -> computes func f -> leaves_flag func -> no_sigint W -> no_drift drift_min ->
  boundary G W func adaptive x0 sim drift_min drift_avg s0 L s -> n_fsim L = map f (n_sim L).
Proof.
  intros SO PS CF LF NSI ND B.
  destruct (boundary_right G W SO func adaptive x0 sim drift_min drift_avg PS f s0 L s NSI LF CF ND B) as [[R _ V] K].
  unfold right, stored in K. clear - R V K. revert R V K. generalize (length x0) as n. generalize (n_fsim L). induction (n_sim L) as [|x xs IH]; intros ys n R V K.
  - discriminate.
  - destruct ys as [|y ys]; [discriminate|]. cbn. f_equal; [apply K; now left|]. destruct n as [|n].
    + destruct xs, ys; try discriminate. reflexivity.
    + apply (IH ys n); cbn in *; [lia|lia|]. intros a b I. apply K. now right.
Qed.

(** Two loop heads of a search for the minimum of (x-2)^2 in exact arithmetic, started from the simplex {0, 1}. *)
Notation from01 := (Some [[qc 0 1]; [qc 1 1]] : option (list (vec (N := Qcnum)))).
Lemma square_sorts : sorts square_world. Proof. apply (argsort_sorts Qcnum_order). reflexivity. Qed.
Lemma square_proper : proper_start (N := Qcnum) [qc 0 1] from01.
Proof. split; [reflexivity|]. intros x [<-|[<-|[]]]; reflexivity. Qed.
Example C38_example : exists s0 L s, new_state square_run square_world = Ok s0 /\
  boundary square_run square_world (toy (N := Qcnum) square) false [qc 0 1] from01 (g_drift_min square_run) 1 s0 L s /\
  n_sim L = ([[qc 2 1]; [qc 3 2]] : list (vec (N := Qcnum))) /\ n_fsim L = ([qc 0 1; qc 1 4] : list (@num Qcnum)) /\ n_calls L = 6 /\
  sorts square_world /\ proper_start (N := Qcnum) [qc 0 1] from01 /\ computes (toy (N := Qcnum) square) square /\
  leaves_flag (toy (N := Qcnum) square) /\ answers_numbers (toy (N := Qcnum) square) /\ no_sigint square_world /\ no_drift (g_drift_min square_run).
Proof.
  assert (V : head_of (N := Qcnum) square_run square_world square [qc 0 1] from01 2
    (fun L => Qc_list_eqb (n_sim L) [[qc 2 1]; [qc 3 2]] && vec_is (n_fsim L) [qc 0 1; qc 1 4] && Nat.eqb (n_calls L) 6) = true) by (vm_compute; reflexivity).
  apply head_of_exists in V as (s0 & L & s & E & B & V). apply andb_prop in V as [V V3]. apply andb_prop in V as [V1 V2].
  apply Qc_list_eqb_eq in V1. apply vec_is_eq in V2. apply Nat.eqb_eq in V3.
  exists s0, L, s. do 5 (split; [assumption|]). split; [apply square_sorts|]. split; [apply square_proper|].
  split; [apply toy_computes|]. split; [apply toy_leaves|]. split; [apply toy_numbers; reflexivity|]. split; [intros n; discriminate|reflexivity].
Qed.
(** After Ctrl-C during a shrink the simplex contains a vertex with the value of another point. *)
Definition bump (x : list Qc) : Qc := match x with a :: _ => (a * (qc 4 1 - a) * (a * (qc 4 1 - a)) + a)%Qc | [] => qc 0 1 end.
Notation from04 := (Some [[qc 0 1]; [qc 4 1]] : option (list (vec (N := Qcnum)))).
Theorem C38_stale_refuted : exists s0 L s, new_state square_run (interfering 3 ASigint square_world) = Ok s0 /\
  boundary square_run (interfering 3 ASigint square_world) (toy (N := Qcnum) bump) false [qc 0 1] from04 (g_drift_min square_run) 1 s0 L s /\
  n_sim L = ([[qc 0 1]; [qc 2 1]] : list (vec (N := Qcnum))) /\ n_fsim L = ([bump [qc 0 1]; bump [qc 4 1]] : list (@num Qcnum)) /\
  bump [qc 2 1] <> bump [qc 4 1].
Proof.
  assert (V : head_of (N := Qcnum) square_run (interfering 3 ASigint square_world) bump [qc 0 1] from04 1
    (fun L => Qc_list_eqb (n_sim L) [[qc 0 1]; [qc 2 1]] && vec_is (n_fsim L) [bump [qc 0 1]; bump [qc 4 1]]) = true) by (vm_compute; reflexivity).
  apply head_of_exists in V as (s0 & L & s & E & B & V). apply andb_prop in V as [V1 V2].
  apply Qc_list_eqb_eq in V1. apply vec_is_eq in V2.
  exists s0, L, s. repeat (split; [assumption|]). intros D. apply (f_equal this) in D. vm_compute in D. discriminate.
Qed.
(** In binary64 the correction of the drift compensation can break the order of the values. *)
Example C38_drift_rounding :
  let f0 := z (2 ^ 54 + 4) in let prev := z 2 in let f1 := z 2 in
  nleb (Num := F64) prev f1 = true /\ nltb (Num := F64) (nadd (Num := F64) f1 (nsub (Num := F64) f0 prev)) f0 = true.
Proof. vm_compute. split; reflexivity. Qed.
Print Assumptions C38_shape.
Print Assumptions C38_sorted.
Print Assumptions C38_sorted_drift.
Print Assumptions C38_values.
Print Assumptions C38_stale_refuted.

(** ** C39 *)
(** [log] records the calls of the function.  If no answer of the search was NaN and nobody pressed Ctrl-C, the returned
    value is the answer to the call at the returned point and no answer of the search was smaller. *)
Theorem C39_best_seen (N : Num) (O : NumOrder N) (G : settings) (W : world) func log adaptive x0 sim drift_min drift_avg s0 r s' :
  sorts W -> proper_start x0 sim -> observes func log -> leaves_flag func -> no_sigint W -> no_drift drift_min ->
  run_nm G W func adaptive x0 sim drift_min drift_avg s0 = (Ok r, s') ->
  (forall new, log s' = log s0 ++ new -> nan_free (map snd new)) ->
  exists new, log s' = log s0 ++ new /\ r_calls r = length new /\
    In (r_x r, r_fval r) new /\ forall x y, In (x, y) new -> (r_fval r <=? y)%num = true.
Proof.
  intros SO PS OB LF NSI ND H K.
  destruct (observed_result O G W SO func adaptive x0 sim drift_min drift_avg PS log s0 OB LF NSI ND r s' H K) as (new & A & B & C & D).
  exists new. repeat (split; [assumption|]). intros x y I. exact (D (x, y) I).
Qed.
(** The same of the searches that dCRAB and direct runs make, for the user's figure of merit: if the run has not been
    stopped when the search ends, the search returns the best of the costs it has seen. *)
Theorem C39_run (N : Num) (O : NumOrder N) (S : NumSign N) (G : settings) (W : world) adaptive x0 sim s0 r s' :
  has_dsm G = true -> g_cbs_n G = None -> plain_run G -> sorts W -> proper_start x0 sim ->
  run_nm G W (inner_routine_call G W) adaptive x0 sim (g_drift_min G) (g_drift_avg G) s0 = (Ok r, s') ->
  s_running s' = true -> nan_free (costs G (history s')) ->
  exists new, answers G (history s') = answers G (history s0) ++ new /\ r_calls r = length new /\
    In (r_x r, r_fval r) new /\ forall x y, In (x, y) new -> (r_fval r <=? y)%num = true.
Proof.
  intros HD HC PR SO PS H R NF.
  destruct (run_search O S G W HD HC PR adaptive x0 sim (g_drift_avg G) s0 r s' SO PS H R NF) as (new & A & B & C & D).
  exists new. repeat (split; [assumption|]). intros x y I. exact (D (x, y) I).
Qed.
(** From one loop head to the next the best stored value does not increase. *)
Theorem C39_never_worse (N : Num) (O : NumOrder N) (G : settings) (W : world) func log adaptive x0 sim drift_min drift_avg s0
  L s s1 rho chi psi sigma L' s2 f f' :
  sorts W -> proper_start x0 sim -> observes func log -> leaves_flag func -> no_sigint W -> no_drift drift_min ->
  boundary G W func adaptive x0 sim drift_min drift_avg s0 L s ->
  is_conv G W s = (Ok false, s1) -> nm_parameters adaptive (length x0) = Ok (rho, chi, psi, sigma) ->
  nm_iter G W func rho chi psi sigma (length x0) drift_min drift_avg L s1 = (Ok (Goes L'), s2) ->
  (forall new, log s2 = log s0 ++ new -> nan_free (map snd new)) ->
  hd_error (n_fsim L) = Some f -> hd_error (n_fsim L') = Some f' -> (f' <=? f)%num = true.
Proof.
  intros SO PS OB LF NSI ND. exact (next_not_worse O G W SO func adaptive x0 sim drift_min drift_avg PS log s0 OB LF NSI ND L s s1 rho chi psi sigma L' s2 f f').
Qed.

Definition result_is (v : Qc) (x : list Qc) (n : nat) (log : list (list Qc * Qc)) (s : st (N := Qcnum)) (r : dsm_result (N := Qcnum)) (s' : st (N := Qcnum)) : bool :=
  vec_is (r_fval r :: r_x r) (v :: x) && Nat.eqb (r_calls r) n && pairs_are (toy_log s) [] && pairs_are (toy_log s') log.
Lemma result_is_eq v x n log s r s' : result_is v x n log s r s' = true ->
  r_fval r = (v : @num Qcnum) /\ r_x r = (x : vec (N := Qcnum)) /\ r_calls r = n /\ toy_log s = [] /\ toy_log s' = (log : list (vec (N := Qcnum) * @num Qcnum)).
Proof.
  unfold result_is. intros H. repeat (apply andb_prop in H as [H ?]). apply vec_is_eq in H. injection H as -> ->.
  repeat match goal with H : pairs_are _ _ = true |- _ => apply pairs_are_eq in H end. repeat split; try assumption. now apply Nat.eqb_eq.
Qed.
Example C39_example : exists s r s', new_state square_run square_world = Ok s /\
  run_nm square_run square_world (toy (N := Qcnum) square) false [qc 0 1] from01 (g_drift_min square_run) (g_drift_avg square_run) s = (Ok r, s') /\
  r_fval r = (qc 0 1 : @num Qcnum) /\ r_x r = ([qc 2 1] : vec (N := Qcnum)) /\ r_calls r = 6 /\ toy_log s = [] /\
  toy_log s' = ([([qc 0 1], qc 4 1); ([qc 1 1], qc 1 1); ([qc 2 1], qc 0 1); ([qc 3 1], qc 1 1); ([qc 3 1], qc 1 1); ([qc 3 2], qc 1 4)] : list (vec (N := Qcnum) * @num Qcnum)) /\
  observes (toy (N := Qcnum) square) toy_log.
Proof.
  assert (V : search (N := Qcnum) square_run square_world square [qc 0 1] from01 (result_is (qc 0 1) [qc 2 1] 6
    [([qc 0 1], qc 4 1); ([qc 1 1], qc 1 1); ([qc 2 1], qc 0 1); ([qc 3 1], qc 1 1); ([qc 3 1], qc 1 1); ([qc 3 2], qc 1 4)]) = true) by (vm_compute; reflexivity).
  apply search_exists in V as (s & r & s' & E & H & V). apply result_is_eq in V as (V1 & V2 & V3 & V4 & V5).
  exists s, r, s'. repeat (split; [assumption|]). apply toy_observes.
Qed.
(** The figure of merit (x-2)^2 as the user's function, searched with the routine of the optimiser. *)
Definition real_search (P : st (N := Qcnum) -> dsm_result (N := Qcnum) -> st (N := Qcnum) -> bool) : bool :=
  match new_state square_run square_world with
  | Ok s => match run_nm square_run square_world (inner_routine_call square_run square_world) false [qc 0 1] from01 (g_drift_min square_run) (g_drift_avg square_run) s with
            | (Ok r, s') => P s r s' | _ => false end
  | Err _ => false
  end.
Lemma real_search_exists P : real_search P = true -> exists s r s', new_state square_run square_world = Ok s /\
  run_nm square_run square_world (inner_routine_call square_run square_world) false [qc 0 1] from01 (g_drift_min square_run) (g_drift_avg square_run) s = (Ok r, s') /\ P s r s' = true.
Proof.
  unfold real_search. destruct (new_state square_run square_world) as [s|]; [|discriminate].
  destruct (run_nm _ _ _ _ _ _ _ _ s) as [[r|] s'] eqn:E; [|discriminate]. eauto 10.
Qed.
Example C39_run_example : exists s r s', has_dsm square_run = true /\ g_cbs_n square_run = None /\ plain_run square_run /\
  new_state square_run square_world = Ok s /\
  run_nm square_run square_world (inner_routine_call square_run square_world) false [qc 0 1] from01 (g_drift_min square_run) (g_drift_avg square_run) s = (Ok r, s') /\
  s_running s' = true /\ answers square_run (history s) = [] /\ length (answers square_run (history s')) = 6 /\
  r_fval r = (qc 0 1 : @num Qcnum) /\ r_x r = ([qc 2 1] : vec (N := Qcnum)).
Proof.
  assert (V : real_search (fun s r s' => s_running s' && pairs_are (answers square_run (history s)) [] && Nat.eqb (length (answers square_run (history s'))) 6 &&
    vec_is (r_fval r :: r_x r) [qc 0 1; qc 2 1]) = true) by (vm_compute; reflexivity).
  apply real_search_exists in V as (s & r & s' & E & H & V). apply andb_prop in V as [V V4]. apply andb_prop in V as [V V3]. apply andb_prop in V as [V1 V2].
  apply vec_is_eq in V4. injection V4 as V4 V5. apply Nat.eqb_eq in V3. apply pairs_are_eq in V2.
  exists s, r, s'. split; [reflexivity|]. split; [reflexivity|]. split; [repeat split|]. now repeat (split; [assumption|]).
Qed.
(** Ctrl-C in the middle of an iteration: the best point seen, 2 with value 0, is dropped; returned is 1 with value 1. *)
Theorem C39_discarded_refuted : exists s r s', new_state square_run (interfering 2 ASigint square_world) = Ok s /\
  run_nm square_run (interfering 2 ASigint square_world) (toy (N := Qcnum) square) false [qc 0 1] from01 (g_drift_min square_run) (g_drift_avg square_run) s = (Ok r, s') /\
  r_fval r = (qc 1 1 : @num Qcnum) /\ r_x r = ([qc 1 1] : vec (N := Qcnum)) /\
  In ([qc 2 1] : vec (N := Qcnum), qc 0 1 : @num Qcnum) (toy_log s').
Proof.
  assert (V : search (N := Qcnum) square_run (interfering 2 ASigint square_world) square [qc 0 1] from01 (result_is (qc 1 1) [qc 1 1] 3
    [([qc 0 1], qc 4 1); ([qc 1 1], qc 1 1); ([qc 2 1], qc 0 1)]) = true) by (vm_compute; reflexivity).
  apply search_exists in V as (s & r & s' & E & H & V). apply result_is_eq in V as (V1 & V2 & V3 & V4 & V5).
  exists s, r, s'. repeat (split; [assumption|]). rewrite V5. right. right. now left.
Qed.
(** If the function answers NaN on the whole start simplex the search never takes a better point: NaN is returned although
    the function answered 1 at other points (binary64, one parameter; NaN from 0 to 1, 1 elsewhere). *)
Definition holes (x : list f64) : f64 :=
  match x with a :: _ => if nleb (Num := F64) (z 0) a && nleb (Num := F64) a (z 1) then B754_nan else z 1 | [] => z 1 end.
Definition hole_run : settings (N := F64) := frun KDirect <|g_max_eval := 8%Z|>.
Theorem C39_nan_refuted : exists s r s', new_state hole_run (fworld []) = Ok s /\
  run_nm hole_run (fworld []) (toy (N := F64) holes) false (zs [0]%Z) (Some [zs [0]%Z; zs [1]%Z]) (g_drift_min hole_run) (g_drift_avg hole_run) s = (Ok r, s') /\
  nisnan (Num := F64) (r_fval r) = true /\ exists x, In (x, z 1) (toy_log s').
Proof.
  assert (V : search (N := F64) hole_run (fworld []) holes (zs [0]%Z) (Some [zs [0]%Z; zs [1]%Z]) (fun _ r s' =>
    nisnan (Num := F64) (r_fval r) && existsb (fun p : list f64 * f64 => are [snd p] [1]%Z) (toy_log s')) = true) by (vm_compute; reflexivity).
  apply search_exists in V as (s & r & s' & E & H & V). apply andb_prop in V as [V1 V2].
  exists s, r, s'. repeat (split; [assumption|]). apply existsb_exists in V2 as ([x y] & I & V2). apply are_eq in V2. assert (y = z 1) as -> by (now apply (f_equal (hd y)) in V2).
  now exists x.
Qed.
Print Assumptions C39_best_seen.
Print Assumptions C39_run.
Print Assumptions C39_never_worse.
Print Assumptions C39_discarded_refuted.
Print Assumptions C39_nan_refuted.

(** ** C40 *)
(** Whatever the function answers or raises and whoever interferes: there is one outcome of the search for every number of
    loop rounds granted from max_eval + 2 on, whatever the model does when the rounds are used up. *)
Theorem C40_terminates (N : Num) (G : settings) (W : world) func adaptive x0 sim drift_min drift_avg s0 :
  exists o, forall fuel e, Z.to_nat (g_max_eval G) + 2 <= fuel ->
    run_nm G (W <|w_fuel := fuel|> <|w_stuck := e|>) func adaptive x0 sim drift_min drift_avg s0 = o.
Proof.
  set (V := W <|w_fuel := Z.to_nat (g_max_eval G) + 2|>). exists (run_nm G V func adaptive x0 sim drift_min drift_avg s0).
  intros fuel e B. exact (run_fuel G V func adaptive x0 sim drift_min drift_avg fuel e s0 (le_n _) B).
Qed.
(** Number of calls: reported exactly, at least the n+1 vertices of the start simplex, and at most
    max(n+1, max_eval - 1) + n + 2, plus avg + 1 for a drift compensation. *)
Theorem C40_calls (N : Num) (G : settings) (W : world) func log adaptive x0 sim drift_min drift_avg s0 r s' :
  proper_start x0 sim -> observes func log ->
  run_nm G W func adaptive x0 sim drift_min drift_avg s0 = (Ok r, s') ->
  let n := Z.of_nat (length x0) in
  (Z.of_nat (length (log s')) = Z.of_nat (length (log s0)) + Z.of_nat (r_calls r) /\
   n + 1 <= Z.of_nat (r_calls r) <=
     Z.max (n + 1) (g_max_eval G - 1) + n + 2 + (if (of_Z 0 <? drift_min)%num then Z.max 0 drift_avg + 1 else 0))%Z.
Proof.
  intros PS OB H n. destruct (run_calls G W func adaptive x0 sim drift_min drift_avg PS log OB s0 r s' H) as (A & B & C).
  unfold extra in C. fold n in C. destruct (of_Z 0 <? drift_min)%num; lia.
Qed.
(** max_eval is not a bound: 6 calls with max_eval = 5. *)
Theorem C40_exceeded_refuted : exists s r s', g_max_eval square_run = 5%Z /\ new_state square_run square_world = Ok s /\
  run_nm square_run square_world (toy (N := Qcnum) square) false [qc 0 1] from01 (g_drift_min square_run) (g_drift_avg square_run) s = (Ok r, s') /\
  r_calls r = 6 /\ length (toy_log s') = 6.
Proof.
  destruct C39_example as (s & r & s' & E & H & _ & _ & V & _ & V' & _). exists s, r, s'. split; [reflexivity|]. repeat (split; [assumption|]).
  rewrite V'. reflexivity.
Qed.
(** With a negative limit the start simplex and one iteration are still evaluated. *)
Example C40_at_least : exists s r s', new_state (square_run <|g_max_eval := (-7)%Z|>) square_world = Ok s /\
  run_nm (square_run <|g_max_eval := (-7)%Z|>) square_world (toy (N := Qcnum) square) false [qc 0 1] from01 (g_drift_min square_run) (g_drift_avg square_run) s = (Ok r, s') /\
  r_calls r = 4.
Proof.
  assert (V : search (N := Qcnum) (square_run <|g_max_eval := (-7)%Z|>) square_world square [qc 0 1] from01 (fun s r s' => Nat.eqb (r_calls r) 4) = true) by (vm_compute; reflexivity).
  apply search_exists in V as (s & r & s' & E & H & V). apply Nat.eqb_eq in V. exists s, r, s'. now repeat (split; [assumption|]).
Qed.
Print Assumptions C40_terminates.
Print Assumptions C40_calls.
Print Assumptions C40_exceeded_refuted.

(** ** C41 *)
(** Without an initial simplex the first call is at the origin, followed by the start point with one coordinate changed:
    multiplied by 1.05, or 0.00025 if it is zero. *)
Theorem C41_default (N : Num) (G : settings) (W : world) func log adaptive x0 drift_min drift_avg s0 r s' :
  observes func log -> run_nm G W func adaptive x0 None drift_min drift_avg s0 = (Ok r, s') ->
  exists y ys rows new, log s' = log s0 ++ (repeat (of_Z 0) (length x0), y) :: combine rows ys ++ new /\
    length ys = length x0 /\ length rows = length x0 /\
    forall k xk, nth_error x0 k = Some xk ->
      nth_error rows k = Some (set_nth x0 k (if neqb xk (of_Z 0) then (of_Z 25 / of_Z 100000)%num
                                             else ((of_Z 1 + of_Z 5 / of_Z 100) * xk)%num)).
Proof.
  intros OB H. destruct (start_first G W func adaptive x0 None drift_min drift_avg Logic.I log OB s0 r s' H) as (ys & new & Ly & E).
  destruct ys as [|y ys]; [discriminate|]. injection Ly as Ly. cbn [default_simplex combine] in E.
  exists y, ys. eexists. exists new. split; [exact E|]. split; [assumption|]. split; [now rewrite map_length, seq_length|].
  intros k xk K. assert (k < length x0) as B by (apply nth_error_Some; congruence).
  rewrite nth_error_map. assert (nth_error (seq 0 (length x0)) k = Some k) as ->.
  { rewrite (nth_error_nth' _ 0) by (now rewrite seq_length). now rewrite seq_nth. }
  cbn [option_map]. unfold entry. now rewrite (nth_error_nth _ _ (of_Z 0) K).
Qed.
(** Over the real numbers the start point is not among these n+1 points, unless it is the origin. *)
Theorem C41_start_missed (x0 : list R) : In (x0 : vec (N := Rnum)) (default_simplex x0) <-> x0 = repeat 0%R (length x0).
Proof.
  split.
  - intros [E|I]; [symmetry; exact E|]. exfalso. cbn [default_simplex] in I. apply (In_nth _ _ []) in I as (k & K & E).
    rewrite map_length, seq_length in K. exact (default_start x0 k K E).
  - intros E. left. symmetry. exact E.
Qed.
(** start point 3, evaluated first: 0, then 3.15 *)
Example C41_example : exists s r s', new_state square_run square_world = Ok s /\
  run_nm square_run square_world (toy (N := Qcnum) square) false [qc 3 1] None (g_drift_min square_run) (g_drift_avg square_run) s = (Ok r, s') /\
  firstn 2 (map fst (toy_log s')) = ([[qc 0 1]; [qc 63 20]] : list (vec (N := Qcnum))).
Proof.
  assert (V : search (N := Qcnum) square_run square_world square [qc 3 1] None (fun s r s' => Qc_list_eqb (firstn 2 (map fst (toy_log s'))) [[qc 0 1]; [qc 63 20]]) = true) by (vm_compute; reflexivity).
  apply search_exists in V as (s & r & s' & E & H & V). apply Qc_list_eqb_eq in V. exists s, r, s'. now repeat (split; [assumption|]).
Qed.
Print Assumptions C41_default.
Print Assumptions C41_start_missed.
