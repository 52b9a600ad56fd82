(** Theorems on the stopping criteria of a direct search: C43, C44, C45. *)
From Coq Require Import String ZArith List Bool Lia Reals Lra QArith Qcanon.
From Flocq Require Import BinarySingleNaN Core.Raux.
From RecordUpdate Require Import RecordSet.
From Verif Require Import Num NumFacts NumQ Py PyFacts ModelPulse ModelControls ModelLinalg ModelState ModelSearch ModelRun
  SpecControls SpecRun SpecSearch SpecStop SpecFit ProofNM ProofSearch ProofStop ProofFit ProofWalk ProofStopRun ProofSort
  ExampleControls ExampleRun ExampleSearch PropSuper PropDirect PropSearch.
Import ListNotations RecordSetNotations.
Open Scope nat_scope.
Open Scope list_scope.
Open Scope bool_scope.

(** ** C43 *)
(** Nelder-Mead, for a simplex with at least one coordinate, unless Ctrl-C is pressed during the test: the search converges
    exactly if a criterion is fulfilled. *)
Theorem C43_nm (N : Num) (O : NumOrder N) (G : settings) (W : world) dim sim fsim calls s :
  no_sigint W -> simplex_of (S dim) sim fsim -> converged s = false ->
  exists s', check_stopping_nm G W sim fsim calls s = (Ok tt, s') /\
    (converged s' = true <-> some_fulfilled (nm_criteria G sim fsim calls (sc_start (s_sc s)) (clock W s))).
Proof.
  intros NSI SX C. destruct (check_simplex_ok G dim sim fsim SX) as (b & r & E).
  destruct (nm_decides G W O NSI sim fsim calls s b r C E) as (s' & A & B & _). now exists s'.
Qed.
Theorem C43_cma (N : Num) (G : settings) (W : world) fsim calls s :
  no_sigint W -> converged s = false ->
  exists s', check_stopping_cma G W fsim calls s = (Ok tt, s') /\
    (converged s' = true <-> some_fulfilled (cma_criteria G fsim calls (sc_start (s_sc s)) (clock W s))).
Proof. intros NSI C. destruct (cma_decides G W NSI fsim calls s C) as (s' & A & B & _). now exists s'. Qed.
(** A search that has converged stays converged, with the same reason, whoever interferes. *)
Theorem C43_kept (N : Num) (G : settings) (W : world) sim fsim calls s r s' :
  converged s = true -> check_stopping_nm G W sim fsim calls s = (r, s') \/ check_stopping_cma G W fsim calls s = (r, s') ->
  converged s' = true /\ reason s' = reason s.
Proof. intros C [H|H]; [exact (nm_kept G W _ _ _ _ _ _ C H)|exact (cma_kept G W _ _ _ _ _ C H)]. Qed.
(** Over the reals, the quantity compared with fatol is the standard deviation of the values. *)
Theorem C43_deviation (G : settings (N := Rnum)) (fsim : list R) :
  (nstd (N := Rnum) fsim <=? g_fatol G)%num = true <-> (deviation fsim <= g_fatol G)%R.
Proof.
  rewrite nstd_R. change (@nleb Rnum) with Rle_bool. change (@num Rnum) with R. case Rle_bool_spec; [tauto|].
  intros K. split; [discriminate|]. intros K'. exfalso. lra.
Qed.
(** Ctrl-C between the tests is lost: the flag it has set is overwritten by the result of the next test. *)
Theorem C43_ctrl_c_lost_refuted : exists s s', new_state square_run (interfering 1 ASigint square_world) = Ok s /\
  check_stopping_nm square_run (interfering 1 ASigint square_world) [[qc 0 1]; [qc 1 1]] [qc 4 1; qc 1 1] 2 s = (Ok tt, s') /\
  In (EvCleared ByAsync) (history s') /\ s_reason s' = "User stopped the optimization"%string /\ converged s' = false.
Proof.
  assert (V : match new_state square_run (interfering 1 ASigint square_world) with
    | Ok s => match check_stopping_nm square_run (interfering 1 ASigint square_world) [[qc 0 1]; [qc 1 1]] [qc 4 1; qc 1 1] 2 s with
              | (Ok tt, s') => existsb (fun e : event (N := Qcnum) => match e with EvCleared ByAsync => true | _ => false end) (history s') &&
                  String.eqb (s_reason s') "User stopped the optimization" && negb (converged s')
              | _ => false end
    | Err _ => false end = true) by (vm_compute; reflexivity).
  destruct (new_state square_run (interfering 1 ASigint square_world)) as [s|]; [|discriminate].
  destruct (check_stopping_nm _ _ _ _ _ s) as [[[]|] s'] eqn:E; [|discriminate]. exists s, s'.
  split; [reflexivity|]. split; [exact E|]. apply andb_prop in V as [V V3]. apply andb_prop in V as [V1 V2].
  split; [|split; [now apply String.eqb_eq|now apply negb_true_iff]].
  apply existsb_exists in V1 as (e & I & V1). destruct e; try discriminate. match goal with b : clearer |- _ => destruct b; try discriminate end. exact I.
Qed.
(** Fresh searches: with 2 calls nothing is fulfilled, with 5 calls the budget, with two equal vertices the simplex. *)
Definition after_check (calls : nat) (sim : list (list Qc)) (P : st (N := Qcnum) -> bool) : bool :=
  match new_state square_run square_world with
  | Ok s => match check_stopping_nm square_run square_world sim [qc 1 1; qc 4 1] calls s with (Ok tt, s') => negb (converged s) && P s' | _ => false end
  | Err _ => false end.
Lemma after_check_exists calls sim P : after_check calls sim P = true -> exists s s', new_state square_run square_world = Ok s /\ converged s = false /\
  check_stopping_nm square_run square_world sim [qc 1 1; qc 4 1] calls s = (Ok tt, s') /\ P s' = true.
Proof.
  unfold after_check. destruct (new_state square_run square_world) as [s|]; [|discriminate].
  destruct (check_stopping_nm _ _ _ _ _ s) as [[[]|] s'] eqn:E; [|discriminate]. intros V. apply andb_prop in V as [V1 V2].
  exists s, s'. repeat split; auto. now apply negb_true_iff.
Qed.
Example C43_example :
  (exists s s', new_state square_run square_world = Ok s /\ converged s = false /\
    check_stopping_nm square_run square_world [[qc 1 1]; [qc 0 1]] [qc 1 1; qc 4 1] 2 s = (Ok tt, s') /\ converged s' = false) /\
  (exists s s', new_state square_run square_world = Ok s /\ converged s = false /\
    check_stopping_nm square_run square_world [[qc 1 1]; [qc 0 1]] [qc 1 1; qc 4 1] 5 s = (Ok tt, s') /\ converged s' = true) /\
  (exists s s', new_state square_run square_world = Ok s /\ converged s = false /\
    check_stopping_nm square_run square_world [[qc 1 1]; [qc 1 1]] [qc 1 1; qc 4 1] 2 s = (Ok tt, s') /\ converged s' = true /\
    reason s' = "Convergence of the simplex."%string) /\
  no_sigint square_world /\ simplex_of (N := Qcnum) 1 [[qc 1 1]; [qc 0 1]] [qc 1 1; qc 4 1].
Proof.
  split; [|split; [|split; [|split]]].
  - assert (V : after_check 2 [[qc 1 1]; [qc 0 1]] (fun s' => negb (converged s')) = true) by (vm_compute; reflexivity).
    apply after_check_exists in V as (s & s' & A & B & C & D). exists s, s'. repeat (split; [assumption|]). now apply negb_true_iff.
  - assert (V : after_check 5 [[qc 1 1]; [qc 0 1]] (fun s' => converged s') = true) by (vm_compute; reflexivity).
    apply after_check_exists in V as (s & s' & A & B & C & D). exists s, s'. now repeat (split; [assumption|]).
  - assert (V : after_check 2 [[qc 1 1]; [qc 1 1]] (fun s' => converged s' && String.eqb (reason s') "Convergence of the simplex.") = true) by (vm_compute; reflexivity).
    apply after_check_exists in V as (s & s' & A & B & C & D). apply andb_prop in D as [D1 D2]. exists s, s'. repeat (split; [assumption|]). now apply String.eqb_eq.
  - intros n. discriminate.
  - constructor; [reflexivity| |reflexivity]. intros v [<-|[<-|[]]]; reflexivity.
Qed.
Print Assumptions C43_nm.
Print Assumptions C43_cma.
Print Assumptions C43_kept.
Print Assumptions C43_deviation.
Print Assumptions C43_ctrl_c_lost_refuted.

(** ** C44 *)
(** The reason stored by a test that ends the search is that of the first fulfilled criterion. *)
Theorem C44_first (N : Num) (O : NumOrder N) (G : settings) (W : world) dim sim fsim calls s s' :
  no_sigint W -> simplex_of (S dim) sim fsim -> converged s = false ->
  check_stopping_nm G W sim fsim calls s = (Ok tt, s') -> converged s' = true ->
  first_fulfilled (nm_criteria G sim fsim calls (sc_start (s_sc s)) (clock W s)) (reason s').
Proof.
  intros NSI SX C H K. destruct (check_simplex_ok G dim sim fsim SX) as (b & r & E).
  destruct (nm_decides G W O NSI sim fsim calls s b r C E) as (t & A & _ & B). rewrite H in A. injection A as <-. now apply B.
Qed.
Theorem C44_first_cma (N : Num) (G : settings) (W : world) fsim calls s s' :
  no_sigint W -> converged s = false -> check_stopping_cma G W fsim calls s = (Ok tt, s') -> converged s' = true ->
  first_fulfilled (cma_criteria G fsim calls (sc_start (s_sc s)) (clock W s)) (reason s').
Proof. intros NSI C H K. destruct (cma_decides G W NSI fsim calls s C) as (t & A & _ & B). rewrite H in A. injection A as <-. now apply B. Qed.
(** A whole Nelder-Mead search: returned point, value, number of calls and reason belong to one loop head.  The reason is
    that of the first criterion fulfilled there, at the last reading of the clock, unless the run has been stopped. *)
Theorem C44_search (N : Num) (O : NumOrder N) (G : settings) (W : world) func adaptive x0 sim drift_min drift_avg s0 r s' :
  sorts W -> proper_start x0 sim -> x0 <> [] -> no_sigint W -> leaves_criteria func ->
  run_nm G W func adaptive x0 sim drift_min drift_avg s0 = (Ok r, s') ->
  exists L s, boundary G W func adaptive x0 sim drift_min drift_avg s0 L s /\
    hd_error (n_sim L) = Some (r_x r) /\ hd_error (n_fsim L) = Some (r_fval r) /\ n_calls L = r_calls r /\
    (first_fulfilled (nm_criteria G (n_sim L) (n_fsim L) (n_calls L) (sc_start (s_sc s0)) (w_clock W (pred (k_clock (s_cnt s'))))) (r_reason r)
     \/ r_reason r = "User stopped the optimization or higher order stopping criterion has been reached"%string /\ s_running s' = false).
Proof.
  intros SO PS NE NSI LC H.
  assert (forall s s', poll G W s = (Ok tt, s') -> True -> True /\ s_sc s' = s_sc s) as PQ.
  { intros s t E _. split; [exact Logic.I|]. destruct (poll_quiet G W NSI s) as (t' & E' & K & _). rewrite E in E'. injection E' as ->. exact K. }
  destruct (search_reason G W (fun _ => True) ltac:(reflexivity) ltac:(reflexivity) PQ func (fun x it v s y s' E q => conj Logic.I (LC x it v s (Ok y) s' E)) SO O adaptive x0 sim drift_min drift_avg PS NE s0 r s' H Logic.I)
    as (L & s & A & B & C & D & E).
  exists L, s. repeat (split; [assumption|]). destruct E as [E|E]; [right|left]; exact E.
Qed.
(** In a dCRAB or direct run without the change-based criterion that goes on after the search, whatever other threads do. *)
Theorem C44_run (N : Num) (O : NumOrder N) (G : settings) (W : world) adaptive x0 sim drift_min drift_avg s0 r s' :
  g_cbs_n G = None -> sorts W -> proper_start x0 sim -> x0 <> [] ->
  run_nm G W (inner_routine_call G W) adaptive x0 sim drift_min drift_avg s0 = (Ok r, s') -> s_running s' = true ->
  exists L s, boundary G W (inner_routine_call G W) adaptive x0 sim drift_min drift_avg s0 L s /\
    hd_error (n_sim L) = Some (r_x r) /\ hd_error (n_fsim L) = Some (r_fval r) /\ n_calls L = r_calls r /\
    first_fulfilled (nm_criteria G (n_sim L) (n_fsim L) (n_calls L) (sc_start (s_sc s0)) (w_clock W (pred (k_clock (s_cnt s'))))) (r_reason r).
Proof.
  intros NC SO PS NE. apply (run_reason G W); auto. unfold tracking. rewrite NC. apply andb_false_r.
Qed.
(** The results file never contains the reason of a global stop, only reasons of searches. *)
Theorem C44_results_file (N : Num) (G : settings) (W : world) r s f x : optimise G W = Ok (r, s) -> In (EvFinal f) (history s) -> f_reason f = Some x ->
  In x (""%string :: search_reasons).
Proof. intros H I F. destruct (stored_reason G W r s f H I x F) as [<-|K]; [now left|now right]. Qed.
Theorem C44_global_absent (N : Num) (G : settings) (W : world) r s f : optimise G W = Ok (r, s) -> In (EvFinal f) (history s) ->
  forall x, In x ["User stopped the optimization"; "Maximum number of total function evaluations reached"; "Goal FoM reached"; "Maximum optimization runtime reached"]%string ->
  f_reason f <> Some x.
Proof.
  intros H I x K F. pose proof (C44_results_file N G W r s f x H I F) as M. cbn in K, M.
  repeat (destruct K as [<-|K]; [repeat (destruct M as [M|M]; [discriminate|]); contradiction|]). contradiction.
Qed.
(** Ctrl-C in the middle of an iteration: the search returns after 4 calls with the reason that 5 calls were exceeded, or
    reports the convergence of a simplex whose vertices are 1 apart. *)
Theorem C44_wrong_refuted :
  (exists s r s', new_state square_run (interfering 6 ASigint square_world) = Ok s /\
    run_nm square_run (interfering 6 ASigint square_world) (toy (N := Qcnum) square) false [qc 0 1] from01 (g_drift_min square_run) (g_drift_avg square_run) s = (Ok r, s') /\
    g_max_eval square_run = 5%Z /\ r_calls r = 4 /\ r_reason r = "Exceeded number of allowed function evaluations per direct search."%string) /\
  (exists s r s', new_state square_run (interfering 8 ASigint square_world) = Ok s /\
    run_nm square_run (interfering 8 ASigint square_world) (toy (N := Qcnum) square) false [qc 0 1] from01 (g_drift_min square_run) (g_drift_avg square_run) s = (Ok r, s') /\
    r_reason r = "Convergence of the simplex."%string /\ toy_log s' = ([([qc 0 1], qc 4 1); ([qc 1 1], qc 1 1); ([qc 2 1], qc 0 1); ([qc 3 1], qc 1 1)] : list (vec (N := Qcnum) * @num Qcnum))).
Proof.
  split.
  - assert (V : search (N := Qcnum) square_run (interfering 6 ASigint square_world) square [qc 0 1] from01 (fun s r s' => Nat.eqb (r_calls r) 4 &&
      String.eqb (r_reason r) "Exceeded number of allowed function evaluations per direct search.") = true) by (vm_compute; reflexivity).
    apply search_exists in V as (s & r & s' & E & H & V). apply andb_prop in V as [V1 V2]. exists s, r, s'. repeat (split; [assumption|]).
    split; [reflexivity|]. split; [now apply Nat.eqb_eq|now apply String.eqb_eq].
  - assert (V : search (N := Qcnum) square_run (interfering 8 ASigint square_world) square [qc 0 1] from01 (fun s r s' =>
      String.eqb (r_reason r) "Convergence of the simplex." && pairs_are (toy_log s') [([qc 0 1], qc 4 1); ([qc 1 1], qc 1 1); ([qc 2 1], qc 0 1); ([qc 3 1], qc 1 1)]) = true) by (vm_compute; reflexivity).
    apply search_exists in V as (s & r & s' & E & H & V). apply andb_prop in V as [V1 V2]. exists s, r, s'. repeat (split; [assumption|]).
    split; [now apply String.eqb_eq|now apply pairs_are_eq].
Qed.
(** the search of the example for C39: stopped by the budget; a direct run with the goal 1 *)
Example C44_example : (exists s r s', new_state square_run square_world = Ok s /\
  run_nm square_run square_world (toy (N := Qcnum) square) false [qc 0 1] from01 (g_drift_min square_run) (g_drift_avg square_run) s = (Ok r, s') /\
  r_calls r = 6 /\ r_reason r = "Exceeded number of allowed function evaluations per direct search."%string /\
  leaves_criteria (toy (N := Qcnum) square)) /\
  exists s r s', g_cbs_n square_run = None /\ new_state square_run square_world = Ok s /\
  run_nm square_run square_world (inner_routine_call square_run square_world) false [qc 0 1] from01 (g_drift_min square_run) (g_drift_avg square_run) s = (Ok r, s') /\
  s_running s' = true /\ r_reason r = "Exceeded number of allowed function evaluations per direct search."%string.
Proof.
  split.
  - assert (V : search (N := Qcnum) square_run square_world square [qc 0 1] from01 (fun s r s' => Nat.eqb (r_calls r) 6 &&
      String.eqb (r_reason r) "Exceeded number of allowed function evaluations per direct search.") = true) by (vm_compute; reflexivity).
    apply search_exists in V as (s & r & s' & E & H & V). apply andb_prop in V as [V1 V2]. exists s, r, s'. repeat (split; [assumption|]).
    split; [now apply Nat.eqb_eq|]. split; [now apply String.eqb_eq|].
    intros x it v t q t' K. unfold toy, emit in K. rewrite ProofSim.bind_upd in K. now injection K as <- <-.
  - assert (V : real_search (fun s r s' => s_running s' && String.eqb (r_reason r) "Exceeded number of allowed function evaluations per direct search.") = true) by (vm_compute; reflexivity).
    apply real_search_exists in V as (s & r & s' & E & H & V). apply andb_prop in V as [V1 V2]. exists s, r, s'. split; [reflexivity|]. repeat (split; [assumption|]).
    now apply String.eqb_eq.
Qed.
Definition one_run : settings (N := Qcnum) := square_run <|g_goal := Some (qc 1 1 : @num Qcnum)|>.
Example C44_goal_example : exists s f, optimise one_run square_world = Ok (Ok tt, s) /\
  In (EvFinal f) (history s) /\ f_reason f = Some "Global Stopping Criterion reached."%string /\
  In (EvLogged f (Some "Goal FoM reached"%string)) (history s).
Proof.
  assert (V : run_ok one_run square_world (fun r s => fine_end r &&
    match rev (history s) with
    | EvLogged _ (Some o) :: EvFinal f :: _ => String.eqb o "Goal FoM reached" && match f_reason f with Some x => String.eqb x "Global Stopping Criterion reached." | None => false end
    | _ => false end) = true) by (vm_compute; reflexivity).
  apply run_ok_exists in V as (r & s & E & V). apply andb_prop in V as [V1 V]. destruct r as [[]|]; [|discriminate].
  destruct (ProofBest.reports_once _ _ _ E) as (tr & f & o & T & _). rewrite T, rev_app_distr in V. cbn [rev app] in V. destruct o as [o|]; [|discriminate].
  apply andb_prop in V as [V2 V3]. apply String.eqb_eq in V2 as ->. destruct (f_reason f) as [x|] eqn:F; [|discriminate]. apply String.eqb_eq in V3 as ->.
  exists s, f. split; [exact E|]. rewrite T. split; [apply in_or_app; right; now left|]. split; [exact F|]. apply in_or_app. right. right. now left.
Qed.
Print Assumptions C44_first.
Print Assumptions C44_first_cma.
Print Assumptions C44_search.
Print Assumptions C44_run.
Print Assumptions C44_results_file.
Print Assumptions C44_global_absent.
Print Assumptions C44_wrong_refuted.

(** ** C45 *)
(** After each evaluation of a dCRAB or direct run, unless Ctrl-C is pressed meanwhile: the cost is appended to the track,
    and the search converges exactly if it had converged already or the last n = cbs_funct_evals values of the track exist
    and level off. *)
Theorem C45_decides (G : settings (N := Rnum)) (W : world) n c x it s y s' :
  has_dsm G = true -> g_cbs_n G = Some n -> (1 < n)%Z -> g_cbs_change G = Some c -> no_sigint W ->
  routine_call G W x it s = (Ok y, s') -> length (costs G (history s)) < length (costs G (history s')) ->
  costs G (history s') = costs G (history s) ++ [y] /\ sc_track (s_sc s') = sc_track (s_sc s) ++ [y] /\
  (converged s' = true <-> converged s = true \/ levels_off (Z.to_nat n) c (sc_track (s_sc s) ++ [y])).
Proof.
  intros HD HN Hn HC NSI H NE. destruct (routine_fires G W Rnum_sign NSI n c x it s y s' HD HN Hn HC H NE) as (A & B & C & _).
  split; [assumption|]. split; [assumption|]. rewrite C, orb_true_iff. rewrite (at_level_R n c _ Hn). reflexivity.
Qed.
(** The same over any numbers, with the formula of the slope. *)
Theorem C45_formula (N : Num) (S : NumSign N) (G : settings) (W : world) n c x it s y s' :
  has_dsm G = true -> g_cbs_n G = Some n -> (1 < n)%Z -> g_cbs_change G = Some c -> no_sigint W ->
  routine_call G W x it s = (Ok y, s') -> length (costs G (history s)) < length (costs G (history s')) ->
  costs G (history s') = costs G (history s) ++ [y] /\ sc_track (s_sc s') = sc_track (s_sc s) ++ [y] /\
  converged s' = converged s || ((n <=? Z.of_nat (length (sc_track (s_sc s'))))%Z &&
    (nabs (fit_slope (last_n (Z.to_nat n) (sc_track (s_sc s'))) * of_Z n) <? c)%num).
Proof.
  intros HD HN Hn HC NSI H NE. destruct (routine_fires G W S NSI n c x it s y s' HD HN Hn HC H NE) as (A & B & C & _).
  split; [assumption|]. split; [assumption|]. now rewrite B.
Qed.
(** The track at the end of a super-iteration consists of the costs of its evaluations, in order; that of a direct run of
    all costs. *)
Theorem C45_track (N : Num) (S : NumSign N) (G : settings) (W : world) n k s s' :
  has_dsm G = true -> g_cbs_n G = Some n -> (1 < n)%Z -> super_iteration G W k s = (Ok tt, s') ->
  costs G (history s') = costs G (history s) ++ sc_track (s_sc s').
Proof.
  intros HD HN Hn. apply (super_tracks G W S). unfold tracking. rewrite HD, HN. now apply Z.ltb_lt.
Qed.
Theorem C45_track_direct (N : Num) (S : NumSign N) (G : settings) (W : world) n s :
  g_kind G = KDirect -> g_cbs_n G = Some n -> (1 < n)%Z -> optimise G W = Ok (Ok tt, s) -> sc_track (s_sc s) = costs G (history s).
Proof.
  intros HK HN Hn. apply (direct_tracks G W S); [|assumption]. unfold tracking, has_dsm. rewrite HK, HN. now apply Z.ltb_lt.
Qed.
(** Levelling off: never on fewer than n values, the same after adding a constant or changing all signs, on constant values
    iff the threshold is positive, on an arithmetic progression with step d iff |d| n is below the threshold. *)
Theorem C45_window (n : nat) (c : R) (track : list R) : levels_off n c track -> n <= length track.
Proof. intros (old & ys & m & -> & <- & _). rewrite app_length. lia. Qed.
Theorem C45_shift (n : nat) (c a : R) (track : list R) : 2 <= n -> levels_off n c (map (fun y => (y + a)%R) track) <-> levels_off n c track.
Proof. apply levels_shift. Qed.
Theorem C45_sign (n : nat) (c : R) (track : list R) : 2 <= n -> levels_off n c (map Ropp track) <-> levels_off n c track.
Proof. apply levels_opp. Qed.
Theorem C45_constant (n : nat) (c a : R) (old : list R) : 2 <= n -> levels_off n c (old ++ repeat a n) <-> (0 < c)%R.
Proof. apply levels_constant. Qed.
Theorem C45_progression (n : nat) (c a d : R) (old : list R) : 2 <= n -> levels_off n c (old ++ progression a d n) <-> (Rabs d * INR n < c)%R.
Proof. apply levels_progression. Qed.

(** A direct run on a constant figure of merit with window 3 and threshold 1: it levels off at the third evaluation. *)
Definition flat_run : settings (N := Qcnum) := square_run <|g_cbs_n := Some 3%Z|> <|g_cbs_change := Some (qc 1 1 : @num Qcnum)|>.
Definition flat_world : world (N := Qcnum) := answering (N := Qcnum) (fun _ v => says (qc 5 1 : @num Qcnum)) square_world.
(** three calls of the routine on a new optimiser *)
Definition three_calls (P : st (N := Qcnum) -> @num Qcnum -> st (N := Qcnum) -> bool) : bool :=
  match new_state flat_run flat_world with
  | Ok s => match (begin flat_world;;; routine_call flat_run flat_world [qc 0 1] 0;;; routine_call flat_run flat_world [qc 1 1] 0)%run s with
            | (Ok _, s1) => match routine_call flat_run flat_world [qc 2 1] 0 s1 with (Ok y, s2) => P s1 y s2 | _ => false end
            | _ => false end
  | Err _ => false end.
Example C45_example : exists s y s', routine_call flat_run flat_world [qc 2 1] 0 s = (Ok y, s') /\
  has_dsm flat_run = true /\ g_cbs_n flat_run = Some 3%Z /\ no_sigint flat_world /\
  length (costs flat_run (history s)) = 2 /\ length (costs flat_run (history s')) = 3 /\
  y = (qc 5 1 : @num Qcnum) /\ sc_track (s_sc s) = ([qc 5 1; qc 5 1] : list (@num Qcnum)) /\ converged s = false /\ converged s' = true.
Proof.
  assert (V : three_calls (fun s y s' => Nat.eqb (length (costs flat_run (history s))) 2 && Nat.eqb (length (costs flat_run (history s'))) 3 &&
    vec_is (y :: sc_track (s_sc s)) [qc 5 1; qc 5 1; qc 5 1] && negb (converged s) && converged s') = true) by (vm_compute; reflexivity).
  unfold three_calls in V. destruct (new_state flat_run flat_world) as [s0|]; [|discriminate].
  destruct ((begin flat_world;;; _)%run s0) as [[?|] s]; [|discriminate].
  destruct (routine_call flat_run flat_world [qc 2 1] 0 s) as [[y|] s'] eqn:E; [|discriminate]. exists s, y, s'. split; [exact E|].
  repeat (apply andb_prop in V as [V ?]). split; [reflexivity|]. split; [reflexivity|]. split; [intros k; discriminate|].
  split; [now apply Nat.eqb_eq|]. split; [now apply Nat.eqb_eq|].
  match goal with K : vec_is _ _ = true |- _ => apply vec_is_eq in K; injection K as -> -> end.
  split; [reflexivity|]. split; [reflexivity|]. split; [now apply negb_true_iff|assumption].
Qed.
Example C45_run_example : exists s, g_kind flat_run = KDirect /\ optimise flat_run flat_world = Ok (Ok tt, s) /\
  sc_track (s_sc s) = ([qc 5 1; qc 5 1; qc 5 1] : list (@num Qcnum)) /\ length (costs flat_run (history s)) = 3 /\ g_max_eval flat_run = 5%Z.
Proof.
  assert (V : run_ok flat_run flat_world (fun r s => fine_end r && vec_is (sc_track (s_sc s)) [qc 5 1; qc 5 1; qc 5 1] && Nat.eqb (length (costs flat_run (history s))) 3) = true) by (vm_compute; reflexivity).
  apply run_ok_exists in V as (r & s & E & V). apply andb_prop in V as [V V3]. apply andb_prop in V as [V1 V2]. destruct r as [[]|]; [|discriminate].
  apply vec_is_eq in V2. exists s. split; [reflexivity|]. split; [exact E|]. split; [exact V2|]. split; [now apply Nat.eqb_eq|reflexivity].
Qed.
(** 9 7 5 3 falls by 2 per step: 2*3 = 6 over three steps *)
Example C45_line_example : levels_off 3 7 [9; 7; 5; 3]%R /\ ~ levels_off 3 6 [9; 7; 5; 3]%R.
Proof.
  assert ([9; 7; 5; 3] = [9] ++ progression 7 (-2) 3)%R as E by (cbn; repeat f_equal; ring).
  rewrite E. rewrite !C45_progression by lia. rewrite (Rabs_left (-2)) by lra. cbn. lra.
Qed.
Print Assumptions C45_decides.
Print Assumptions C45_formula.
Print Assumptions C45_track.
Print Assumptions C45_track_direct.
Print Assumptions C45_window.
Print Assumptions C45_shift.
Print Assumptions C45_sign.
Print Assumptions C45_constant.
Print Assumptions C45_progression.
