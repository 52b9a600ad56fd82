(** * Optimisation runs: communication, evaluation routine, dCRAB, direct search, GRAPE and AD algorithms. *)
From Coq Require Import String ZArith List Bool.
From RecordUpdate Require Import RecordSet.
From Verif Require Import Num Py ModelPulse ModelControls ModelLinalg ModelState ModelSearch.
Import ListNotations RecordSetNotations.
Open Scope list_scope.
Open Scope run_scope.

Section Run.
  Context {N : Num} (G : settings) (W : world).

  (** OptimizationAlgorithm.py:28 *)
  Definition initial_fom : num := of_Z 10000000000.
  (** OptimizationAlgorithm.py:76-79 and AllInOneCommunication.py:106-109 *)
  Definition factor : num := if g_maximise G then of_Z (-1) else of_Z 1.
  (** OptimizationAlgorithm.py:88-90 (multiplication is commutative) *)
  Definition goal : option num := option_map (fun g => (factor * g)%num) (g_goal G).

  (** OptimizationAlgorithm.py:151-155, 162-166, 174-178: note the reason and stop *)
  Definition stop_because (reason : string) (by_ : clearer) : M unit :=
    poll G W;;; set_reason reason;;;
    (if has_dsm G then set_conv true else ret tt);;;
    clear by_.

  (** OptimizationAlgorithm.py:149-155 *)
  Definition check_budget : M unit :=
    s <- get;;
    if (g_max_total G <=? Z.of_nat (s_iter s))%Z
    then stop_because "Maximum number of total function evaluations reached" ByBudget else ret tt.
  (** OptimizationAlgorithm.py:157-166 *)
  Definition check_goal : M unit :=
    s <- get;;
    match goal with
    | Some g => if (s_best s <=? g)%num then stop_because "Goal FoM reached" ByGoal else ret tt
    | None => ret tt
    end.
  (** OptimizationAlgorithm.py:168-178 *)
  Definition check_total_time : M unit :=
    if (g_total_lim G <? of_Z 10000000000)%num then
      t <- now W;; s <- get;;
      match s_start s with
      | None => raise TypeError
      | Some t0 =>
          emit (EvElapsed (minutes t0 t));;;
          if (g_total_lim G <=? minutes t0 t)%num
          then stop_because "Maximum optimization runtime reached" ByTime else ret tt
      end
    else ret tt.

  (** [_get_controls]: dCRABAlgorithm.py:427-441, GRAPEAlgorithm.py:219-233, ADAlgorithm.py:177-192 and
      DirectSearchAlgorithm.py:316-326, where [[], [], parameters = ...] raises ValueError unless there are no
      pulses.  For AD the padding of the arrays to a common length and the conversion to
      complex64 (Controls.py:293-321) are left to ModelJax.v (C77). *)
  Definition get_controls (x : vec) : M delivered :=
    s <- get;;
    '(c, d) <- lift (get_controls_lists x (s_controls s));;
    upd (fun s => s <|s_controls := c|>);;;
    match g_kind G with
    | KDirect => match d_pulses d, d_timegrids d with
                 | [], [] => ret (mk_delivered [] [] (d_parameters d))
                 | _, _ => raise ValueError
                 end
    | _ => ret d
    end.

  (** AllInOneCommunication.py:153-168 together with OptimizationAlgorithm.py:204 (multiplication is
      commutative); [x] only labels the event *)
  Definition get_data (x : vec) : M unit :=
    poll G W;;; s <- get;;
    match s_sent s with
    | None => raise TypeError
    | Some d =>
        let ans := w_fom W (d :: s_hist s) in
        upd (fun s => s <|s_hist ::= cons d|>);;;
        emit (EvEval x d ans);;;
        match ans with
        | Raise => raise UserError
        | Dict a =>
            match a_fom a with
            | FMissing => raise KeyError
            | FNone => raise TypeError
            | FVal v =>
                let status := match a_status a with Some c => c | None => 0%Z end in
                (if (status =? 0)%Z then ret tt else clear ByStatus);;;
                upd (fun s => s <|s_fom := (factor * v)%num|> <|s_std := a_std a|> <|s_status := Some status|>)
            end
        end
    end.

  (** BestDump.py:56-118 through AllInOneCommunication.py:196-200: writes only if [is_record].  Simplification:
      writing succeeds. *)
  Definition update_controls (is_record : bool) (fom : num) (sigma : option num) (super_it : option nat)
    (iter : nat) (status : option Z) : M unit :=
    s <- get;;
    match s_sent s with
    | Some d => if is_record then emit (EvSave (mk_saved d fom sigma super_it iter status)) else ret tt
    | None => ret tt
    end.

  (** AllInOneCommunication.py:170-189 *)
  Definition send_response (fom : num) (super_it : option nat) : M unit :=
    s <- get;;
    match s_status s with
    | Some c =>
        if (c =? 0)%Z then
          update_controls (s_is_record s) fom None super_it (s_iter s) (Some c);;;
          emit (EvPlot (s_iter s) fom)
        else clear ByStatus
    | None => ret tt      (* does not occur: get_data sets the status *)
    end.

  (** [self.FoM_dict.setdefault("std", 1.0)] *)
  Definition std_default : M num :=
    s <- get;;
    match s_std s with
    | Some v => ret v
    | None => upd (fun s => s <|s_std := Some (of_Z 1)|>);;; ret (of_Z 1)
    end.

  (** dCRABAlgorithm.py:377-397, DirectSearchAlgorithm.py:204-224; [sums] are the optional arguments *)
  Definition get_average (sums : option (num * num)) : M (num * num) :=
    s <- get;;
    let k := re_step (s_re s) in
    match k with
    | O => sd <- std_default;; ret (s_fom s, sd)
    | S k1 =>
        let ck := of_Z (Z.of_nat k) in
        let ck1 := of_Z (Z.of_nat k1) in
        match sums with
        | Some (mu_sum, sigma_sum) => ret ((mu_sum / ck)%num, (sigma_sum / ck)%num)
        | None =>
            sd <- std_default;;
            let mu_sum := (nmean (firstn k (re_fom (s_re s))) * ck1 + s_fom s)%num in
            let sigma_sum := (nmean (firstn k (re_sigma (s_re s))) * ck1 + sd)%num in
            ret ((mu_sum / ck)%num, (sigma_sum / ck)%num)
        end
    end.

  (** dCRABAlgorithm.py:155-162, DirectSearchAlgorithm.py:263-270, GRAPEAlgorithm.py:116-122,
      ADAlgorithm.py:206-212 (get_is_record: OptimizationAlgorithm.py:252-260) *)
  Definition note_record (fom : num) : M unit :=
    s <- get;;
    if (fom <? s_best s)%num
    then upd (fun s => s <|s_best := fom|> <|s_best_xx := s_xx s|> <|s_is_record := true|>)
    else ret tt.

  (** dCRABAlgorithm.py:186-188 and the same lines of the other algorithms *)
  Definition log_fom (fom : num) : M unit :=
    s <- get;;
    match s_status s with
    | Some c => if (c =? 0)%Z
                then upd (fun s => s <|s_fom_list ::= fun l => l ++ [(factor * fom)%num]|>
                                     <|s_iter_list ::= fun l => l ++ [s_iter s]|>)
                else ret tt
    | None => ret tt
    end.

  (** [_get_response_for_client] followed by send_FoM_response (OptimizationAlgorithm.py:206):
      dCRABAlgorithm.py:144-189, DirectSearchAlgorithm.py:254-287, GRAPEAlgorithm.py:107-133,
      ADAlgorithm.py:202-223 *)
  Definition respond : M unit :=
    match g_kind G with
    | KdCRAB =>
        '(fom, _) <- get_average None;;
        (match g_steps G with None => note_record fom | Some _ => ret tt end);;;
        log_fom fom;;;
        s <- get;; send_response fom (Some (b_super_it (s_book s)))
    | KDirect =>
        s <- get;; let fom := s_fom s in
        (match g_steps G with
         | None => note_record fom;;; log_fom fom
         | Some _ => '(avg, _) <- get_average None;; log_fom avg
         end);;;
        send_response fom None
    | KGRAPE | KAD =>
        s <- get;; let fom := s_fom s in
        note_record fom;;; log_fom fom;;; send_response fom None
    end.

  (** OptimizationAlgorithm.py:139-250 *)
  Definition routine_call (x : vec) (it : nat) : M num :=
    check_budget;;; check_goal;;; check_total_time;;;
    r <- get_running G W;;
    if negb r then ret initial_fom else
    upd (fun s => s <|s_xx := Some x|> <|s_alg_iter := it|> <|s_iter ::= S|>);;;
    d <- get_controls x;;
    upd (fun s => s <|s_sent := Some d|>);;;
    r <- get_running G W;;
    if negb r then ret initial_fom else
    get_data x;;; respond;;;
    s <- get;; add_to_track G (s_fom s);;;
    check_advanced G W;;;
    s <- get;; ret (s_fom s).

  (** dCRABAlgorithm.py:399-425, DirectSearchAlgorithm.py:226-252 *)
  Definition probability (mu_1 sigma_1 mu_2 sigma_2 : num) : num :=
    let mu_z := (mu_2 - mu_1)%num in
    let std_comb := nsqrt (sigma_1 * sigma_1 + sigma_2 * sigma_2)%num in
    let std_comb := if (nabs std_comb <? of_Z 1 / of_Z 100000000000000)%num then of_Z 1 else std_comb in
    w_cdf W (mu_z / std_comb)%num.

  (** the attributes [super_it] that only dCRAB has *)
  Definition super_of (s : st) : option nat :=
    match g_kind G with KdCRAB => Some (b_super_it (s_book s)) | _ => None end.

  (** [self.FoM_test[i], self.sigma_test[i] = fom, std] and [self.step_number += 1] *)
  Definition store_test (i : nat) (fom : num) : M unit :=
    s <- get;; l <- lift (py_set (re_fom (s_re s)) (Z.of_nat i) fom);;
    upd (fun s => s <|s_re ::= set re_fom (fun _ => l)|>);;;
    sd <- std_default;;
    s <- get;; l <- lift (py_set (re_sigma (s_re s)) (Z.of_nat i) sd);;
    upd (fun s => s <|s_re ::= set re_sigma (fun _ => l)|>);;;
    upd (fun s => s <|s_re ::= set re_step S|>).
  (** [self._get_average_FoM_std(mu_sum=np.sum(self.FoM_test) * 1.0, sigma_sum=np.sum(self.sigma_test) * 1.0)] *)
  Definition test_average : M (num * num) :=
    s <- get;; get_average (Some ((nsum (re_fom (s_re s)) * of_Z 1)%num, (nsum (re_sigma (s_re s)) * of_Z 1)%num)).

  (** dCRABAlgorithm.py:340-353: returns [Some mu] if the candidate is dropped.  [ps] are the remaining
      thresholds, [ii] the loop index *)
  Fixpoint re_evaluate (x : vec) (it : nat) (ps : list num) (ii : nat) : M (option num) :=
    match ps with
    | [] => ret None
    | p :: ps =>
        '(mu, sigma) <- test_average;;
        s <- get;;
        if (probability mu sigma (s_best s) (re_best_sigma (s_re s)) <? p)%num then ret (Some mu) else
        y <- routine_call x it;;
        store_test (S ii) y;;;
        re_evaluate x it ps (S ii)
    end.

  (** dCRABAlgorithm.py:279-375, DirectSearchAlgorithm.py:111-202 *)
  Definition inner_routine_call (x : vec) (it : nat) (drift : option num) : M num :=
    match drift with
    | Some mu =>
        upd (fun s => s <|s_best := mu|> <|s_is_record := true|>);;;
        s <- get;;
        match s_xx s with
        | None => raise AttributeError
        | Some xx =>
            upd (fun s => s <|s_best_xx := Some xx|>);;;
            update_controls true mu None (super_of s) (s_iter s) None;;;
            ret mu
        end
    | None =>
        upd (fun s => s <|s_is_record := false|> <|s_re ::= set re_step (fun _ => 0)|>);;;
        fom <- routine_call x it;;
        match g_steps G with
        | None => ret fom
        | Some steps =>
            s <- get;;
            let steps := if Nat.eqb (s_iter s) 1 then [(of_Z 1 / of_Z 2)%num] else steps in
            upd (fun s => s <|s_re ::= fun r => r <|re_fom ::= map (fun y => (of_Z 0 * y)%num)|>
                                               <|re_sigma ::= map (fun y => (of_Z 0 * y)%num)|>|>);;;
            store_test 0 fom;;;
            dropped <- re_evaluate x it steps 0;;
            match dropped with
            | Some mu => ret mu
            | None =>
                '(mu, sigma) <- test_average;;
                s <- get;;
                p <- lift (py_nth steps (-1));;
                if (p <? probability mu sigma (s_best s) (re_best_sigma (s_re s)))%num then
                  upd (fun s => s <|s_re ::= set re_best_sigma (fun _ => sigma)|> <|s_best := mu|>
                                  <|s_is_record := true|>);;;
                  match s_xx s with
                  | None => raise AttributeError
                  | Some xx =>
                      upd (fun s => s <|s_best_xx := Some xx|>);;;
                      update_controls true mu (Some sigma) (super_of s) (s_iter s) None;;;
                      ret mu
                  end
                else ret mu
            end
        end
    end.

  (** [n] uniform numbers of the generator used by the algorithm: the seeded one (dCRAB with a
      "random_number_generator" entry, GRAPE, AD) or numpy's global one *)
  Definition uses_seed : bool :=
    match g_kind G with KdCRAB => g_seeded G | KDirect => false | KGRAPE | KAD => true end.
  Definition draw (n : nat) : M vec :=
    s <- get;;
    if uses_seed
    then upd (fun s => s <|s_cnt ::= set k_rng (fun p => p + n)|>);;; ret (map (w_rng W) (seq (k_rng (s_cnt s)) n))
    else upd (fun s => s <|s_cnt ::= set k_np (fun p => p + n)|>);;; ret (map (w_np W) (seq (k_np (s_cnt s)) n)).

  (** Controls.select_basis on the controls object of the run *)
  Definition choose_basis : M unit :=
    s <- get;;
    if uses_seed then
      '(c, pos) <- lift (select_basis (w_rng W) (k_rng (s_cnt s)) (s_controls s));;
      upd (fun s => s <|s_controls := c|> <|s_cnt ::= set k_rng (fun _ => pos)|>)
    else
      '(c, pos) <- lift (select_basis (w_np W) (k_np (s_cnt s)) (s_controls s));;
      upd (fun s => s <|s_controls := c|> <|s_cnt ::= set k_np (fun _ => pos)|>).

  Definition mean_value : M vec := s <- get;; lift (get_mean_value (s_controls s)).
  Definition sigma_variation : M vec := s <- get;; lift (get_sigma_variation (s_controls s)).

  (** dCRABAlgorithm.py:251-277, DirectSearchAlgorithm.py:296-314 *)
  Definition dsm_build : M unit :=
    m <- mean_value;; sg <- sigma_variation;;
    r <- draw (length m);;
    simplex <- lift (simplex_creation m sg r);;
    upd (fun s => s <|s_best_xx := Some m|>);;;
    res <- run_dsm G W inner_routine_call m sg simplex (g_drift_min G) (g_drift_avg G);;
    upd (fun s => s <|s_book ::= set b_term (fun _ => r_reason res)|>).

  (** dCRABAlgorithm.py:233-234 *)
  Fixpoint sum_routine (n : nat) (x : vec) (acc : num) : M num :=
    match n with
    | O => ret acc
    | S n => y <- routine_call x 0;; sum_routine n x (acc + y)%num
    end.
  (** dCRABAlgorithm.py:225-242 *)
  Definition update_FoM : M unit :=
    x0 <- mean_value;;
    upd (fun s => s <|s_is_record := true|> <|s_re ::= set re_step (fun _ => 0)|>);;;
    total <- sum_routine (Z.to_nat (g_drift_avg G)) x0 (of_Z 0);;
    if (g_drift_avg G =? 0)%Z then raise ZeroDivisionError else
    upd (fun s => s <|s_best := (total / of_Z (g_drift_avg G))%num|>).

  (** dCRABAlgorithm.py:246 / GRAPEAlgorithm.py:217 / ADAlgorithm.py:142; an unset best_xx raises *)
  Definition update_base : M vec :=
    s <- get;;
    match s_best_xx s with
    | None => raise AttributeError
    | Some x => c <- lift (update_base_controls x (s_controls s));;
                upd (fun s => s <|s_controls := c|>);;; ret x
    end.
  (** dCRABAlgorithm.py:244-249 *)
  Definition update_base_pulses : M unit :=
    x <- update_base;;
    upd (fun s => s <|s_book ::= fun b => b <|b_params ::= fun l => l ++ [x]|>
                                     <|b_supers ::= fun l => l ++ [get_random_super_parameter (s_controls s)]|>|>).

  (** dCRABAlgorithm.py:86-91 *)
  Definition drift_after_si : bool := g_drift_si G || (of_Z 0 <? g_drift_min G)%num.

  (** dCRABAlgorithm.py:195-223: one super-iteration, without the initial check of the running flag *)
  Definition super_iteration (k : nat) : M unit :=
    reset_start_time W;;; reset_track;;;
    upd (fun s => s <|s_book ::= set b_super_it (fun _ => k)|>);;;
    (if drift_after_si && (2 <=? k)%nat then update_FoM else ret tt);;;
    choose_basis;;; dsm_build;;; update_base_pulses.
  (** dCRABAlgorithm.py:191-223 *)
  Fixpoint dcrab_loop (ks : list nat) : M unit :=
    match ks with
    | [] => ret tt
    | k :: ks => r <- get_running G W;;
                 if negb r then ret tt else super_iteration k;;; dcrab_loop ks
    end.

  (** gradient computation: GRAPEAlgorithm.py:135-184 (controls, propagators, gradient), ADAlgorithm.py:125-130 and
      153-154, where differentiation calls the user's get_FoM directly *)
  Definition gradient (x : vec) : M unit :=
    s <- get;;
    '(c, d) <- lift (get_controls_lists x (s_controls s));;
    upd (fun s => s <|s_controls := c|> <|s_cnt ::= set k_grad S|>);;;
    emit (EvGrad d);;;
    match w_gradient W (k_grad (s_cnt s)) d with Some e => raise e | None => ret tt end.

  (** scipy.optimize.minimize(..., method="L-BFGS-B"): GRAPE evaluates gradient then value in one call
      (GRAPEAlgorithm.py:186-191), AD value then gradient (ADAlgorithm.py:109-118, 156-169) *)
  Fixpoint minimise (S : strategy) : M unit :=
    match S with
    | Done => ret tt
    | Ask x k =>
        (match g_kind G with KGRAPE => gradient x | _ => ret tt end);;;
        upd (fun s => s <|s_is_record := false|>);;;
        y <- routine_call x 0;;
        (match g_kind G with KAD => gradient x | _ => ret tt end);;;
        minimise (k y)
    end.

  (** GRAPEAlgorithm.py:195-202, ADAlgorithm.py:146-151: random start point *)
  Definition random_start : M vec :=
    s <- get;;
    r <- draw (get_control_parameters_number (s_controls s));;
    sg <- sigma_variation;; m <- mean_value;;
    let one_half := (of_Z 1 / of_Z 2)%num in
    ret (vadd m (map2 nmul (map (fun y => (of_Z 2 * (one_half - y))%num) r) sg)).
  (** ADAlgorithm.py:132-142 *)
  Fixpoint ad_loop (ks : list nat) : M unit :=
    match ks with
    | [] => ret tt
    | k :: ks =>
        upd (fun s => s <|s_book ::= set b_super_it (fun _ => k)|>);;;
        choose_basis;;;
        x0 <- random_start;; minimise (w_lbfgs W k x0);;;
        update_base;;; ad_loop ks
    end.

  (** [range(1, max_num_si + 1)] *)
  Definition super_range : list nat := seq 1 (Z.to_nat (g_max_si G)).

  (** the [run] methods: dCRABAlgorithm.py:191-223, DirectSearchAlgorithm.py:289-294, GRAPEAlgorithm.py:193-217,
      ADAlgorithm.py:132-142 *)
  Definition run : M unit :=
    match g_kind G with
    | KdCRAB => dcrab_loop super_range
    | KDirect => dsm_build
    | KGRAPE => x0 <- random_start;; minimise (w_lbfgs W 1 x0);;; update_base;;; ret tt
    | KAD => ad_loop super_range
    end.

  (** OptimizationAlgorithm.py:122-137 *)
  Definition begin : M unit := t <- now W;; upd (fun s => s <|s_start := Some t|>).

  (** [_get_final_results]: dCRABAlgorithm.py:443-457, DirectSearchAlgorithm.py:328-339 (an unset xx raises),
      GRAPEAlgorithm.py:235-245, ADAlgorithm.py:194-200 *)
  Definition final_results : M final :=
    s <- get;;
    let fom := (factor * s_best s)%num in
    match g_kind G with
    | KdCRAB => ret (mk_final fom (Some (re_best_sigma (s_re s))) (Some (s_iter s)) (Some (b_supers (s_book s)))
                       (Some (b_params (s_book s))) None (Some (b_term (s_book s))))
    | KDirect => match s_xx s with
                 | None => raise AttributeError
                 | Some xx => ret (mk_final fom None None None None (Some xx) (Some (b_term (s_book s))))
                 end
    | KGRAPE | KAD => ret (mk_final fom None (Some (s_iter s)) None None None None)
    end.
  (** OptimizationAlgorithm.py:318-330: the results file is written before the reason is added *)
  Definition end_ : M unit :=
    f <- final_results;;
    emit (EvFinal f);;;
    s <- get;;
    emit (EvLogged f (if String.eqb (s_reason s) "" then None else Some (s_reason s))).

  (** Optimizer.py:86-92 *)
  Definition execute : M unit := begin;;; run;;; end_.

  (** State after construction: OptimizationAlgorithm.py:40-96, dCRABAlgorithm.py:46-142,
      DirectSearchAlgorithm.py:45-109, GRAPEAlgorithm.py:46-105, ADAlgorithm.py:55-107, StoppingCriteria.py:28-50,
      CMAESStoppingCriteria.py:33-38, NelderMead.py:41.  Attributes that an algorithm does not have keep a dummy
      value. *)
  Definition new_state : res st :=
    (c <-! new_controls (g_pulses G) (g_times G) (g_params G);
     let nm := match g_method G with MNelderMead _ => true | MCMAES _ => false end in
     let tests := match g_steps G with Some l => zeros (S (length l)) | None => [] end in
     Ok {| s_running := true; s_reason := ""; s_start := None; s_iter := 0; s_alg_iter := 0; s_fom := initial_fom;
           s_std := Some (of_Z 1 / of_Z 10)%num; s_status := None; s_xx := None; s_best := initial_fom;
           s_best_xx := None; s_is_record := false; s_fom_list := []; s_iter_list := []; s_sent := None;
           s_hist := []; s_trace := []; s_controls := c;
           s_sc := mk_sc false (if nm then "Global Stopping Criterion reached." else "") [] (w_clock W 0);
           s_re := mk_re 0 tests tests (of_Z 0);
           s_book := mk_book 0 [] [] "";
           s_cnt := mk_counters (if has_dsm G then if nm then 2 else 1 else 0) 0 0 0 0 0 |})%res.

  (** Constructing an optimiser and executing it *)
  Definition optimise : res (res unit * st) := (s <-! new_state; Ok (execute s))%res.

  (** OptimizationAlgorithm.py:293-303 on a state: get_best_controls and get_best_bare_controls *)
  Definition get_best_controls (s : st) : res delivered :=
    (m <-! get_mean_value (s_controls s); '(_, d) <-! get_controls_lists m (s_controls s); Ok d)%res.
End Run.
