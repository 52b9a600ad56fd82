(** * Running flag, clock, stopping criteria, Nelder-Mead and CMA-ES. *)
From Coq Require Import String ZArith List Bool.
From RecordUpdate Require Import RecordSet.
From Verif Require Import Num Py ModelPulse ModelControls ModelLinalg ModelState.
Import ListNotations RecordSetNotations.
Open Scope list_scope.
Open Scope run_scope.

Section Search.
  Context {N : Num} (G : settings) (W : world).

  (** append to the trace of observable events *)
  Definition emit (e : event) : M unit := upd (fun s => s <|s_trace ::= cons e|>).

  (** [datetime.now()] *)
  Definition now : M Z :=
    s <- get;; upd (fun s => s <|s_cnt ::= set k_clock S|>);;; ret (w_clock W (k_clock (s_cnt s))).
  (** [(b - a).total_seconds() / 60.0] *)
  Definition minutes (a b : Z) : num := (of_Z (b - a) / of_Z 1000000 / of_Z 60)%num.

  (** OptimizationAlgorithm.py: [hasattr(self, "dsm_obj")]: dCRABAlgorithm.py:65, DirectSearchAlgorithm.py:57-69 *)
  Definition has_dsm : bool := match g_kind G with KdCRAB | KDirect => true | KGRAPE | KAD => false end.

  (** the running flag becomes False: HandleExit.py:27-33, AllInOneCommunication.py:137-140, 167, 184 *)
  Definition clear (by_ : clearer) : M unit :=
    upd (fun s => s <|s_running := false|>);;; emit (EvCleared by_).
  Definition set_conv (b : bool) : M unit := upd (fun s => s <|s_sc ::= set sc_conv (fun _ => b)|>).
  Definition set_sc_reason (r : string) : M unit := upd (fun s => s <|s_sc ::= set sc_reason (fun _ => r)|>).
  Definition set_reason (r : string) : M unit := upd (fun s => s <|s_reason := r|>).

  (** OptimizationAlgorithm.py:111-120 *)
  Definition handle_user_cancellation : M unit :=
    set_reason "User stopped the optimization";;;
    (if has_dsm then set_conv true else raise AttributeError);;;
    clear ByAsync.

  (** A point where another thread or SIGINT may act.  The model has one before every read and every overwrite
      of the running flag, of [is_converged] and of the termination reasons, and before every call of get_FoM. *)
  Definition poll : M unit :=
    s <- get;; upd (fun s => s <|s_cnt ::= set k_poll S|>);;;
    match w_async W (k_poll (s_cnt s)) with
    | ANone => ret tt
    | AStop => clear ByAsync
    | ASigint => handle_user_cancellation
    end.

  (** AllInOneCommunication.py:132-135, OptimizationAlgorithm.py:285-287 *)
  Definition get_running : M bool := poll;;; s <- get;; ret (s_running s).
  (** read of [sc_obj.is_converged] *)
  Definition is_conv : M bool := poll;;; s <- get;; ret (sc_conv (s_sc s)).

  (** [self.is_converged, self.terminate_reason = check(...)] followed by reading [is_converged] *)
  Definition set_check (b : bool) (reason : string) : M bool :=
    poll;;; set_conv b;;; set_sc_reason reason;;; is_conv.

  (** StoppingCriteria.py:64-76 *)
  Definition check_func_eval (calls : nat) : bool * string :=
    ((g_max_eval G <=? Z.of_nat calls)%Z, "Exceeded number of allowed function evaluations per direct search."%string).
  (** StoppingCriteria.py:78-90 *)
  Definition check_simplex (sim : list vec) : res (bool * string) :=
    (s0 <-! py_nth sim 0;
     m <-! amax (flat_map (fun v => map nabs (vsub v s0)) (tl sim));
     Ok ((m <=? g_xatol G)%num, "Convergence of the simplex."%string))%res.
  (** StoppingCriteria.py:92-106 *)
  Definition check_f_size (fsim : list num) : bool * string :=
    if (nstd fsim <=? g_fatol G)%num then (true, "Convergence of the FoM (fatol)."%string)
    else (false, "Convergence of the FoM."%string).
  (** StoppingCriteria.py:114-127 *)
  Definition check_time_out : M (bool * string) :=
    t <- now;; s <- get;;
    ret ((g_time_lim G <=? minutes (sc_start (s_sc s)) t)%num,
         "Optimization time for direct search exceeded limit."%string).

  (** NelderMeadStoppingCriteria.py:38-77 *)
  Definition check_stopping_nm (sim : list vec) (fsim : list num) (calls : nat) : M unit :=
    c <- is_conv;; if c then ret tt else
    c <- set_check (fst (check_func_eval calls)) (snd (check_func_eval calls));; if c then ret tt else
    r <- lift (check_simplex sim);;
    c <- set_check (fst r) (snd r);; if c then ret tt else
    c <- set_check (fst (check_f_size fsim)) (snd (check_f_size fsim));; if c then ret tt else
    r <- check_time_out;;
    poll;;; set_conv (fst r);;;
    c <- is_conv;; if c then poll;;; set_sc_reason (snd r) else ret tt.

  (** CMAESStoppingCriteria.py:40-84 *)
  Definition check_stopping_cma (fsim : list num) (calls : nat) : M unit :=
    c <- is_conv;; if c then ret tt else
    c <- set_check (fst (check_func_eval calls)) (snd (check_func_eval calls));; if c then ret tt else
    c <- set_check (fst (check_f_size fsim)) (snd (check_f_size fsim));; if c then ret tt else
    r <- check_time_out;;
    c <- set_check (fst r) (snd r);; ret tt.

  (** StoppingCriteria.py:108-112 and 129-133 *)
  Definition reset_start_time : M unit :=
    t <- now;; upd (fun s => s <|s_sc ::= set sc_start (fun _ => t)|>).
  Definition reset_track : M unit := upd (fun s => s <|s_sc ::= set sc_track (fun _ => [])|>).

  (** StoppingCriteria.py:135-142, called at OptimizationAlgorithm.py:212-228, where exceptions (missing key,
      no stopping criteria object) are swallowed *)
  Definition add_to_track (v : num) : M unit :=
    if has_dsm then
      match g_cbs_n G with
      | Some n => if (1 <? n)%Z then upd (fun s => s <|s_sc ::= set sc_track (fun l => l ++ [v])|>) else ret tt
      | None => ret tt
      end
    else ret tt.

  (** StoppingCriteria.py:144-169, called at OptimizationAlgorithm.py:231-247 (exceptions swallowed).
      Simplification: numpy.polyfit raising on NaN or infinite values is the formula giving NaN: in both cases
      the criterion does not fire. *)
  Definition check_advanced : M unit :=
    if has_dsm then
      match g_cbs_n G with
      | Some n =>
          if (1 <? n)%Z then
            poll;;; set_sc_reason "Change-based stopping criterion reached.";;;
            match g_cbs_change G with
            | None => ret tt
            | Some change =>
                s <- get;;
                let track := sc_track (s_sc s) in
                if (n <=? Z.of_nat (length track))%Z then
                  let m := fit_slope (last_n (Z.to_nat n) track) in
                  if (nabs (m * of_Z n) <? change)%num then poll;;; set_conv true else ret tt
                else ret tt
            end
          else ret tt
      | None => ret tt
      end
    else ret tt.

  (** gradientfreemethods/NelderMead.py: local variables of [run_dsm] *)
  Record nm := mk_nm {
    n_sim : list vec;
    n_fsim : list num;
    n_calls : nat;           (* calls_number[0] *)
    n_it : nat;              (* iterations *)
    n_drift : Z              (* last_drift_compensation_time *)
  }.
  (** end of an iteration of the while loop: by [break] or normally *)
  Inductive outcome := Broke (L : nm) | Goes (L : nm).

  (** result dictionary of [run_dsm] *)
  Record dsm_result := mk_result {
    r_fval : num; r_x : vec; r_nit : Z; r_calls : nat; r_reason : string
  }.

  Section NelderMead.
    (** the function handed to the search: point, iteration number, value found by drift compensation *)
    Variable func : vec -> nat -> option num -> M num.
    Variables (rho chi psi sigma : num) (dim : nat) (drift_min : num) (drift_avg : Z).

    (** DirectSearchMethod.py:27-37: the call counter is increased and the function called *)
    Definition call (x : vec) (it : nat) (v : option num) (calls : nat) : M (num * nat) :=
      y <- func x it v;; ret (y, S calls).

    (** NelderMead.py:97-98.  Simplification: the simplex has exactly dim+1 rows (simplex_creation) *)
    Fixpoint eval_rows (rows : list vec) (it calls : nat) : M (list num * nat) :=
      match rows with
      | [] => ret ([], calls)
      | x :: rows => '(y, calls) <- call x it None calls;;
                     '(ys, calls) <- eval_rows rows it calls;;
                     ret (y :: ys, calls)
      end.

    (** NelderMead.py:100-101 and 160-161 *)
    Definition sort_simplex (L : nm) : M nm :=
      let ind := map Z.of_nat (w_argsort W (n_fsim L)) in
      sim <- lift (gather (n_sim L) ind);;
      fsim <- lift (gather (n_fsim L) ind);;
      ret (mk_nm sim fsim (n_calls L) (n_it L) (n_drift L)).

    (** [sim[-1] = x; fsim[-1] = f] *)
    Definition put_last (x : vec) (f : num) (calls : nat) (L : nm) : M outcome :=
      sim <- lift (py_set (n_sim L) (-1) x);;
      fsim <- lift (py_set (n_fsim L) (-1) f);;
      ret (Goes (mk_nm sim fsim calls (n_it L) (n_drift L))).

    (** NelderMead.py:154-158; [j] runs over the remaining indices *)
    Fixpoint shrink_rows (js : list nat) (L : nm) : M nm :=
      match js with
      | [] => ret L
      | j :: js =>
          s0 <- lift (py_nth (n_sim L) 0);;
          sj <- lift (py_nth (n_sim L) (Z.of_nat j));;
          let x := vadd s0 (vscale sigma (vsub sj s0)) in
          sim <- lift (py_set (n_sim L) (Z.of_nat j) x);;
          let L := mk_nm sim (n_fsim L) (n_calls L) (n_it L) (n_drift L) in
          c <- is_conv;;
          if c then ret L else
          '(y, calls) <- call x (n_it L) None (n_calls L);;
          fsim <- lift (py_set (n_fsim L) (Z.of_nat j) y);;
          shrink_rows js (mk_nm (n_sim L) fsim calls (n_it L) (n_drift L))
      end.
    Definition shrink (calls : nat) (L : nm) : M outcome :=
      L <- shrink_rows (seq 1 dim) (mk_nm (n_sim L) (n_fsim L) calls (n_it L) (n_drift L));;
      ret (Goes L).

    (** left-over simplex when an iteration is left by [break] *)
    Definition with_calls (calls : nat) (L : nm) : nm := mk_nm (n_sim L) (n_fsim L) calls (n_it L) (n_drift L).

    (** NelderMead.py:106-158 *)
    Definition nm_move (L : nm) : M outcome :=
      let one := of_Z 1 in
      let total := match removelast (n_sim L) with [] => zeros dim | r :: rows => fold_left vadd rows r end in
      let xbar := vdiv total (of_Z (Z.of_nat dim)) in
      last <- lift (py_nth (n_sim L) (-1));;
      let xr := vsub (vscale (one + rho)%num xbar) (vscale rho last) in
      '(fxr, calls) <- call xr (n_it L) None (n_calls L);;
      f0 <- lift (py_nth (n_fsim L) 0);;
      if (fxr <? f0)%num then
        let xe := vsub (vscale (one + rho * chi)%num xbar) (vscale (rho * chi)%num last) in
        c <- is_conv;; if c then ret (Broke (with_calls calls L)) else
        '(fxe, calls) <- call xe (n_it L) None calls;;
        if (fxe <? fxr)%num then put_last xe fxe calls L else put_last xr fxr calls L
      else
        f2 <- lift (py_nth (n_fsim L) (-2));;
        if (fxr <? f2)%num then put_last xr fxr calls L
        else
          fl <- lift (py_nth (n_fsim L) (-1));;
          if (fxr <? fl)%num then
            let xc := vsub (vscale (one + psi * rho)%num xbar) (vscale (psi * rho)%num last) in
            c <- is_conv;; if c then ret (Broke (with_calls calls L)) else
            '(fxc, calls) <- call xc (n_it L) None calls;;
            if (fxc <=? fxr)%num then put_last xc fxc calls L else shrink calls L
          else
            let xcc := vadd (vscale (one - psi)%num xbar) (vscale psi last) in
            c <- is_conv;; if c then ret (Broke (with_calls calls L)) else
            '(fxcc, calls) <- call xcc (n_it L) None calls;;
            if (fxcc <? fl)%num then put_last xcc fxcc calls L else shrink calls L.

    (** NelderMead.py:185-187: [for j in range(n): curr_best_fom += func(sim[0], iterations)] *)
    Fixpoint sum_calls (n : nat) (x : vec) (it : nat) (acc : num) (calls : nat) : M (num * nat) :=
      match n with
      | O => ret (acc, calls)
      | S n => '(y, calls) <- call x it None calls;; sum_calls n x it (acc + y)%num calls
      end.

    (** NelderMead.py:163-203 *)
    Definition nm_drift (L : nm) : M nm :=
      if negb (of_Z 0 <? drift_min)%num then ret L else
      c <- is_conv;; if c then ret L else
      t <- now;;
      if negb (drift_min <=? minutes (n_drift L) t)%num then ret L else
      prev <- lift (py_nth (n_fsim L) 0);;
      x0 <- lift (py_nth (n_sim L) 0);;
      '(total, calls) <- sum_calls (Z.to_nat drift_avg) x0 (n_it L) (of_Z 0) (n_calls L);;
      if (drift_avg =? 0)%Z then raise ZeroDivisionError else
      let f0 := (total / of_Z drift_avg)%num in
      let fsim := match n_fsim L with
                  | [] => []
                  | _ :: fs => f0 :: map (fun f => (f + (f0 - prev))%num) fs
                  end in
      t <- now;;
      '(_, calls) <- call x0 (n_it L) (Some f0) calls;;
      ret (mk_nm (n_sim L) fsim calls (n_it L) t).

    (** NelderMead.py:106-216: one iteration *)
    Definition nm_iter (L : nm) : M outcome :=
      o <- nm_move L;;
      match o with
      | Broke L => ret (Broke L)
      | Goes L =>
          L <- sort_simplex L;;
          L <- nm_drift L;;
          let L := mk_nm (n_sim L) (n_fsim L) (n_calls L) (S (n_it L)) (n_drift L) in
          r <- get_running;;
          (if r then ret tt else
             poll;;; set_conv true;;;
             set_sc_reason "User stopped the optimization or higher order stopping criterion has been reached");;;
          check_stopping_nm (n_sim L) (n_fsim L) (n_calls L);;;
          ret (Goes L)
      end.

    (** NelderMead.py:105-217 *)
    Fixpoint nm_loop (fuel : nat) (L : nm) : M nm :=
      match fuel with
      | O => raise (w_stuck W)
      | S fuel =>
          c <- is_conv;; if c then ret L else
          o <- nm_iter L;;
          match o with Broke L => ret L | Goes L => nm_loop fuel L end
      end.
  End NelderMead.

  (** NelderMead.py:80-90: simplex when none is passed; row 0 stays zero *)
  Definition default_simplex (x0 : vec) : list vec :=
    let nonzdelt := (of_Z 5 / of_Z 100)%num in
    let zdelt := (of_Z 25 / of_Z 100000)%num in
    zeros (length x0) ::
    map (fun k => set_nth x0 k (if neqb (entry k x0) (of_Z 0) then zdelt
                                else ((of_Z 1 + nonzdelt) * entry k x0)%num)) (seq 0 (length x0)).

  (** NelderMead.py:69-78 *)
  Definition nm_parameters (adaptive : bool) (dim : nat) : res (num * num * num * num) :=
    let d := of_Z (Z.of_nat dim) in
    let one := of_Z 1 in let two := of_Z 2 in
    if adaptive then
      match dim with
      | O => Err ZeroDivisionError
      | _ => Ok (one, (one + two / d)%num, (of_Z 3 / of_Z 4 - one / (two * d))%num, (one - one / d)%num)
      end
    else Ok (one, two, (one / two)%num, (one / two)%num).

  (** NelderMead.py:43-231 *)
  Definition run_nm (func : vec -> nat -> option num -> M num) (adaptive : bool) (x0 : vec)
    (initial_simplex : option (list vec)) (drift_min : num) (drift_avg : Z) : M dsm_result :=
    poll;;; set_conv false;;;
    let dim := length x0 in
    _ <- now;; t <- now;;
    '(rho, chi, psi, sigma) <- lift (nm_parameters adaptive dim);;
    let sim := match initial_simplex with None => default_simplex x0 | Some sim => sim end in
    '(fsim, calls) <- eval_rows func sim 0 0;;
    L <- sort_simplex (mk_nm sim fsim calls 1 t);;
    L <- nm_loop func rho chi psi sigma dim drift_min drift_avg (w_fuel W) L;;
    x <- lift (py_nth (n_sim L) 0);;
    fval <- lift (py_nth (n_fsim L) 0);;
    s <- get;;
    ret (mk_result fval x (Z.of_nat (n_it L) - 1) (n_calls L) (sc_reason (s_sc s))).

  (** [np.random.randn(n)] *)
  Definition randn (n : nat) : M vec :=
    s <- get;; upd (fun s => s <|s_cnt ::= set k_randn (fun p => p + n)|>);;;
    ret (map (w_randn W) (seq (k_randn (s_cnt s)) n)).

  Section CMAES.
    Variable func : vec -> nat -> option num -> M num.
    Variables (x0 sigma_v : vec) (l_pop : nat).

    (** CMAES.py:138-148: one generation; [hist] are the evaluations before, oldest first.  The very first
        candidate is the start point. *)
    Fixpoint generation (n : nat) (it : nat) (hist : list (vec * num)) : M (list (vec * num)) :=
      match n with
      | O => ret []
      | S n =>
          z <- randn (length x0);;
          x <- lift (w_cma W x0 sigma_v hist z);;
          let x := match hist with [] => x0 | _ => x end in
          y <- func x it None;;
          g <- generation n it (hist ++ [(x, y)]);;
          ret ((x, y) :: g)
      end.

    (** CMAES.py:136-206; [best] is ([fsim[0]], [arx[:, ind[0]]]).  Simplification: everything the loop computes
        from the evaluations (mean, covariance, step size) is inside the sampling oracle. *)
    Fixpoint cma_loop (fuel : nat) (it : nat) (hist : list (vec * num)) (best : num * vec)
      : M (num * vec * nat * nat) :=
      match fuel with
      | O => raise (w_stuck W)
      | S fuel =>
          c <- is_conv;; if c then ret (best, it, length hist) else
          g <- generation l_pop it hist;;
          let hist := hist ++ g in
          let ind := map Z.of_nat (w_argsort W (map snd g)) in
          fsim <- lift (gather (map snd g) ind);;
          lift (w_cma_adapt W hist);;;
          i0 <- lift (py_nth ind 0);;
          x <- lift (py_nth (map fst g) i0);;
          f0 <- lift (py_nth fsim 0);;
          r <- get_running;;
          (if r then ret tt else
             poll;;; set_conv true;;;
             set_sc_reason "User stopped the optimization or higher order stopping criterion has been reached");;;
          check_stopping_cma fsim (length hist);;;
          cma_loop fuel (S it) hist (f0, x)
      end.
  End CMAES.

  (** CMAES.py:47-227; the call counter equals the number of evaluations.  Fewer than two candidates per
      generation leave no weights and raise at [1 / sum(weights**2)].  Without any generation the result is that of
      the zero arrays of lines 125-133. *)
  Definition run_cma (func : vec -> nat -> option num -> M num) (population : option nat) (x0 sigma_v : vec)
    : M dsm_result :=
    poll;;; set_conv false;;;
    let l_pop := match population with Some p => p | None => w_pop W (length x0) end in
    if (l_pop <? 2)%nat then raise ZeroDivisionError else
    '(best, it, calls) <- cma_loop func x0 sigma_v l_pop (w_fuel W) 1 [] (of_Z 0, zeros (length x0));;
    s <- get;;
    ret (mk_result (fst best) (snd best) (Z.of_nat it) calls (sc_reason (s_sc s))).

  (** run_dsm of the configured direct search method *)
  Definition run_dsm (func : vec -> nat -> option num -> M num) (x0 sigma_v : vec) (initial_simplex : list vec)
    (drift_min : num) (drift_avg : Z) : M dsm_result :=
    match g_method G with
    | MNelderMead adaptive => run_nm func adaptive x0 (Some initial_simplex) drift_min drift_avg
    | MCMAES population => run_cma func population x0 sigma_v
    end.
End Search.
