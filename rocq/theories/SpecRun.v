(** * Vocabulary for statements about optimisation runs.
    A run is observed through its events; [s_trace] lists them newest first, [history] in order of time. *)
From Coq Require Import String ZArith List Bool.
From RecordUpdate Require Import RecordSet.
From Verif Require Import Num Py ModelPulse ModelControls ModelLinalg ModelState.
Import ListNotations RecordSetNotations.
Open Scope list_scope.

Section SpecRun.
  Context {N : Num}.

  Definition history (s : st) : list event := rev (s_trace s).

  (** get_FoM called through the evaluation routine *)
  Definition is_call (e : event) : bool := match e with EvEval _ _ _ => true | _ => false end.
  Definition calls (tr : list event) : nat := length (filter is_call tr).
  (** get_FoM called in any way: the AD algorithm also calls it to differentiate *)
  Definition is_fom_call (G : settings) (e : event) : bool :=
    match e with
    | EvEval _ _ _ => true
    | EvGrad _ => match g_kind G with KAD => true | _ => false end
    | _ => false
    end.
  Definition fom_calls (G : settings) (tr : list event) : nat := length (filter (is_fom_call G) tr).
  (** the running flag cleared *)
  Definition is_stop (e : event) : bool := match e with EvCleared _ => true | _ => false end.
  Definition no_stop (tr : list event) : Prop := forall by_, ~ In (EvCleared by_) tr.
  Definition no_call (tr : list event) : Prop := forall x d a, ~ In (EvEval x d a) tr.

  (** number returned by the user, if any *)
  Definition user_value (a : answer) : option num :=
    match a with
    | Dict r => match a_fom r with FVal v => Some v | _ => None end
    | Raise => None
    end.
  (** status code returned by the user; success is 0, also if there is no entry *)
  Definition success (a : answer) : bool :=
    match a with
    | Dict r => match a_status r with Some c => (c =? 0)%Z | None => true end
    | Raise => false
    end.
  (** smaller is better: the sign of a value to maximise is changed *)
  Definition cost (G : settings) (v : num) : num := if g_maximise G then (of_Z (-1) * v)%num else v.
  (** costs of all evaluations that returned a number *)
  Definition costs (G : settings) (tr : list event) : list num :=
    flat_map (fun e => match e with
                       | EvEval _ _ a => match user_value a with Some v => [cost G v] | None => [] end
                       | _ => []
                       end) tr.

  (** the same with the user's sign *)
  Definition values (tr : list event) : list num :=
    flat_map (fun e => match e with
                       | EvEval _ _ a => match user_value a with Some v => [v] | None => [] end
                       | _ => []
                       end) tr.
  (** costs of the evaluations with status code 0 *)
  Definition good_costs (G : settings) (tr : list event) : list num :=
    flat_map (fun e => match e with
                       | EvEval _ _ a => match user_value a with
                                         | Some v => if success a then [cost G v] else []
                                         | None => []
                                         end
                       | _ => []
                       end) tr.
  (** the value [v] is at least as good as the goal [g] *)
  Definition attains (G : settings) (v g : num) : bool := if g_maximise G then (g <=? v)%num else (v <=? g)%num.

  (** [b] is the best of the values [vs]: the first smallest one below 1e10, else 1e10 *)
  Definition ceiling : num := of_Z 10000000000.
  Definition is_best (vs : list num) (b : num) : Prop :=
    (b = ceiling \/ (In b vs /\ (b <? ceiling)%num = true)) /\ forall v, In v vs -> (v <? b)%num = false.

  (** an evaluation better than everything before *)
  Definition improves (G : settings) (past : list event) (a : answer) : Prop :=
    exists v, user_value a = Some v /\ (cost G v <? ceiling)%num = true /\
              forall w, In w (costs G past) -> (w <=? cost G v)%num = false.

  (** number and value (user sign) of the successful evaluations; calls are numbered from [n] *)
  Fixpoint log (n : nat) (tr : list event) : list (nat * num) :=
    match tr with
    | [] => []
    | EvEval _ _ a :: tr =>
        (match user_value a with
         | Some v => if success a then [(n, v)] else []
         | None => []
         end) ++ log (S n) tr
    | _ :: tr => log n tr
    end.

  (** best-controls file on disk after the events [tr] *)
  Definition disk (tr : list event) : option saved :=
    fold_left (fun o e => match e with EvSave f => Some f | _ => o end) tr None.

  (** exception caused by an answer without a number *)
  Definition complaint (a : answer) : exn :=
    match a with
    | Raise => UserError
    | Dict r => match a_fom r with FMissing => KeyError | _ => TypeError end
    end.

  (** time limit: enforced below 1e10 minutes *)
  Definition limited (G : settings) : Prop := (g_total_lim G <? ceiling)%num = true.
  Definition too_late (G : settings) (t : num) : Prop := limited G /\ (g_total_lim G <=? t)%num = true.

  (** sign changes: the opposite direction with the opposite goal, and the negated figure of merit *)
  Definition negated (v : num) : num := (of_Z (-1) * v)%num.
  Definition map_answer (f : num -> num) (a : answer) : answer :=
    match a with
    | Dict r => match a_fom r with FVal v => Dict (mk_adict (FVal (f v)) (a_std r) (a_status r)) | _ => a end
    | Raise => a
    end.
  Definition reversed (G : settings) : settings :=
    G <|g_maximise := negb (g_maximise G)|> <|g_goal := option_map negated (g_goal G)|>.
  Definition negated_fom (W : world) : world := W <|w_fom := fun h => map_answer negated (w_fom W h)|>.
  (** the event with values of the user's sign transformed; everything else is the same *)
  Definition map_final (f : num -> num) (r : final) : final :=
    mk_final (f (f_fom r)) (f_std r) (f_nfev r) (f_super r) (f_params r) (f_xx r) (f_reason r).
  Definition map_event (f : num -> num) (e : event) : event :=
    match e with
    | EvEval x d a => EvEval x d (map_answer f a)
    | EvFinal r => EvFinal (map_final f r)
    | EvLogged r o => EvLogged (map_final f r) o
    | _ => e
    end.

  (** Re-evaluation of a candidate.  [vs] are the values obtained for it so far, [ss] their standard deviations.
      The user reports a standard deviation with each value; 1 if there is none. *)
  Definition spread (a : answer) : num :=
    match a with
    | Dict r => match a_std r with Some v => v | None => of_Z 1 end
    | Raise => of_Z 1
    end.
  Definition spreads (tr : list event) : list num :=
    flat_map (fun e => match e with
                       | EvEval _ _ a => match user_value a with Some _ => [spread a] | None => [] end
                       | _ => []
                       end) tr.
  Definition total (l : list num) : num := fold_right nadd (of_Z 0) l.
  Definition average (l : list num) : num := (total l / of_Z (Z.of_nat (length l)))%num.
  (** probability that the candidate is better than the record [b] with standard deviation [sb]; a combined standard
      deviation below 1e-14 counts as 1 *)
  Definition confidence (W : world) (b sb : num) (vs ss : list num) : num :=
    let q := nsqrt (average ss * average ss + sb * sb)%num in
    w_cdf W ((b - average vs) / (if (nabs q <? of_Z 1 / of_Z 100000000000000)%num then of_Z 1 else q))%num.
  (** the candidate was tested against the thresholds [ps] in turn: it was evaluated again exactly as long as its
      probability was not below the next threshold, and at most once per threshold *)
  Record tested (W : world) (ps : list num) (b sb : num) (vs ss : list num) : Prop := mk_tested {
    te_some : vs <> [];
    te_spreads : length ss = length vs;
    te_most : length vs <= S (length ps);
    te_passed : forall k p, S k < length vs -> nth_error ps k = Some p ->
      (confidence W b sb (firstn (S k) vs) (firstn (S k) ss) <? p)%num = false;
    te_dropped : forall k p, length vs = S k -> nth_error ps k = Some p -> (confidence W b sb vs ss <? p)%num = true
  }.
  (** all tests passed, and at the end more probable than the last threshold *)
  Definition accepted (W : world) (ps : list num) (b sb : num) (vs ss : list num) : Prop :=
    length vs = S (length ps) /\ exists qs p, ps = qs ++ [p] /\ (p <? confidence W b sb vs ss)%num = true.

  (** value that the library logs for an evaluation, after the values [earlier] for the same candidate, and the list of
      all of them (with the user's sign) for the candidate *)
  Definition reading (earlier : list num) (v : num) : num :=
    match length earlier with
    | O => v
    | S k => ((average earlier * of_Z (Z.of_nat k) + v) / of_Z (Z.of_nat (S k)))%num
    end.
  Fixpoint readings (G : settings) (earlier vs : list num) : list num :=
    match vs with
    | [] => []
    | v :: vs => cost G (reading earlier v) :: readings G (earlier ++ [v]) vs
    end.

  Definition saves (tr : list event) : list saved := flat_map (fun e => match e with EvSave f => [f] | _ => [] end) tr.
  Definition all_success (tr : list event) : Prop := forall x d a, In (EvEval x d a) tr -> success a = true.
  (** the arrays of tested values have one place more than there are thresholds *)
  Definition ready (ps : list num) (s : st) : Prop :=
    length (re_fom (s_re s)) = S (length ps) /\ length (re_sigma (s_re s)) = S (length ps).

  (** the user pressed Ctrl-C at some point that the run has passed *)
  Definition cancelled (W : world) (s : st) : Prop := exists n, n < k_poll (s_cnt s) /\ w_async W n = ASigint.
  (** the reasons that OptimizationAlgorithm records *)
  Definition stop_reasons : list string :=
    ["User stopped the optimization"; "Maximum number of total function evaluations reached"; "Goal FoM reached";
     "Maximum optimization runtime reached"]%string.

  (** the minimiser asks only for vectors satisfying [P] *)
  Fixpoint asks_only (P : vec -> Prop) (S : strategy) : Prop :=
    match S with Done => True | Ask x k => P x /\ forall y, asks_only P (k y) end.
  (** no re-evaluation and no drift compensation *)
  Definition plain_run (G : settings) : Prop :=
    g_steps G = None /\ g_drift_si G = false /\ (of_Z 0 <? g_drift_min G)%num = false.
End SpecRun.
