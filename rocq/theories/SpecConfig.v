(** * What an optimisation dictionary says, after Documentation/Settings_in_Optimization_Dict.md: entries by their path, documented
    defaults, kinds of values.  Nothing here changes a dictionary or depends on the order of reading. *)
From Coq Require Import String ZArith List Bool.
From Verif Require Import Num Py ModelPulse ModelBases ModelControls ModelState ModelImport SpecImport ModelJson ModelConfig.
Import ListNotations.
Open Scope string_scope.
Open Scope list_scope.

Section SpecConfig.
  Context {N : Num} (F : funs N) (E : env).
  Notation V := (value num).

  (** the first entry of a dictionary with a key *)
  Definition lookup (d : list (key * V)) (s : string) : option V :=
    option_map snd (List.find (fun kv => match fst kv with KStr s' => String.eqb s s' | _ => false end) d).
  (** the value at the end of a path of keys *)
  Fixpoint entry (v : V) (path : list string) : option V :=
    match path with
    | [] => Some v
    | s :: path => match v with VDict d => match lookup d s with Some v => entry v path | None => None end | _ => None end
    end.
  (** the same, or the default if there is no such entry *)
  Definition setting (v : V) (path : list string) (default : V) : V := match entry v path with Some x => x | None => default end.

  (** kinds of values *)
  Inductive is_number : V -> num -> Prop :=
  | number_int n : is_number (VInt n) (of_Z n)
  | number_float x : is_number (VFloat x) x
  | number_bool (b : bool) : is_number (VBool b) (of_Z (if b then 1 else 0)).
  Definition is_dict (v : V) : Prop := exists d, v = VDict d.
  Definition is_list (v : V) (l : list V) : Prop := v = VList l \/ v = VTuple l.
  Definition are_numbers (v : V) (xs : list num) : Prop :=
    exists l, (v = VList l \/ v = VTuple l \/ v = VArray l) /\ Forall2 is_number l xs.
  (** an optional value *)
  Inductive may_be {A} (R : V -> A -> Prop) : option V -> option A -> Prop :=
  | may_none : may_be R None None
  | may_some v a : R v a -> may_be R (Some v) (Some a).
  (** None, or a value *)
  Inductive or_none {A} (R : V -> A -> Prop) : V -> option A -> Prop :=
  | or_none_none : or_none R VNone None
  | or_none_some v a : R v a -> v <> VNone -> or_none R v (Some a).
  Definition is_integer (v : V) (n : Z) : Prop := v = VInt n.
  Definition is_text (v : V) (s : string) : Prop := v = VStr s.
  Definition is_flag (v : V) (b : bool) : Prop := v = VBool b.

  (** decimal fractions *)
  Definition frac (n d : Z) : V := VFloat (of_Z n / of_Z d)%num.
  Definition float (n : Z) : V := frac n 1.

  (** the class chosen by the three entries [prefix]_module, [prefix]_class and [prefix]_name of a dictionary *)
  Definition selects (class_type : string) (v : V) (module class_ name : string) (k : cls) : Prop :=
    exists m c n module' class',
      or_none is_text (setting v [module] VNone) m /\ or_none is_text (setting v [class_] VNone) c /\ or_none is_text (setting v [name] VNone) n /\
      chosen class_type n m c module' class' /\ installed E module' class' = Found (Some k).
  (** no class object is given *)
  Definition no_object (v : V) (key : string) : Prop := setting v [key] VNone = VNone.

  (** ** General entries *)
  Record plan := mk_plan {
    p_job : string; p_logfile : bool; p_console : bool; p_microseconds : bool; p_format : string;
    p_settings : settings; p_seed : seed; p_lbfgs : option lbfgs_cfg
  }.
  Definition says_general (D : V) (p : plan) : Prop :=
    is_text (setting D ["optimization_client_name"] (VStr "run")) (p_job p) /\
    is_flag (setting D ["create_logfile"] (VBool true)) (p_logfile p) /\
    is_flag (setting D ["console_info"] (VBool true)) (p_console p) /\
    is_flag (setting D ["use_microsecond_name"] (VBool false)) (p_microseconds p) /\
    is_text (setting D ["dump_format"] (VStr "npz")) (p_format p).
  (** ** Main settings; [A] is the value of "algorithm_settings".  10**10, where the documentation has 10e10 *)
  Definition huge : V := VInt (10 ^ 10).
  Definition says_main (A : V) (G : settings) : Prop :=
    is_integer (setting A ["max_eval_total"] huge) (g_max_total G) /\
    is_number (setting A ["total_time_lim"] huge) (g_total_lim G) /\
    is_text (setting A ["optimization_direction"] (VStr "minimization")) (if g_maximise G then "maximization" else "minimization") /\
    or_none is_number (setting A ["FoM_goal"] VNone) (g_goal G).
  (** ** Search method and its stopping criteria *)
  Definition default_change : V := VDict [(KStr "cbs_funct_evals", VInt 1); (KStr "cbs_change", VInt 0)].
  Definition says_stopping (S : V) (G : settings) : Prop :=
    is_integer (setting S ["max_eval"] huge) (g_max_eval G) /\
    is_number (setting S ["time_lim"] huge) (g_time_lim G) /\
    is_number (setting S ["xatol"] (frac 1 (10 ^ 14))) (g_xatol G) /\
    is_number (setting S ["fatol"] (frac 1 (10 ^ 100))) (g_fatol G) /\
    is_dict (setting S ["change_based_stop"] default_change) /\
    may_be is_integer (entry (setting S ["change_based_stop"] default_change) ["cbs_funct_evals"]) (g_cbs_n G) /\
    may_be is_number (entry (setting S ["change_based_stop"] default_change) ["cbs_change"]) (g_cbs_change G).
  Definition is_nelder_mead (S : V) (m : method) : Prop :=
    exists b, m = MNelderMead b /\ is_flag (setting S ["is_adaptive"] (VBool false)) b.
  Definition is_cmaes (S : V) (m : method) : Prop :=
    exists p, m = MCMAES p /\ or_none is_integer (setting S ["population"] VNone) (option_map Z.of_nat p).
  (** [direct]: the direct search, which takes Nelder-Mead if the deprecated key "dsm_name" is there *)
  Definition says_method (direct : bool) (S : V) (m : method) : Prop :=
    let deprecated := if direct then entry S ["dsm_name"] <> None else False in
    let by_name := selects "dsm_settings" S "dsm_algorithm_module" "dsm_algorithm_class" "dsm_algorithm_name" in
    (deprecated /\ is_nelder_mead S m) \/
    (~ deprecated /\ by_name ClsNelderMead /\ is_nelder_mead S m) \/
    (~ deprecated /\ by_name ClsCMAES /\ is_cmaes S m).
  Definition says_search (direct : bool) (A : V) (G : settings) : Prop :=
    exists S W, entry A ["dsm_settings"; "general_settings"] = Some S /\ is_dict S /\
      entry A ["dsm_settings"; "stopping_criteria"] = Some W /\ is_dict W /\
      says_method direct S (g_method G) /\ says_stopping W G.
  (** ** Drift compensation, re-evaluation *)
  Definition says_drift (direct : bool) (A : V) (G : settings) : Prop :=
    exists C, setting A ["compensate_drift"] (VDict []) = C /\ is_dict C /\
      (if direct then g_drift_si G = false else is_flag (setting C ["compensate_after_SI"] (VBool false)) (g_drift_si G)) /\
      is_number (setting C ["compensate_after_minutes"] (float 0)) (g_drift_min G) /\
      is_integer (setting C ["num_average"] (VInt 1)) (g_drift_avg G).
  Definition documented_steps : V := VList [frac 3 10; frac 5 10; frac 501 1000].
  Definition says_steps (A : V) (G : settings) : Prop :=
    match entry A ["re_evaluation"] with
    | None => g_steps G = None
    | Some R => is_dict R /\ exists l, g_steps G = Some l /\ are_numbers (setting R ["re_evaluation_steps"] documented_steps) l
    end.
  (** ** Seeds.  [fallback]: what is taken without a usable seed *)
  Inductive says_seed (fallback : seed) : option V -> seed -> Prop :=
  | seed_no_number R : is_dict R -> entry R ["seed_number"] = None -> says_seed fallback (Some R) fallback
  | seed_not_a_dictionary R : (R = VNone \/ (exists b, R = VBool b) \/ (exists n, R = VInt n) \/ (exists x, R = VFloat x) \/
        (exists s, R = VStr s) \/ (exists l, is_list R l)) -> says_seed fallback (Some R) fallback
  | seed_none R : entry R ["seed_number"] = Some VNone -> says_seed fallback (Some R) Unseeded
  | seed_number R n : entry R ["seed_number"] = Some (VInt n) -> (0 <= n)%Z -> says_seed fallback (Some R) (Seeded n).
  Definition wrong_seed (R : V) : Prop := (exists x, entry R ["seed_number"] = Some (VFloat x)) \/ (exists d, entry R ["seed_number"] = Some (VDict d)).
  Definition seed_of (k : kind) (R : option V) (s : seed) : Prop :=
    match k with
    | KDirect => s = Unseeded
    | KdCRAB => match R with
        | None => s = Unseeded
        | Some r => says_seed (Seeded 2022) R s \/ (wrong_seed r /\ s = Seeded 2022)
        end
    | KGRAPE => match R with None => s = Seeded 2022 | Some r => says_seed (Seeded 2022) R s end
    | KAD => match R with None => s = SeedDrawn | Some r => says_seed SeedDrawn R s \/ (wrong_seed r /\ s = SeedDrawn) end
    end.
  (** ** L-BFGS-B *)
  Definition says_lbfgs (A : V) (l : lbfgs_cfg) : Prop :=
    exists S, setting A ["stopping_criteria"] (VDict []) = S /\ is_dict S /\
      is_number (setting S ["max_eval_total"] huge) (lb_maxfun l) /\
      is_number (setting S ["ftol"] (frac 1 (10 ^ 6))) (lb_ftol l) /\
      is_number (setting S ["gtol"] (frac 1 (10 ^ 6))) (lb_gtol l) /\
      is_number (setting S ["maxls"] (VInt 20)) (lb_maxls l).
  (** settings of the run that an algorithm without a search method does not have *)
  Definition no_search (G : settings) : Prop :=
    g_method G = MNelderMead false /\ g_steps G = None /\ g_drift_si G = false /\ g_drift_min G = of_Z 0 /\ g_drift_avg G = 1%Z /\
    g_max_eval G = 0%Z /\ g_time_lim G = of_Z 0 /\ g_xatol G = of_Z 0 /\ g_fatol G = of_Z 0 /\ g_cbs_n G = None /\ g_cbs_change G = None.

  (** ** Pulses *)
  (** a guess or scaling: [default] function, [ev] what a text means, [arr] samples, [load] functions of files *)
  Inductive says_function {X} (default : X) (ev : string -> out X) (arr : list num -> X) (load : string -> string -> out X) : V -> X -> Prop :=
  | function_none : says_function default ev arr load VNone default
  | function_text v s f : entry v ["function_type"] = Some (VStr "lambda_function") -> entry v ["lambda_function"] = Some (VStr s) ->
      ev s = Good f -> says_function default ev arr load v f
  | function_samples v w l : entry v ["function_type"] = Some (VStr "list_function") -> entry v ["list_function"] = Some w ->
      are_numbers w l -> says_function default ev arr load v (arr l)
  | function_file v path name mode f : entry v ["function_type"] = Some (VStr "python_file") ->
      is_text (setting v ["file_path"] (VStr "")) path -> is_text (setting v ["function_name"] (VStr "")) name ->
      is_text (setting v ["path_mode"] (VStr "relative")) mode ->
      e_exists E (file_of E path mode) = true -> name <> "" -> load (file_of E path mode) name = Good f -> says_function default ev arr load v f
  | function_no_file v path name mode : entry v ["function_type"] = Some (VStr "python_file") ->
      is_text (setting v ["file_path"] (VStr "")) path -> is_text (setting v ["function_name"] (VStr "")) name ->
      is_text (setting v ["path_mode"] (VStr "relative")) mode ->
      (e_exists E (file_of E path mode) = false \/ name = "") -> says_function default ev arr load v default
  | function_unknown v t : entry v ["function_type"] = Some (VStr t) -> ~ In t ["lambda_function"; "list_function"; "python_file"] ->
      says_function default ev arr load v default.
  (** settings of the bases: name of the entry and default, basis by basis; entries that a basis does not have are 0 *)
  Definition says_basis (b : basis_kind) (B : V) (s : basis_settings) : Prop :=
    match b with
    | Piecewise => bs_k s = 0%nat
    | _ => is_integer (setting B ["basis_vector_number"] (VInt 1)) (Z.of_nat (bs_k s))
    end /\
    match b with
    | Sinc => is_number (setting B ["basis_max"] (float 1)) (bs_basis_max s)
    | _ => bs_basis_max s = of_Z 0
    end /\
    match b with
    | Sigmoid => is_number (setting B ["sigma"] (frac 1 10)) (bs_sigma s) /\ is_number (setting B ["offset"] (frac 1 10)) (bs_offset s)
    | SigmoidTimeDep | SigmoidSigmas | SigmoidAllParas =>
        is_number (setting B ["sigma"] (frac 1 (10 ^ 10))) (bs_sigma s) /\
        is_number (setting B ["offset"] (VFloat (of_Z (-10) * bs_sigma s)%num)) (bs_offset s)
    | _ => bs_sigma s = of_Z 0 /\ bs_offset s = of_Z 0
    end /\
    match b with
    | SigmoidTimeDep => is_number (setting B ["tau_variation"] (frac 1 10)) (bs_tau_var s)
    | SigmoidAllParas => is_number (setting B ["tau_variation"] (frac 1 (10 ^ 20))) (bs_tau_var s)
    | _ => bs_tau_var s = of_Z 0
    end /\
    match b with
    | SigmoidSigmas => is_number (setting B ["sigma_variation"] (float 1)) (bs_sigma_var s)
    | SigmoidAllParas => is_number (setting B ["sigma_variation"] (frac 1 (10 ^ 20))) (bs_sigma_var s)
    | _ => bs_sigma_var s = of_Z 0
    end.
  (** at least one number to optimise *)
  Definition some_coefficient (b : basis_kind) (k bins : nat) : Prop :=
    match b with
    | Piecewise => (bins <> 0)%nat
    | Sigmoid | SigmoidTimeDep | SigmoidSigmas | SigmoidAllParas => True
    | _ => (k <> 0)%nat
    end.
  (** the keys of a dictionary *)
  Definition key_of (v : V) (k : key) : Prop := exists d w, v = VDict d /\ In (k, w) d.
  Definition keys_not (reserved : list string) (v : V) : Prop := forall k, key_of v k -> exists s, k = KStr s /\ ~ In s reserved.
  Definition keys_among (allowed : list string) (v : V) : Prop := forall k, key_of v k -> exists s, k = KStr s /\ In s allowed.
  Definition says_distribution (B : V) (s : basis_settings) : Prop :=
    exists R, entry B ["random_super_parameter_distribution"] = Some R /\ is_dict R /\ no_object R "distribution_attribute" /\
      selects "superparameter_distribution" R "distribution_module" "distribution_class" "distribution_name" ClsUniform /\
      keys_not ["self"] R /\
      is_number (setting R ["lower_limit"] (float 0)) (bs_w_lower s) /\ is_number (setting R ["upper_limit"] (VInt 5)) (bs_w_upper s).
  Definition is_names (v : V) (l : list string) : Prop := exists vs, is_list v vs /\ Forall2 is_text vs l.
  Definition says_pulse (P : V) (f : pulse_cfg) : Prop :=
    exists B b s u, is_dict P /\ entry P ["basis"] = Some B /\ is_dict B /\ no_object B "basis_attribute" /\
      selects "basis" B "basis_module" "basis_class" "basis_name" (ClsBasis b) /\
      f = ModelBases.shipped F b s u /\ says_basis b B s /\ some_coefficient b (bs_k s) (cs_bins u) /\
      keys_not ["self"; "map_index"; "rng"; "is_AD"] P /\
      is_text (setting P ["pulse_name"] (VStr "pulse")) (cs_name u) /\
      is_integer (setting P ["bins_number"] (VInt 101)) (Z.of_nat (cs_bins u)) /\
      is_text (setting P ["time_name"] (VStr "time")) (cs_time_name u) /\
      is_number (setting P ["lower_limit"] (float 0)) (cs_lower u) /\
      is_number (setting P ["upper_limit"] (float 1)) (cs_upper u) /\
      is_number (setting P ["amplitude_variation"] (float 1)) (bs_ampl s) /\
      is_flag (setting P ["shrink_ampl_lim"] (VBool false)) (cs_shrink u) /\
      is_flag (setting P ["overwrite_base_pulse"] (VBool false)) (cs_overwrite u) /\
      or_none is_names (setting P ["shaping_options"] VNone) (cs_options u) /\
      says_function zero_guess (eval_guess E) GArr (e_load_guess E) (setting P ["initial_guess"] VNone) (cs_guess u) /\
      says_function unit_scaling (eval_scaling E) SArr (e_load_scaling E) (setting P ["scaling_function"] VNone) (cs_scaling u) /\
      match b with
      | Piecewise => entry P ["bins_number"] <> None /\ bs_w_lower s = of_Z 0 /\ bs_w_upper s = of_Z 0
      | _ => says_distribution B s
      end.
  (** ** Parameters and times *)
  Definition says_parameter (R : V) (f : param_cfg) : Prop :=
    is_dict R /\ keys_among ["parameter_name"; "initial_value"; "lower_limit"; "upper_limit"; "amplitude_variation"] R /\
    entry R ["parameter_name"] = Some (VStr (rf_name f)) /\
    is_number (setting R ["initial_value"] (float 1)) (rf_value f) /\
    is_number (setting R ["lower_limit"] (frac 1 10)) (rf_lower f) /\
    is_number (setting R ["upper_limit"] (frac 11 10)) (rf_upper f) /\
    is_number (setting R ["amplitude_variation"] (frac 1 10)) (rf_ampl f).
  Definition says_time (T : V) (f : time_cfg) : Prop :=
    is_dict T /\ keys_among ["map_index"; "time_name"; "initial_value"; "is_optimization"; "lower_limit"; "upper_limit"; "amplitude_variation"] T /\
    entry T ["time_name"] = Some (VStr (tf_name f)) /\
    is_number (setting T ["initial_value"] (float 1)) (tf_value f) /\
    is_integer (setting T ["map_index"] (VInt (-1))) (tf_map_index f) /\
    is_flag (setting T ["is_optimization"] (VBool false)) (tf_opt f) /\
    is_number (setting T ["lower_limit"] (float 0)) (tf_lower f) /\
    is_number (setting T ["upper_limit"] (float 1)) (tf_upper f) /\
    is_number (setting T ["amplitude_variation"] (frac 1 10)) (tf_ampl f) /\
    (tf_opt f = true -> neqb (tf_upper f - tf_lower f)%num (of_Z 0) = false).
  Definition says_controls (D : V) (G : settings) : Prop :=
    (exists P l, entry D ["pulses"] = Some P /\ is_list P l /\ Forall2 says_pulse l (g_pulses G) /\
       Forall (fun p => entry p ["pulse_name"] <> None) l) /\
    (exists P l, entry D ["parameters"] = Some P /\ is_list P l /\ Forall2 says_parameter l (g_params G)) /\
    (exists P l, entry D ["times"] = Some P /\ is_list P l /\ Forall2 says_time l (g_times G)).

  (** ** The whole dictionary *)
  Definition says (D : V) (p : plan) : Prop :=
    let G := p_settings p in
    exists A, entry D ["algorithm_settings"] = Some A /\ is_dict A /\
      no_object A "algorithm_attribute" /\
      selects "algorithm" A "algorithm_module" "algorithm_class" "algorithm_name" (ClsAlgorithm (g_kind G)) /\
      says_general D p /\ says_main A G /\ says_controls D G /\
      seed_of (g_kind G) (entry A ["random_number_generator"]) (p_seed p) /\
      (g_seeded G = true <-> p_seed p <> Unseeded) /\
      match g_kind G with
      | KdCRAB => says_search false A G /\ says_drift false A G /\ says_steps A G /\
          (exists n, entry A ["super_iteration_number"] = Some (VInt n) /\ g_max_si G = n) /\ p_lbfgs p = None
      | KDirect => says_search true A G /\ says_drift true A G /\ says_steps A G /\ g_max_si G = 1%Z /\ p_lbfgs p = None
      | KGRAPE => no_search G /\ g_max_si G = 1%Z /\ (exists l, p_lbfgs p = Some l /\ says_lbfgs A l) /\
          g_pulses G <> [] /\ e_fom_methods E = Good tt
      | KAD => no_search G /\ is_integer (setting A ["super_iteration_number"] (VInt 1)) (g_max_si G) /\
          (exists l, p_lbfgs p = Some l /\ says_lbfgs A l)
      end.
  Definition plan_of (su : setup) : plan :=
    {| p_job := su_job su; p_logfile := su_logfile su; p_console := su_console su; p_microseconds := su_microseconds su;
       p_format := su_format su; p_settings := su_settings su; p_seed := su_seed su; p_lbfgs := su_lbfgs su |}.
End SpecConfig.
