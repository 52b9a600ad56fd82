(** * What the constructors read from the optimisation dictionary: Optimizer.py, OptimizationAlgorithm.py, the four algorithms,
    search methods, stopping criteria, Controls.py, bases, parameters and times.

    Simplifications.  The dictionary is a tree: no sub-dictionary occurs twice in it.  A value of a kind that the documentation does not
    allow at its place, and a class of the user, give [Outside]: what Python does then (often only during the run) is not modelled.
    Texts of messages are left out.  [1e-100] is [1 / 10^100], in binary64 perhaps one unit in the last place off the literal. *)
From Coq Require Import String Ascii ZArith List Bool.
From Verif Require Import Num Py ModelPulse ModelBases ModelControls ModelState ModelImport ModelJson.
Import ListNotations.
Open Scope string_scope.
Open Scope list_scope.

(** outcome of reading: done, a Python exception, or outside of what is modelled *)
Inductive out (A : Type) := Good (a : A) | Raises (e : exn) | Outside.
Arguments Good {A} a.
Arguments Raises {A} e.
Arguments Outside {A}.
Definition obind {A B} (m : out A) (k : A -> out B) : out B :=
  match m with Good a => k a | Raises e => Raises e | Outside => Outside end.
Declare Scope out_scope.
Delimit Scope out_scope with out.
Notation "x <-? m ; k" := (obind m (fun x => k)) (at level 61, m at next level, right associativity) : out_scope.
Notation "' p <-? m ; k" := (obind m (fun p => k)) (at level 61, p pattern, m at next level, right associativity) : out_scope.
Open Scope out_scope.
(** [if not c: raise e] *)
Definition check (c : bool) (e : exn) : out unit := if c then Good tt else Raises e.

(** classes of the library that can be named in the dictionary; [ClsOther]: classes of the user *)
Inductive cls :=
| ClsAlgorithm (k : kind) | ClsNelderMead | ClsCMAES | ClsBasis (b : basis_kind) | ClsChopped | ClsUniform | ClsOther.
(** which class a module of the library holds *)
Definition library (jax : bool) (m c : string) : option (outcome (option cls)) :=
  let is m' c' := String.eqb m m' && String.eqb c c' in
  let alg := "quocslib.optimizationalgorithms." in
  let bas := "quocslib.pulses.basis." in
  if is (alg ++ "ADAlgorithm")%string "ADAlgorithm" then Some (if jax then Found (Some (ClsAlgorithm KAD)) else Fails)   (* ADAlgorithm.py:20-27 *)
  else if is (alg ++ "dCRABAlgorithm")%string "dCRABAlgorithm" then Some (Found (Some (ClsAlgorithm KdCRAB)))
  else if is (alg ++ "DirectSearchAlgorithm")%string "DirectSearchAlgorithm" then Some (Found (Some (ClsAlgorithm KDirect)))
  else if is (alg ++ "GRAPEAlgorithm")%string "GRAPEAlgorithm" then Some (Found (Some (ClsAlgorithm KGRAPE)))
  else if is "quocslib.gradientfreemethods.NelderMead" "NelderMead" then Some (Found (Some ClsNelderMead))
  else if is "quocslib.gradientfreemethods.CMAES" "CMAES" then Some (Found (Some ClsCMAES))
  else if is (bas ++ "Chebyshev")%string "Chebyshev" then Some (Found (Some (ClsBasis Chebyshev)))
  else if is (bas ++ "ChoppedBasis")%string "ChoppedBasis" then Some (Found (Some ClsChopped))
  else if is (bas ++ "Fourier")%string "Fourier" then Some (Found (Some (ClsBasis Fourier)))
  else if is (bas ++ "PiecewiseBasis")%string "PiecewiseBasis" then Some (Found (Some (ClsBasis Piecewise)))
  else if is (bas ++ "Sigmoid")%string "Sigmoid" then Some (Found (Some (ClsBasis Sigmoid)))
  else if is (bas ++ "SigmoidTimeDep")%string "SigmoidTimeDep" then Some (Found (Some (ClsBasis SigmoidTimeDep)))
  else if is (bas ++ "SigmoidSigmas")%string "SigmoidSigmas" then Some (Found (Some (ClsBasis SigmoidSigmas)))
  else if is (bas ++ "SigmoidAllParas")%string "SigmoidAllParas" then Some (Found (Some (ClsBasis SigmoidAllParas)))
  else if is (bas ++ "Sinc")%string "Sinc" then Some (Found (Some (ClsBasis Sinc)))
  else if is (bas ++ "Walsh")%string "Walsh" then Some (Found (Some (ClsBasis Walsh)))
  else if is (bas ++ "DummyBasis")%string "DummyBasis" then Some (Found (Some (ClsBasis DummyBasis)))
  else if is "quocslib.pulses.superparameter.Uniform" "Uniform" then Some (Found (Some ClsUniform))
  else None.

(** os.path on POSIX: [join(a, b)] and the test for an absolute path *)
Definition is_absolute (p : string) : bool := match p with String c _ => Ascii.eqb c "/" | EmptyString => false end.
Fixpoint ends_with_slash (p : string) : bool :=
  match p with EmptyString => false | String c EmptyString => Ascii.eqb c "/" | String _ p => ends_with_slash p end.
Definition join (a b : string) : string :=
  if is_absolute b then b
  else if (String.eqb a "" || ends_with_slash a)%bool then (a ++ b)%string else (a ++ "/" ++ b)%string.
(** [s.endswith(".py")] *)
Definition ends_py (s : string) : bool := (3 <=? String.length s)%nat && String.eqb (substring (String.length s - 3) 3 s) ".py".

Section Config.
  Context {N : Num} (F : funs N).
  Notation V := (value num).
  Notation D := (list (key * V)).

  (** Everything outside the dictionary that the constructors depend on *)
  Record env := mk_env {
    e_guess : string -> out guess_fn;            (* eval of the text of a guess, the default text excepted *)
    e_scaling : string -> out scaling_fn;        (* the same for a scaling function *)
    e_exists : string -> bool;                   (* os.path.exists *)
    e_load_guess : string -> string -> out guess_fn;      (* function of that name in the python file *)
    e_load_scaling : string -> string -> out scaling_fn;
    e_cwd : string;                              (* os.getcwd() *)
    e_normpath : string -> string;               (* os.path.normpath *)
    e_jax : bool;                                (* jax can be imported *)
    e_elsewhere : string -> string -> outcome (option cls);   (* modules outside the library *)
    e_fom_methods : out unit;                    (* get_propagator, get_initial_state, ... of the user's object (GRAPEAlgorithm.py:51-55) *)
    e_folder_free : bool                         (* the results folder does not exist yet *)
  }.
  Variable E : env.

  (** [d.get(s)] *)
  Fixpoint find (d : D) (s : string) : option V :=
    match d with
    | [] => None
    | (KStr s', v) :: d => if String.eqb s s' then Some v else find d s
    | _ :: d => find d s
    end.
  (** [d[s]] *)
  Definition item (d : D) (s : string) : out V := match find d s with Some v => Good v | None => Raises KeyError end.
  (** [d.setdefault(s, v)]: the value, and the dictionary afterwards *)
  Definition sd_v (d : D) (s : string) (v : V) : V := match find d s with Some x => x | None => v end.
  Definition sd_d (d : D) (s : string) (v : V) : D := match find d s with Some _ => d | None => d ++ [(KStr s, v)] end.
  (** a keyword argument passed by [**d], with its default *)
  Definition kw (d : D) (s : string) (v : V) : V := sd_v d s v.
  (** the dictionary seen from above after its entry [s] was changed in place *)
  Definition store (d : D) (s : string) (v : V) : D := set_item d s v.

  (** kinds of values *)
  Definition number (v : V) : out num :=
    match v with VInt n => Good (of_Z n) | VFloat x => Good x | VBool b => Good (of_Z (if b then 1 else 0)) | _ => Outside end.
  Definition integer (v : V) : out Z := match v with VInt n => Good n | _ => Outside end.
  Definition flag (v : V) : out bool := match v with VBool b => Good b | _ => Outside end.
  Definition text (v : V) : out string := match v with VStr s => Good s | _ => Outside end.
  Definition as_dict (v : V) : out D := match v with VDict d => Good d | _ => Outside end.
  Definition as_list (v : V) : out (list V) := match v with VList l | VTuple l => Good l | _ => Outside end.
  Definition opt_text (v : V) : out (option string) := match v with VNone => Good None | VStr s => Good (Some s) | _ => Outside end.
  Definition opt_number (v : V) : out (option num) := match v with VNone => Good None | v => x <-? number v; Good (Some x) end.
  Definition opt_integer (v : V) : out (option Z) := match v with VNone => Good None | v => n <-? integer v; Good (Some n) end.
  Definition no_class (v : V) : out unit := match v with VNone => Good tt | _ => Outside end.
  Fixpoint omap {A B} (f : A -> out B) (l : list A) : out (list B) :=
    match l with [] => Good [] | a :: l => b <-? f a; bs <-? omap f l; Good (b :: bs) end.
  (** a list or array of numbers ([np.asarray(..., dtype=float)]) *)
  Definition numbers (v : V) : out (list num) :=
    match v with VList l | VTuple l | VArray l => omap number l | _ => Outside end.

  (** literals *)
  Definition lit (n d : Z) : V := VFloat (of_Z n / of_Z d)%num.
  Definition ten10 : V := VInt 10000000000.

  (** ** Classes by name: dynamicimport.py with the shipped map_dictionary.json; calling None raises TypeError *)
  Definition installed (m c : string) : outcome (option cls) :=
    match library (e_jax E) m c with Some o => o | None => e_elsewhere E m c end.
  Definition resolve (class_type : string) (m c n : V) : out cls :=
    m <-? opt_text m; c <-? opt_text c; n <-? opt_text n;
    match dynamic_import installed (Some ModelImport.shipped) None m c n (Some class_type) with
    | None => Outside
    | Some None => Raises TypeError
    | Some (Some k) => Good k
    end.

  (** ** Guess and scaling (BasePulse.py:74-79, 116-183) *)
  (** the functions [lambda t: 0.0*t] and [lambda t: 1.0 + 0.0*t] *)
  Definition zero_guess : guess_fn := GCall (fun t => Ok (Ar (map (fun x => of_Z 0 * x)%num t))).
  Definition unit_scaling : scaling_fn := SCall1 (fun t => Ok (Ar (map (fun x => of_Z 1 + of_Z 0 * x)%num t))).
  Definition zero_text : string := "lambda t: 0.0*t".
  Definition unit_text : string := "lambda t: 1.0 + 0.0*t".
  Definition eval_guess (s : string) : out guess_fn := if String.eqb s zero_text then Good zero_guess else e_guess E s.
  Definition eval_scaling (s : string) : out scaling_fn := if String.eqb s unit_text then Good unit_scaling else e_scaling E s.
  (** BasePulse.py:124-137 = 158-171: the path that is looked for.  os.path.abspath(p) is normpath(p), with the working directory in
      front if [p] is not absolute *)
  Definition file_of (path mode : string) : string :=
    let path := if ends_py path then path else (path ++ ".py")%string in
    if String.eqb mode "absolute" then e_normpath E (if is_absolute path then path else join (e_cwd E) path)
    else e_normpath E (join (e_cwd E) path).
  (** [zero], [ev], [load]: default function, eval and loading for guesses or scalings; BasePulse.py:118-150 = 152-183.
      The path with ".py" added is never empty *)
  Definition read_fun {A} (zero : A) (ev : string -> out A) (arr : list num -> A) (load : string -> string -> out A) (g : D) : out (A * D) :=
    ty <-? item g "function_type"; ty <-? text ty;
    if String.eqb ty "lambda_function" then s <-? item g "lambda_function"; s <-? text s; f <-? ev s; Good (f, g)
    else if String.eqb ty "list_function" then l <-? item g "list_function"; l <-? numbers l; Good (arr l, g)
    else if String.eqb ty "python_file" then
      path <-? text (sd_v g "file_path" (VStr ""));
      let g := sd_d g "file_path" (VStr "") in
      name <-? text (sd_v g "function_name" (VStr ""));
      let g := sd_d g "function_name" (VStr "") in
      mode <-? text (sd_v g "path_mode" (VStr "relative"));
      let g := sd_d g "path_mode" (VStr "relative") in
      let file := file_of path mode in
      if (e_exists E file && negb (String.eqb name ""))%bool then f <-? load file name; Good (f, g) else Good (zero, g)
    else Good (zero, g).
  Definition default_fun (s : string) : D := [(KStr "function_type", VStr "lambda_function"); (KStr "lambda_function", VStr s)].
  (** [if initial_guess is None: initial_guess = {...}]; a new dictionary is not part of the user's *)
  Definition read_guess (p : D) : out (guess_fn * D) :=
    match kw p "initial_guess" VNone with
    | VNone => '(f, _) <-? read_fun zero_guess eval_guess GArr (e_load_guess E) (default_fun zero_text); Good (f, p)
    | v => g <-? as_dict v; '(f, g) <-? read_fun zero_guess eval_guess GArr (e_load_guess E) g; Good (f, store p "initial_guess" (VDict g))
    end.
  Definition read_scaling (p : D) : out (scaling_fn * D) :=
    match kw p "scaling_function" VNone with
    | VNone => '(f, _) <-? read_fun unit_scaling eval_scaling SArr (e_load_scaling E) (default_fun unit_text); Good (f, p)
    | v => g <-? as_dict v; '(f, g) <-? read_fun unit_scaling eval_scaling SArr (e_load_scaling E) g; Good (f, store p "scaling_function" (VDict g))
    end.

  (** ** Bases *)
  (** what the constructor of a basis reads from the dictionary "basis" (lines as cited in ModelBases.v).  [bs_ampl] and the limits of
      the super-parameters are filled in later; unused entries are 0 *)
  Definition blank (k : Z) : basis_settings :=
    {| bs_k := Z.to_nat k; bs_w_lower := of_Z 0; bs_w_upper := of_Z 0; bs_ampl := of_Z 0; bs_basis_max := of_Z 0; bs_offset := of_Z 0;
       bs_sigma := of_Z 0; bs_tau_var := of_Z 0; bs_sigma_var := of_Z 0 |}.
  Definition with_steps (s : basis_settings) (offset sigma tau_var sigma_var : num) : basis_settings :=
    {| bs_k := bs_k s; bs_w_lower := bs_w_lower s; bs_w_upper := bs_w_upper s; bs_ampl := bs_ampl s; bs_basis_max := bs_basis_max s;
       bs_offset := offset; bs_sigma := sigma; bs_tau_var := tau_var; bs_sigma_var := sigma_var |}.
  Definition read_basis (b : basis_kind) (d : D) : out (Z * basis_settings * D) :=
    match b with
    | Piecewise => Good (0%Z, blank 0, d)
    | _ =>
        k <-? integer (sd_v d "basis_vector_number" (VInt 1));
        let d := sd_d d "basis_vector_number" (VInt 1) in
        match b with
        | Sinc =>
            m <-? number (sd_v d "basis_max" (lit 1 1));
            let d := sd_d d "basis_max" (lit 1 1) in
            Good (k, {| bs_k := Z.to_nat k; bs_w_lower := of_Z 0; bs_w_upper := of_Z 0; bs_ampl := of_Z 0; bs_basis_max := m;
                        bs_offset := of_Z 0; bs_sigma := of_Z 0; bs_tau_var := of_Z 0; bs_sigma_var := of_Z 0 |}, d)
        | Sigmoid =>
            off <-? number (sd_v d "offset" (lit 1 10));
            let d := sd_d d "offset" (lit 1 10) in
            sig <-? number (sd_v d "sigma" (lit 1 10));
            let d := sd_d d "sigma" (lit 1 10) in
            Good (k, with_steps (blank k) off sig (of_Z 0) (of_Z 0), d)
        | SigmoidTimeDep | SigmoidSigmas | SigmoidAllParas =>
            sig <-? number (sd_v d "sigma" (lit 1 10000000000));
            let d := sd_d d "sigma" (lit 1 10000000000) in
            (* the default of the offset is computed from sigma; its sign and size are kept as a float *)
            let off0 := VFloat (of_Z (-10) * sig)%num in
            off <-? number (sd_v d "offset" off0);
            let d := sd_d d "offset" off0 in
            match b with
            | SigmoidTimeDep =>
                tv <-? number (sd_v d "tau_variation" (lit 1 10));
                let d := sd_d d "tau_variation" (lit 1 10) in
                Good (k, with_steps (blank k) off sig tv (of_Z 0), d)
            | SigmoidSigmas =>
                sv <-? number (sd_v d "sigma_variation" (lit 1 1));
                let d := sd_d d "sigma_variation" (lit 1 1) in
                Good (k, with_steps (blank k) off sig (of_Z 0) sv, d)
            | _ =>
                tv <-? number (sd_v d "tau_variation" (lit 1 100000000000000000000));
                let d := sd_d d "tau_variation" (lit 1 100000000000000000000) in
                sv <-? number (sd_v d "sigma_variation" (lit 1 100000000000000000000));
                let d := sd_d d "sigma_variation" (lit 1 100000000000000000000) in
                Good (k, with_steps (blank k) off sig tv sv, d)
            end
        | _ => Good (k, blank k, d)
        end
    end.

  (** [f( **d )]: keys must be texts and none of the [taken] ones *)
  Definition keywords (taken : list string) (d : D) : bool :=
    forallb (fun kv => match fst kv with KStr s => negb (existsb (String.eqb s) taken) | _ => false end) d.
  (** the same for a function without [**kwargs]: only [allowed] names *)
  Definition only_keywords (allowed : list string) (d : D) : bool :=
    forallb (fun kv => match fst kv with KStr s => existsb (String.eqb s) allowed | _ => false end) d.

  (** ChoppedBasis.py:37-47, Uniform.py:24-32, SuperParameterDistribution.py:23-27; [d] is the dictionary "basis" *)
  Definition read_distribution (d : D) : out (num * num * D) :=
    r <-? item d "random_super_parameter_distribution"; r <-? as_dict r;
    _ <-? no_class (sd_v r "distribution_attribute" VNone);
    let r := sd_d r "distribution_attribute" VNone in
    let m := sd_v r "distribution_module" VNone in
    let r := sd_d r "distribution_module" VNone in
    let c := sd_v r "distribution_class" VNone in
    let r := sd_d r "distribution_class" VNone in
    let n := sd_v r "distribution_name" VNone in
    let r := sd_d r "distribution_name" VNone in
    k <-? resolve "superparameter_distribution" m c n;
    match k with
    | ClsUniform =>
        _ <-? check (keywords ["self"] r) TypeError;
        lo <-? number (kw r "lower_limit" (lit 0 1));
        up <-? number (kw r "upper_limit" (VInt 5));
        Good (lo, up, store d "random_super_parameter_distribution" (VDict r))
    | _ => Outside
    end.

  (** ** Pulses: Controls.py:57-69, constructors of the bases, BasePulse.py:36-190, ChoppedBasis.py:35-47 *)
  Definition strings (v : V) : out (option (list string)) :=
    match v with VNone => Good None | _ => l <-? as_list v; l <-? omap text l; Good (Some l) end.
  Definition full_basis (s : basis_settings) (ampl lo up : num) : basis_settings :=
    {| bs_k := bs_k s; bs_w_lower := lo; bs_w_upper := up; bs_ampl := ampl; bs_basis_max := bs_basis_max s; bs_offset := bs_offset s;
       bs_sigma := bs_sigma s; bs_tau_var := bs_tau_var s; bs_sigma_var := bs_sigma_var s |}.
  Definition read_pulse (p : D) : out (pulse_cfg * D) :=
    bd <-? item p "basis"; bd <-? as_dict bd;
    _ <-? no_class (sd_v bd "basis_attribute" VNone);
    let bd := sd_d bd "basis_attribute" VNone in
    let m := sd_v bd "basis_module" VNone in
    let bd := sd_d bd "basis_module" VNone in
    let c := sd_v bd "basis_class" VNone in
    let bd := sd_d bd "basis_class" VNone in
    let n := sd_v bd "basis_name" VNone in
    let bd := sd_d bd "basis_name" VNone in
    k <-? resolve "basis" m c n;
    match k with
    | ClsBasis b =>
        (* PiecewiseBasis.py:41: the number of bins has no default here *)
        _ <-? (match b with Piecewise => v <-? item p "bins_number"; Good tt | _ => Good tt end);
        '(kz, s, bd) <-? read_basis b bd;
        let p := store p "basis" (VDict bd) in
        _ <-? check (keywords ["self"; "map_index"; "rng"; "is_AD"] p) TypeError;
        name <-? text (kw p "pulse_name" (VStr "pulse"));
        bins <-? integer (kw p "bins_number" (VInt 101));
        tname <-? text (kw p "time_name" (VStr "time"));
        lo <-? number (kw p "lower_limit" (lit 0 1));
        up <-? number (kw p "upper_limit" (lit 1 1));
        ampl <-? number (kw p "amplitude_variation" (lit 1 1));
        (* BasePulse.py:92-94: no control parameter *)
        _ <-? check ((0 <=? kz)%Z && negb (Nat.eqb (basis_nctrl b (full_basis s ampl (of_Z 0) (of_Z 0)) (Z.to_nat bins)) 0)) IndexError;
        opts <-? strings (kw p "shaping_options" VNone);
        '(g, p) <-? read_guess p;
        '(sc, p) <-? read_scaling p;
        shrink <-? flag (kw p "shrink_ampl_lim" (VBool false));
        over <-? flag (kw p "overwrite_base_pulse" (VBool false));
        (* np.zeros(self.bins_number) *)
        _ <-? check (0 <=? bins)%Z ValueError;
        let common := {| cs_name := name; cs_bins := Z.to_nat bins; cs_time_name := tname; cs_lower := lo; cs_upper := up; cs_guess := g;
                         cs_scaling := sc; cs_shrink := shrink; cs_options := opts; cs_overwrite := over |} in
        match b with
        | Piecewise => Good (ModelBases.shipped F b (full_basis s ampl (of_Z 0) (of_Z 0)) common, p)
        | _ =>
            bd <-? item p "basis"; bd <-? as_dict bd;
            '(wl, wu, bd) <-? read_distribution bd;
            Good (ModelBases.shipped F b (full_basis s ampl wl wu) common, store p "basis" (VDict bd))
        end
    | ClsChopped => Raises TypeError     (* ChoppedBasis(map_index, pulse, rng=...): rng given twice *)
    | _ => Outside
    end.

  (** ** Parameters and times: Parameter.py:24-25, BaseParameter.py:24-62, TimeParameter.py:34-48 *)
  Definition read_param (v : V) : out param_cfg :=
    p <-? as_dict v;
    _ <-? check (only_keywords ["parameter_name"; "initial_value"; "lower_limit"; "upper_limit"; "amplitude_variation"] p) TypeError;
    name <-? text (kw p "parameter_name" (VStr "parameter"));
    x <-? number (kw p "initial_value" (lit 1 1));
    lo <-? number (kw p "lower_limit" (lit 1 10));
    up <-? number (kw p "upper_limit" (lit 11 10));
    a <-? number (kw p "amplitude_variation" (lit 1 10));
    Good {| rf_name := name; rf_value := x; rf_lower := lo; rf_upper := up; rf_ampl := a |}.
  Definition read_time (v : V) : out time_cfg :=
    p <-? as_dict v;
    _ <-? item p "time_name";
    _ <-? check (only_keywords ["map_index"; "time_name"; "initial_value"; "is_optimization"; "lower_limit"; "upper_limit"; "amplitude_variation"] p) TypeError;
    i <-? integer (kw p "map_index" (VInt (-1)));
    name <-? text (kw p "time_name" (VStr "time"));
    x <-? number (kw p "initial_value" (lit 1 1));
    o <-? flag (kw p "is_optimization" (VBool false));
    lo <-? number (kw p "lower_limit" (lit 0 1));
    up <-? number (kw p "upper_limit" (lit 1 1));
    a <-? number (kw p "amplitude_variation" (lit 1 10));
    (* TimeParameter.py:64-66: division by the width of the interval *)
    _ <-? check (negb (o && neqb (up - lo)%num (of_Z 0))) ZeroDivisionError;
    Good {| tf_map_index := i; tf_name := name; tf_value := x; tf_opt := o; tf_lower := lo; tf_upper := up; tf_ampl := a |}.

  Fixpoint read_pulses (l : list V) : out (list pulse_cfg * list V) :=
    match l with
    | [] => Good ([], [])
    | v :: l => p <-? as_dict v; '(f, p) <-? read_pulse p; '(fs, l) <-? read_pulses l; Good (f :: fs, VDict p :: l)
    end.
  (** Controls.py:34-86; Controls gets the three lists of the optimisation dictionary [d] *)
  Definition read_controls (d : D) : out (list pulse_cfg * list param_cfg * list time_cfg * D) :=
    v <-? item d "pulses"; ts <-? item d "times"; rs <-? item d "parameters";
    ps <-? as_list v;
    '(pf, ps) <-? read_pulses ps;
    rs <-? as_list rs; rf <-? omap read_param rs;
    ts <-? as_list ts; tf <-? omap read_time ts;
    Good (pf, rf, tf, store d "pulses" (match v with VTuple _ => VTuple ps | _ => VList ps end)).

  (** OptimizationAlgorithm.py:305-316: the names of all controls; [_get_controls_names] *)
  Definition names (d : D) (section key : string) : out unit :=
    l <-? item d section; l <-? as_list l;
    _ <-? omap (fun v => p <-? as_dict v; _ <-? item p key; Good tt) l; Good tt.

  (** ** Search method and stopping criteria *)
  (** StoppingCriteria.py:28-53, NelderMeadStoppingCriteria.py:25-36, CMAESStoppingCriteria.py:25-38 (the same keys) *)
  Record stop_cfg := mk_stop { st_max_eval : Z; st_time_lim : num; st_xatol : num; st_fatol : num; st_cbs_n : option Z; st_cbs_change : option num }.
  Definition optional {A} (f : V -> out A) (v : option V) : out (option A) :=
    match v with None => Good None | Some v => a <-? f v; Good (Some a) end.
  Definition default_cbs : D := [(KStr "cbs_funct_evals", VInt 1); (KStr "cbs_change", VInt 0)].
  Definition read_stopping (d : D) : out (stop_cfg * D) :=
    n <-? integer (sd_v d "max_eval" ten10);
    let d := sd_d d "max_eval" ten10 in
    t <-? number (sd_v d "time_lim" ten10);
    let d := sd_d d "time_lim" ten10 in
    cbs <-? as_dict (sd_v d "change_based_stop" (VDict default_cbs));
    let d := sd_d d "change_based_stop" (VDict default_cbs) in
    cn <-? optional integer (find cbs "cbs_funct_evals");
    cc <-? optional number (find cbs "cbs_change");
    xa <-? number (sd_v d "xatol" (lit 1 100000000000000));
    let d := sd_d d "xatol" (lit 1 100000000000000) in
    fa <-? number (sd_v d "fatol" (lit 1 (10 ^ 100)));
    let d := sd_d d "fatol" (lit 1 (10 ^ 100)) in
    Good ({| st_max_eval := n; st_time_lim := t; st_xatol := xa; st_fatol := fa; st_cbs_n := cn; st_cbs_change := cc |}, d).
  (** NelderMead.py:36-41, CMAES.py:37-44; parallelization is read and never used *)
  Definition read_nm (g : D) : out (method * D) :=
    let g := sd_d g "parallelization" (VBool false) in
    a <-? flag (sd_v g "is_adaptive" (VBool false));
    let g := sd_d g "is_adaptive" (VBool false) in
    Good (MNelderMead a, g).
  Definition read_cma (g : D) : out (method * D) :=
    let g := sd_d g "parallelization" (VBool false) in
    let g := sd_d g "is_adaptive" (VBool false) in
    p <-? opt_integer (sd_v g "population" VNone);
    let g := sd_d g "population" VNone in
    match p with
    | None => Good (MCMAES None, g)
    | Some n => if (0 <=? n)%Z then Good (MCMAES (Some (Z.to_nat n)), g) else Outside
    end.
  (** dCRABAlgorithm.py:50-67 and DirectSearchAlgorithm.py:47-69; [a] is the dictionary "algorithm_settings".  Nothing reads
      total_time_lim or k3 of the stopping criteria *)
  Definition read_search (direct : bool) (a : D) : out (method * stop_cfg * D) :=
    ds <-? item a "dsm_settings"; ds <-? as_dict ds;
    sc <-? item ds "stopping_criteria"; sc <-? as_dict sc;
    let lim := sd_v a "total_time_lim" ten10 in
    let a := sd_d a "total_time_lim" ten10 in
    let sc := sd_d sc "total_time_lim" lim in
    let sc := if direct then sc else sd_d sc "k3" (VInt 3) in
    g <-? item ds "general_settings"; g <-? as_dict g;
    if (direct && match find g "dsm_name" with Some _ => true | None => false end)%bool then
      '(m, g) <-? read_nm g;
      '(s, sc) <-? read_stopping sc;
      Good (m, s, store a "dsm_settings" (VDict (store (store ds "stopping_criteria" (VDict sc)) "general_settings" (VDict g))))
    else
      let mo := sd_v g "dsm_algorithm_module" VNone in
      let g := sd_d g "dsm_algorithm_module" VNone in
      let cl := sd_v g "dsm_algorithm_class" VNone in
      let g := sd_d g "dsm_algorithm_class" VNone in
      let na := sd_v g "dsm_algorithm_name" VNone in
      let g := sd_d g "dsm_algorithm_name" VNone in
      k <-? resolve "dsm_settings" mo cl na;
      '(m, g) <-? (match k with ClsNelderMead => read_nm g | ClsCMAES => read_cma g | _ => Outside end);
      '(s, sc) <-? read_stopping sc;
      Good (m, s, store a "dsm_settings" (VDict (store (store ds "stopping_criteria" (VDict sc)) "general_settings" (VDict g)))).

  (** compensate_drift: dCRABAlgorithm.py:77, 89-94, DirectSearchAlgorithm.py:75-80 *)
  Definition read_drift (direct : bool) (a : D) : out (bool * num * Z * D) :=
    dr <-? as_dict (sd_v a "compensate_drift" (VDict []));
    let a := sd_d a "compensate_drift" (VDict []) in
    si <-? (if direct then Good false else flag (sd_v dr "compensate_after_SI" (VBool false)));
    let dr := if direct then dr else sd_d dr "compensate_after_SI" (VBool false) in
    mi <-? number (sd_v dr "compensate_after_minutes" (lit 0 1));
    let dr := sd_d dr "compensate_after_minutes" (lit 0 1) in
    av <-? integer (sd_v dr "num_average" (VInt 1));
    let dr := sd_d dr "num_average" (VInt 1) in
    Good (si, mi, av, store a "compensate_drift" (VDict dr)).
  (** re_evaluation: dCRABAlgorithm.py:98-112, DirectSearchAlgorithm.py:82-96 *)
  Definition default_steps : list num := [of_Z 3 / of_Z 10; of_Z 5 / of_Z 10; of_Z 501 / of_Z 1000]%num.
  Definition read_steps (a : D) : out (option (list num)) :=
    match find a "re_evaluation" with
    | None => Good None
    | Some v => r <-? as_dict v;
        match find r "re_evaluation_steps" with
        | None => Good (Some default_steps)
        | Some v => l <-? numbers v; Good (Some l)
        end
    end.

  (** ** Random numbers.  [SeedDrawn]: a seed drawn from numpy's global generator; [Unseeded]: that generator itself *)
  Inductive seed := Unseeded | Seeded (n : Z) | SeedDrawn.
  (** RandomNumberGenerator(seed) and np.random.default_rng: randomgenerator.py:27-58 *)
  Definition generator (v : V) : out seed :=
    match v with
    | VNone => Good Unseeded
    | VInt n => if (n <? 0)%Z then Raises ValueError else Good (Seeded n)
    | VFloat _ | VDict _ => Raises TypeError
    | _ => Outside
    end.
  (** [alg["random_number_generator"]["seed_number"]] within the try block; [None]: TypeError or KeyError *)
  Definition seed_entry (v : V) : out (option V) :=
    match v with
    | VDict r => Good (find r "seed_number")
    | VNone | VBool _ | VInt _ | VFloat _ | VStr _ | VList _ | VTuple _ => Good None
    | _ => Outside
    end.
  (** dCRABAlgorithm.py:114-124, GRAPEAlgorithm.py:67-79, ADAlgorithm.py:66-84; DirectSearch has no generator of its own *)
  Definition read_seed (k : kind) (a : D) : out seed :=
    match k with
    | KDirect => Good Unseeded
    | KdCRAB => match find a "random_number_generator" with
        | None => Good Unseeded
        | Some v => s <-? seed_entry v;
            match s with
            | None => Good (Seeded 2022)
            | Some v => match generator v with Raises TypeError => Good (Seeded 2022) | o => o end
            end
        end
    | KGRAPE => match find a "random_number_generator" with
        | None => Good (Seeded 2022)
        | Some v => s <-? seed_entry v; match s with None => Good (Seeded 2022) | Some v => generator v end
        end
    | KAD => match find a "random_number_generator" with
        | None => Good SeedDrawn
        | Some v => s <-? seed_entry v;
            match s with
            | None => Good SeedDrawn
            | Some v => match generator v with Raises TypeError => Good SeedDrawn | o => o end
            end
        end
    end.

  (** ** The algorithms *)
  (** stopping criteria of L-BFGS-B: GRAPEAlgorithm.py:60-64, ADAlgorithm.py:55-59 *)
  Record lbfgs_cfg := mk_lbfgs { lb_maxfun : num; lb_ftol : num; lb_gtol : num; lb_maxls : num }.
  Definition read_lbfgs (a : D) : out (lbfgs_cfg * D) :=
    sc <-? as_dict (sd_v a "stopping_criteria" (VDict []));
    let a := sd_d a "stopping_criteria" (VDict []) in
    n <-? number (sd_v sc "max_eval_total" ten10);
    let sc := sd_d sc "max_eval_total" ten10 in
    f <-? number (sd_v sc "ftol" (lit 1 1000000));
    let sc := sd_d sc "ftol" (lit 1 1000000) in
    g <-? number (sd_v sc "gtol" (lit 1 1000000));
    let sc := sd_d sc "gtol" (lit 1 1000000) in
    m <-? number (sd_v sc "maxls" (VInt 20));
    let sc := sd_d sc "maxls" (VInt 20) in
    Good ({| lb_maxfun := n; lb_ftol := f; lb_gtol := g; lb_maxls := m |}, store a "stopping_criteria" (VDict sc)).

  (** what a constructed optimiser holds *)
  Record setup := mk_setup {
    su_job : string; su_logfile : bool; su_console : bool; su_microseconds : bool; su_format : string;
    su_settings : settings; su_seed : seed; su_lbfgs : option lbfgs_cfg;
    su_printed : V;          (* what is written into the json file of the results folder *)
    su_dict : D              (* the user's dictionary afterwards *)
  }.

  (** Optimizer.py:56-63: read before the results folder is made *)
  Record front_cfg := mk_front { fr_job : string; fr_logfile : bool; fr_console : bool; fr_microseconds : bool; fr_format : string }.
  Definition read_front (d : D) : out (front_cfg * D) :=
    job <-? text (sd_v d "optimization_client_name" (VStr "run"));
    let d := sd_d d "optimization_client_name" (VStr "run") in
    lf <-? flag (sd_v d "create_logfile" (VBool true));
    let d := sd_d d "create_logfile" (VBool true) in
    ci <-? flag (sd_v d "console_info" (VBool true));
    let d := sd_d d "console_info" (VBool true) in
    mi <-? flag (sd_v d "use_microsecond_name" (VBool false));
    let d := sd_d d "use_microsecond_name" (VBool false) in
    fo <-? text (sd_v d "dump_format" (VStr "npz"));
    let d := sd_d d "dump_format" (VStr "npz") in
    a <-? item d "algorithm_settings"; a <-? as_dict a;
    let a := sd_d a "optimization_direction" (VStr "minimization") in
    Good ({| fr_job := job; fr_logfile := lf; fr_console := ci; fr_microseconds := mi; fr_format := fo |}, store d "algorithm_settings" (VDict a)).

  (** OptimizationAlgorithm.py:46-88 on the dictionary "algorithm_settings" *)
  Record base_cfg := mk_base { ba_max_total : Z; ba_total_lim : num; ba_maximise : bool; ba_goal : option num }.
  Definition read_base (a : D) : out (base_cfg * D) :=
    n <-? integer (sd_v a "max_eval_total" ten10);
    let a := sd_d a "max_eval_total" ten10 in
    t <-? number (sd_v a "total_time_lim" ten10);
    let a := sd_d a "total_time_lim" ten10 in
    dir <-? text (sd_v a "optimization_direction" (VStr "minimization"));
    let a := sd_d a "optimization_direction" (VStr "minimization") in
    mx <-? (if String.eqb dir "minimization" then Good false else if String.eqb dir "maximization" then Good true else Raises TypeError);
    g <-? opt_number (sd_v a "FoM_goal" VNone);
    let a := sd_d a "FoM_goal" VNone in
    Good ({| ba_max_total := n; ba_total_lim := t; ba_maximise := mx; ba_goal := g |}, a).

  Definition settings_of (k : kind) (m : method) (b : base_cfg) (si : Z) (steps : option (list num)) (dsi : bool) (dmin : num) (davg : Z)
      (sd : seed) (st : stop_cfg) (pf : list pulse_cfg) (tf : list time_cfg) (rf : list param_cfg) : settings :=
    {| g_kind := k; g_method := m; g_max_total := ba_max_total b; g_total_lim := ba_total_lim b; g_maximise := ba_maximise b;
       g_goal := ba_goal b; g_max_si := si; g_steps := steps; g_drift_si := dsi; g_drift_min := dmin; g_drift_avg := davg;
       g_seeded := match sd with Unseeded => false | _ => true end;
       g_max_eval := st_max_eval st; g_time_lim := st_time_lim st; g_xatol := st_xatol st; g_fatol := st_fatol st;
       g_cbs_n := st_cbs_n st; g_cbs_change := st_cbs_change st; g_pulses := pf; g_times := tf; g_params := rf |}.
  (** entries of [settings] that the gradient algorithms do not have *)
  Definition no_stop : stop_cfg :=
    {| st_max_eval := 0; st_time_lim := of_Z 0; st_xatol := of_Z 0; st_fatol := of_Z 0; st_cbs_n := None; st_cbs_change := None |}.

  (** the rest of the constructors once the class is known: settings, seed, L-BFGS-B, dictionary afterwards.
      dCRABAlgorithm.py:35-146, DirectSearchAlgorithm.py:38-109, GRAPEAlgorithm.py:38-101, ADAlgorithm.py:45-103 *)
  Definition read_algorithm (k : kind) (d : D) : out (settings * seed * option lbfgs_cfg * D) :=
    a <-? item d "algorithm_settings"; a <-? as_dict a;
    '(b, a) <-? read_base a;
    match k with
    | KdCRAB =>
        '(m, st, a) <-? read_search false a;
        '(dsi, dmin, davg, a) <-? read_drift false a;
        si <-? item a "super_iteration_number"; si <-? integer si;
        steps <-? read_steps a;
        sd <-? read_seed KdCRAB a;
        '(pf, rf, tf, d) <-? read_controls (store d "algorithm_settings" (VDict a));
        Good (settings_of KdCRAB m b si steps dsi dmin davg sd st pf tf rf, sd, None, d)
    | KDirect =>
        '(m, st, a) <-? read_search true a;
        '(dsi, dmin, davg, a) <-? read_drift true a;
        steps <-? read_steps a;
        '(pf, rf, tf, d) <-? read_controls (store d "algorithm_settings" (VDict a));
        Good (settings_of KDirect m b 1 steps false dmin davg Unseeded st pf tf rf, Unseeded, None, d)
    | KGRAPE =>
        _ <-? e_fom_methods E;
        let d := sd_d d "sys_type" (VStr "StateTransfer") in
        '(lb, a) <-? read_lbfgs a;
        sd <-? read_seed KGRAPE a;
        '(pf, rf, tf, d) <-? read_controls (store d "algorithm_settings" (VDict a));
        (* GRAPEAlgorithm.py:93: pulse_objs_list[0] *)
        _ <-? check (negb (Nat.eqb (length pf) 0)) IndexError;
        Good (settings_of KGRAPE (MNelderMead false) b 1 None false (of_Z 0) 1 sd no_stop pf tf rf, sd, Some lb, d)
    | KAD =>
        let d := sd_d d "sys_type" (VStr "StateTransfer") in
        si <-? integer (sd_v a "super_iteration_number" (VInt 1));
        let a := sd_d a "super_iteration_number" (VInt 1) in
        '(lb, a) <-? read_lbfgs a;
        sd <-? read_seed KAD a;
        '(pf, rf, tf, d) <-? read_controls (store d "algorithm_settings" (VDict a));
        Good (settings_of KAD (MNelderMead false) b si None false (of_Z 0) 1 sd no_stop pf tf rf, sd, Some lb, d)
    end.
  (** Optimizer.py:75-89 and the beginning of OptimizationAlgorithm.py:39-48, after the results folder was made *)
  Definition read_rest (f : front_cfg) (d : D) : out setup :=
    a <-? item d "algorithm_settings"; a <-? as_dict a;
    _ <-? no_class (kw a "algorithm_attribute" VNone);
    let n := sd_v a "algorithm_name" VNone in
    k <-? resolve "algorithm" (kw a "algorithm_module" VNone) (kw a "algorithm_class" VNone) n;
    let d := store d "algorithm_settings" (VDict (sd_d a "algorithm_name" VNone)) in
    match k with
    | ClsAlgorithm k =>
        _ <-? names d "pulses" "pulse_name";
        _ <-? names d "parameters" "parameter_name";
        _ <-? names d "times" "time_name";
        let printed := VDict d in
        '(G, sd, lb, d) <-? read_algorithm k d;
        Good {| su_job := fr_job f; su_logfile := fr_logfile f; su_console := fr_console f; su_microseconds := fr_microseconds f;
                su_format := fr_format f; su_settings := G; su_seed := sd; su_lbfgs := lb; su_printed := printed; su_dict := d |}
    | _ => Outside
    end.
  (** [Optimizer(optimization_dict, FoM_object)]: whether this call made a results folder, and what it gives *)
  Definition construct (d : D) : bool * out setup :=
    match read_front d with
    | Raises e => (false, Raises e)
    | Outside => (false, Outside)
    | Good (f, d) => if e_folder_free E then (true, read_rest f d) else (false, Raises FileExistsError)
    end.
End Config.
