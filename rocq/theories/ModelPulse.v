(** * Model of quocslib/pulses/BasePulse.py and of the basis interface. *)
From Coq Require Import String ZArith List Bool.
From Verif Require Import Num Py.
Import ListNotations.
Open Scope list_scope.

Section Pulse.
  Context {N : Num}.

  (** Initial guess and scaling function after BasePulse.py:116-186: a callable, an array, or
      something else.  [eval] of the user's text and file loading are not modelled: the callable is an
      arbitrary function of the time grid that may raise. *)
  Inductive guess_fn :=
  | GCall (f : list num -> res arr)
  | GArr (l : list num)
  | GOther.
  Inductive scaling_fn :=
  | SCall1 (f : list num -> res arr)
  | SCall2 (f : list num -> arr -> res arr)
  | SArr (l : list num)
  | SOther.

  (** Shaping options, BasePulse.py:95-101 *)
  Inductive shaping_op := OpGuess | OpBase | OpUpdate | OpScale | OpLimit.

  (** BasePulse.py:95-101: the dictionary of recognised names *)
  Definition shaping_op_of_name (s : string) : option shaping_op :=
    if String.eqb s "add_initial_guess" then Some OpGuess
    else if String.eqb s "add_base_pulse" then Some OpBase
    else if String.eqb s "add_new_update_pulse" then Some OpUpdate
    else if String.eqb s "scale_pulse" then Some OpScale
    else if String.eqb s "limit_pulse" then Some OpLimit
    else None.

  (** BasePulse.py:102-107 *)
  Definition default_options : list shaping_op := [OpGuess; OpBase; OpUpdate; OpScale; OpLimit].

  (** BasePulse.py:102-114: unknown names are skipped with a warning *)
  Definition select_options (names : option (list string)) : list shaping_op :=
    match names with
    | None => default_options
    | Some l => flat_map (fun s => match shaping_op_of_name s with Some o => [o] | None => [] end) l
    end.

  (** Attributes of a pulse object (BasePulse.__init__, 56-190, plus the basis attributes
      [scale_coefficients], [offset_coefficients] set by the basis constructors, and the super-parameters
      [w] of the distribution object, None when the basis is not a ChoppedBasis). *)
  Record pcore := mk_pcore {
    pc_name : string;
    pc_bins : nat;
    pc_time_name : string;
    pc_lower : num;
    pc_upper : num;
    pc_guess : guess_fn;
    pc_scaling : scaling_fn;
    pc_shrink : bool;
    pc_options : list shaping_op;
    pc_overwrite : bool;
    pc_nctrl : nat;                 (* control_parameters_number *)
    pc_indices : list Z;            (* control_parameters_list *)
    pc_last : Z;                    (* last_index *)
    pc_scale : list num;            (* scale_coefficients *)
    pc_offset : list num;           (* offset_coefficients *)
    pc_opt : list num;              (* optimized_control_parameters *)
    pc_final_time : num;
    pc_time_grid : list num;
    pc_base : arr;                  (* base_pulse *)
    pc_dist : option (nat * num * num);  (* Uniform: basis_vectors_number, lower, upper *)
    pc_w : list num                 (* super-parameters *)
  }.

  (** A pulse: its attributes, the basis method [_get_shaped_pulse] (may raise), and
      [update_chopped_basis] (ChoppedBasis.py:49-54, does nothing unless overloaded). *)
  Record pulse := mk_pulse {
    core : pcore;
    shape : pcore -> res arr;
    chop : pcore -> pcore
  }.

  (** What the user configures for a pulse, with the defaults already filled in. *)
  Record pulse_cfg := mk_pulse_cfg {
    pf_name : string;
    pf_bins : nat;
    pf_time_name : string;
    pf_lower : num;
    pf_upper : num;
    pf_guess : guess_fn;
    pf_scaling : scaling_fn;
    pf_shrink : bool;
    pf_options : option (list string);
    pf_overwrite : bool;
    pf_nctrl : nat;
    pf_scale : list num;
    pf_offset : list num;
    pf_dist : option (nat * num * num);
    pf_shape : pcore -> res arr;
    pf_chop : pcore -> pcore
  }.

  (** BasePulse.py:92 and 239: the index list [map_index+1 .. map_index+n] *)
  Definition index_list (map_index : Z) (n : nat) : list Z :=
    map (fun i => (map_index + Z.of_nat i + 1)%Z) (seq 0 n).

  (** BasePulse.py:36-190 (constructor).  [control_parameters_list[-1]] raises IndexError when the
      basis has no control parameter. *)
  Definition new_pulse (map_index : Z) (f : pulse_cfg) : res pulse :=
    let swap := (pf_upper f <? pf_lower f)%num in
    let idx := index_list map_index (pf_nctrl f) in
    last <-! py_nth idx (-1);
    Ok {| core := {|
            pc_name := pf_name f; pc_bins := pf_bins f; pc_time_name := pf_time_name f;
            pc_lower := if swap then pf_upper f else pf_lower f;
            pc_upper := if swap then pf_lower f else pf_upper f;
            pc_guess := pf_guess f; pc_scaling := pf_scaling f; pc_shrink := pf_shrink f;
            pc_options := select_options (pf_options f); pc_overwrite := pf_overwrite f;
            pc_nctrl := pf_nctrl f; pc_indices := idx; pc_last := last;
            pc_scale := pf_scale f; pc_offset := pf_offset f;
            pc_opt := []; pc_final_time := of_Z 0;
            pc_time_grid := zeros (pf_bins f); pc_base := Ar (zeros (pf_bins f));
            pc_dist := pf_dist f;
            pc_w := match pf_dist f with Some (k, _, _) => zeros k | None => [] end |};
          shape := pf_shape f; chop := pf_chop f |}.

  (** record updates *)
  Definition set_opt (o : list num) (c : pcore) : pcore :=
    {| pc_name := pc_name c; pc_bins := pc_bins c; pc_time_name := pc_time_name c; pc_lower := pc_lower c;
       pc_upper := pc_upper c; pc_guess := pc_guess c; pc_scaling := pc_scaling c; pc_shrink := pc_shrink c;
       pc_options := pc_options c; pc_overwrite := pc_overwrite c; pc_nctrl := pc_nctrl c;
       pc_indices := pc_indices c; pc_last := pc_last c; pc_scale := pc_scale c; pc_offset := pc_offset c;
       pc_opt := o; pc_final_time := pc_final_time c; pc_time_grid := pc_time_grid c; pc_base := pc_base c;
       pc_dist := pc_dist c; pc_w := pc_w c |}.
  Definition set_grid (t : num) (g : list num) (c : pcore) : pcore :=
    {| pc_name := pc_name c; pc_bins := pc_bins c; pc_time_name := pc_time_name c; pc_lower := pc_lower c;
       pc_upper := pc_upper c; pc_guess := pc_guess c; pc_scaling := pc_scaling c; pc_shrink := pc_shrink c;
       pc_options := pc_options c; pc_overwrite := pc_overwrite c; pc_nctrl := pc_nctrl c;
       pc_indices := pc_indices c; pc_last := pc_last c; pc_scale := pc_scale c; pc_offset := pc_offset c;
       pc_opt := pc_opt c; pc_final_time := t; pc_time_grid := g; pc_base := pc_base c;
       pc_dist := pc_dist c; pc_w := pc_w c |}.
  Definition set_base (b : arr) (c : pcore) : pcore :=
    {| pc_name := pc_name c; pc_bins := pc_bins c; pc_time_name := pc_time_name c; pc_lower := pc_lower c;
       pc_upper := pc_upper c; pc_guess := pc_guess c; pc_scaling := pc_scaling c; pc_shrink := pc_shrink c;
       pc_options := pc_options c; pc_overwrite := pc_overwrite c; pc_nctrl := pc_nctrl c;
       pc_indices := pc_indices c; pc_last := pc_last c; pc_scale := pc_scale c; pc_offset := pc_offset c;
       pc_opt := pc_opt c; pc_final_time := pc_final_time c; pc_time_grid := pc_time_grid c; pc_base := b;
       pc_dist := pc_dist c; pc_w := pc_w c |}.
  Definition set_w (w : list num) (c : pcore) : pcore :=
    {| pc_name := pc_name c; pc_bins := pc_bins c; pc_time_name := pc_time_name c; pc_lower := pc_lower c;
       pc_upper := pc_upper c; pc_guess := pc_guess c; pc_scaling := pc_scaling c; pc_shrink := pc_shrink c;
       pc_options := pc_options c; pc_overwrite := pc_overwrite c; pc_nctrl := pc_nctrl c;
       pc_indices := pc_indices c; pc_last := pc_last c; pc_scale := pc_scale c; pc_offset := pc_offset c;
       pc_opt := pc_opt c; pc_final_time := pc_final_time c; pc_time_grid := pc_time_grid c; pc_base := pc_base c;
       pc_dist := pc_dist c; pc_w := w |}.
  Definition set_indices (i : list Z) (c : pcore) : pcore :=
    {| pc_name := pc_name c; pc_bins := pc_bins c; pc_time_name := pc_time_name c; pc_lower := pc_lower c;
       pc_upper := pc_upper c; pc_guess := pc_guess c; pc_scaling := pc_scaling c; pc_shrink := pc_shrink c;
       pc_options := pc_options c; pc_overwrite := pc_overwrite c; pc_nctrl := pc_nctrl c;
       pc_indices := i; pc_last := pc_last c; pc_scale := pc_scale c; pc_offset := pc_offset c;
       pc_opt := pc_opt c; pc_final_time := pc_final_time c; pc_time_grid := pc_time_grid c; pc_base := pc_base c;
       pc_dist := pc_dist c; pc_w := pc_w c |}.
  Definition with_core (c : pcore) (p : pulse) : pulse := {| core := c; shape := shape p; chop := chop p |}.

  (** BasePulse.py:237-239; [last_index] is not refreshed *)
  Definition set_control_parameters_list (map_index : Z) (p : pulse) : pulse :=
    with_core (set_indices (index_list map_index (pc_nctrl (core p))) (core p)) p.

  (** BasePulse.py:241-244 *)
  Definition set_time_grid (final_time : num) (c : pcore) : pcore :=
    set_grid final_time (linspace0 final_time (pc_bins c)) c.

  (** BasePulse.py:313-358 on an array *)
  Definition shrink_list (lb ub : num) (u : list num) : res (list num) :=
    tmax <-! amax u;
    tmin <-! amin u;
    if (((ub <=? tmax) && (ub <=? tmin)) || ((tmax <=? lb) && (tmin <=? lb)))%num%bool
    then Ok (map (fun x => npmax (npmin x ub) lb) u)
    else
      let u1 :=
        if (ub <? tmax)%num then
          let width_current := nabs (tmax - tmin)%num in
          let width_aim := nabs (ub - tmin)%num in
          let correction := (width_aim / width_current)%num in
          let correction := if (of_Z 1 <? correction)%num then of_Z 1 else correction in
          map (fun x => ((x - tmin) * correction + tmin)%num) u
        else u in
      tmax <-! amax u1;
      tmin <-! amin u1;
      if (tmin <? lb)%num then
        let width_current := nabs (tmax - tmin)%num in
        let width_aim := nabs (tmax - lb)%num in
        let correction := (width_aim / width_current)%num in
        let correction := if (of_Z 1 <? correction)%num then of_Z 1 else correction in
        Ok (map (fun x => ((x - tmax) * correction + tmax)%num) u1)
      else Ok u1.

  (** Clipping branch of BasePulse.py:480-491 *)
  Definition clip (lb ub x : num) : num := npmax (npmin x ub) lb.

  (** BasePulse.py:480-491.  Simplification: a scalar argument of the shrinking branch is an
      AttributeError (Python floats have no [copy]). *)
  Definition get_limited_pulse (c : pcore) (a : arr) : res arr :=
    if pc_shrink c then
      match a with
      | Ar l => r <-! shrink_list (pc_lower c) (pc_upper c) l; Ok (Ar r)
      | Sc _ => Err AttributeError
      end
    else Ok (amap (clip (pc_lower c) (pc_upper c)) a).

  (** BasePulse.py:409-420; the fallback is the scalar 1.0 *)
  Definition get_scaling_function (c : pcore) : res arr :=
    match pc_scaling c with
    | SCall1 f => f (pc_time_grid c)
    | SCall2 f => Err TypeError          (* called with one argument *)
    | SArr l => Ok (Ar l)
    | SOther => Ok (Sc (of_Z 1))
    end.

  (** BasePulse.py:422-435; the fallback is the scalar 0.0 *)
  Definition get_initial_guess (c : pcore) : res arr :=
    g <-! match pc_guess c with
          | GCall f => f (pc_time_grid c)
          | GArr l => Ok (Ar l)
          | GOther => Ok (Sc (of_Z 0))
          end;
    get_limited_pulse c g.

  (** BasePulse.py:437-499: one shaping operation *)
  Definition apply_op (p : pulse) (o : shaping_op) (a : arr) : res arr :=
    let c := core p in
    match o with
    | OpBase => abin nadd a (pc_base c)
    | OpGuess => g <-! get_initial_guess c; abin nadd g a
    | OpLimit => get_limited_pulse c a
    | OpScale =>
        match pc_scaling c with
        | SCall2 f => f (pc_time_grid c) a
        | _ => s <-! get_scaling_function c; abin nmul s a
        end
    | OpUpdate => s <-! shape p c; abin nadd a s
    end.

  (** BasePulse.py:246-255 *)
  Fixpoint run_ops (p : pulse) (ops : list shaping_op) (a : arr) : res arr :=
    match ops with
    | [] => Ok a
    | o :: ops => a' <-! apply_op p o a; run_ops p ops a'
    end.
  Definition get_build_pulse (p : pulse) : res arr :=
    run_ops p (pc_options (core p)) (Ar (zeros (pc_bins (core p)))).

  (** BasePulse.py:399-407 and 241-244: the two setters at the beginning of the public methods *)
  Definition prepare (x : list num) (final_time : num) (p : pulse) : pulse :=
    with_core (set_time_grid final_time (set_opt x (core p))) p.

  (** BasePulse.py:360-371.  Returns the new object and the pulse. *)
  Definition get_pulse (x : list num) (final_time : num) (p : pulse) : res (pulse * arr) :=
    let p := prepare x final_time p in
    a <-! get_build_pulse p; Ok (p, a).

  (** BasePulse.py:373-383 *)
  Definition get_bare_pulse (x : list num) (final_time : num) (p : pulse) : res (pulse * arr) :=
    let p := prepare x final_time p in
    a <-! shape p (core p); Ok (p, a).

  (** BasePulse.py:385-397 *)
  Definition set_base_pulse (x : list num) (final_time : num) (p : pulse) : res pulse :=
    let p := prepare x final_time p in
    s <-! shape p (core p);
    if pc_overwrite (core p) then Ok (with_core (set_base s (core p)) p)
    else b <-! aiadd (pc_base (core p)) s; Ok (with_core (set_base b (core p)) p).

  (** Uniform.py:33-48: [w[i] = a + i*k_bins + k_bins*random[i]] for the [k] draws [r];
      dividing by [k = 0] raises ZeroDivisionError (limits are Python floats) *)
  Definition uniform_super_parameters (k : nat) (a b : num) (r : list num) : res (list num) :=
    if Nat.eqb k 0 then Err ZeroDivisionError else
    let k_bins := ((b - a) / of_Z (Z.of_nat k))%num in
    Ok (map2 (fun i ri => (a + of_Z (Z.of_nat i) * k_bins + k_bins * ri)%num) (seq 0 k) r).
End Pulse.
