(** * Model of quocslib/parameters/*.py and quocslib/Controls.py. *)
From Coq Require Import String ZArith List Bool.
From Verif Require Import Num Py ModelPulse.
Import ListNotations.
Open Scope list_scope.

Section Controls.
  Context {N : Num}.

  (** parameters/BaseParameter.py:24-62: attributes of a parameter object *)
  Record param := mk_param {
    pa_name : string;
    pa_value : num;
    pa_lower : num;
    pa_upper : num;
    pa_ampl : num;
    pa_indices : list Z;
    pa_last : Z
  }.

  (** User configuration of a parameter *)
  Record param_cfg := mk_param_cfg {
    rf_name : string; rf_value : num; rf_lower : num; rf_upper : num; rf_ampl : num
  }.

  (** BaseParameter.py:24-62; [control_parameters_number] is always 1 *)
  Definition new_param (map_index : Z) (f : param_cfg) : param :=
    {| pa_name := rf_name f; pa_value := rf_value f; pa_lower := rf_lower f; pa_upper := rf_upper f;
       pa_ampl := rf_ampl f; pa_indices := index_list map_index 1; pa_last := (map_index + 0 + 1)%Z |}.

  (** BaseParameter.py:110-122 *)
  Definition check_limits (p : param) (x : num) : num := npmin (npmax (pa_lower p) x) (pa_upper p).

  (** BaseParameter.py:102-108 *)
  Definition set_value (x : num) (p : param) : param :=
    {| pa_name := pa_name p; pa_value := check_limits p x; pa_lower := pa_lower p; pa_upper := pa_upper p;
       pa_ampl := pa_ampl p; pa_indices := pa_indices p; pa_last := pa_last p |}.

  (** BaseParameter.py:82-88: [set_parameter(vector)] uses entry 0 of the gathered vector *)
  Definition set_parameter (v : list num) (p : param) : res param :=
    x <-! py_nth v 0; Ok (set_value x p).
  (** BaseParameter.py:90-98 *)
  Definition get_parameter (v : list num) (p : param) : res (param * num) :=
    p <-! set_parameter v p; Ok (p, pa_value p).

  (** BaseParameter.py:78-80 *)
  Definition set_param_indices (map_index : Z) (p : param) : param :=
    {| pa_name := pa_name p; pa_value := pa_value p; pa_lower := pa_lower p; pa_upper := pa_upper p;
       pa_ampl := pa_ampl p; pa_indices := index_list map_index 1; pa_last := pa_last p |}.

  (** parameters/TimeParameter.py: attributes; [ti_alpha] is the inherited parameter, present iff
      [is_optimization] *)
  Record timep := mk_timep {
    ti_time : num;
    ti_variation : num;
    ti_alpha : option param
  }.
  Record time_cfg := mk_time_cfg {
    tf_map_index : Z;        (* key "map_index" of the time dictionary, default -1 *)
    tf_name : string; tf_value : num; tf_opt : bool; tf_lower : num; tf_upper : num; tf_ampl : num
  }.

  (** TimeParameter.py:34-77; equal limits raise ZeroDivisionError in the optimised case *)
  Definition new_time (f : time_cfg) : res timep :=
    let max_variation := (tf_upper f - tf_lower f)%num in
    if tf_opt f then
      if neqb max_variation (of_Z 0) then Err ZeroDivisionError else
      let alpha_max := ((tf_upper f - tf_value f) / max_variation)%num in
      let alpha_min := ((tf_lower f - tf_value f) / max_variation)%num in
      let alpha_variation := (tf_ampl f / max_variation)%num in
      Ok {| ti_time := tf_value f; ti_variation := max_variation;
            ti_alpha := Some (new_param (tf_map_index f)
               {| rf_name := append "alpha_" (tf_name f); rf_value := of_Z 0; rf_lower := alpha_min;
                  rf_upper := alpha_max; rf_ampl := alpha_variation |}) |}
    else Ok {| ti_time := tf_value f; ti_variation := max_variation; ti_alpha := None |}.

  (** TimeParameter.py:82-93 *)
  Definition get_time (t : timep) : num :=
    match ti_alpha t with
    | Some a => (ti_time t + pa_value a * ti_variation t)%num
    | None => ti_time t
    end.

  (** [if time.is_optimization: time.set_parameter(x[time.control_parameters_list])],
      Controls.py:221-223 and 245-248 *)
  Definition set_time_from (x : list num) (t : timep) : res timep :=
    match ti_alpha t with
    | Some a => v <-! gather x (pa_indices a);
                a <-! set_parameter v a;
                Ok {| ti_time := ti_time t; ti_variation := ti_variation t; ti_alpha := Some a |}
    | None => Ok t
    end.

  (** Controls.py:49-51: attributes *)
  Record controls := mk_controls {
    c_pulses : list pulse;
    c_params : list param;
    c_times : dict timep
  }.

  (** Controls.py:56-71: the map index is chained through [last_index] *)
  Fixpoint new_pulses (map_index : Z) (l : list pulse_cfg) : res (list pulse * Z) :=
    match l with
    | [] => Ok ([], map_index)
    | f :: l => p <-! new_pulse map_index f;
                '(ps, m) <-! new_pulses (pc_last (core p)) l;
                Ok (p :: ps, m)
    end.
  (** Controls.py:75-79 *)
  Fixpoint new_params (map_index : Z) (l : list param_cfg) : list param :=
    match l with
    | [] => []
    | f :: l => let p := new_param map_index f in p :: new_params (pa_last p) l
    end.
  (** Controls.py:83-86: keyed by name, a repeated name replaces the object *)
  Fixpoint new_times (l : list time_cfg) (d : dict timep) : res (dict timep) :=
    match l with
    | [] => Ok d
    | f :: l => t <-! new_time f; new_times l (dset d (tf_name f) t)
    end.

  (** Controls.py:34-105 (constructor, without automatic differentiation) *)
  Definition new_controls (pl : list pulse_cfg) (tl : list time_cfg) (rl : list param_cfg) : res controls :=
    '(ps, m) <-! new_pulses (-1) pl;
    ts <-! new_times tl [];
    Ok {| c_pulses := ps; c_params := new_params m rl; c_times := ts |}.

  (** Controls.py:107-127 *)
  Definition get_control_parameters_number (c : controls) : nat :=
    fold_left (fun n (_ : param) => n + 1)%nat (c_params c)
      (fold_left (fun n p => n + pc_nctrl (core p))%nat (c_pulses c) 0%nat).

  (** Controls.py:139-157 *)
  Fixpoint reindex_pulses (map_index : Z) (l : list pulse) : list pulse * Z :=
    match l with
    | [] => ([], map_index)
    | p :: l => let p' := set_control_parameters_list map_index p in
                let '(ps, m) := reindex_pulses (pc_last (core p')) l in (p' :: ps, m)
    end.
  Fixpoint reindex_params (map_index : Z) (l : list param) : list param :=
    match l with
    | [] => []
    | p :: l => let p' := set_param_indices map_index p in p' :: reindex_params (pa_last p') l
    end.
  Definition update_control_parameter_indexes (c : controls) : controls :=
    let '(ps, m) := reindex_pulses (-1) (c_pulses c) in
    {| c_pulses := ps; c_params := reindex_params m (c_params c); c_times := c_times c |}.

  (** Controls.py:129-137.  Pulses are treated in order; the super-parameters use [k] draws of the stream
      [rs] from position [pos] (Uniform.py:42-46); [update_chopped_basis] may change the pulse; then all
      controls are re-indexed. *)
  Fixpoint select_basis_from (rs : nat -> num) (idx : list nat) (pos : nat) (c : controls)
    : res (controls * nat) :=
    match idx with
    | [] => Ok (c, pos)
    | i :: idx =>
        match nth_error (c_pulses c) i with
        | None => Ok (c, pos)      (* does not occur: [idx] enumerates the pulses *)
        | Some p =>
            match pc_dist (core p) with
            | None => select_basis_from rs idx pos c
            | Some (k, a, b) =>
                w <-! uniform_super_parameters k a b (map rs (seq pos k));
                let p := with_core (set_w w (core p)) p in
                let p := with_core (chop p (core p)) p in
                let c := {| c_pulses := set_nth (c_pulses c) i p; c_params := c_params c;
                            c_times := c_times c |} in
                select_basis_from rs idx (pos + k) (update_control_parameter_indexes c)
            end
        end
    end.
  Definition select_basis (rs : nat -> num) (pos : nat) (c : controls) : res (controls * nat) :=
    select_basis_from rs (seq 0 (length (c_pulses c))) pos c.

  (** Controls.py:159-174 *)
  Definition get_random_super_parameter (c : controls) : list (list num) :=
    flat_map (fun p => match pc_dist (core p) with Some _ => [pc_w (core p)] | None => [] end) (c_pulses c).

  (** [for o in l: v[o.indices] = o.values] *)
  Fixpoint scatter_all (blocks : list (list Z * list num)) (v : list num) : res (list num) :=
    match blocks with
    | [] => Ok v
    | (i, x) :: blocks => v <-! scatter v i x; scatter_all blocks v
    end.

  (** the alpha parameters of the optimised times, in dictionary order *)
  Definition optimised_times (c : controls) : list param :=
    flat_map (fun kt => match ti_alpha (snd kt) with Some a => [a] | None => [] end) (c_times c).

  (** Controls.py:176-194 *)
  Definition get_sigma_variation (c : controls) : res (list num) :=
    scatter_all
      (map (fun p => (pc_indices (core p), pc_scale (core p))) (c_pulses c)
       ++ map (fun p => (pa_indices p, [pa_ampl p])) (c_params c)
       ++ map (fun p => (pa_indices p, [pa_ampl p])) (optimised_times c))
      (zeros (get_control_parameters_number c)).

  (** Controls.py:196-211 *)
  Definition get_mean_value (c : controls) : res (list num) :=
    scatter_all
      (map (fun p => (pc_indices (core p), pc_offset (core p))) (c_pulses c)
       ++ map (fun p => (pa_indices p, [pa_value p])) (c_params c))
      (zeros (get_control_parameters_number c)).

  (** Controls.py:219-223 and 244-248: first loop of update_base_controls and _get_controls_lists *)
  Definition set_times (x : list num) (d : dict timep) : res (dict timep) :=
    rmap (fun kt => t <-! set_time_from x (snd kt); Ok (fst kt, t)) d.

  (** [self.times_obj_dictionary[time_name].get_time()] *)
  Definition time_of (d : dict timep) (name : string) : res num :=
    match dget d name with Some t => Ok (get_time t) | None => Err KeyError end.

  (** Controls.py:213-231.  Simplification: when an exception is raised half-way the partially updated
      objects are not represented (the run ends with that exception). *)
  Definition update_base_controls (x : list num) (c : controls) : res controls :=
    ts <-! set_times x (c_times c);
    ps <-! rmap (fun p => v <-! gather x (pc_indices (core p));
                          t <-! time_of ts (pc_time_name (core p));
                          set_base_pulse v t p) (c_pulses c);
    rs <-! rmap (fun r => v <-! gather x (pa_indices r); set_parameter v r) (c_params c);
    Ok {| c_pulses := ps; c_params := rs; c_times := ts |}.

  (** what is handed to the figure of merit: pulses, time grids, parameters *)
  Record delivered := mk_delivered {
    d_pulses : list arr;
    d_timegrids : list (list num);
    d_parameters : list num
  }.

  (** Controls.py:233-260 (same simplification on exceptions) *)
  Definition get_controls_lists (x : list num) (c : controls) : res (controls * delivered) :=
    ts <-! set_times x (c_times c);
    ps <-! rmap (fun p => v <-! gather x (pc_indices (core p));
                          t <-! time_of ts (pc_time_name (core p));
                          get_pulse v t p) (c_pulses c);
    rs <-! rmap (fun r => v <-! gather x (pa_indices r); get_parameter v r) (c_params c);
    Ok ({| c_pulses := map fst ps; c_params := map fst rs; c_times := ts |},
        {| d_pulses := map snd ps;
           d_timegrids := map (fun pa => pc_time_grid (core (fst pa))) ps;
           d_parameters := map snd rs |}).

  (** Controls.py:324-340 *)
  Definition get_bare_controls_lists (x : list num) (c : controls) : res (controls * list arr) :=
    ps <-! rmap (fun p => v <-! gather x (pc_indices (core p));
                          t <-! time_of (c_times c) (pc_time_name (core p));
                          get_bare_pulse v t p) (c_pulses c);
    Ok ({| c_pulses := map fst ps; c_params := c_params c; c_times := c_times c |}, map snd ps).

  (** optimizationalgorithms/OptimizationAlgorithm.py:305-316; the names come from the configuration, which
      the objects keep *)
  Definition controls_names (c : controls) : list string * list string :=
    (map (fun p => pc_name (core p)) (c_pulses c), map pa_name (c_params c)).
End Controls.
