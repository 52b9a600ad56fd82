(** * Controls for automatic differentiation: the jax variants of quocslib/Controls.py.
    Simplification: which numpy operations inside the pulses accept a traced value is not represented, and jax's arithmetic inside the pulses
    is that of the model's numbers; the conversions to complex64 and to float32 are the functions [c64] and [f32]. *)
From Coq Require Import String ZArith List Bool.
From Verif Require Import Num Py ModelPulse ModelControls.
Import ListNotations.
Open Scope list_scope.

Section Jax.
  Context {N : Num}.

  (** [x[jnp.asarray(l)]] / [x[np.asarray(l)]], Controls.py:281, 290, 312, 321: the array made of an empty list holds floats and is refused as
      an index.  Simplification: an index beyond the end raises as in numpy (a traced vector gives its last entry). *)
  Definition jax_gather (x : list num) (idx : list Z) : res (list num) :=
    match idx with [] => Err TypeError | _ => gather x idx end.

  (** the value of an assignment to [n] entries: one value fills them all, otherwise there must be [n] values *)
  Definition fill (n : nat) (a : arr) : res (list num) :=
    match a with
    | Sc x => Ok (repeat x n)
    | Ar [x] => Ok (repeat x n)
    | Ar l => if Nat.eqb (length l) n then Ok l else Err ValueError
    end.

  (** [a.at[i, :n].set(v)]: a new array; a row beyond the end is ignored *)
  Definition set_row (a : list (list num)) (i n : nat) (v : arr) : res (list (list num)) :=
    match nth_error a i with
    | None => Ok a
    | Some row => w <-! fill (Nat.min n (length row)) v; Ok (set_nth a i (w ++ skipn n row))
    end.

  (** Controls.py:89-93; computed once by the constructor from attributes that never change *)
  Definition max_bin_numbers (c : controls) : nat := fold_left Nat.max (map (fun p => pc_bins (core p)) (c_pulses c)) 0%nat.

  (** Controls.py:273-276 and 304-307: the list of indices is used as it is, which a traced vector refuses *)
  Definition jax_set_times (traced : bool) (x : list num) (d : dict timep) : res (dict timep) :=
    rmap (fun kt => t <-! (if (traced && match ti_alpha (snd kt) with Some _ => true | None => false end)%bool then Err TypeError
                           else set_time_from x (snd kt)); Ok (fst kt, t)) d.

  (** what the user's functions get under automatic differentiation: two-dimensional arrays by rows, and one array of parameters *)
  Record jarrays := mk_jarrays { j_pulses : list (list num); j_timegrids : list (list num); j_parameters : list num }.

  (** Controls.py:278-284 and 309-315; [cast] is the conversion to the type of the array *)
  Fixpoint jax_pulses (cast : num -> num) (x : list num) (ts : dict timep) (i : nat) (ps : list pulse) (P G : list (list num))
    : res (list pulse * (list (list num) * list (list num))) :=
    match ps with
    | [] => Ok ([], (P, G))
    | p :: ps =>
        v <-! jax_gather x (pc_indices (core p));
        t <-! time_of ts (pc_time_name (core p));
        '(p, a) <-! get_pulse v t p;
        P <-! set_row P i (pc_bins (core p)) (amap cast a);
        G <-! set_row G i (pc_bins (core p)) (Ar (map cast (pc_time_grid (core p))));
        '(ps, PG) <-! jax_pulses cast x ts (S i) ps P G;
        Ok (p :: ps, PG)
    end.
  (** Controls.py:286-290 and 317-321 *)
  Fixpoint jax_params (cast : num -> num) (x : list num) (i : nat) (rs : list param) (R : list num) : res (list param * list num) :=
    match rs with
    | [] => Ok ([], R)
    | r :: rs =>
        v <-! jax_gather x (pa_indices r);
        '(r, y) <-! get_parameter v r;
        '(rs, R) <-! jax_params cast x (S i) rs (set_nth R i (cast y));
        Ok (r :: rs, R)
    end.

  (** Controls.py:262-291 and 293-322, which differ in the types of the arrays *)
  Definition jax_lists (traced : bool) (cast_pulse cast_param : num -> num) (x : list num) (c : controls) : res (controls * jarrays) :=
    let rows := length (c_pulses c) in
    let m := max_bin_numbers c in
    ts <-! jax_set_times traced x (c_times c);
    '(ps, (P, G)) <-! jax_pulses cast_pulse x ts 0 (c_pulses c) (repeat (zeros m) rows) (repeat (zeros m) rows);
    '(rs, R) <-! jax_params cast_param x 0 (c_params c) (zeros (length (c_params c)));
    Ok ({| c_pulses := ps; c_params := rs; c_times := ts |}, {| j_pulses := P; j_timegrids := G; j_parameters := R |}).

  Variables c64 f32 : num -> num.
  (** Controls.py:293-322.  [traced]: called while jax differentiates (ADAlgorithm.py:125-130); otherwise from ADAlgorithm.py:177-192 *)
  Definition get_controls_jax_obj (traced : bool) (x : list num) (c : controls) : res (controls * jarrays) := jax_lists traced c64 c64 x c.
  (** Controls.py:262-291: real arrays; a parameter is converted to complex64 first *)
  Definition get_converted_jax_obj (x : list num) (c : controls) : res (controls * jarrays) := jax_lists false f32 (fun y => f32 (c64 y)) x c.
  (** OptimizationAlgorithm.py:293-298 with the functions chosen in Controls.py:83-85 *)
  Definition get_best_controls_AD (c : controls) : res (controls * jarrays) := m <-! get_mean_value c; get_converted_jax_obj m c.
End Jax.
