(** * Specification vocabulary for pulses, parameters and controls.
    Nothing here refers to how the model computes; only to configurations, to the public
    operations of [Controls] and to the delivered values. *)
From Coq Require Import String ZArith List Bool Reals.
From Verif Require Import Num Py ModelPulse ModelControls.
Import ListNotations.
Open Scope list_scope.

(** The samples of a delivered pulse. *)
Definition samples {N : Num} (a : arr) : list num := match a with Sc x => [x] | Ar l => l end.

(** [x] lies between the two limits, in whichever order they were given. *)
Definition between {N : Num} (l u x : num) : Prop :=
  (nleb l x = true /\ nleb x u = true) \/ (nleb u x = true /\ nleb x l = true).

(** The five documented shaping options. *)
Definition known_options : list string :=
  ["add_initial_guess"; "add_base_pulse"; "add_new_update_pulse"; "scale_pulse"; "limit_pulse"]%string.

(** The last recognised option is limit_pulse (no list given: the default ends with it). *)
Definition ends_with_limit (names : option (list string)) : Prop :=
  match names with
  | None => True
  | Some l => exists pre post, l = pre ++ "limit_pulse"%string :: post /\
                (forall s, In s post -> ~ In s known_options)
  end.

(** Histories: everything a client can do with a Controls object. *)
Inductive reachable {N : Num} : controls -> controls -> Prop :=
| reach_refl c : reachable c c
| reach_get c c1 c2 x d : reachable c c1 -> get_controls_lists x c1 = Ok (c2, d) -> reachable c c2
| reach_bare c c1 c2 x d : reachable c c1 -> get_bare_controls_lists x c1 = Ok (c2, d) -> reachable c c2
| reach_update c c1 c2 x : reachable c c1 -> update_base_controls x c1 = Ok c2 -> reachable c c2
| reach_select c c1 c2 rs p q : reachable c c1 -> select_basis rs p c1 = Ok (c2, q) -> reachable c c2.

(** The basis does not redefine its pulse when new random functions are selected (all shipped bases). *)
Definition plain_basis {N : Num} (f : pulse_cfg) : Prop := forall c, pf_chop f c = c.

(** The configuration entry in force for a time name: the last one listed (Python dictionary). *)
Definition lookup_time {N : Num} (tl : list time_cfg) (name : string) : option time_cfg :=
  find (fun t => String.eqb name (tf_name t)) (rev tl).

(** [g] is the grid of [n] equally spaced points from 0 to [T]. *)
Definition equally_spaced (T : Reals.Rdefinitions.R) (n : nat) (g : list Reals.Rdefinitions.R) : Prop :=
  length g = n /\
  forall j, (j < n)%nat ->
    nth_error g j = Some (if Nat.eqb n 1 then Reals.Rdefinitions.R0
                          else (Reals.Raxioms.INR j * (T / Reals.Raxioms.INR (n - 1)))%R).

(** ** Shaping pipeline *)
Section Pipeline.
  Context {N : Num}.

  (** the [n] samples a numpy value stands for next to an array of [n] samples *)
  Definition as_samples (n : nat) (a : arr) : option (list num) :=
    match a with
    | Sc x => Some (repeat x n)
    | Ar l => if Nat.eqb (length l) n then Some l else None
    end.

  (** The user's initial guess as samples on the grid [g]: a function of the grid, an array, or nothing *)
  Definition guess_samples (f : pulse_cfg) (g : list num) : option (list num) :=
    match pf_guess f with
    | GCall h => match h g with Ok a => as_samples (pf_bins f) a | Err _ => None end
    | GArr l => as_samples (pf_bins f) (Ar l)
    | GOther => as_samples (pf_bins f) (Sc (of_Z 0))
    end.

  (** The user's scaling function (not the two-argument variant) as samples on the grid [g] *)
  Definition scaling_samples (f : pulse_cfg) (g : list num) : option (list num) :=
    match pf_scaling f with
    | SCall1 h => match h g with Ok a => as_samples (pf_bins f) a | Err _ => None end
    | SCall2 _ => None
    | SArr l => as_samples (pf_bins f) (Ar l)
    | SOther => as_samples (pf_bins f) (Sc (of_Z 1))
    end.

  (** cutting one sample at the two limits, in whichever order they were given: inside unchanged, outside
      the violated limit, NaN stays *)
  Definition cut (l u x : num) : num :=
    let lo := if nltb u l then u else l in
    let hi := if nltb u l then l else u in
    if nisnan x then x else if nleb x hi then if nleb lo x then x else lo else hi.

  (** the ingredients of a pulse: samples of guess, scaling, base pulse and update *)
  Record ingredients := { i_guess : list num; i_scaling : list num; i_base : list num; i_update : list num }.

  (** effect of one option, by its documented name, on the samples *)
  Definition option_effect (l u : num) (i : ingredients) (name : string) (a : list num) : list num :=
    if String.eqb name "add_initial_guess" then map2 nadd (map (cut l u) (i_guess i)) a
    else if String.eqb name "add_base_pulse" then map2 nadd a (i_base i)
    else if String.eqb name "add_new_update_pulse" then map2 nadd a (i_update i)
    else if String.eqb name "scale_pulse" then map2 nmul (i_scaling i) a
    else if String.eqb name "limit_pulse" then map (cut l u) a
    else a.

  (** documented default order *)
  Definition default_names : list string :=
    ["add_initial_guess"; "add_base_pulse"; "add_new_update_pulse"; "scale_pulse"; "limit_pulse"]%string.
  Definition names_of (f : pulse_cfg) : list string :=
    match pf_options f with Some l => l | None => default_names end.

  (** the same pulse configuration with another list of options *)
  Definition with_options (l : list string) (f : pulse_cfg) : pulse_cfg :=
    {| pf_name := pf_name f; pf_bins := pf_bins f; pf_time_name := pf_time_name f; pf_lower := pf_lower f;
       pf_upper := pf_upper f; pf_guess := pf_guess f; pf_scaling := pf_scaling f; pf_shrink := pf_shrink f;
       pf_options := Some l; pf_overwrite := pf_overwrite f; pf_nctrl := pf_nctrl f; pf_scale := pf_scale f;
       pf_offset := pf_offset f; pf_dist := pf_dist f; pf_shape := pf_shape f; pf_chop := pf_chop f |}.

  (** left to right, from the zero pulse *)
  Definition pipeline (f : pulse_cfg) (i : ingredients) : list num :=
    fold_left (fun a name => option_effect (pf_lower f) (pf_upper f) i name a) (names_of f)
              (repeat (of_Z 0) (pf_bins f)).
End Pipeline.

(** ** States of a pulse object *)
Section States.
  Context {N : Num}.

  (** [c] is a possible state of a pulse created with configuration [f] *)
  Record core_of (f : pulse_cfg) (c : pcore) : Prop := {
    co_bins : pc_bins c = pf_bins f;
    co_lower : pc_lower c = if nltb (pf_upper f) (pf_lower f) then pf_upper f else pf_lower f;
    co_upper : pc_upper c = if nltb (pf_upper f) (pf_lower f) then pf_lower f else pf_upper f;
    co_guess : pc_guess c = pf_guess f;
    co_shrink : pc_shrink c = pf_shrink f;
    co_dist : pc_dist c = pf_dist f;
    co_w : length (pc_w c) = match pf_dist f with Some (k, _, _) => k | None => 0%nat end;
    co_grid : length (pc_time_grid c) = pf_bins f;
    co_opt : length (pc_opt c) = pf_nctrl f
  }.

  (** the update has one sample per bin *)
  Definition regular_update (f : pulse_cfg) : Prop :=
    forall c a, core_of f c -> pf_shape f c = Ok a -> exists l, a = Ar l /\ length l = pf_bins f.

  (** the update is the zero pulse at the offset vector, whatever the random super-parameters and the
      (non-zero) duration *)
  Definition zero_at_offset (f : pulse_cfg) : Prop :=
    length (pf_offset f) = pf_nctrl f /\
    forall c, core_of f c -> pc_opt c = pf_offset f -> pc_final_time c <> of_Z 0 ->
      pf_shape f c = Ok (Ar (repeat (of_Z 0) (pf_bins f))).

  (** the update does not look at the accumulated base pulse (true of every shipped basis) *)
  Definition ignores_base (f : pulse_cfg) : Prop := forall c b, pf_shape f (set_base b c) = pf_shape f c.

  (** base pulse and update are added once each, next to each other (true of the default options) *)
  Definition base_beside_update (names : list string) : Prop :=
    exists pre post, (names = pre ++ ["add_base_pulse"; "add_new_update_pulse"]%string ++ post \/
                      names = pre ++ ["add_new_update_pulse"; "add_base_pulse"]%string ++ post) /\
      ~ In "add_base_pulse"%string (pre ++ post) /\ ~ In "add_new_update_pulse"%string (pre ++ post).

  (** the same controls with the shaping options of pulse number [i] replaced by the list [l] *)
  Definition set_options (l : list string) (c : pcore) : pcore :=
    {| pc_name := pc_name c; pc_bins := pc_bins c; pc_time_name := pc_time_name c; pc_lower := pc_lower c;
       pc_upper := pc_upper c; pc_guess := pc_guess c; pc_scaling := pc_scaling c; pc_shrink := pc_shrink c;
       pc_options := select_options (Some l); pc_overwrite := pc_overwrite c; pc_nctrl := pc_nctrl c;
       pc_indices := pc_indices c; pc_last := pc_last c; pc_scale := pc_scale c; pc_offset := pc_offset c;
       pc_opt := pc_opt c; pc_final_time := pc_final_time c; pc_time_grid := pc_time_grid c; pc_base := pc_base c;
       pc_dist := pc_dist c; pc_w := pc_w c |}.
  (** the update does not look at the list of options (true of every shipped basis) *)
  Definition ignores_options (f : pulse_cfg) : Prop := forall c l, pf_shape f (set_options l c) = pf_shape f c.
  Definition with_pulse_options (i : nat) (l : list string) (c : controls) : controls :=
    match nth_error (c_pulses c) i with
    | Some p => {| c_pulses := set_nth (c_pulses c) i (with_core (set_options l (core p)) p);
                   c_params := c_params c; c_times := c_times c |}
    | None => c
    end.

  (** no duration is optimised *)
  Definition no_optimised_time (tl : list time_cfg) : Prop := forall t, In t tl -> tf_opt t = false.

  (** the base pulse of control number [i] *)
  Definition base_of (c : controls) (i : nat) : option arr :=
    option_map (fun p => pc_base (core p)) (nth_error (c_pulses c) i).

  (** only evaluations of candidate vectors *)
  Inductive evaluations : controls -> controls -> Prop :=
  | ev_refl c : evaluations c c
  | ev_step c c1 c2 x d : evaluations c c1 -> get_controls_lists x c1 = Ok (c2, d) -> evaluations c c2.

  (** histories together with the list of the updates accepted (one list of arrays per
      update_base_controls, as returned by get_bare_controls_lists for the same vector) *)
  Inductive accepted : controls -> list (list arr) -> controls -> Prop :=
  | acc_refl c : accepted c [] c
  | acc_get c us c1 c2 x d : accepted c us c1 -> get_controls_lists x c1 = Ok (c2, d) -> accepted c us c2
  | acc_bare c us c1 c2 x d : accepted c us c1 -> get_bare_controls_lists x c1 = Ok (c2, d) -> accepted c us c2
  | acc_select c us c1 c2 rs p q : accepted c us c1 -> select_basis rs p c1 = Ok (c2, q) -> accepted c us c2
  | acc_update c us c1 c2 x c3 u : accepted c us c1 -> update_base_controls x c1 = Ok c2 ->
      get_bare_controls_lists x c2 = Ok (c3, u) -> accepted c (us ++ [u]) c2.
End States.

(** ** Configurations that can be evaluated *)
Section Usable.
  Context {N : Num}.

  (** the update is an array with one sample per bin, for every vector *)
  Definition total_update (f : pulse_cfg) : Prop :=
    forall c, core_of f c -> exists l, pf_shape f c = Ok (Ar l) /\ length l = pf_bins f.

  (** guess and scaling are arrays of the right length, functions returning such, or nothing *)
  Definition sampled (f : pulse_cfg) : Prop :=
    forall g, length g = pf_bins f -> guess_samples f g <> None /\ scaling_samples f g <> None.

  (** a configuration whose pulses name existing durations *)
  Record usable (pl : list pulse_cfg) (tl : list time_cfg) : Prop := {
    us_plain : Forall plain_basis pl;
    us_total : Forall total_update pl;
    us_sampled : Forall sampled pl;
    us_bins : Forall (fun f => pf_shrink f = true -> pf_bins f <> 0%nat) pl;
    us_times : Forall (fun f => lookup_time tl (pf_time_name f) <> None) pl;
    us_map : forall t, In t tl -> tf_opt t = true -> tf_map_index t = (-1)%Z
  }.

  (** a scalar guess fails when shrinking (Python floats have no copy) *)
  Definition array_guess (f : pulse_cfg) : Prop := pf_shrink f = true ->
    forall g, length g = pf_bins f -> match pf_guess f with GCall h => exists l, h g = Ok (Ar l) | GArr _ => True | GOther => False end.

End Usable.
