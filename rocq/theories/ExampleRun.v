(** Concrete runs used by the examples and counterexamples of the run properties (binary64 numbers). *)
From Coq Require Import String ZArith List Bool.
From RecordUpdate Require Import RecordSet.
From Flocq Require Import BinarySingleNaN.
From Verif Require Import Num Py ModelPulse ModelControls ModelBases ModelLinalg ModelState ModelSearch ModelRun SpecRun
  ExampleControls.
Import ListNotations RecordSetNotations.
Open Scope list_scope.
Open Scope bool_scope.

Section ExRun.
  Context {N : Num}.

  (** stable argsort by insertion *)
  Fixpoint ins (p : num * nat) (l : list (num * nat)) : list (num * nat) :=
    match l with
    | [] => [p]
    | q :: l => if (fst p <=? fst q)%num then p :: q :: l else q :: ins p l
    end.
  Definition sort_pairs (l : list (num * nat)) : list (num * nat) := fold_right ins [] l.
  Definition argsort (l : list num) : list nat := map snd (sort_pairs (combine l (seq 0 (length l)))).

  (** default settings: one parameter between -10 and 10, at most 100 evaluations, no limits *)
  Definition ex_run (k : kind) : settings :=
    {| g_kind := k; g_method := MNelderMead false; g_max_total := 100; g_total_lim := of_Z 10000000000;
       g_maximise := false; g_goal := None; g_max_si := 1; g_steps := None; g_drift_si := false; g_drift_min := of_Z 0;
       g_drift_avg := 1; g_seeded := false; g_max_eval := 1000; g_time_lim := of_Z 1000; g_xatol := (of_Z 1 / of_Z 1000000)%num;
       g_fatol := (of_Z 1 / of_Z 1000000)%num; g_cbs_n := None; g_cbs_change := None;
       g_pulses := []; g_times := []; g_params := [ex_param (-10) 10] |}.

  (** first parameter of the newest delivered controls *)
  Definition newest (h : list delivered) : num :=
    match h with d :: _ => match d_parameters d with v :: _ => v | [] => of_Z 0 end | [] => of_Z 0 end.
  Definition says (v : num) : answer := Dict (mk_adict (FVal v) None None).
  Definition says_status (v : num) (c : Z) : answer := Dict (mk_adict (FVal v) None (Some c)).
  Definition asks (xs : list num) : strategy := fold_right (fun x k => Ask [x] (fun _ => k)) Done xs.

  (** the figure of merit is the parameter; the clock ticks one minute per reading; nobody interferes; the
      minimiser asks for the points [xs] *)
  Definition ex_world (xs : list num) : world :=
    {| w_fom := fun h => says (newest h); w_clock := fun n => (60000000 * Z.of_nat n)%Z; w_async := fun _ => ANone;
       w_rng := fun _ => of_Z 0; w_np := fun _ => of_Z 0; w_randn := fun _ => of_Z 0;
       w_cdf := fun v => if (v <? of_Z 0)%num then of_Z 0 else if (of_Z 0 <? v)%num then of_Z 1 else (of_Z 1 / of_Z 2)%num;
       w_argsort := argsort; w_pop := fun _ => 4; w_cma := fun x _ _ _ => Ok x; w_cma_adapt := fun _ => Ok tt;
       w_lbfgs := fun _ _ => asks xs; w_gradient := fun _ _ => None; w_fuel := 1000; w_stuck := OutOfFuel |}.
  (** as [f] answers from the newest value and the number of evaluations *)
  Definition answering (f : nat -> num -> answer) (W : world) : world :=
    W <|w_fom := fun h => f (length h) (newest h)|>.
  (** someone interferes at point [n] *)
  Definition interfering (n : nat) (a : async) (W : world) : world :=
    W <|w_async := fun k => if Nat.eqb k n then a else ANone|>.

  (** evaluate a run to a boolean *)
  Definition run_ok (G : settings) (W : world) (P : res unit -> st -> bool) : bool :=
    match optimise G W with Ok (r, s) => P r s | Err _ => false end.
  Lemma run_ok_exists G W P : run_ok G W P = true -> exists r s, optimise G W = Ok (r, s) /\ P r s = true.
  Proof. unfold run_ok. destruct (optimise G W) as [[r s]|]; [|discriminate]. eauto. Qed.
  Definition fine_end (r : res unit) : bool := match r with Ok _ => true | Err _ => false end.
  Definition exn_eq_dec (e f : exn) : {e = f} + {e <> f}.
  Proof. decide equality. Defined.
  Definition exn_eqb (e f : exn) : bool := if exn_eq_dec e f then true else false.
  Definition raised (e : exn) (r : res unit) : bool := match r with Ok _ => false | Err f => exn_eqb e f end.
  Definition is_grad (e : event) : bool := match e with EvGrad _ => true | _ => false end.
  Definition is_save (e : event) : bool := match e with EvSave _ => true | _ => false end.
End ExRun.

(** integer literals *)
Notation z := (@of_Z F64).
Definition zs (l : list Z) : list f64 := map z l.
(** lists of numbers are the given integers *)
Definition are (l : list f64) (m : list Z) : bool := same_list l (map z m).
Lemma are_eq l m : are l m = true -> l = map z m.
Proof. apply same_list_eq. Qed.
Definition frun (k : kind) : settings (N := F64) := ex_run k.
Definition fworld (xs : list Z) : world (N := F64) := ex_world (N := F64) (zs xs).
