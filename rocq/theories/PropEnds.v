(** Every optimisation comes to an end. *)
From Coq Require Import String ZArith List Bool Lia.
From RecordUpdate Require Import RecordSet.
From Verif Require Import Num NumFacts Py PyFacts ModelPulse ModelControls ModelLinalg ModelState ModelSearch ModelRun
  SpecRun SpecSearch ProofSim ProofEnds ExampleControls ExampleRun.
Import ListNotations RecordSetNotations.
Open Scope list_scope.
Open Scope nat_scope.
Open Scope bool_scope.

(** The only loops without a bound of their own are those of the two direct searches; the model grants them [w_fuel] rounds
    and raises [w_stuck] if these do not suffice.  For every configuration, every figure of merit (also one that raises, that
    answers NaN, or that changes its mind), every clock and everybody who interferes: as soon as there are
    min(max_eval, max_eval_total) + 3 rounds, their number and what the model raises without them make no difference, so the
    loops end by themselves. *)
Theorem C60_ends (N : Num) (G : settings) (W : world) :
  exists o, forall fuel e, Z.to_nat (Z.min (g_max_eval G) (g_max_total G)) + 3 <= fuel ->
    optimise G (W <|w_fuel := fuel|> <|w_stuck := e|>) = o.
Proof.
  set (V := W <|w_fuel := Z.to_nat (Z.min (g_max_eval G) (g_max_total G)) + 3|>). exists (optimise G V). intros fuel e B.
  unfold optimise. change (new_state G (W <|w_fuel := fuel|> <|w_stuck := e|>)) with (new_state G V).
  destruct (new_state G V) as [s|x]; [|reflexivity]. cbn [rbind]. apply f_equal.
  exact (execute_fuel G V fuel e s (le_n _) B).
Qed.
(** The same for one direct search over the evaluation routine of an optimisation, from any state. *)
Theorem C60_search_ends (N : Num) (G : settings) (W : world) x0 sg simplex drift_min drift_avg s :
  exists o, forall fuel e, Z.to_nat (Z.min (g_max_eval G) (g_max_total G)) + 3 <= fuel ->
    run_dsm G (W <|w_fuel := fuel|> <|w_stuck := e|>) (inner_routine_call G W) x0 sg simplex drift_min drift_avg s = o.
Proof.
  set (V := W <|w_fuel := Z.to_nat (Z.min (g_max_eval G) (g_max_total G)) + 3|>).
  exists (run_dsm G V (inner_routine_call G W) x0 sg simplex drift_min drift_avg s). intros fuel e B.
  change (inner_routine_call G W) with (inner_routine_call G V).
  exact (dsm_fuel G V (inner_routine_call G V) (onward_inner G V) (fun x it s y s' H q => proj2 (inner_counts G V x it s y s' H q))
    x0 sg simplex drift_min drift_avg fuel e s (le_n _) B).
Qed.
(** A figure of merit that falls for ever, no budget for a single search to speak of, 20 evaluations in total: 23 rounds are
    enough, and the run ends properly; a single round is not, and the run is cut off. *)
Definition falling : settings (N := F64) := (ex_run KDirect (N := F64)) <|g_max_total := 20%Z|> <|g_max_eval := (10 ^ 10)%Z|>.
Definition fallen : world (N := F64) := answering (fun n _ => says (of_Z (- Z.of_nat n))) (ex_world []).
Example C60_ends_example : Z.to_nat (Z.min (g_max_eval falling) (g_max_total falling)) + 3 = 23 /\
  (exists s, optimise falling (fallen <|w_fuel := 23|> <|w_stuck := UserError|>) = Ok (Ok tt, s) /\ s_iter s = 20) /\
  (exists s, optimise falling (fallen <|w_fuel := 1|> <|w_stuck := UserError|>) = Ok (Err UserError, s)).
Proof.
  split; [vm_compute; reflexivity|]. split.
  - assert (V : run_ok falling (fallen <|w_fuel := 23|> <|w_stuck := UserError|>) (fun r s => fine_end r && Nat.eqb (s_iter s) 20) = true)
      by (vm_compute; reflexivity).
    apply run_ok_exists in V as (r & s & E & V). apply andb_prop in V as [V1 V2]. apply Nat.eqb_eq in V2.
    exists s. destruct r as [[]|]; [split; assumption|discriminate V1].
  - assert (V : run_ok falling (fallen <|w_fuel := 1|> <|w_stuck := UserError|>)
      (fun r s => match r with Err UserError => true | _ => false end) = true) by (vm_compute; reflexivity).
    apply run_ok_exists in V as (r & s & E & V). exists s. destruct r as [[]|[]]; first [discriminate V | exact E].
Qed.
Print Assumptions C60_ends.
Print Assumptions C60_search_ends.
