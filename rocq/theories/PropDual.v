(** * Properties C24 and C25: two runs compared.
    [optimise G W = Ok (r, s)]: the optimiser with settings [G] was built in the environment [W] (user's figure
    of merit, clock, other threads, random numbers, minimiser) and executed; [r] is [Ok tt] or the exception that
    left [execute], [history s] the observable events in order of time. *)
From Coq Require Import String ZArith List Bool Lia.
From RecordUpdate Require Import RecordSet.
From Verif Require Import Num NumFacts Py ModelPulse ModelControls ModelBases ModelLinalg ModelState ModelSearch ModelRun SpecRun
  ProofDual ExampleControls ExampleRun.
Import ListNotations RecordSetNotations.
Open Scope list_scope.
Open Scope bool_scope.

(** ** C24 Maximising f is minimising -f
    [reversed G]: the other direction and the negated goal; [negated_fom W]: the same environment with the negated
    figure of merit; [map_event negated]: the same event with the user's value negated in the answer of get_FoM
    and in the final results (controls, saved files, stops and gradients are equal). *)
Theorem C24_direction (N : Num) (S : NumSign N) (G : settings) (W : world) r s : optimise G W = Ok (r, s) ->
  exists s', optimise (reversed G) (negated_fom W) = Ok (r, s') /\
    history s' = map (map_event negated) (history s) /\
    s_fom_list s' = map negated (s_fom_list s) /\ s_iter_list s' = s_iter_list s /\
    s_best s' = s_best s /\ s_best_xx s' = s_best_xx s /\ s_controls s' = s_controls s /\ s_book s' = s_book s /\
    s_reason s' = s_reason s.
Proof. exact (maximise_minimise S G W r s). Qed.
(** maximising the parameter from 1 with goal 3: the goal is reached; minimising its negative does the same *)
Definition C24_run : settings (N := F64) := frun KDirect <|g_maximise := true|> <|g_goal := Some (z 3)|>.
Example C24_example : exists r s s', optimise C24_run (fworld []) = Ok (r, s) /\ s_reason s = "Goal FoM reached"%string /\
  s_fom_list s = zs [1; 0; 2; 3]%Z /\
  optimise (reversed C24_run) (negated_fom (fworld [])) = Ok (r, s') /\ s_reason s' = s_reason s /\
  s_fom_list s' = map negated (s_fom_list s).
Proof.
  destruct (run_ok_exists C24_run (fworld [])
    (fun r s => String.eqb (s_reason s) "Goal FoM reached" && are (s_fom_list s) [1; 0; 2; 3]%Z)) as (r & s & E & H).
  { vm_compute. reflexivity. }
  apply andb_true_iff in H as [H1 H2]. apply String.eqb_eq in H1. apply are_eq in H2.
  destruct (C24_direction F64 F64_sign _ _ _ _ E) as (s' & E' & _ & HL & _ & _ & _ & _ & _ & HR).
  exists r, s, s'. repeat split; assumption.
Qed.
Print Assumptions C24_direction.

(** ** C25 Seeded runs are reproducible
    [w_np], [w_randn]: the streams of numpy's global generator; [w_rng]: the stream of the seeded generator. *)
Theorem C25_seeded_reproducible (N : Num) (G : settings) (W : world) (u v : nat -> num) ad :
  g_kind G = KdCRAB -> g_seeded G = true -> g_method G = MNelderMead ad ->
  optimise G (W <|w_np := u|> <|w_randn := v|>) = optimise G W.
Proof.
  intros HK HS HM. apply unused_random.
  - unfold uses_seed. rewrite HK, HS. discriminate.
  - rewrite HM. discriminate.
Qed.
(** gradient algorithms always use their own generator *)
Theorem C25_gradient_reproducible (N : Num) (G : settings) (W : world) (u v : nat -> num) :
  g_kind G = KGRAPE \/ g_kind G = KAD -> optimise G (W <|w_np := u|> <|w_randn := v|>) = optimise G W.
Proof.
  intros HK. apply unused_random; unfold uses_seed, has_dsm; destruct HK as [->| ->]; discriminate.
Qed.
(** one generator suffices also for direct search and for unseeded dCRAB with Nelder-Mead (nothing drawn from randn),
    and for seeded dCRAB with CMA-ES (nothing drawn from rand) *)
Theorem C25_nelder_mead_without_randn (N : Num) (G : settings) (W : world) (v : nat -> num) ad :
  g_method G = MNelderMead ad -> optimise G (W <|w_np := w_np W|> <|w_randn := v|>) = optimise G W.
Proof. intros HM. apply unused_random; [reflexivity|rewrite HM; discriminate]. Qed.
Theorem C25_seeded_without_rand (N : Num) (G : settings) (W : world) (u : nat -> num) :
  g_kind G = KdCRAB -> g_seeded G = true -> optimise G (W <|w_np := u|> <|w_randn := w_randn W|>) = optimise G W.
Proof. intros HK HS. apply unused_random; [unfold uses_seed; rewrite HK, HS; discriminate|reflexivity]. Qed.

(** a seeded dCRAB run that evaluates points and uses the seeded generator *)
Definition C25_run : settings (N := F64) := frun KdCRAB <|g_seeded := true|> <|g_max_total := 3%Z|>.
Example C25_example : (exists r s, optimise C25_run (fworld []) = Ok (r, s) /\ values (history s) = zs [1; 0; -1]%Z) /\
  (exists r s, optimise C25_run (fworld [] <|w_rng := fun _ => z 1|>) = Ok (r, s) /\ values (history s) = zs [1; 2; 0]%Z).
Proof.
  split.
  - destruct (run_ok_exists C25_run (fworld []) (fun r s => are (values (history s)) [1; 0; -1]%Z)) as (r & s & E & H).
    { vm_compute. reflexivity. }
    exists r, s. split; [exact E|exact (are_eq _ _ H)].
  - destruct (run_ok_exists C25_run (fworld [] <|w_rng := fun _ => z 1|>) (fun r s => are (values (history s)) [1; 2; 0]%Z)) as (r & s & E & H).
    { vm_compute. reflexivity. }
    exists r, s. split; [exact E|exact (are_eq _ _ H)].
Qed.

(** two runs with different values *)
Lemma differ (G : settings (N := F64)) W1 W2 (l1 l2 : list Z) :
  run_ok G W1 (fun r s => are (values (history s)) l1) = true ->
  run_ok G W2 (fun r s => are (values (history s)) l2) = true -> are (map z l1) l2 = false ->
  optimise G W1 <> optimise G W2.
Proof.
  intros H1 H2 D E. unfold run_ok in H1, H2. rewrite E in H1. destruct (optimise G W2) as [[r s]|]; [|discriminate H1].
  apply are_eq in H1. rewrite H1 in H2. congruence.
Qed.
Theorem C25_direct_search_refuted : exists (G : settings (N := F64)) W u, g_kind G = KDirect /\
  g_method G = MNelderMead false /\ optimise G (W <|w_np := u|>) <> optimise G W.
Proof.
  exists (frun KDirect <|g_max_total := 2%Z|>), (fworld []), (fun _ => z 1). split; [reflexivity|]. split; [reflexivity|].
  apply (differ _ _ _ [1; 2]%Z [1; 0]%Z); vm_compute; reflexivity.
Qed.
Theorem C25_unseeded_dcrab_refuted : exists (G : settings (N := F64)) W u, g_kind G = KdCRAB /\ g_seeded G = false /\
  g_method G = MNelderMead false /\ optimise G (W <|w_np := u|>) <> optimise G W.
Proof.
  exists (frun KdCRAB <|g_max_total := 2%Z|>), (fworld []), (fun _ => z 1). do 3 (split; [reflexivity|]).
  apply (differ _ _ _ [1; 2]%Z [1; 0]%Z); vm_compute; reflexivity.
Qed.
(** CMA-ES draws its candidates with randn even in a seeded run; here each candidate is start point plus normal numbers *)
Theorem C25_cmaes_refuted : exists (G : settings (N := F64)) W v, g_kind G = KdCRAB /\ g_seeded G = true /\
  g_method G = MCMAES (Some 2) /\ optimise G (W <|w_randn := v|>) <> optimise G W.
Proof.
  exists (frun KdCRAB <|g_seeded := true|> <|g_max_total := 2%Z|> <|g_method := MCMAES (Some 2)|>),
    (fworld [] <|w_cma := fun x _ _ d => Ok (vadd x d)|>), (fun _ => z 1). do 3 (split; [reflexivity|]).
  apply (differ _ _ _ [1; 2]%Z [1; 1]%Z); vm_compute; reflexivity.
Qed.
Print Assumptions C25_seeded_reproducible.
Print Assumptions C25_gradient_reproducible.
Print Assumptions C25_nelder_mead_without_randn.
Print Assumptions C25_seeded_without_rand.
Print Assumptions C25_direct_search_refuted.
Print Assumptions C25_unseeded_dcrab_refuted.
Print Assumptions C25_cmaes_refuted.
