(** Theorems on CMA-ES: C42. *)
From Coq Require Import String ZArith List Bool Lia Reals Lra QArith Qcanon Permutation Sorted.
From Flocq Require Import BinarySingleNaN Core.Raux.
From RecordUpdate Require Import RecordSet.
From Verif Require Import Num NumFacts NumQ Py PyFacts ModelPulse ModelControls ModelLinalg ModelState ModelSearch ModelRun ModelCma
  SpecControls SpecRun SpecSearch SpecCma ProofNM ProofSort ProofCma ProofCmaAdapt
  ExampleControls ExampleRun ExampleSearch PropSuper PropDirect PropSearch.
Import ListNotations RecordSetNotations.
Open Scope nat_scope.
Open Scope list_scope.
Open Scope bool_scope.

(** ** C42 *)
(** The calls of a search that ends normally fall into generations of exactly one population each; the first call is at
    the start point.  The number of calls is reported exactly, and without the last generation it is below max_eval
    (unless there is only one).  Returned is a candidate of the last generation with its value, the smallest of that
    generation if none is NaN.  Without any generation the result is 0 at the zero vector. *)
Theorem C42_generations (N : Num) (O : NumOrder N) (G : settings) (W : world) func log population x0 sigma_v s r s' :
  sorts W -> observes func log ->
  run_cma G W func population x0 sigma_v s = (Ok r, s') ->
  let pop := match population with Some p => p | None => w_pop W (length x0) end in
  exists gens : list (list (vec * num)),
    2 <= pop /\ log s' = log s ++ concat gens /\ r_nit r = Z.of_nat (S (length gens)) /\ r_calls r = length (concat gens) /\
    (forall g, In g gens -> length g = pop) /\
    (gens <> [] -> hd_error (map fst (concat gens)) = Some x0) /\
    (gens = [] -> r_fval r = of_Z 0 /\ r_x r = repeat (of_Z 0) (length x0)) /\
    forall gs g, gens = gs ++ [g] ->
      In (r_x r, r_fval r) g /\
      (nan_free (map snd g) -> forall x y, In (x, y) g -> (r_fval r <=? y)%num = true) /\
      (gs <> [] -> (Z.of_nat (length (concat gs)) < g_max_eval G)%Z).
Proof. intros SO OB H. exact (cma_result O G W func x0 sigma_v log OB population s r s' SO H). Qed.
(** Hence the limit is exceeded by less than one population. *)
Theorem C42_calls (N : Num) (O : NumOrder N) (G : settings) (W : world) func log population x0 sigma_v s r s' :
  sorts W -> observes func log ->
  run_cma G W func population x0 sigma_v s = (Ok r, s') ->
  let pop := match population with Some p => p | None => w_pop W (length x0) end in
  (Z.of_nat (r_calls r) < Z.max 1 (g_max_eval G) + Z.of_nat pop)%Z /\ exists k, r_calls r = k * pop.
Proof.
  intros SO OB H pop. destruct (C42_generations N O G W func log population x0 sigma_v s r s' SO OB H) as (gens & P & _ & _ & C & L & _ & _ & F).
  fold pop in P, L.
  assert (forall l : list (list (vec * num)), (forall g, In g l -> length g = pop) -> length (concat l) = length l * pop) as LC.
  { clear. induction l as [|g l IH]; intros H; [reflexivity|]. cbn. rewrite app_length, IH by (intros; apply H; now right).
    rewrite (H g) by now left. reflexivity. }
  split; [|exists (length gens); rewrite C; now apply LC].
  destruct gens as [|g0 gens0] using rev_ind; [cbn in C; lia|]. clear IHgens0.
  destruct (F gens0 g0 eq_refl) as (_ & _ & B). rewrite concat_app, app_length in C. cbn in C. rewrite app_nil_r in C.
  rewrite (L g0) in C by (apply in_or_app; right; now left).
  destruct gens0 as [|g1 gens0]; [cbn in C; lia|]. specialize (B ltac:(discriminate)). lia.
Qed.
(** It ends: whatever the function answers or raises and whoever interferes, there is one outcome for every number of loop
    rounds granted from max_eval + 2 on, whatever the model does when the rounds are used up. *)
Theorem C42_terminates (N : Num) (O : NumOrder N) (G : settings) (W : world) func population x0 sigma_v s0 :
  exists o, forall fuel e, Z.to_nat (g_max_eval G) + 2 <= fuel ->
    run_cma G (W <|w_fuel := fuel|> <|w_stuck := e|>) func population x0 sigma_v s0 = o.
Proof.
  set (V := W <|w_fuel := Z.to_nat (g_max_eval G) + 2|>). exists (run_cma G V func population x0 sigma_v s0).
  intros fuel e B. exact (run_cma_fuel G V func x0 sigma_v fuel e population s0 (le_n _) B).
Qed.
(** Recombination weights: positive, decreasing, adding up to one. *)
Theorem C42_weights (mu : nat) : 1 <= mu ->
  (forall k, k < mu -> (0 < weight mu k)%R) /\ (forall k l, k < l -> (weight mu l < weight mu k)%R) /\
  rsum mu (weight mu) = 1%R /\ (1 <= mueff mu <= INR mu)%R.
Proof.
  intros M. split; [exact (weight_pos mu M)|]. split; [exact (weight_decreasing mu M)|]. split; [exact (weight_sum mu M)|].
  split; [exact (mueff_ge_1 mu M)|exact (mueff_le_mu mu M)].
Qed.
(** The learning rates and constants are in the ranges that the formulas need: no division by zero, no root of a negative
    number. *)
Theorem C42_rates (n mu l_pop counteval : nat) : 1 <= n -> 1 <= mu -> 1 <= l_pop -> 1 <= counteval ->
  (0 < rate_cc n mu < 1 /\ 0 < rate_cs n mu < 1 /\ 0 < rate_c1 n mu < 1 /\ 0 <= rate_cmu n mu <= 1 - rate_c1 n mu /\
   1 < damps n mu /\ 0 < chi_n n /\ 0 < 1 - Rpower (1 - rate_cs n mu) (2 * INR counteval / INR l_pop) < 1)%R.
Proof.
  intros A B C D. split; [now apply cc_range|]. split; [now apply cs_range|]. split; [now apply c1_range|].
  split; [now apply cmu_range|]. split; [now apply damps_ge|]. split; [now apply chi_pos|]. now apply horizon_pos.
Qed.
(** The new mean lies between the selected candidates in every coordinate. *)
Theorem C42_mean n mu l_pop eigh best counteval S i lo hi : 1 <= mu ->
  (forall k, k < mu -> (lo <= best k i <= hi)%R) ->
  (lo <= c_mean (cma_step n mu l_pop eigh best counteval S) i <= hi)%R.
Proof. intros M H. now apply mean_between. Qed.
(** After any number of generations the covariance matrix is symmetric and positive semidefinite and the step size is
    positive. *)
Theorem C42_covariance n mu l_pop x0 sigma_v S : 1 <= n -> 1 <= mu -> adapted n mu l_pop x0 sigma_v S ->
  symmetric n (c_C S) /\ semidefinite n (c_C S) /\ (0 < c_sigma S)%R.
Proof.
  intros A B H. destruct (adapted_semi n mu l_pop A B x0 sigma_v S H). repeat (split; [assumption|]).
  now apply adapted_sigma with (1 := H).
Qed.
(** It stays positive definite if all widths are non-zero and no more than (n+2)^2/4 candidates are selected. *)
Theorem C42_definite n mu l_pop x0 sigma_v S : 1 <= n -> 1 <= mu -> 4 * mu <= (n + 2) * (n + 2) ->
  (forall i, i < n -> sigma_v i <> 0%R) -> adapted n mu l_pop x0 sigma_v S -> definite n (c_C S).
Proof. intros A B C D H. apply (adapted_definite n mu l_pop A B x0 sigma_v S); [now apply rates_below_1|assumption|assumption]. Qed.

(** A search for the minimum of (x-2)^2 with two candidates per generation, one step further each time, stopped by max_eval = 3.  Two generations,
    four calls; the best point seen, 1 with value 1, is not returned. *)
Definition pair_run : settings (N := Qcnum) := square_run <|g_method := MCMAES (Some 2)|> <|g_max_eval := 3%Z|>.
Definition pair_world : world (N := Qcnum) := square_world <|w_cma := fun x0 sg hist z => Ok [(of_Z 2 - of_Z (Z.of_nat (length hist)))%num]|>.
Definition cma_search (G : settings (N := Qcnum)) (W : world (N := Qcnum)) (P : st (N := Qcnum) -> dsm_result (N := Qcnum) -> st (N := Qcnum) -> bool) : bool :=
  match new_state G W with
  | Ok s => match run_cma G W (toy (N := Qcnum) square) (Some 2) [qc 0 1] [qc 1 1] s with (Ok r, s') => P s r s' | _ => false end
  | Err _ => false
  end.
Lemma cma_search_exists G W P : cma_search G W P = true -> exists s r s', new_state G W = Ok s /\
  run_cma G W (toy (N := Qcnum) square) (Some 2) [qc 0 1] [qc 1 1] s = (Ok r, s') /\ P s r s' = true.
Proof.
  unfold cma_search. destruct (new_state G W) as [s|]; [|discriminate].
  destruct (run_cma _ _ _ _ _ _ s) as [[r|] s'] eqn:E; [|discriminate]. eauto 10.
Qed.
Theorem C42_not_best_refuted : exists s r s', new_state pair_run pair_world = Ok s /\ toy_log s = [] /\
  run_cma pair_run pair_world (toy (N := Qcnum) square) (Some 2) [qc 0 1] [qc 1 1] s = (Ok r, s') /\
  sorts pair_world /\ observes (toy (N := Qcnum) square) toy_log /\ no_sigint pair_world /\
  toy_log s' = ([([qc 0 1], qc 4 1); ([qc 1 1], qc 1 1); ([qc 0 1], qc 4 1); ([qc (-1) 1], qc 9 1)] : list (vec (N := Qcnum) * @num Qcnum)) /\
  r_calls r = 4 /\ r_fval r = (qc 4 1 : @num Qcnum) /\ r_x r = ([qc 0 1] : vec (N := Qcnum)).
Proof.
  assert (V : cma_search pair_run pair_world (result_is (qc 4 1) [qc 0 1] 4
    [([qc 0 1], qc 4 1); ([qc 1 1], qc 1 1); ([qc 0 1], qc 4 1); ([qc (-1) 1], qc 9 1)]) = true) by (vm_compute; reflexivity).
  apply cma_search_exists in V as (s & r & s' & E & H & V). apply result_is_eq in V as (V1 & V2 & V3 & V4 & V5).
  exists s, r, s'. split; [exact E|]. split; [exact V4|]. split; [exact H|]. split; [exact square_sorts|]. split; [apply toy_observes|].
  split; [intros n; discriminate|]. now repeat (split; [assumption|]).
Qed.
(** Ctrl-C before the first generation: the search returns the zero vector with value 0, which nobody evaluated. *)
Theorem C42_interrupted_refuted : exists s r s', new_state pair_run (interfering 1 ASigint pair_world) = Ok s /\ toy_log s = [] /\
  run_cma pair_run (interfering 1 ASigint pair_world) (toy (N := Qcnum) square) (Some 2) [qc 0 1] [qc 1 1] s = (Ok r, s') /\
  toy_log s' = [] /\ r_calls r = 0 /\ r_fval r = (qc 0 1 : @num Qcnum) /\ r_x r = ([qc 0 1] : vec (N := Qcnum)).
Proof.
  assert (V : cma_search pair_run (interfering 1 ASigint pair_world) (result_is (qc 0 1) [qc 0 1] 0 []) = true) by (vm_compute; reflexivity).
  apply cma_search_exists in V as (s & r & s' & E & H & V). apply result_is_eq in V as (V1 & V2 & V3 & V4 & V5).
  exists s, r, s'. now repeat (split; [assumption|]).
Qed.
(** Two parameters, two of four candidates selected, one generation done; some solver for the eigenvalues. *)
Definition some_step : cma := cma_step 2 2 4 (fun C => (fun _ => 1%R, identity)) (fun k i => INR (k + i)) 4 (cma_start (fun _ => 0%R) (fun _ => 1%R)).
Example C42_adapted_example : adapted 2 2 4 (fun _ => 0%R) (fun _ => 1%R) some_step /\ (4 * 2 <= (2 + 2) * (2 + 2)) /\
  (0 < c_mean some_step 0%nat < 1)%R /\ definite 2 (c_C some_step).
Proof.
  assert (adapted 2 2 4 (fun _ => 0%R) (fun _ => 1%R) some_step) as A by (apply ad_step, ad_start).
  split; [exact A|]. split; [lia|]. split.
  - unfold some_step. rewrite step_mean. destruct (C42_weights 2 ltac:(lia)) as (P & _ & S & _). cbn [rsum] in *.
    assert (INR (0 + 0) = 0%R) as -> by reflexivity. assert (INR (1 + 0) = 1%R) as -> by reflexivity.
    pose proof (P 0 ltac:(lia)). pose proof (P 1 ltac:(lia)). lra.
  - apply (C42_definite 2 2 4 (fun _ => 0%R) (fun _ => 1%R)); try lia; [intros; lra|exact A].
Qed.
Print Assumptions C42_generations.
Print Assumptions C42_calls.
Print Assumptions C42_terminates.
Print Assumptions C42_weights.
Print Assumptions C42_rates.
Print Assumptions C42_mean.
Print Assumptions C42_covariance.
Print Assumptions C42_definite.
Print Assumptions C42_not_best_refuted.
Print Assumptions C42_interrupted_refuted.
