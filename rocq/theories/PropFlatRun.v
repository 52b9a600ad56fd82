(** * C87, continued: whole runs of the direct search with a width of zero. *)
From Coq Require Import String ZArith List Bool Reals Lia Lra.
From Flocq Require Import Core.
From RecordUpdate Require Import RecordSet.
From Verif Require Import Num NumFacts Py PyFacts ModelPulse ModelControls ModelLinalg ModelState ModelSearch ModelRun SpecRun SpecSearch SpecCoords SpecSimplex SpecFlat
  ProofSim ProofNM ProofSort ProofWalk ProofFlatRun ExampleControls ExampleRun PropSimplex PropCmaRun PropFlat.
Import ListNotations RecordSetNotations.
Open Scope nat_scope.
Open Scope list_scope.

(** the search with a function that fails away from the start value of the entry *)
Definition guarded (G : settings (N := Rnum)) (W : world (N := Rnum)) n k (c : R) : list R -> nat -> option R -> M (N := Rnum) R := fun x it v =>
  if Nat.eq_dec (length x) n then if Req_EM_T (coord x k) c then inner_routine_call G W x it v else raise AttributeError else raise AttributeError.
Lemma first_draw f p n : 0 < n -> coord (map f (seq p n)) 0 = f p.
Proof. destruct n; [lia|reflexivity]. Qed.
Lemma only_build G W k m sg s s' : sorts W -> (forall i, exists p q, q <> 0%Z /\ w_np W i = (IZR p / IZR q)%R) ->
  g_kind G = KDirect -> (exists adaptive, g_method G = MNelderMead adaptive) ->
  get_mean_value (s_controls s) = Ok m -> get_sigma_variation (s_controls s) = Ok sg -> k < length m -> coord sg k = 0%R ->
  dsm_build G W s = (Ok tt, s') -> only_at (N := Rnum) (fun x => coord x k = coord m k) s s'.
Proof.
  intros SO HD GK [adaptive GM] Em Es HK Z H. set (P := fun x : list R => coord x k = coord m k).
  unfold dsm_build in H. apply bind_ok in H as (m1 & s1 & E1 & H). unfold mean_value in E1. apply bind_ok in E1 as (t & t' & E & E1). injection E as <- <-. apply lift_ok in E1 as [E1 ->].
  pose proof (eq_trans (eq_sym Em) E1) as Q. injection Q as <-.
  apply bind_ok in H as (sg1 & s2 & E2 & H). unfold sigma_variation in E2. apply bind_ok in E2 as (t & t' & E & E2). injection E as <- <-. apply lift_ok in E2 as [E2 ->].
  pose proof (eq_trans (eq_sym Es) E2) as Q. injection Q as <-.
  apply bind_ok in H as (r & s3 & E3 & H). apply bind_ok in H as (sim & s4 & E4 & H). apply lift_ok in E4 as [E4 ->].
  apply bind_ok in H as ([] & s5 & E5 & H). injection E5 as <-. apply bind_ok in H as (res & s6 & E6 & H). injection H as <-.
  assert (LS : length sg = length m) by exact (widths_len _ _ _ Em Es).
  assert (D : length r = length m /\ exists i, coord r 0 = w_np W i /\ evals s3 = evals s).
  { unfold draw in E3. apply bind_ok in E3 as (t & t' & E & E3). injection E as <- <-. unfold uses_seed in E3. rewrite GK in E3.
    apply bind_ok in E3 as ([] & t & E & E3). injection E as <-. injection E3 as <- <-. split; [now rewrite map_length, seq_length|].
    exists (k_np (s_cnt s)). split; [|reflexivity]. apply first_draw. exact (Nat.le_lt_trans _ _ _ (Nat.le_0_l k) HK). }
  destruct D as (LR & i & D & T3). destruct (HD i) as (p & q & HQ & Hpq).
  apply only_trans with s3; [now apply only_evals|]. apply only_trans with s6; [|now apply only_evals].
  destruct (C87_zero_width G W (length m) k adaptive (inner_routine_call G W) (guarded G W (length m) k (coord m k)) m sg r p q sim (g_drift_min G) (g_drift_avg G)
    (s3 <|s_best_xx := Some m|>)) as [Q _]; try assumption; try reflexivity.
  - exact (eq_trans D Hpq).
  - intros x it v t L C. unfold guarded. destruct (Nat.eq_dec _ _) as [_|H]; [|contradiction]. destruct (Req_EM_T _ _) as [_|H]; [reflexivity|contradiction].
  - pose proof (eq_trans Q E6) as E7. apply only_trans with (s3 <|s_best_xx := Some m|>); [now apply only_evals|].
    refine (only_dsm G W P _ _ _ _ _ _ _ _ _ _ E7). intros x it v. unfold guarded. destruct (Nat.eq_dec _ _) as [_|_]; [|apply walk_raise]. destruct (Req_EM_T _ _) as [C|_]; [|apply walk_raise]. now apply only_inner.
Qed.
(** A direct search with Nelder-Mead that ends without an exception: an entry with width zero has its start value in every evaluation. *)
Theorem C87_run (G : settings (N := Rnum)) (W : world (N := Rnum)) c m sg k s x d a :
  sorts W -> (forall i, exists p q, q <> 0%Z /\ w_np W i = (IZR p / IZR q)%R) ->
  g_kind G = KDirect -> (exists adaptive, g_method G = MNelderMead adaptive) ->
  new_controls (g_pulses G) (g_times G) (g_params G) = Ok c -> get_mean_value c = Ok m -> get_sigma_variation c = Ok sg -> k < length m -> coord sg k = 0%R ->
  optimise G W = Ok (Ok tt, s) -> In (EvEval x d a) (history s) -> coord x k = coord m k.
Proof.
  intros SO HD GK GM Ec Em Es HK Z H I. unfold optimise in H. apply rbind_ok in H as (s0 & E0 & H). unfold new_state in E0. rewrite Ec in E0. injection E0 as <-. injection H as H.
  unfold history in I. apply in_rev in I. unfold execute in H. apply bind_ok in H as ([] & s1 & E1 & H). apply bind_ok in H as ([] & s2 & E2 & H).
  unfold begin in E1. apply bind_ok in E1 as (t & s3 & E3 & E1). injection E1 as <-. unfold now in E3. apply bind_ok in E3 as (t1 & s4 & E4 & E3). injection E4 as <- <-.
  apply bind_ok in E3 as ([] & s5 & E5 & E3). injection E5 as <-. injection E3 as _ <-.
  unfold run in E2. rewrite GK in E2. apply (only_build G W k m sg) in E2; try assumption.
  assert (T : evals s = evals s2).
  { unfold end_ in H. apply bind_ok in H as (f & t2 & E & H). assert (t2 = s2) as ->.
    { unfold final_results in E. rewrite GK in E. apply bind_ok in E as (u & u' & Eu & E). injection Eu as <- <-. destruct (s_xx s2); [|discriminate]. now injection E as _ <-. }
    apply bind_ok in H as ([] & t3 & E' & H). injection E' as <-. apply bind_ok in H as (u & u' & Eu & H). injection Eu as <- <-. injection H as <-. reflexivity. }
  apply (only_evals (fun x : list R => coord x k = coord m k) s2 s T) in I as [I|I]; [|exact I]. apply E2 in I as [I|I]; [contradiction|exact I].
Qed.

(** ** Case *)
(** Two parameters, the second with width zero; the user stops the run after two evaluations. *)
Definition still_run : settings (N := Rnum) := ex_run (N := Rnum) KDirect <|g_params := [ex_param (-10) 10; {| rf_name := "still"; rf_value := 2; rf_lower := -10; rf_upper := 10; rf_ampl := 0 |}%R]|>.
Definition still_world : world (N := Rnum) := ex_world (N := Rnum) [] <|w_fom := fun _ => says (N := Rnum) 0%R|> <|w_async := fun k => if Nat.eqb k 7 then ASigint else ANone|>.
Ltac lz := lazy beta iota zeta delta -[Rlt_bool Rle_bool Req_bool Rplus Rmult Rminus Rdiv Ropp Rabs Rinv IZR sqrt].
Ltac settle := match goal with
  | |- context [Rlt_bool ?a ?b] => let H := fresh in first [assert (H : Rlt_bool a b = true) by (apply Rlt_bool_true; lra) | assert (H : Rlt_bool a b = false) by (apply Rlt_bool_false; lra)]; rewrite H; clear H
  | |- context [Rle_bool ?a ?b] => let H := fresh in first [assert (H : Rle_bool a b = true) by (apply Rle_bool_true; lra) | assert (H : Rle_bool a b = false) by (apply Rle_bool_false; lra)]; rewrite H; clear H
  end.
Lemma bind_run {A B} (m : M (N := Rnum) A) (k : A -> M B) s a s1 r : m s = (Ok a, s1) -> k a s1 = r -> bind m k s = r.
Proof. unfold bind. intros ->. auto. Qed.
Ltac piece := solve [lz; repeat (settle; lz); reflexivity].
Ltac step := eapply bind_run; [piece|cbv beta].
Ltac calls := unfold call; eapply bind_run; [unfold inner_routine_call; step; eapply bind_run; [unfold routine_call; repeat (lazy iota beta delta [negb]; step); reflexivity|reflexivity]|cbv beta; reflexivity].
Example C87_run_case : exists c m sg s, sorts still_world /\ (forall i, exists p q, q <> 0%Z /\ w_np still_world i = (IZR p / IZR q)%R) /\
  new_controls (g_pulses still_run) (g_times still_run) (g_params still_run) = Ok c /\ get_mean_value c = Ok m /\ get_sigma_variation c = Ok sg /\ 1 < length m /\ coord sg 1 = 0%R /\
  optimise still_run still_world = Ok (Ok tt, s) /\ length (filter is_call (history s)) = 2.
Proof.
  destruct (C15_simplex 2 [1; 2]%R [1; 0]%R [0; 0]%R eq_refl eq_refl eq_refl ltac:(lia) (C15_every_draw [0; 0]%R 0 1 ltac:(discriminate) ltac:(cbn; lra))) as (d & _ & LD & S).
  destruct d as [|u [|w [|]]]; try discriminate LD. cbn [map] in S.
  pose proof (C15_within_widths 2 [1; 2]%R [1; 0]%R [0; 0]%R 0 1 _ eq_refl eq_refl eq_refl ltac:(discriminate) ltac:(cbn; lra) S _ 0 (or_intror (or_introl eq_refl)) ltac:(lia)) as B.
  unfold coord in S, B. cbn [seq map nth] in S, B. set (a0 := (1 + 1 * nth 0 u 0)%R) in *. replace (2 + 0 * nth 1 u 0)%R with 2%R in S by ring. clearbody a0.
  assert (0 <= a0 <= 2)%R by (rewrite Rabs_R1 in B; unfold Rabs in B; destruct (Rcase_abs _); lra). clear B.
  set (b := [(1 + _)%R; _]) in S. clearbody b.
  destruct (new_state still_run still_world) as [s0|] eqn:E0; [|discriminate].
  assert (R : exists s, execute still_run still_world s0 = (Ok tt, s) /\ length (filter is_call (history s)) = 2).
  { injection E0 as <-. eexists. split.
    - unfold execute. eapply bind_run; [piece|cbv beta]. eapply bind_run.
      + unfold run. change (g_kind still_run) with KDirect. cbv iota. unfold dsm_build. step. step. step. eapply bind_run; [unfold lift; exact (f_equal (fun r => (r, _)) S)|cbv beta].
        step. eapply bind_run.
        * unfold run_dsm. change (g_method still_run) with (MNelderMead false). cbv iota. unfold run_nm. step. step. cbv zeta. step. step. step. cbv iota zeta. eapply bind_run.
          -- cbn [eval_rows]. eapply bind_run; [calls|].
             cbv beta iota. eapply bind_run.
             { eapply bind_run; [calls|]. cbv beta iota. eapply bind_run.
               { eapply bind_run; [calls|]. cbv beta iota. eapply bind_run; reflexivity. }
               cbv beta iota. reflexivity. }
             cbv beta iota. reflexivity.
          -- cbv beta iota. step. eapply bind_run; [change (w_fuel still_world) with (Datatypes.S 999); cbn [nm_loop]; step; cbv iota; reflexivity|cbv beta]. step. step. step. reflexivity.
        * cbv beta. reflexivity.
      + cbv beta. piece.
    - reflexivity. }
  destruct R as (s & HE & I). eexists. eexists. eexists. exists s.
  split; [apply (argsort_sorts Rnum_order); reflexivity|]. split; [intros i; exists 0%Z, 1%Z; split; [discriminate|change (0 = 0 / 1)%R; lra]|].
  split; [reflexivity|]. split; [reflexivity|]. split; [reflexivity|]. split; [lz; lia|]. split; [reflexivity|].
  split; [|exact I]. unfold optimise. rewrite E0. cbn [rbind]. now rewrite HE.
Qed.

Print Assumptions C87_run.
