(** * C84: a direct search uses the figure of merit only through comparisons. *)
From Coq Require Import String ZArith List Bool Lia Reals.
From RecordUpdate Require Import RecordSet.
From Flocq Require Import BinarySingleNaN.
From Verif Require Import Num NumFacts Py ModelPulse ModelControls ModelLinalg ModelState ModelSearch ModelRun ModelCma ModelCmaRun SpecRun SpecOrder ProofOrder
  ExampleControls ExampleRun.
Import ListNotations RecordSetNotations.
Open Scope list_scope.

Section Signs.
  Context {N : Num}.
  Lemma neg_lt (O : NumOrder N) (S : NumSign N) (a b : num) : (of_Z (-1) * a <? of_Z (-1) * b)%num = (b <? a)%num.
  Proof. now rewrite !(nlt_le _ O), !(nmul_neg_le _ S). Qed.
  Lemma inner_factor (S : NumSign N) (G : settings) (v : num) : (factor G * v)%num = inner_sign G v.
  Proof. unfold factor, inner_sign. destruct (g_maximise G); [reflexivity|apply (nmul_1 _ S)]. Qed.
  Lemma inner_twice (S : NumSign N) (G : settings) (v : num) : inner_sign G (inner_sign G v) = v.
  Proof. unfold inner_sign. destruct (g_maximise G); [apply (nmul_neg_neg _ S)|reflexivity]. Qed.
  Lemma inside_order (O : NumOrder N) (S : NumSign N) G P f : keeps_order P f -> keeps_order (fun v => P (inner_sign G v)) (inside G f).
  Proof.
    intros K x y Px Py. unfold inside, inner_sign in *. destruct (g_maximise G); [|now apply K].
    rewrite (neg_lt O S), (nmul_neg_le _ S), (proj1 (K _ _ Py Px)), (proj2 (K _ _ Py Px)), (neg_lt O S), (nmul_neg_le _ S). now split.
  Qed.
End Signs.

(** [f] is increasing on the values the figure of merit can take, on the goal and on the library's start value 1e10 (-1e10
    for a maximisation), which it leaves alone.  Then the run that sees every value through [f] evaluates the same controls
    in the same order, reports the same events with the values put through [f], ends alike and returns the same controls. *)
Theorem C84_order {N : Num} (O : NumOrder N) (S : NumSign N) (P : num -> Prop) (f : num -> num) (tol : num) G W r s :
  compares_only G ->
  keeps_order P f -> values_in P W -> (forall g, g_goal G = Some g -> P g) -> P (inner_sign G ceiling) -> f (inner_sign G ceiling) = inner_sign G ceiling ->
  sorts_by_comparison W (fun v => P (inner_sign G v)) (inside G f) ->
  (forall p, g_method G = MCMAES p -> samples_by_comparison W (fun v => P (inner_sign G v)) (inside G f)) ->
  same_spread G tol (fun v => P (inner_sign G v)) (inside G f) ->
  optimise G W = Ok (r, s) ->
  exists s', optimise (goal_through f tol G) (through f W) = Ok (r, s') /\
    s_hist s' = s_hist s /\ history s' = map (event_through G f) (history s) /\
    s_fom_list s' = map f (s_fom_list s) /\ s_iter_list s' = s_iter_list s /\ s_best s' = inside G f (s_best s) /\
    s_best_xx s' = s_best_xx s /\ s_controls s' = s_controls s /\ s_book s' = s_book s /\ s_reason s' = s_reason s /\ s_iter s' = s_iter s.
Proof.
  intros HP K HV HG HC HI HS HM HT H. exists (view f (inside G f) G s). split.
  - apply (view_optimise P (fun v => P (inner_sign G v)) f (inside G f) G W tol); auto.
    + now apply inside_order.
    + intros v Pv. now rewrite (inner_factor S), (inner_twice S).
    + intros v. now rewrite !(inner_factor S), <- (inner_twice S G v) at 1.
    + intros v. rewrite !(inner_factor S). unfold inside. now rewrite (inner_twice S).
    + unfold inside. change initial_fom with (@ceiling N). now rewrite HI, (inner_twice S).
  - unfold history. change (s_trace (view f (inside G f) G s)) with (map (event_through G f) (s_trace s)). rewrite map_rev. repeat split.
Qed.

(** ** Sorting, CMA-ES as coded, and a tolerance that never stops *)
Section Sorting.
  Context {N : Num} (Q : num -> Prop) (h : num -> num).
  Hypothesis K : keeps_order Q h.
  Let hp (p : num * nat) := (h (fst p), snd p).
  Lemma ins_in (p : num * nat) l : Q (fst p) -> Forall (fun q => Q (fst q)) l -> Forall (fun q => Q (fst q)) (ins p l).
  Proof. intros Qp F. induction F as [|q l Fq F IH]; cbn; [now constructor|]. destruct (_ <=? _)%num; repeat constructor; assumption. Qed.
  Lemma ins_through (p : num * nat) l : Q (fst p) -> Forall (fun q => Q (fst q)) l -> ins (hp p) (map hp l) = map hp (ins p l).
  Proof.
    intros Qp F. induction F as [|q l Fq F IH]; cbn [ins map]; [reflexivity|].
    change (fst (hp p)) with (h (fst p)). change (fst (hp q)) with (h (fst q)). rewrite (proj2 (K _ _ Qp Fq)).
    match goal with |- context [if ?b then _ else _] => destruct b end; [reflexivity|]. cbn [map]. now rewrite IH.
  Qed.
  Lemma sort_through l : Forall (fun q => Q (fst q)) l -> sort_pairs (map hp l) = map hp (sort_pairs l) /\ Forall (fun q => Q (fst q)) (sort_pairs l).
  Proof.
    intros F. induction F as [|q l Fq F [IH1 IH2]]; cbn [sort_pairs map fold_right]; [split; [reflexivity|constructor]|].
    unfold sort_pairs in *. rewrite IH1. split; [now apply ins_through|now apply ins_in].
  Qed.
  Lemma combine_through (l : list num) (m : list nat) : combine (map h l) m = map hp (combine l m).
  Proof. revert m. induction l as [|a l IH]; intros [|b m]; cbn; [reflexivity..|]. now rewrite IH. Qed.
  (** the sorting of the examples compares only *)
  Theorem C84_sorting l : Forall Q l -> argsort (map h l) = argsort l.
  Proof.
    intros F. unfold argsort. rewrite map_length, combine_through. generalize (seq 0 (length l)). intros m.
    assert (FC : Forall (fun q : num * nat => Q (fst q)) (combine l m)).
    { revert m. induction F as [|a l Fa F IH]; intros [|b m]; cbn; constructor; auto. }
    rewrite (proj1 (sort_through _ FC)), map_map. reflexivity.
  Qed.
End Sorting.

Lemma generations_through eigh (srt : list R -> list nat) n lp x0 sg (Q : R -> Prop) (h : R -> R) (l : list (list R * R)) k :
  (forall ys, Forall Q ys -> srt (map h ys) = srt ys) -> Forall (fun e => Q (snd e)) l ->
  after_generations eigh srt n lp x0 sg k (map (fun e => (fst e, h (snd e))) l) = after_generations eigh srt n lp x0 sg k l.
Proof.
  intros HS F. induction k as [|k IH]; [reflexivity|]. cbn [after_generations]. rewrite IH. f_equal.
  unfold ranked, members. rewrite skipn_map, firstn_map, !map_map. cbn [fst snd].
  set (g := firstn lp (skipn (k * lp) l)).
  assert (FG : Forall Q (map snd g)).
  { apply Forall_map. apply Forall_forall. intros e He. rewrite Forall_forall in F. apply F. unfold g in He.
    rewrite <- (firstn_skipn (k * lp) l). apply in_or_app. right. rewrite <- (firstn_skipn lp (skipn (k * lp) l)). apply in_or_app. now left. }
  specialize (HS _ FG). rewrite map_map in HS. rewrite HS. reflexivity.
Qed.
(** CMA-ES as it is coded uses the values only to sort each generation *)
Theorem C84_cma eigh population (W : world (N := Rnum)) (Q : R -> Prop) (h : R -> R) :
  sorts_by_comparison (N := Rnum) W Q h -> samples_by_comparison (N := Rnum) (code_world eigh population W) Q h.
Proof.
  intros HS l F. split; [|reflexivity]. intros x0 sg zz. unfold code_world. cbn. f_equal. unfold candidate.
  rewrite map_length. f_equal. f_equal. now apply generations_through with (Q := Q).
Qed.

(** a negative tolerance switches the criterion off: reals and binary64 *)
Lemma F64_sqrt (x : f64) : is_nan (Bsqrt mode_NE x) = true \/ Bleb (z 0) (Bsqrt mode_NE x) = true.
Proof.
  destruct x as [[]|[]| |[] m e hb]; try (now left); try (right; reflexivity).
  right. pose proof (Bsqrt_correct 53 1024 eq_refl eq_refl mode_NE (B754_finite false m e hb)) as (H1 & H2 & _).
  assert (H0 : is_finite (z 0 : f64) = true) by reflexivity. refine (eq_trans (Bleb_correct _ _ _ _ H0 H2) _). apply Raux.Rle_bool_true. rewrite H1. change (B2R (z 0)) with 0%R.
  apply Generic_fmt.round_ge_generic; [typeclasses eauto|typeclasses eauto|apply Generic_fmt.generic_format_0|apply sqrt_pos].
Qed.
Theorem C84_spread_off (G : settings (N := F64)) (tol : f64) Q h :
  (g_fatol G <? z 0)%num = true -> (@nltb F64 tol (z 0)) = true -> same_spread (N := F64) G tol Q h.
Proof.
  intros H1 H2 l _. assert (K : forall t x : f64, @nltb F64 t (z 0) = true -> @nleb F64 (@nsqrt F64 x) t = false).
  { intros t x Ht. destruct (@nleb F64 (@nsqrt F64 x) t) eqn:E; [|reflexivity]. rewrite (nlt_le _ F64_order) in Ht. apply andb_prop in Ht as [_ Ht].
    destruct (F64_sqrt x) as [B|B].
    - rewrite (nle_nan_l _ F64_order (@nsqrt F64 x) t B) in E. discriminate.
    - rewrite (nle_trans _ F64_order (z 0) (@nsqrt F64 x) t B E) in Ht. discriminate. }
  unfold nstd. now rewrite !K.
Qed.
Theorem C84_spread_off_real (G : settings (N := Rnum)) (tol : R) Q h :
  (g_fatol G < 0)%R -> (tol < 0)%R -> same_spread (N := Rnum) G tol Q h.
Proof.
  intros H1 H2 l _. assert (K : forall t x : R, (t < 0)%R -> @nleb Rnum (sqrt x) t = false).
  { intros t x Ht. cbn. apply Raux.Rle_bool_false. apply Rlt_le_trans with 0%R; [exact Ht|apply sqrt_pos]. }
  unfold nstd. cbn [nsqrt Rnum]. now rewrite !K.
Qed.

(** ** Cases *)
Section Cases.
  Local Notation "x '<.' y" := (@nltb F64 x y) (at level 70).
  Definition half (k : Z) : f64 := @ndiv F64 (z k) (z 2).
  (** a figure of merit with the values 0, ..., 4: 0 for parameters below -7/2, 1 below -3/2, ... *)
  Definition level (x : f64) : f64 :=
    if x <. half (-7) then z 0 else if x <. half (-3) then z 1 else if x <. half (-1) then z 2 else if x <. half 1 then z 3 else z 4.
  Definition levels : list f64 := [z 0; z 1; z 2; z 3; z 4; z 10000000000].
  Definition a_level (v : f64) : Prop := In v levels.
  (** the square, except of the start value *)
  Definition squared (v : f64) : f64 := if v <. z 100 then @nmul F64 v v else v.
  (** a hundred-millionth, except of the start value *)
  Definition tiny (v : f64) : f64 := if v <. z 100 then @ndiv F64 v (z 100000000) else v.
  Definition level_world : world (N := F64) := answering (N := F64) (fun _ v => says (N := F64) (level v)) (fworld []).
  Definition unstopped : settings (N := F64) := frun KDirect <|g_fatol := z (-1)|> <|g_goal := Some (z 0)|>.
  Lemma level_values : values_in (N := F64) a_level level_world.
  Proof.
    intros h a v H1 H2. change (w_fom level_world h) with (says (N := F64) (level (newest (N := F64) h))) in H1.
    revert H1. unfold says. intros [= <-]. cbn [a_fom] in H2. injection H2 as <-. unfold level, a_level, levels. generalize (newest (N := F64) h). intros x.
    destruct (x <. half (-7)); [now left|]. destruct (x <. half (-3)); [right; now left|]. destruct (x <. half (-1)); [do 2 right; now left|].
    destruct (x <. half 1); [do 3 right; now left|]. do 4 right. now left.
  Qed.
  Definition check_order (f : f64 -> f64) : bool :=
    forallb (fun x => forallb (fun y => Bool.eqb (f x <. f y) (x <. y) && Bool.eqb (@nleb F64 (f x) (f y)) (@nleb F64 x y))%bool levels) levels.
  Lemma check_order_ok f : check_order f = true -> keeps_order (N := F64) a_level f.
  Proof.
    unfold check_order. rewrite forallb_forall. intros H x y Hx Hy. specialize (H x Hx). rewrite forallb_forall in H. specialize (H y Hy).
    apply andb_prop in H as [H1 H2]. split; [exact (eqb_prop _ _ H1)|exact (eqb_prop _ _ H2)].
  Qed.
  Lemma squared_order : keeps_order (N := F64) a_level squared.
  Proof. apply check_order_ok. vm_compute. reflexivity. Qed.
  Lemma tiny_order : keeps_order (N := F64) a_level tiny.
  Proof. apply check_order_ok. vm_compute. reflexivity. Qed.
  Lemma below : (z 10000000000 <. z 100) = false.
  Proof. vm_compute. reflexivity. Qed.
  Lemma squared_start : squared (z 10000000000) = z 10000000000.
  Proof. unfold squared. now rewrite below. Qed.
  Lemma tiny_start : tiny (z 10000000000) = z 10000000000.
  Proof. unfold tiny. now rewrite below. Qed.
End Cases.

(** A run of Nelder-Mead on the figure of merit with five levels, and on its square: all conditions are met, both evaluate
    the parameters 1, 0, -1, -2, -4 and stop there because the goal is reached. *)
Example C84_case : compares_only (N := F64) unstopped /\ keeps_order (N := F64) a_level squared /\ values_in (N := F64) a_level level_world /\
  (forall g, g_goal unstopped = Some g -> a_level g) /\ a_level (inner_sign (N := F64) unstopped (z 10000000000)) /\
  squared (inner_sign (N := F64) unstopped (z 10000000000)) = inner_sign (N := F64) unstopped (z 10000000000) /\
  sorts_by_comparison (N := F64) level_world (fun v => a_level (inner_sign (N := F64) unstopped v)) (inside (N := F64) unstopped squared) /\
  (forall p, g_method unstopped = MCMAES p -> samples_by_comparison (N := F64) level_world (fun v => a_level (inner_sign (N := F64) unstopped v)) (inside (N := F64) unstopped squared)) /\
  same_spread (N := F64) unstopped (z (-1)) (fun v => a_level (inner_sign (N := F64) unstopped v)) (inside (N := F64) unstopped squared) /\
  run_ok (N := F64) unstopped level_world (fun r s => fine_end r && are (map (fun d => newest (N := F64) [d]) (rev (s_hist s))) [1; 0; -1; -2; -4]%Z &&
    are (s_fom_list s) [4; 3; 2; 1; 0]%Z && String.eqb (s_reason s) "Goal FoM reached") = true /\
  run_ok (N := F64) (goal_through (N := F64) squared (z (-1)) unstopped) (through (N := F64) squared level_world)
    (fun r s => fine_end r && are (map (fun d => newest (N := F64) [d]) (rev (s_hist s))) [1; 0; -1; -2; -4]%Z &&
      are (s_fom_list s) [16; 9; 4; 1; 0]%Z && String.eqb (s_reason s) "Goal FoM reached") = true.
Proof.
  repeat match goal with |- _ /\ _ => split end.
  - unfold compares_only. split; [right; reflexivity|]. repeat (split; [reflexivity|]). discriminate.
  - exact squared_order.
  - exact level_values.
  - intros g [= <-]. now left.
  - do 5 right. now left.
  - exact squared_start.
  - intros l F. exact (C84_sorting (N := F64) _ _ (inside_order (N := F64) F64_order F64_sign unstopped _ _ squared_order) l F).
  - discriminate.
  - apply C84_spread_off; vm_compute; reflexivity.
  - vm_compute. reflexivity.
  - vm_compute. reflexivity.
Qed.

(** With the default criterion f_atol switched on the values matter: the same figure of merit in other units (divided by 1e8,
    which keeps the order) ends the search after four evaluations, before the smallest value is found. *)
Theorem C84_fatol_refuted : exists (G : settings (N := F64)) (W : world (N := F64)) (P : f64 -> Prop) (f : f64 -> f64),
  compares_only G /\ keeps_order (N := F64) P f /\ values_in (N := F64) P W /\ g_goal G = None /\ P (inner_sign (N := F64) G (z 10000000000)) /\
  f (inner_sign (N := F64) G (z 10000000000)) = inner_sign (N := F64) G (z 10000000000) /\
  sorts_by_comparison (N := F64) W (fun v => P (inner_sign (N := F64) G v)) (inside (N := F64) G f) /\ g_method G = MNelderMead false /\
  exists s s', optimise (N := F64) G W = Ok (Ok tt, s) /\ optimise (N := F64) G (through (N := F64) f W) = Ok (Ok tt, s') /\
    s_iter s = 8 /\ s_iter s' = 4 /\ s_best s = z 0 /\ s_best s' = f (z 1) /\ s_hist s' <> s_hist s.
Proof.
  exists (frun KDirect), level_world, a_level, tiny.
  assert (E1 : run_ok (N := F64) (frun KDirect) level_world (fun r s => fine_end r && Nat.eqb (s_iter s) 8 && Nat.eqb (length (s_hist s)) 8 && are [s_best s] [0%Z]) = true) by (vm_compute; reflexivity).
  assert (E2 : run_ok (N := F64) (frun KDirect) (through (N := F64) tiny level_world) (fun r s => fine_end r && Nat.eqb (s_iter s) 4 && Nat.eqb (length (s_hist s)) 4 && same_list [s_best s] [tiny (z 1)]) = true) by (vm_compute; reflexivity).
  apply run_ok_exists in E1 as (r1 & s1 & H1 & K1). apply run_ok_exists in E2 as (r2 & s2 & H2 & K2).
  repeat match goal with H : (_ && _)%bool = true |- _ => apply andb_prop in H as [? ?] end.
  repeat match goal with H : Nat.eqb _ _ = true |- _ => apply Nat.eqb_eq in H end.
  repeat match goal with H : are _ _ = true |- _ => apply are_eq in H | H : same_list _ _ = true |- _ => apply same_list_eq in H end.
  destruct r1 as [[]|e1]; [|exfalso; clear H1 H2; discriminate]. destruct r2 as [[]|e2]; [|exfalso; clear H1 H2; discriminate].
  repeat match goal with |- _ /\ _ => split end.
  - unfold compares_only. split; [right; reflexivity|]. repeat (split; [reflexivity|]). discriminate.
  - exact tiny_order.
  - exact level_values.
  - reflexivity.
  - do 5 right. now left.
  - exact tiny_start.
  - intros l F. exact (C84_sorting (N := F64) _ _ (inside_order (N := F64) F64_order F64_sign (frun KDirect) _ _ tiny_order) l F).
  - reflexivity.
  - exists s1, s2. split; [exact H1|]. split; [exact H2|]. clear H1 H2.
    match goal with E : [s_best s1] = _, F : [s_best s2] = _ |- _ => injection E as E; injection F as F; rewrite E, F end.
    repeat (split; [assumption || reflexivity|]). intros E. rewrite E in *. congruence.
Qed.

Print Assumptions C84_order.
Print Assumptions C84_sorting.
Print Assumptions C84_cma.
Print Assumptions C84_spread_off.
Print Assumptions C84_spread_off_real.
Print Assumptions C84_fatol_refuted.
