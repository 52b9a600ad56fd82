(** Further lemmas about Nelder-Mead searches: progress, drift in exact arithmetic, the default simplex. *)
From Coq Require Import String ZArith List Bool Lia Permutation Sorted Reals Lra.
From Flocq Require Import Core.Raux.
From RecordUpdate Require Import RecordSet.
From Verif Require Import Num NumFacts Py PyFacts ModelPulse ModelControls ModelLinalg ModelState ModelSearch ModelRun
  SpecRun SpecSearch ProofSim ProofSimRun ProofNM ProofSearch ProofNMBound ProofSearchCount.
Import ListNotations RecordSetNotations.
Open Scope nat_scope.
Open Scope list_scope.
Open Scope run_scope.

Section Progress.
  Context {N : Num} (NO : NumOrder N) (G : settings) (W : world).
  Hypothesis SO : sorts W.
  Variable func : vec -> nat -> option num -> M num.
  Variables (adaptive : bool) (x0 : vec) (sim : option (list vec)) (drift_min : num) (drift_avg : Z).
  Hypothesis PS : proper_start x0 sim.
  Variables (log : st -> list (vec * num)) (s0 : st).
  Hypothesis OB : observes func log.
  Hypothesis LF : leaves_flag func.
  Hypothesis NSI : no_sigint W.
  Hypothesis ND : no_drift drift_min.
  Notation bd := (boundary G W func adaptive x0 sim drift_min drift_avg).

  Lemma next_not_worse L s s1 rho chi psi sigma L' s2 f f' : bd s0 L s ->
    is_conv G W s = (Ok false, s1) -> nm_parameters adaptive (length x0) = Ok (rho, chi, psi, sigma) ->
    nm_iter G W func rho chi psi sigma (length x0) drift_min drift_avg L s1 = (Ok (Goes L'), s2) ->
    (forall new, log s2 = log s0 ++ new -> nan_free (map snd new)) ->
    hd_error (n_fsim L) = Some f -> hd_error (n_fsim L') = Some f' -> (f' <=? f)%num = true.
  Proof.
    intros B E1 E2 E3 K F F'.
    assert (bd s0 L' s2) as B' by (eapply at_next; eassumption).
    pose proof (observed_boundary NO G W SO func adaptive x0 sim drift_min drift_avg PS log s0 OB LF NSI ND L' s2 B' K) as [[S2 (new2 & L2 & _ & I2 & C2)] IN2].
    assert (exists ext, log s2 = log s1 ++ ext) as (ext & X).
    { pose proof (sim_iter (grows_frame G W func log OB (log s1)) func func (fun x it => grows_func func log OB (log s1) x it None)
                 drift_min drift_avg (fun _ x it v => grows_func func log OB (log s1) x it (Some v)) rho chi psi sigma (length x0) L) as A.
      destruct (A s1 s1) as [_ A'].
      - split; [reflexivity|]. exists []. now rewrite app_nil_r.
      - rewrite E3 in A'. cbn in A'. exact (proj2 A'). }
    assert (log s1 = log s) as X1.
    { unfold is_conv in E1. apply bind_ok in E1 as ([] & s3 & E & E1). injection E1 as _ <-. exact (ob_poll G W func log OB _ _ E). }
    assert (exists new, log s = log s0 ++ new) as (new0 & X0).
    { clear - B OB. induction B as [t s1 fsim calls s2 L s3 E0 E1 E2|L s s1 rho chi psi sigma L' s2 B IH E1 E2 E3].
      - apply (sort_calls W) in E2 as (-> & _). apply (rows_log func log OB) in E1 as (_ & _ & E1). apply (start_same G W func log OB) in E0.
        exists (combine (match sim with Some sim => sim | None => default_simplex x0 end) fsim). now rewrite E1, E0.
      - pose proof (sim_iter (grows_frame G W func log OB (log s0)) func func (fun x it => grows_func func log OB (log s0) x it None)
                 drift_min drift_avg (fun _ x it v => grows_func func log OB (log s0) x it (Some v)) rho chi psi sigma (length x0) L) as A.
        destruct (A s1 s1) as [_ A'].
        + split; [reflexivity|]. destruct IH as (new & IH). exists new.
          unfold is_conv in E1. apply bind_ok in E1 as ([] & s3 & E & E1). injection E1 as _ <-. now rewrite (ob_poll G W func log OB _ _ E).
        + rewrite E3 in A'. cbn in A'. exact (proj2 A'). }
    assert (forall new, log s = log s0 ++ new -> nan_free (map snd new)) as K0.
    { intros new E y Y. apply (K (new ++ ext)); [rewrite X, X1, E; now rewrite app_assoc|]. rewrite map_app. apply in_or_app. now left. }
    pose proof (observed_boundary NO G W SO func adaptive x0 sim drift_min drift_avg PS log s0 OB LF NSI ND L s B K0) as [[S (new & L1 & _ & I & C)] IN].
    destruct (n_fsim L) as [|g fs] eqn:EF; [discriminate|]. injection F as ->.
    destruct (n_fsim L') as [|g' fs'] eqn:EF'; [discriminate|]. injection F' as ->.
    destruct (n_sim L) as [|x xs] eqn:ES; [destruct S as [R _ _]; rewrite ES in R; discriminate|].
    assert (In (x, f) new2) as J.
    { assert (new2 = new ++ ext) as ->.
      { apply (app_inv_head (log s0)). rewrite <- L2, X, X1, L1. now rewrite app_assoc. }
      apply in_or_app. left. apply I. unfold stored. rewrite ES, EF. now left. }
    destruct (C2 _ J) as (h & [<-|Ih] & Lh); [assumption|]. eapply nle_trans; [exact NO| |exact Lh].
    now apply (increasing_first f' fs').
  Qed.
End Progress.

(** ** exact arithmetic *)
Section Exact.
  Context (G : settings (N := Rnum)) (W : world (N := Rnum)).
  Hypothesis SO : sorts W.
  Variable func : vec (N := Rnum) -> nat -> option R -> M R.

  Lemma sorted_R (l : list R) : increasing (N := Rnum) l <-> StronglySorted Rle l.
  Proof.
    unfold increasing. split; intros H; induction H as [|a l H IH F]; constructor; try assumption; rewrite Forall_forall in *; intros b B.
    - specialize (F b B). cbn in F. now destruct (Rle_bool_spec a b).
    - specialize (F b B). cbn. now apply Rle_bool_true.
  Qed.
  Lemma drift_sorted drift_min drift_avg L s L' s' : nm_drift G W func drift_min drift_avg L s = (Ok L', s') ->
    increasing (n_fsim L) -> increasing (n_fsim L').
  Proof.
    intros H IN. unfold nm_drift in H. destruct (of_Z 0 <? drift_min)%num; cbn [negb] in H; [|injection H as <- <-; assumption].
    apply bind_ok in H as (c & s1 & E1 & H). destruct c; [injection H as <- <-; assumption|].
    apply bind_ok in H as (t & s2 & E2 & H). destruct (negb _); [injection H as <- <-; assumption|].
    apply bind_ok in H as (prev & s3 & E3 & H). apply lift_ok in E3 as [E3 ->].
    apply bind_ok in H as (x & s4 & E4 & H). apply bind_ok in H as ([total calls] & s5 & E5 & H).
    destruct (drift_avg =? 0)%Z; [discriminate|].
    apply bind_ok in H as (t' & s6 & E6 & H). apply bind_ok in H as ([y calls'] & s7 & E7 & H).
    injection H as <- <-. cbn [n_fsim]. apply py_nth_first in E3 as (fs & E3). rewrite E3 in IN |- *.
    apply (proj2 (sorted_R _)). apply (proj1 (sorted_R _)) in IN. apply StronglySorted_inv in IN as [IN F].
    change (StronglySorted Rle ((total / IZR drift_avg)%R :: map (fun f : R => (f + (total / IZR drift_avg - prev))%R) fs)).
    change (@num Rnum) with R in *. generalize (total / IZR drift_avg)%R as f0. intros f0.
    assert (forall l, StronglySorted Rle l -> StronglySorted Rle (map (fun f => (f + (f0 - prev))%R) l)) as A.
    { clear. intros l H. induction H as [|a l H IH F]; cbn; constructor; [assumption|]. rewrite Forall_forall in *.
      intros b B. apply in_map_iff in B as (c & <- & C). specialize (F c C). lra. }
    constructor; [now apply A|]. rewrite Forall_forall in *. intros b B. apply in_map_iff in B as (c & <- & C). specialize (F c C).
    cbn. change (@num Rnum) with R in *. lra.
  Qed.
  Lemma boundary_sorted_R adaptive x0 sim drift_min drift_avg s0 L s : proper_start x0 sim ->
    boundary G W func adaptive x0 sim drift_min drift_avg s0 L s -> increasing (n_fsim L).
  Proof.
    intros PS B.
    assert (forall x it s y s', func x it None s = (Ok y, s') -> (fun _ => True) y) as FP by (intros; exact Logic.I).
    assert (no_drift drift_min \/ forall y : R, (fun _ => True) y) as DP by (right; intros; exact Logic.I).
    assert (nf : forall y : R, (fun _ => True) y -> nisnan (Num := Rnum) y = false) by reflexivity.
    destruct B as [t s1 fsim calls s2 L s3 E0 E1 E2|L s s1 rho chi psi sigma L' s2 B E1 E2 E3].
    - destruct (start_sane W SO func (length x0) (fun _ => True) FP _ _ _ _ _ _ _ _ _ (start_rows x0 sim PS) (start_columns x0 sim PS) E1 E2) as [_ K]; auto.
    - destruct (boundary_sane G W SO func adaptive x0 sim drift_min drift_avg PS (fun _ => True) s0 L s FP DP B) as [SA _].
      unfold nm_iter in E3.
      apply bind_ok in E3 as (o & sa & Ea & H). pose proof (move_shape G W func rho chi psi sigma (length x0) (fun _ => True) FP L s1 o sa SA Ea) as S1.
      destruct o as [L1|L1]; [discriminate|]. destruct S1 as [S1 _].
      apply bind_ok in H as (L2 & sb & Eb & H). destruct (sort_spec W SO (length x0) L1 sa L2 sb S1 Eb) as (_ & _ & _ & _ & _ & _ & IN).
      apply bind_ok in H as (L3 & sc & Ec & H). apply drift_sorted in Ec; [|apply IN; intros y _; reflexivity].
      apply bind_ok in H as (r & s4 & _ & H). apply bind_ok in H as (u & s5 & _ & H).
      apply bind_ok in H as (u' & s6 & _ & H). injection H as <- <-. exact Ec.
  Qed.

  (** the default simplex contains the start point only if it is the origin *)
  Lemma default_start (x0 : vec (N := Rnum)) k : k < length x0 ->
    nth k (tl (default_simplex x0)) [] <> x0.
  Proof.
    intros K. unfold default_simplex. cbn [tl].
    match goal with |- nth k (map ?f _) [] <> _ => set (g := f) end.
    rewrite (nth_indep _ [] (g 0)) by (rewrite map_length, seq_length; exact K). rewrite map_nth, seq_nth by exact K. cbn [plus].
    intros E. apply (f_equal (entry k)) in E. unfold g, entry in E.
    set (v := if neqb (nth k x0 (of_Z 0)) (of_Z 0) then _ else _) in E.
    assert (nth k (set_nth x0 k v) (of_Z 0) = v) as E'.
    { apply nth_error_nth. now apply set_nth_same. }
    rewrite E' in E. unfold v in E. clear - E.
    assert (forall a : R, (if Req_bool a 0 then 25 / 100000 else (1 + 5 / 100) * a)%R = a -> False) as A.
    { intros a. destruct (Req_bool_spec a 0) as [D|D]; intros F; lra. }
    exact (A _ E).
  Qed.
End Exact.
