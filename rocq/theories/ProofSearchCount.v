(** Calls made by a whole Nelder-Mead search. *)
From Coq Require Import String ZArith List Bool Lia Permutation Sorted.
From RecordUpdate Require Import RecordSet.
From Verif Require Import Num NumFacts Py PyFacts ModelPulse ModelControls ModelLinalg ModelState ModelSearch ModelRun
  SpecRun SpecSearch ProofSim ProofSimRun ProofNM ProofSearch ProofNMBound.
Import ListNotations RecordSetNotations.
Open Scope list_scope.
Open Scope run_scope.

Section Count.
  Context {N : Num} (G : settings) (W : world).
  Variable func : vec -> nat -> option num -> M num.
  Variables (adaptive : bool) (x0 : vec) (sim : option (list vec)) (drift_min : num) (drift_avg : Z).
  Hypothesis PS : proper_start x0 sim.
  Notation start := (match sim with Some sim => sim | None => default_simplex x0 end).

  Section Observed.
  Variable log : st -> list (vec * num).
  Hypothesis OB : observes func log.

  Lemma ob_poll s s' : poll G W s = (Ok tt, s') -> log s' = log s.
  Proof.
    intros H. unfold poll in H. apply bind_ok in H as (t & s1 & E & H). injection E as <- <-.
    rewrite bind_upd in H. destruct (w_async W _).
    - injection H as <-. apply (ob_cnt _ _ OB).
    - pose proof (f_equal snd H) as H'. cbn [snd] in H'. rewrite <- H'. rewrite (ob_stop _ _ OB). apply (ob_cnt _ _ OB).
    - unfold handle_user_cancellation in H. apply bind_ok in H as ([] & s2 & E & H). injection E as <-.
      apply bind_ok in H as ([] & s3 & E & H). destruct (has_dsm G); [|discriminate]. injection E as <-.
      pose proof (f_equal snd H) as H'. cbn [snd] in H'. rewrite <- H'.
      rewrite (ob_stop _ _ OB), (ob_sc _ _ OB), (ob_reason _ _ OB). apply (ob_cnt _ _ OB).
  Qed.
  Notation grown l := (fun s : st => exists new, log s = l ++ new).
  Lemma grows_frame l : frame (diag (grown l)) (diagx (fun _ _ => True)) G W G W.
  Proof.
    apply wide_frame_frame. apply wide_diag; try easy.
    - intros g s (new & E). exists new. now rewrite (ob_cnt _ _ OB).
    - intros g s (new & E). exists new. now rewrite (ob_sc _ _ OB).
    - intros g s (new & E). exists new. now rewrite (ob_reason _ _ OB).
    - intros s (new & E). exists new. rewrite <- E. exact (ob_stop _ _ OB ByAsync s).
  Qed.
  Lemma grows_func l x it v : ProofSim.sim (diag (grown l)) (diagx (fun _ _ => True)) (func x it v) (func x it v).
  Proof.
    intros s t [<- (new & E)]. split; [reflexivity|]. destruct (func x it v s) as [[y|e] s'] eqn:H; cbn.
    - split; [reflexivity|]. exists (new ++ [(x, y)]). now rewrite (ob_call _ _ OB _ _ _ _ _ _ H), E, app_assoc.
    - now split.
  Qed.
  Lemma start_same s t s' : (poll G W;;; set_conv false;;; now W;;; now W) s = (Ok t, s') -> log s' = log s.
  Proof.
    intros H. apply bind_ok in H as ([] & s1 & E & H). apply ob_poll in E. rewrite <- E. clear E.
    apply bind_ok in H as ([] & s2 & E & H). injection E as <-.
    apply bind_ok in H as (u & s3 & E & H). injection E as <- <-. injection H as <- <-.
    now rewrite !(ob_cnt _ _ OB), (ob_sc _ _ OB).
  Qed.
  Lemma rows_log rows it c s r s' : eval_rows func rows it c s = (Ok r, s') ->
    length (fst r) = length rows /\ snd r = c + length rows /\ log s' = log s ++ combine rows (fst r).
  Proof.
    revert c s r s'. induction rows as [|x rows IH]; intros c s r s' H; cbn [eval_rows] in H.
    - injection H as <- <-. cbn. rewrite app_nil_r. repeat split; lia.
    - apply bind_ok in H as ([y c1] & s1 & E1 & H). apply call_ok in E1 as [E1 E2]. apply (ob_call _ _ OB) in E1.
      apply bind_ok in H as ([ys c2] & s2 & E3 & H). apply IH in E3 as (A & B & C). injection H as <- <-. cbn in *.
      rewrite C, E1, <- app_assoc. repeat split; [congruence|lia].
  Qed.

  (** the start simplex is evaluated first, vertex by vertex *)
  Lemma start_first s0 r s' : run_nm G W func adaptive x0 sim drift_min drift_avg s0 = (Ok r, s') ->
    exists ys new, length ys = S (length x0) /\ log s' = log s0 ++ combine start ys ++ new.
  Proof.
    intros H. unfold run_nm in H.
    apply bind_ok in H as ([] & sa & Ea & H). apply bind_ok in H as ([] & sb & Eb & H).
    apply bind_ok in H as (t0 & sc & Ec & H). apply bind_ok in H as (t & sd & Ed & H).
    apply bind_ok in H as ([[[rho chi] psi] sigma] & se & Ee & H). apply lift_ok in Ee as [Ee ->]. cbv zeta in H.
    apply bind_ok in H as ([fsim calls] & sf & Ef & H). apply bind_ok in H as (L & sg & Eg & H).
    apply bind_ok in H as (L' & sh & Eh & H).
    apply bind_ok in H as (x & si & Ei & H). apply lift_ok in Ei as [Ei ->].
    apply bind_ok in H as (fv & si & Ej & H). apply lift_ok in Ej as [Ej ->].
    apply bind_ok in H as (sx & si & Ek & H). injection Ek as <- <-. injection H as <- <-.
    assert (log sd = log s0) as E0.
    { apply start_same with (t := t). unfold bind at 1. rewrite Ea. unfold bind at 1. rewrite Eb. unfold bind at 1. now rewrite Ec. }
    apply rows_log in Ef as (A & B & C). cbn [fst] in *. rewrite (start_rows x0 sim PS) in A.
    assert (sg = sf) as -> by (apply (sort_calls W) in Eg as (-> & _); reflexivity).
    pose proof (sim_loop (grows_frame (log sf)) func func (fun x it => grows_func (log sf) x it None) drift_min drift_avg
             (fun _ x it v => grows_func (log sf) x it (Some v)) rho chi psi sigma (length x0) (w_fuel W) L) as K.
    destruct (K sf sf) as [_ K'].
    { split; [reflexivity|]. exists []. now rewrite app_nil_r. }
    rewrite Eh in K'. cbn in K'. destruct K' as [_ (new & K')]. exists fsim, new. split; [assumption|].
    now rewrite app_assoc, <- E0, <- C.
  Qed.

  Lemma run_calls s0 r s' : run_nm G W func adaptive x0 sim drift_min drift_avg s0 = (Ok r, s') ->
    length (log s') = length (log s0) + r_calls r /\
    S (length x0) <= r_calls r /\
    (Z.of_nat (r_calls r) <= Z.max (Z.of_nat (S (length x0))) (g_max_eval G - 1) +
       Z.of_nat (length x0 + 2 + extra drift_min drift_avg))%Z.
  Proof.
    intros H. unfold run_nm in H.
    apply bind_ok in H as ([] & sa & Ea & H). apply bind_ok in H as ([] & sb & Eb & H).
    apply bind_ok in H as (t0 & sc & Ec & H). apply bind_ok in H as (t & sd & Ed & H).
    apply bind_ok in H as ([[[rho chi] psi] sigma] & se & Ee & H). apply lift_ok in Ee as [Ee ->]. cbv zeta in H.
    apply bind_ok in H as ([fsim calls] & sf & Ef & H). apply bind_ok in H as (L & sg & Eg & H).
    apply bind_ok in H as (L' & sh & Eh & H).
    apply bind_ok in H as (x & si & Ei & H). apply lift_ok in Ei as [Ei ->].
    apply bind_ok in H as (fv & si & Ej & H). apply lift_ok in Ej as [Ej ->].
    apply bind_ok in H as (sx & si & Ek & H). injection Ek as <- <-. injection H as <- <-.
    assert (log sd = log s0) as E0.
    { apply start_same with (t := t). unfold bind at 1. rewrite Ea. unfold bind at 1. rewrite Eb. unfold bind at 1. now rewrite Ec. }
    apply rows_log in Ef as (A & B & C). cbn [fst snd] in *. rewrite (start_rows x0 sim PS) in A, B. cbn in B.
    apply (sort_calls W) in Eg as (-> & Eg & _). cbn [n_calls] in Eg.
    apply (loop_calls G W func rho chi psi sigma (length x0) drift_min drift_avg (fun s => length (log s)) 1 1) in Eh as (E1 & E2 & E3 & _).
    - cbn [r_calls]. rewrite C, app_length, combine_length, A, (start_rows x0 sim PS), E0 in E3. rewrite Eg in *. lia.
    - intros g s. now rewrite (ob_sc _ _ OB).
    - intros g s. now rewrite (ob_cnt _ _ OB).
    - intros s t' K. now rewrite (ob_poll _ _ K).
    - intros x1 it v s y t' K. rewrite (ob_call _ _ OB _ _ _ _ _ _ K), app_length. cbn. lia.
  Qed.
  End Observed.

  (** ** termination *)
  Lemma run_fuel fuel e s0 : Z.to_nat (g_max_eval G) + 2 <= w_fuel W -> Z.to_nat (g_max_eval G) + 2 <= fuel ->
    run_nm G (W <|w_fuel := fuel|> <|w_stuck := e|>) func adaptive x0 sim drift_min drift_avg s0 =
    run_nm G W func adaptive x0 sim drift_min drift_avg s0.
  Proof.
    intros B B'. unfold run_nm.
    change (poll G (W <|w_fuel := fuel|> <|w_stuck := e|>)) with (poll G W).
    change (now (W <|w_fuel := fuel|> <|w_stuck := e|>)) with (now W).
    change (sort_simplex (W <|w_fuel := fuel|> <|w_stuck := e|>)) with (sort_simplex W).
    change (w_fuel (W <|w_fuel := fuel|> <|w_stuck := e|>)) with fuel.
    assert (forall A B (m : M A) (k k' : A -> M B) s, (forall a t, k a t = k' a t) -> bind m k s = bind m k' s) as BE.
    { intros A C m k k' s K. unfold bind. now destruct (m s) as [[v|x] t]. }
    apply BE. intros [] s1. apply BE. intros [] s2. cbv zeta. apply BE. intros t0 s3. apply BE. intros t s4.
    apply BE. intros [[[rho chi] psi] sigma] s5. apply BE. intros [fsim calls] s6. apply BE. intros L s7.
    change (nm_loop G (W <|w_fuel := fuel|> <|w_stuck := e|>)) with (nm_loop G (W <|w_stuck := e|>)).
    unfold bind at 1 4.
    rewrite (loop_fuel G W func rho chi psi sigma (length x0) drift_min drift_avg (fun _ => 0) 0 0) with (fuel' := w_fuel W);
      first [reflexivity | assumption | (intros; lia)].
  Qed.
End Count.
