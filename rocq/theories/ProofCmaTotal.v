(** A CMA-ES search whose parts do not raise ends with a result. *)
From Coq Require Import String ZArith List Bool Lia Permutation.
From RecordUpdate Require Import RecordSet.
From Verif Require Import Num NumFacts Py PyFacts ModelPulse ModelControls ModelLinalg ModelState ModelSearch ModelRun
  SpecRun SpecSearch SpecCmaRun ProofSim ProofNM ProofSearch ProofNMBound ProofSearchCount ProofCma.
Import ListNotations RecordSetNotations.
Open Scope nat_scope.
Open Scope list_scope.
Open Scope run_scope.

Section Total.
  Context {N : Num} (G : settings) (W : world).
  Variable func : vec -> nat -> option num -> M num.
  Variables (x0 sigma_v : vec).
  Hypothesis SO : sorts W.
  Hypothesis NSI : no_sigint W.
  Hypothesis FT : always_answers func.
  Hypothesis CT : forall hist z, exists x, w_cma W x0 sigma_v hist z = Ok x.
  Hypothesis AT : forall hist, w_cma_adapt W hist = Ok tt.

  Definition fine {A} (m : M A) : Prop := forall s, exists a s', m s = (Ok a, s').
  Lemma fine_bind {A B} (m : M A) (f : A -> M B) : fine m -> (forall a, fine (f a)) -> fine (bind m f).
  Proof. intros Hm Hk s. destruct (Hm s) as (a & s1 & E). destruct (Hk a s1) as (b & s2 & E'). exists b, s2. unfold bind. now rewrite E. Qed.
  Lemma fine_ret {A} (a : A) : fine (ret a). Proof. intros s. now exists a, s. Qed.
  Lemma fine_get : fine get. Proof. intros s. now exists s, s. Qed.
  Lemma fine_upd f : fine (upd f). Proof. intros s. now exists tt, (f s). Qed.
  Lemma fine_clear b : fine (clear b). Proof. intros s. unfold clear. eexists. eexists. reflexivity. Qed.
  Lemma fine_lift {A} (r : res A) : (exists a, r = Ok a) -> fine (lift r). Proof. intros (a & ->) s. now exists a, s. Qed.
  Ltac fn := repeat first
    [ solve [auto] | apply fine_ret | apply fine_get | apply fine_clear | apply fine_upd | apply fine_bind
    | match goal with
      | |- forall _, _ => intro
      | |- fine (if ?c then _ else _) => destruct c
      end ].
  Lemma poll_fine s : exists s', poll G W s = (Ok tt, s') /\ s_sc s' = s_sc s.
  Proof.
    unfold poll, bind, get, upd. specialize (NSI (k_poll (s_cnt s))). destruct (w_async W (k_poll (s_cnt s))); [| |congruence].
    - eexists. split; [reflexivity|]. reflexivity.
    - unfold clear. eexists. split; [reflexivity|]. reflexivity.
  Qed.
  Lemma fine_poll : fine (poll G W). Proof. intros s. destruct (poll_fine s) as (s' & E & _). now exists tt, s'. Qed.
  Lemma is_conv_fine s : exists s', is_conv G W s = (Ok (sc_conv (s_sc s)), s').
  Proof. unfold is_conv, bind, get, ret. destruct (poll_fine s) as (s' & -> & E). exists s'. now rewrite E. Qed.
  Lemma fine_is_conv : fine (is_conv G W). Proof. pose proof fine_poll. unfold is_conv. fn. Qed.
  Lemma fine_running : fine (get_running G W). Proof. pose proof fine_poll. unfold get_running. fn. Qed.
  Lemma fine_check fsim calls : fine (check_stopping_cma G W fsim calls).
  Proof. pose proof fine_poll. pose proof fine_is_conv. unfold check_stopping_cma, set_check, check_time_out, now, set_conv, set_sc_reason. fn. Qed.
  Lemma fine_randn n : fine (randn W n). Proof. unfold randn. fn. Qed.
  Lemma fine_generation n it hist : fine (generation W func x0 sigma_v n it hist).
  Proof.
    revert hist. induction n; intros hist; cbn [generation]; [apply fine_ret|]. apply fine_bind; [apply fine_randn|]. intros zz.
    apply fine_bind; [apply fine_lift, CT|]. intros x. cbv zeta. apply fine_bind; [intros s; apply FT|]. intros y. apply fine_bind; [auto|]. intros g. apply fine_ret.
  Qed.
  Lemma gather_fine {A} (l : list A) ind : (forall i, In i ind -> i < length l) -> exists r, gather l (map Z.of_nat ind) = Ok r /\ length r = length ind.
  Proof.
    induction ind as [|i ind IH]; intros H; [now exists []|].
    destruct IH as (r & E & LR); [intros j J; apply H; now right|].
    destruct (nth_error l i) as [a|] eqn:EI; [|apply nth_error_None in EI; specialize (H i (or_introl eq_refl)); lia].
    exists (a :: r). split; [|cbn; lia]. cbn [map]. unfold gather in *. cbn [rmap].
    assert (py_nth l (Z.of_nat i) = Ok a) as -> by (rewrite py_nth_nonneg, EI; reflexivity). rewrite E. reflexivity.
  Qed.
  Lemma loop_total l_pop fuel it hist best s : 1 <= l_pop ->
    (if sc_conv (s_sc s) then 1 else Z.to_nat (g_max_eval G - Z.of_nat (length hist)) + 2) <= fuel ->
    exists b it' calls s', cma_loop G W func x0 sigma_v l_pop fuel it hist best s = (Ok (b, it', calls), s') /\ length hist <= calls /\
      (sc_conv (s_sc s) = false -> length hist + l_pop <= calls).
  Proof.
    intros LP. revert it hist best s. induction fuel as [|fuel IH]; intros it hist best s B; [destruct (sc_conv (s_sc s)); lia|]. cbn [cma_loop].
    assert (forall A B (m : M A) (k : A -> M B) t (P : B -> st -> Prop), fine m -> (forall a t1, m t = (Ok a, t1) -> exists b t2, k a t1 = (Ok b, t2) /\ P b t2) ->
      exists b t2, bind m k t = (Ok b, t2) /\ P b t2) as BE.
    { clear. intros A B m k t P F K. destruct (F t) as (a & t1 & E). destruct (K a t1 E) as (b & t2 & E2). exists b, t2. unfold bind. now rewrite E. }
    assert (forall c, (exists b t2, c = (Ok b, t2) /\ length hist <= snd b /\ (sc_conv (s_sc s) = false -> length hist + l_pop <= snd b)) ->
      exists (b : num * vec) (it' calls : nat) (s' : st), c = (Ok (b, it', calls), s') /\ length hist <= calls /\ (sc_conv (s_sc s) = false -> length hist + l_pop <= calls)) as PK.
    { intros c ([[b it'] calls] & t2 & E & Q). exists b, it', calls, t2. split; [exact E|exact Q]. }
    apply PK. clear PK.
    destruct (is_conv_fine s) as (s1 & E1). unfold bind at 1. rewrite E1.
    pose proof (is_conv_read G W _ _ _ E1) as [C1 _].
    destruct (sc_conv (s_sc s)) eqn:CS.
    - eexists. eexists. split; [reflexivity|]. cbn. split; [lia|discriminate].
    - apply (BE _ _ _ _ _ (fun b (_ : st) => length hist <= snd b /\ (false = false -> length hist + l_pop <= snd b))); [apply fine_generation|].
      intros g s2 E2. apply generation_length in E2. cbv zeta.
      destruct (SO (map snd g)) as [P _]. rewrite map_length, E2 in P.
      assert (forall i, In i (w_argsort W (map snd g)) -> i < l_pop) as IR by (intros i I; apply (Permutation_in _ P), in_seq in I; lia).
      assert (length (w_argsort W (map snd g)) = l_pop) as IL by (rewrite (Permutation_length P); apply seq_length).
      destruct (gather_fine (map snd g) (w_argsort W (map snd g))) as (fs & EF & LF); [intros i I; rewrite map_length, E2; now apply IR|].
      apply (BE _ _ _ _ _ (fun b (_ : st) => length hist <= snd b /\ (false = false -> length hist + l_pop <= snd b))); [apply fine_lift; eauto|]. intros fsim s3 E3.
      assert (fsim = fs /\ s3 = s2) as [-> ->] by (apply lift_ok in E3 as [? ->]; split; congruence).
      apply (BE _ _ _ _ _ (fun b (_ : st) => length hist <= snd b /\ (false = false -> length hist + l_pop <= snd b))); [apply fine_lift; rewrite AT; eauto|]. intros u s4 E4.
      destruct (w_argsort W (map snd g)) as [|i ind] eqn:EI; [cbn in IL; lia|]. cbn [map].
      apply (BE _ _ _ _ _ (fun b (_ : st) => length hist <= snd b /\ (false = false -> length hist + l_pop <= snd b))); [apply fine_lift; now exists (Z.of_nat i)|]. intros i0 s5 E5.
      assert (i0 = Z.of_nat i) as -> by (apply lift_ok in E5 as [E5 _]; now injection E5).
      destruct (nth_error (map fst g) i) as [xi|] eqn:EX.
      2: { apply nth_error_None in EX. rewrite map_length in EX. specialize (IR i (or_introl eq_refl)). lia. }
      apply (BE _ _ _ _ _ (fun b (_ : st) => length hist <= snd b /\ (false = false -> length hist + l_pop <= snd b))).
      { apply fine_lift. exists xi. rewrite py_nth_nonneg, EX. reflexivity. }
      intros x s6 E6. destruct fs as [|f0 fs]; [cbn in LF; lia|].
      apply (BE _ _ _ _ _ (fun b (_ : st) => length hist <= snd b /\ (false = false -> length hist + l_pop <= snd b))); [apply fine_lift; now exists f0|]. intros f0' s7 E7.
      apply (BE _ _ _ _ _ (fun b (_ : st) => length hist <= snd b /\ (false = false -> length hist + l_pop <= snd b))); [apply fine_running|]. intros r s8 E8.
      apply (BE _ _ _ _ _ (fun b (_ : st) => length hist <= snd b /\ (false = false -> length hist + l_pop <= snd b))).
      { pose proof fine_poll. unfold set_conv, set_sc_reason. fn. }
      intros u' s9 E9.
      apply (BE _ _ _ _ _ (fun b (_ : st) => length hist <= snd b /\ (false = false -> length hist + l_pop <= snd b))); [apply fine_check|]. intros [] s10 E10.
      destruct (IH (S it) (hist ++ g) (f0', x) s10) as (b & it' & calls & s' & E & Q & _).
      { rewrite app_length. destruct (sc_conv (s_sc s10)) eqn:CC; [lia|].
        destruct (Z.ltb_spec (Z.of_nat (length hist + length g)) (g_max_eval G)) as [A|A]; [lia|].
        pose proof (check_cma_budget G W _ _ _ _ E10) as K. rewrite app_length in K. rewrite (K A) in CC. discriminate. }
      rewrite app_length in Q. exists (b, it', calls), s'. split; [exact E|]. cbn. split; [lia|intros _; lia].
  Qed.
  Lemma run_total population s : 2 <= match population with Some p => p | None => w_pop W (length x0) end -> Z.to_nat (g_max_eval G) + 2 <= w_fuel W ->
    exists r s', run_cma G W func population x0 sigma_v s = (Ok r, s') /\ match population with Some p => p | None => w_pop W (length x0) end <= r_calls r.
  Proof.
    intros HP HF. unfold run_cma. set (pop := match population with Some p => p | None => w_pop W (length x0) end) in *.
    destruct (poll_fine s) as (s1 & E1 & _). unfold bind at 1. rewrite E1. unfold bind at 1, set_conv, upd.
    destruct (Nat.ltb_spec pop 2) as [B|B]; [lia|]. unfold bind at 1.
    match goal with |- context [cma_loop G W func x0 sigma_v pop ?f 1 [] ?b ?s0] => destruct (loop_total pop f 1 [] b s0) as (b' & it' & calls & s' & E & Q1 & Q2) end; [lia| |].
    - cbn. rewrite Z.sub_0_r. exact HF.
    - rewrite E. eexists. eexists. split; [reflexivity|]. cbn. cbn in Q2. now apply Q2.
  Qed.
End Total.
