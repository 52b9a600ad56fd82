(** Stored values of an undisturbed Nelder-Mead search are the values of the function. *)
From Coq Require Import String ZArith List Bool Lia Permutation Sorted.
From RecordUpdate Require Import RecordSet.
From Verif Require Import Num NumFacts Py PyFacts ModelPulse ModelControls ModelLinalg ModelState ModelSearch ModelRun
  SpecRun SpecSearch ProofSim ProofSimRun ProofNM ProofSearch.
Import ListNotations RecordSetNotations.
Open Scope list_scope.
Open Scope run_scope.

Section Values.
  Context {N : Num} (G : settings) (W : world).
  Hypothesis SO : sorts W.
  Hypothesis NSI : no_sigint W.
  Variable func : vec -> nat -> option num -> M num.
  Hypothesis LF : leaves_flag func.
  Variable f : vec -> num.
  Hypothesis CF : computes func f.

  Lemma poll_flag s s' : poll G W s = (Ok tt, s') -> sc_conv (s_sc s') = sc_conv (s_sc s).
  Proof.
    unfold poll. intros H. apply bind_ok in H as (t & s1 & E & H). injection E as <- <-.
    rewrite bind_upd in H. destruct (w_async W _) eqn:EA.
    - now injection H as <-.
    - pose proof (f_equal snd H) as H'. cbn [snd] in H'. now rewrite <- H'.
    - now apply NSI in EA.
  Qed.
  Lemma is_conv_flag s c s' : is_conv G W s = (Ok c, s') -> c = sc_conv (s_sc s) /\ sc_conv (s_sc s') = sc_conv (s_sc s).
  Proof.
    unfold is_conv. intros H. apply bind_ok in H as ([] & s1 & E & H). injection H as <- <-.
    rewrite (poll_flag _ _ E). now split.
  Qed.

  Definition right (l : list (vec * num)) : Prop := forall x y, In (x, y) l -> y = f x.
  Variables (rho chi psi sigma : num) (dim : nat) (drift_min : num) (drift_avg : Z).
  Hypothesis ND : no_drift drift_min.

  Lemma rows_right js L s L' s' : shape dim L -> right (stored L) -> calm s ->
    shrink_rows G W func sigma js L s = (Ok L', s') -> shape dim L' /\ right (stored L').
  Proof.
    revert L s. induction js as [|j js IH]; intros L s S V Ca H; [injection H as <- <-; now split|].
    pose proof S as [R Co Vl]. cbn [shrink_rows] in H; cbv zeta in H.
    apply bind_ok in H as (x0 & s1 & E0 & H). apply lift_ok in E0 as [E0 ->].
    apply bind_ok in H as (xj & s1 & Ej & H). apply lift_ok in Ej as [Ej ->].
    apply bind_ok in H as (sim & s1 & Es & H). apply lift_ok in Es as [Es ->].
    apply py_set_nat in Es as [-> Lj].
    set (x := vadd x0 (vscale sigma (vsub xj x0))) in *.
    assert (length x = dim) as Lx.
    { apply py_nth_In in E0, Ej. apply vadd_length; [auto|]. apply vscale_length, vsub_length; auto. }
    apply bind_ok in H as (c & s1 & E1 & H). apply is_conv_flag in E1 as [-> C1]. rewrite Ca in H.
    cbn [n_it n_calls n_fsim n_sim] in H.
    apply bind_ok in H as ([y calls] & s2 & Ey & H). apply call_ok in Ey as [Ey _]. cbn [fst] in Ey.
    pose proof (LF _ _ _ _ _ _ Ey) as C2. apply CF in Ey.
    apply bind_ok in H as (fsim & s3 & Ef & H). apply lift_ok in Ef as [Ef ->].
    apply py_set_nat in Ef as [-> Lf].
    eapply IH; [..|exact H].
    - constructor; cbn; rewrite ?set_nth_length; [assumption| |assumption].
      intros w Wi. apply In_set_nth in Wi as [->|Wi]; auto.
    - unfold stored. cbn [n_sim n_fsim]. rewrite combine_set_nth. intros a b I. apply In_set_nth in I as [[= -> ->]|I].
      + exact Ey.
      + now apply V.
    - unfold calm in *. congruence.
  Qed.

  Lemma move_right L s o s' : shape dim L -> right (stored L) -> calm s ->
    nm_move G W func rho chi psi sigma dim L s = (Ok o, s') -> exists L', o = Goes L' /\ shape dim L' /\ right (stored L').
  Proof.
    intros S V Ca H. unfold nm_move in H.
    apply bind_ok in H as (last & s1 & E & H). apply lift_ok in E as [E ->].
    destruct (move_points dim L last S E) as [Kl Kb].
    set (xbar := vdiv _ _) in *. clearbody xbar.
    assert (forall a b, length (vsub (vscale a xbar) (vscale b last)) = dim) as LX
      by (intros; apply vsub_length; now apply vscale_length).
    assert (forall a b, length (vadd (vscale a xbar) (vscale b last)) = dim) as LY
      by (intros; apply vadd_length; now apply vscale_length).
    apply bind_ok in H as ([fxr calls] & s1 & Er & H). apply call_ok in Er as [Er _]. cbn [fst] in Er.
    pose proof (LF _ _ _ _ _ _ Er) as C1. apply CF in Er.
    apply bind_ok in H as (f0 & s2 & E0 & H). apply lift_ok in E0 as [E0 ->].
    assert (calm s1) as Ca1 by (unfold calm in *; congruence).
    assert (forall x y calls s o s', length x = dim -> y = f x -> put_last x y calls L s = (Ok o, s') ->
              exists L', o = Goes L' /\ shape dim L' /\ right (stored L')) as PU.
    { intros x y c t o' t' Lx -> P. destruct (put_last_spec dim x (f x) c L t o' t' S Lx P) as (_ & L' & -> & S' & _ & _ & _ & K).
      exists L'. do 2 (split; [auto|]). rewrite K. intros a b I. apply in_app_or in I as [I|[[= <- <-]|[]]]; [|reflexivity].
      apply V. now apply In_removelast. }
    assert (forall calls s o s', calm s -> shrink G W func sigma dim calls L s = (Ok o, s') ->
              exists L', o = Goes L' /\ shape dim L' /\ right (stored L')) as SH.
    { intros c t o' t' Ct P. unfold shrink in P. apply bind_ok in P as (L' & t1 & E1 & P). injection P as <- <-.
      exists L'. split; [reflexivity|]. eapply rows_right; [..|exact E1]; assumption. }
    destruct (fxr <? f0)%num.
    - apply bind_ok in H as (c & s2 & Ec & H). apply is_conv_flag in Ec as [-> C2]. rewrite Ca1 in H.
      apply bind_ok in H as ([fxe calls'] & s3 & Ee & H). apply call_ok in Ee as [Ee _]. cbn [fst] in Ee. apply CF in Ee.
      destruct (fxe <? fxr)%num; (eapply PU; [| |exact H]); auto.
    - apply bind_ok in H as (f2 & s2 & E2 & H). apply lift_ok in E2 as [E2 ->].
      destruct (fxr <? f2)%num; [eapply PU; [| |exact H]; auto|].
      apply bind_ok in H as (fl & s2 & El & H). apply lift_ok in El as [El ->].
      destruct (fxr <? fl)%num.
      + apply bind_ok in H as (c & s2 & Ec & H). apply is_conv_flag in Ec as [-> C2]. rewrite Ca1 in H.
        apply bind_ok in H as ([fxc calls'] & s3 & Ee & H). apply call_ok in Ee as [Ee _]. cbn [fst] in Ee.
        pose proof (LF _ _ _ _ _ _ Ee) as C3. apply CF in Ee.
        destruct (fxc <=? fxr)%num; [eapply PU; [| |exact H]; auto|]. eapply SH; [|exact H]. unfold calm in *. congruence.
      + apply bind_ok in H as (c & s2 & Ec & H). apply is_conv_flag in Ec as [-> C2]. rewrite Ca1 in H.
        apply bind_ok in H as ([fxc calls'] & s3 & Ee & H). apply call_ok in Ee as [Ee _]. cbn [fst] in Ee.
        pose proof (LF _ _ _ _ _ _ Ee) as C3. apply CF in Ee.
        destruct (fxc <? fl)%num; [eapply PU; [| |exact H]; auto|]. eapply SH; [|exact H]. unfold calm in *. congruence.
  Qed.

  Lemma sort_right L s L' s' : shape dim L -> right (stored L) -> sort_simplex W L s = (Ok L', s') ->
    shape dim L' /\ right (stored L').
  Proof.
    intros S V H. destruct (sort_spec W SO dim L s L' s' S H) as (_ & S' & P & _).
    split; [assumption|]. intros x y I. apply V. now apply (Permutation_in _ (Permutation_sym P)).
  Qed.
  Lemma iter_right L s L' s' : shape dim L -> right (stored L) -> calm s ->
    nm_iter G W func rho chi psi sigma dim drift_min drift_avg L s = (Ok (Goes L'), s') -> shape dim L' /\ right (stored L').
  Proof.
    intros S V Ca H. unfold nm_iter in H.
    apply bind_ok in H as (o & s1 & E1 & H). destruct (move_right L s o s1 S V Ca E1) as (L1 & -> & S1 & V1).
    apply bind_ok in H as (L2 & s2 & E2 & H). destruct (sort_right L1 s1 L2 s2 S1 V1 E2) as [S2 V2].
    apply bind_ok in H as (L3 & s3 & E3 & H). rewrite (no_drift_ret G W func drift_min drift_avg ND) in E3. injection E3 as <- <-.
    apply bind_ok in H as (r & s4 & _ & H). apply bind_ok in H as (u & s5 & _ & H).
    apply bind_ok in H as (u' & s6 & _ & H). injection H as <- <-. split; [exact S2|exact V2].
  Qed.
  Lemma eval_right rows it c s r s' : eval_rows func rows it c s = (Ok r, s') ->
    length (fst r) = length rows /\ right (combine rows (fst r)).
  Proof.
    revert c s r s'. induction rows as [|x rows IH]; intros c s r s' H; cbn [eval_rows] in H.
    - injection H as <- <-. now split.
    - apply bind_ok in H as ([y c1] & s1 & E1 & H). apply call_ok in E1 as [E1 _]. apply CF in E1.
      apply bind_ok in H as ([ys c2] & s2 & E2 & H). apply IH in E2 as [E2 E3]. injection H as <- <-. cbn in *.
      split; [now rewrite E2|]. intros a b [[= <- <-]|I]; auto.
  Qed.
End Values.

Section Boundary.
  Context {N : Num} (G : settings) (W : world).
  Hypothesis SO : sorts W.
  Variable func : vec -> nat -> option num -> M num.
  Variables (adaptive : bool) (x0 : vec) (sim : option (list vec)) (drift_min : num) (drift_avg : Z).
  Hypothesis PS : proper_start x0 sim.
  Notation bd := (boundary G W func adaptive x0 sim drift_min drift_avg).

  Lemma boundary_right f s0 L s : no_sigint W -> leaves_flag func -> computes func f -> no_drift drift_min ->
    bd s0 L s -> shape (length x0) L /\ right f (stored L).
  Proof.
    intros NSI LF CF ND B. induction B as [t s1 fsim calls s2 L s3 E0 E1 E2|L s s1 rho chi psi sigma L' s2 B IH E1 E2 E3].
    - pose proof (eval_right func f CF _ _ _ _ _ _ E1) as [K1 K2]. cbn [fst] in *.
      eapply (sort_right W SO f (length x0)); [..|exact E2]; [|exact K2].
      constructor; cbn; [apply (start_rows x0 sim PS)|apply (start_columns x0 sim PS)|]. rewrite K1. apply (start_rows x0 sim PS).
    - destruct IH as [S V]. pose proof (is_conv_flag G W NSI _ _ _ E1) as [C1 C2].
      assert (calm s1) as Ca by (unfold calm; congruence).
      exact (iter_right G W SO NSI func LF f CF rho chi psi sigma (length x0) drift_min drift_avg ND L s1 L' s2 S V Ca E3).
  Qed.

End Boundary.
