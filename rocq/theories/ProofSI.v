(** End of a super-iteration: the accepted vector's controls survive as the new start point. *)
From Coq Require Import String ZArith List Bool Lia Reals Lra.
From Verif Require Import Num NumFacts Py PyFacts ModelPulse ModelControls SpecControls ProofControls ProofLimits ProofShrink
  ProofTimes ProofIndex ProofPipeline ProofEss ProofBase.
Import ListNotations.
Open Scope list_scope.

Lemma list_ext {A} (l l' : list A) : (forall i, nth_error l i = nth_error l' i) -> l = l'.
Proof.
  revert l'; induction l as [|a l IH]; intros [|b l'] H; auto.
  - specialize (H 0%nat). discriminate.
  - specialize (H 0%nat). discriminate.
  - pose proof (H 0%nat) as H0. injection H0 as ->. f_equal. apply IH. intros i. exact (H (S i)).
Qed.

Lemma rmap_total {A B} (f : A -> res B) l : (forall i a, nth_error l i = Some a -> exists b, f a = Ok b) -> exists l', rmap f l = Ok l'.
Proof.
  induction l as [|a l IH]; intros H; cbn; [eauto|].
  destruct (H 0%nat a eq_refl) as (b & ->). destruct IH as (l' & ->); [intros i; apply (H (S i))|]. cbn; eauto.
Qed.

Section Inv.
  Context {N : Num}.

  Lemma uniform_length k a b r w : uniform_super_parameters k a b r = Ok w -> length r = k -> length w = k.
  Proof.
    unfold uniform_super_parameters. destruct (Nat.eqb k 0); [discriminate|]. intros H L; injection H as <-.
    rewrite map2_length, seq_length. lia.
  Qed.

  Section OnePulse.
    Variable Q : pulse -> Prop.
    Hypothesis Qprep : forall p v T, Q p -> Q (prepare v T p).
    Hypothesis Qbase : forall p b, Q p -> Q (with_core (set_base b (core p)) p).
    Hypothesis Qidx : forall p m, Q p -> Q (set_control_parameters_list m p).
    Hypothesis Qw : forall p k a b w, Q p -> pc_dist (core p) = Some (k, a, b) -> length w = k ->
      Q (with_core (chop p (set_w w (core p))) p).

    Definition has (i : nat) (c : controls) : Prop := exists p, nth_error (c_pulses c) i = Some p /\ Q p.

    Lemma has_indexes i c : has i c -> has i (update_control_parameter_indexes c).
    Proof.
      intros (p & E & M). unfold update_control_parameter_indexes, has.
      destruct (reindex_pulses (-1) (c_pulses c)) as [ps m] eqn:R. cbn.
      destruct (reindex_pulses_nth (-1) _ _ _ E) as (m' & E'). rewrite R in E'. cbn in E'. eauto.
    Qed.
    Lemma has_select i rs idx pos c c' pos' : has i c -> select_basis_from rs idx pos c = Ok (c', pos') -> has i c'.
    Proof.
      revert pos c. induction idx as [|j idx IH]; intros pos c S H; cbn in H; [now rinv|].
      destruct (nth_error (c_pulses c) j) as [q|] eqn:Ej; [|now rinv].
      destruct (pc_dist (core q)) as [[[k a] b]|] eqn:Ed; [|now apply (IH pos c)].
      apply rbind_ok in H as (w & Hw & H).
      eapply IH; [|exact H]. apply has_indexes.
      destruct S as (p & E & M). unfold has; cbn [c_pulses].
      destruct (Nat.eq_dec j i) as [->|NE].
      - rewrite E in Ej; injection Ej as <-.
        rewrite set_nth_same by (apply nth_error_Some; congruence).
        eexists; split; [reflexivity|]. apply (Qw p k a b w); auto.
        eapply uniform_length; [exact Hw|]. now rewrite map_length, seq_length.
      - rewrite set_nth_other by assumption. eauto.
    Qed.
    Lemma has_get i x c c' d : has i c -> get_controls_lists x c = Ok (c', d) -> has i c'.
    Proof.
      intros (p & E & M) H. unfold get_controls_lists in H. rinv. unfold has; cbn [c_pulses].
      match goal with H : rmap _ (c_pulses c) = Ok ?l |- _ => destruct (rmap_nth _ _ _ _ _ H E) as (r & Hr & En) end.
      rinv. exists (fst r). rewrite nth_error_map, En. split; [reflexivity|].
      unfold get_pulse in Hr. rinv. cbn [fst]. auto.
    Qed.
    Lemma has_bare i x c c' d : has i c -> get_bare_controls_lists x c = Ok (c', d) -> has i c'.
    Proof.
      intros (p & E & M) H. unfold get_bare_controls_lists in H. rinv. unfold has; cbn [c_pulses].
      match goal with H : rmap _ (c_pulses c) = Ok ?l |- _ => destruct (rmap_nth _ _ _ _ _ H E) as (r & Hr & En) end.
      rinv. exists (fst r). rewrite nth_error_map, En. split; [reflexivity|].
      unfold get_bare_pulse in Hr. rinv. cbn [fst]. auto.
    Qed.
    Lemma has_update i x c c' : has i c -> update_base_controls x c = Ok c' -> has i c'.
    Proof.
      intros (p & E & M) H. unfold update_base_controls in H. rinv. unfold has; cbn [c_pulses].
      match goal with H : rmap _ (c_pulses c) = Ok ?l |- _ => destruct (rmap_nth _ _ _ _ _ H E) as (r & Hr & En) end.
      rinv. exists r. split; [assumption|]. unfold set_base_pulse in Hr. rinv.
      match goal with H1 : gather _ _ = Ok ?v, H2 : time_of _ _ = Ok ?T |- _ => pose proof (Qprep p v T M) as M' end.
      destruct (pc_overwrite _); rinv; exact (Qbase _ _ M').
    Qed.
    Lemma has_reachable i c0 c : reachable c0 c -> has i c0 -> has i c.
    Proof.
      intros R; induction R; intros S; auto.
      - eapply has_get; [now apply IHR|eassumption].
      - eapply has_bare; [now apply IHR|eassumption].
      - eapply has_update; [now apply IHR|eassumption].
      - eapply has_select; [now apply IHR|eassumption].
    Qed.
  End OnePulse.

  (** configuration and number of super-parameters *)
  Definition good (f : pulse_cfg) (p : pulse) : Prop :=
    cfg_matches f p /\ length (pc_w (core p)) = match pf_dist f with Some (k, _, _) => k | None => 0%nat end.

  Lemma good_reachable f i c0 c : plain_basis f -> reachable c0 c -> has (good f) i c0 -> has (good f) i c.
  Proof.
    intros PB. apply has_reachable.
    - intros p v T [M W]. split; [now apply cfg_matches_prepare|exact W].
    - intros p b [M W]. split; [now apply cfg_matches_base|exact W].
    - intros p m [M W]. split; [now apply cfg_matches_idx|exact W].
    - intros p k a b w [M W] D L. unfold good. rewrite (cm_chop _ _ M), PB. split; [now apply cfg_matches_w|].
      cbn. rewrite (cm_dist _ _ M) in D. now rewrite D.
  Qed.
  Lemma good_new pl tl rl c i f : new_controls pl tl rl = Ok c -> nth_error pl i = Some f -> has (good f) i c.
  Proof.
    intros HC Ef. unfold new_controls in HC. rinv. unfold has; cbn.
    match goal with H : new_pulses _ _ = Ok _ |- _ => revert H end. clear - Ef. revert Ef. generalize (-1)%Z.
    revert i l. induction pl as [|g pl IH]; intros i l m Ef H; [destruct i; discriminate|].
    cbn in H. rinv. destruct i; cbn in *.
    - injection Ef as ->. eexists; split; [reflexivity|]. split; [eapply new_pulse_matches; eauto|].
      unfold new_pulse in H0. rinv. cbn. destruct (pf_dist f) as [[[k a] b]|]; [apply zeros_length|reflexivity].
    - eauto.
  Qed.
  Lemma good_core_of f p v T : good f p -> length v = pf_nctrl f -> core_of f (core (prepare v T p)).
  Proof.
    intros [M W] L. constructor; cbn; try apply M; auto. rewrite linspace0_length. apply M.
  Qed.

  Lemma new_base pl tl rl c i f : new_controls pl tl rl = Ok c -> nth_error pl i = Some f ->
    base_of c i = Some (Ar (repeat (of_Z 0) (pf_bins f))).
  Proof.
    intros HC Ef. unfold new_controls in HC. rinv. unfold base_of; cbn.
    match goal with H : new_pulses _ _ = Ok _ |- _ => revert H end. clear - Ef. revert Ef. generalize (-1)%Z.
    revert i l. induction pl as [|g pl IH]; intros i l m Ef H; [destruct i; discriminate|].
    cbn in H. rinv. destruct i; cbn in *.
    - injection Ef as ->. unfold new_pulse in H0. rinv. reflexivity.
    - eauto.
  Qed.
  Lemma base_array pl tl rl c0 c i f : new_controls pl tl rl = Ok c0 -> Forall plain_basis pl -> reachable c0 c ->
    nth_error pl i = Some f -> pf_overwrite f = false -> exists b, base_of c i = Some (Ar b) /\ length b = pf_bins f.
  Proof.
    intros HC PB R Ef OV. assert (PBf := Forall_nth_error _ _ _ _ PB Ef).
    assert (S0 := new_controls_slot _ _ _ _ _ _ HC Ef).
    assert (WI := new_controls_wi _ _ _ _ HC PB).
    assert (B0 := new_base _ _ _ _ _ _ HC Ef). clear HC.
    induction R as [c|c c1 c2 x d R IH H|c c1 c2 x d R IH H|c c1 c2 x R IH H|c c1 c2 rs p q R IH H].
    - eexists; split; [exact B0|apply repeat_length].
    - rewrite base_of_bases, (get_controls_bases _ _ _ _ H), <- base_of_bases. auto.
    - rewrite base_of_bases, (get_bare_bases _ _ _ _ H), <- base_of_bases. auto.
    - destruct (IH S0 WI B0) as (b & Eb & Lb).
      assert (S1 := reachable_slot _ _ _ _ R PBf S0). destruct S1 as (p & Ep & M).
      destruct (update_base_slot _ _ _ _ _ (ex_intro _ p (conj Ep M)) H) as (q & Eq & Mq).
      destruct (update_base_base _ _ _ _ _ H Eq) as (p' & v' & T' & s & E' & _ & _ & _ & K).
      rewrite Ep in E'; injection E' as <-. rewrite (cm_overwrite _ _ M), OV in K. destruct K as (b2 & Hb2 & ->).
      unfold base_of in Eb. rewrite Ep in Eb. injection Eb as Eb. rewrite Eb in Hb2.
      destruct (aiadd_length _ _ _ Hb2) as (l & -> & Ll). exists l. unfold base_of. rewrite Eq. split; [reflexivity|congruence].
    - assert (W1 : well_indexed c1) by (eapply same_fix_wi; [eapply reachable_fix|]; eauto).
      rewrite base_of_bases. destruct (select_bases _ _ _ _ _ _ (proj1 W1) H) as [-> _]. rewrite <- base_of_bases. auto.
  Qed.

  (** ** independence of the entries *)
  Lemma independence pl tl rl c0 c x y cx dx cy dy i f :
    new_controls pl tl rl = Ok c0 -> Forall plain_basis pl -> reachable c0 c ->
    get_controls_lists x c = Ok (cx, dx) -> get_controls_lists y c = Ok (cy, dy) ->
    nth_error pl i = Some f ->
    (forall j, (list_sum (map pf_nctrl (firstn i pl)) <= j < list_sum (map pf_nctrl (firstn i pl)) + pf_nctrl f)%nat ->
       nth_error x j = nth_error y j) ->
    no_optimised_time tl ->
    nth_error (d_pulses dx) i = nth_error (d_pulses dy) i /\ nth_error (d_timegrids dx) i = nth_error (d_timegrids dy) i.
  Proof.
    intros HC PB R GX GY Ef AG NO.
    assert (WI := new_controls_wi _ _ _ _ HC PB). assert (SF := reachable_fix _ _ WI R).
    assert (W := same_fix_wi _ _ SF WI). assert (FX := new_controls_fixed _ _ _ _ NO HC).
    assert (TT := reachable_times_fixed _ _ FX R).
    destruct (good_reachable _ _ _ _ (Forall_nth_error _ _ _ _ PB Ef) R (good_new _ _ _ _ _ _ HC Ef)) as (p & Ep & M & _).
    assert (I := wi_pulse_indices _ _ _ W Ep).
    destruct (same_fix_sizes _ _ SF) as [S1 _]. destruct (new_controls_sizes _ _ _ _ HC) as [S2 _].
    rewrite S1, S2, (cm_nctrl _ _ M) in I. unfold offset_of in I. rewrite firstn_map in I.
    assert (GA : gather x (pc_indices (core p)) = gather y (pc_indices (core p))).
    { rewrite I. apply gather_agree. intros j Hj. apply in_seq in Hj. apply AG. lia. }
    unfold get_controls_lists in GX, GY. rewrite set_times_fixed in GX, GY by (rewrite TT; exact FX). cbn [rbind] in GX, GY.
    apply rbind_ok in GX as (px & PX & GX). apply rbind_ok in GX as (rx & RX & GX).
    apply rbind_ok in GY as (py & PY & GY). apply rbind_ok in GY as (ry & RY & GY).
    injection GX as <- <-. injection GY as <- <-. cbn [d_pulses d_timegrids].
    destruct (rmap_nth _ _ _ _ _ PX Ep) as (ax & Hx & Ex). destruct (rmap_nth _ _ _ _ _ PY Ep) as (ay & Hy & Ey).
    rewrite !nth_error_map, Ex, Ey. rewrite GA in Hx. rewrite Hx in Hy. injection Hy as ->. auto.
  Qed.

  Lemma independence_param pl tl rl c0 c x y cx dx cy dy i f :
    new_controls pl tl rl = Ok c0 -> Forall plain_basis pl -> reachable c0 c ->
    get_controls_lists x c = Ok (cx, dx) -> get_controls_lists y c = Ok (cy, dy) ->
    nth_error rl i = Some f ->
    nth_error x (list_sum (map pf_nctrl pl) + i) = nth_error y (list_sum (map pf_nctrl pl) + i) ->
    nth_error (d_parameters dx) i = nth_error (d_parameters dy) i.
  Proof.
    intros HC PB R GX GY Ef AG.
    assert (WI := new_controls_wi _ _ _ _ HC PB). assert (SF := reachable_fix _ _ WI R).
    destruct (same_fix_sizes _ _ SF) as [_ L1]. destruct (new_controls_sizes _ _ _ _ HC) as [_ L2].
    assert (LX : length (d_parameters dx) = length rl).
    { unfold get_controls_lists in GX. rinv. cbn. rewrite map_length, (rmap_length _ _ _ H1). congruence. }
    assert (LY : length (d_parameters dy) = length rl).
    { unfold get_controls_lists in GY. rinv. cbn. rewrite map_length, (rmap_length _ _ _ H1). congruence. }
    assert (Li : (i < length rl)%nat) by (apply nth_error_Some; congruence).
    destruct (nth_error (d_parameters dx) i) as [vx|] eqn:Ex; [|apply nth_error_None in Ex; lia].
    destruct (nth_error (d_parameters dy) i) as [vy|] eqn:Ey; [|apply nth_error_None in Ey; lia].
    destruct (delivered_parameter _ _ _ _ _ _ _ _ _ _ _ HC PB R GX Ef Ex) as (a & A1 & -> & _).
    destruct (delivered_parameter _ _ _ _ _ _ _ _ _ _ _ HC PB R GY Ef Ey) as (b & B1 & -> & _).
    congruence.
  Qed.

  Lemma select_params rs idx pos c c' pos' : select_basis_from rs idx pos c = Ok (c', pos') ->
    map pa_value (c_params c') = map pa_value (c_params c).
  Proof.
    revert pos c. induction idx as [|j idx IH]; intros pos c H; cbn in H; [now rinv|].
    destruct (nth_error (c_pulses c) j) as [q|]; [|now rinv].
    destruct (pc_dist (core q)) as [[[k a] b]|]; [|now apply (IH pos c)].
    apply rbind_ok in H as (w & Hw & H). rewrite (IH _ _ H).
    unfold update_control_parameter_indexes. destruct (reindex_pulses _ _). cbn. apply rreindex_value.
  Qed.
End Inv.

Section Survive.
  Context {N : Num} (NO : NumOrder N) (NX : NumExact N).

  Lemma sum_then_zero a b c : (a + b + c)%num = (a + (b + c) + of_Z 0)%num.
  Proof. now rewrite (nadd_0 _ NX), (nadd_assoc _ NX). Qed.
  Lemma zero_then_sum a b c : (a + c + b)%num = (a + of_Z 0 + (b + c))%num.
  Proof. now rewrite (nadd_0 _ NX), (nadd_assoc _ NX), (nadd_comm _ NX c b). Qed.
  Ltac exactly := first [apply sum_then_zero|apply zero_then_sum].

  Lemma map2_map_l {A B C D} (f : B -> C -> D) (g : A -> B) l m : map2 f (map g l) m = map2 (fun a c => f (g a) c) l m.
  Proof. revert m; induction l; intros [|]; cbn; auto. now rewrite IHl. Qed.

  Ltac lens := repeat first [rewrite map_length | rewrite map2_length | rewrite repeat_length]; cbn [length] in *; lia.

  Lemma abin_sc f (x : num) m : abin f (Sc x) (Ar m) = Ok (Ar (map (f x) m)).
  Proof. reflexivity. Qed.
  Lemma abin_one f (x : num) m : abin f (Ar [x]) (Ar m) = Ok (Ar (map (f x) m)).
  Proof. destruct m as [|y [|z m]]; reflexivity. Qed.

  Lemma abin_bad f (x x2 : num) l m : length m <> length (x :: x2 :: l) -> length m <> 1%nat ->
    abin f (Ar (x :: x2 :: l)) (Ar m) = Err ValueError.
  Proof.
    intros H1 H2. unfold abin.
    match goal with |- context [Nat.eqb ?a ?b] => replace (Nat.eqb a b) with false by (symmetry; apply Nat.eqb_neq; intros E; apply H1; symmetry; exact E) end.
    destruct m as [|y [|z m]]; [reflexivity|cbn in H2; congruence|reflexivity].
  Qed.

  (** adding base then update = adding the sum then nothing *)
  Lemma abin_assoc_R (a : arr) (b s : list num) : length s = length b ->
    (x <-! abin nadd a (Ar b); abin nadd x (Ar s))
    = (x <-! abin nadd a (Ar (map2 nadd b s)); abin nadd x (Ar (repeat (of_Z 0) (length b)))).
  Proof.
    intros L.
    assert (K : forall b s, length s = length b -> forall x : num, map2 nadd (map (nadd x) b) s = map2 nadd (map (nadd x) (map2 nadd b s)) (repeat (of_Z 0) (length b))).
    { induction b0; intros [|z s0] L0 x; cbn in *; try discriminate; auto. rewrite IHb0 by lia. f_equal. exactly. }
    assert (K2 : forall b s l, length s = length b -> length l = length b -> map2 nadd (map2 nadd l b) s = map2 nadd (map2 nadd l (map2 nadd b s)) (repeat (of_Z 0) (length b))).
    { induction b0; intros [|z s0] [|y l] L0 L1; cbn in *; try discriminate; auto. rewrite IHb0 by lia. f_equal. exactly. }
    destruct a as [x|l].
    - rewrite !abin_sc. cbn [rbind]. rewrite !abin_same by lens. now rewrite K.
    - destruct (Nat.eq_dec (length l) (length b)) as [E|NE].
      + rewrite !(abin_same _ l) by lens. cbn [rbind]. rewrite !abin_same by lens. now rewrite K2.
      + destruct l as [|x [|x2 l]].
        * destruct b as [|z [|z2 b]]; destruct s as [|y [|y2 s]]; cbn in L; try discriminate; try reflexivity.
        * rewrite !abin_one. cbn [rbind]. rewrite !abin_same by lens. now rewrite K.
        * destruct b as [|z [|z2 b]]; destruct s as [|y [|y2 s]]; cbn in L; try discriminate; [reflexivity| |].
          { cbn. do 2 f_equal. f_equal; [exactly|]. f_equal; [exactly|]. rewrite !map_map. apply map_ext. intros; exactly. }
          { rewrite !(abin_bad _ x x2 l) by lens. reflexivity. }
  Qed.
  (** adding update then base = adding nothing then the sum *)
  Lemma abin_assoc_R' (a : arr) (b s : list num) : length s = length b ->
    (x <-! abin nadd a (Ar s); abin nadd x (Ar b))
    = (x <-! abin nadd a (Ar (repeat (of_Z 0) (length b))); abin nadd x (Ar (map2 nadd b s))).
  Proof.
    intros L.
    assert (K : forall b s, length s = length b -> forall x : num, map2 nadd (map (nadd x) s) b = map2 nadd (map (nadd x) (repeat (of_Z 0) (length b))) (map2 nadd b s)).
    { induction b0; intros [|z s0] L0 x; cbn in *; try discriminate; auto. rewrite IHb0 by lia. f_equal. exactly. }
    assert (K2 : forall b s l, length s = length b -> length l = length b -> map2 nadd (map2 nadd l s) b = map2 nadd (map2 nadd l (repeat (of_Z 0) (length b))) (map2 nadd b s)).
    { induction b0; intros [|z s0] [|y l] L0 L1; cbn in *; try discriminate; auto. rewrite IHb0 by lia. f_equal. exactly. }
    destruct a as [x|l].
    - rewrite !abin_sc. cbn [rbind]. rewrite !abin_same by lens. now rewrite K.
    - destruct (Nat.eq_dec (length l) (length b)) as [E|NE].
      + rewrite !(abin_same _ l) by lens. cbn [rbind]. rewrite !abin_same by lens. now rewrite K2.
      + destruct l as [|x [|x2 l]].
        * destruct b as [|z [|z2 b]]; destruct s as [|y [|y2 s]]; cbn in L; try discriminate; try reflexivity.
        * rewrite !abin_one. cbn [rbind]. rewrite !abin_same by lens. now rewrite K.
        * destruct b as [|z [|z2 b]]; destruct s as [|y [|y2 s]]; cbn in L; try discriminate; [reflexivity| |].
          { cbn. do 2 f_equal. f_equal; [exactly|]. f_equal; [exactly|]. rewrite !map_map. apply map_ext. intros; exactly. }
          { rewrite !(abin_bad _ x x2 l) by lens. reflexivity. }
  Qed.

  Definition names_ops (l : list string) := flat_map (fun s => match shaping_op_of_name s with Some o => [o] | None => [] end) l.

  Lemma names_ops_no (l : list string) : ~ In "add_base_pulse"%string l -> ~ In "add_new_update_pulse"%string l ->
    forall o, In o (names_ops l) -> o <> OpBase /\ o <> OpUpdate.
  Proof.
    intros H1 H2 o Ho. apply in_flat_map in Ho as (s & Hs & Ho).
    unfold shaping_op_of_name in Ho.
    destruct (String.eqb_spec s "add_initial_guess"); [destruct Ho as [<-|[]]; split; discriminate|].
    destruct (String.eqb_spec s "add_base_pulse"); [subst; tauto|].
    destruct (String.eqb_spec s "add_new_update_pulse"); [subst; tauto|].
    destruct (String.eqb_spec s "scale_pulse"); [destruct Ho as [<-|[]]; split; discriminate|].
    destruct (String.eqb_spec s "limit_pulse"); [destruct Ho as [<-|[]]; split; discriminate|]. destruct Ho.
  Qed.

  Lemma rbind_then {A B C} (m1 m2 : res A) (k1 k2 : A -> res B) (K : B -> res C) :
    rbind m1 k1 = rbind m2 k2 -> rbind m1 (fun y => rbind (k1 y) K) = rbind m2 (fun y => rbind (k2 y) K).
  Proof.
    destruct m1, m2; cbn; intros E; rewrite ?E; try reflexivity.
    - rewrite <- E. reflexivity.
    - congruence.
  Qed.
  Lemma rbind_norm {A B C} (m : res A) (k : A -> res B) (K : B -> res C) :
    rbind (rbind m (fun x => rbind (k x) (fun y => Ok y))) K = rbind m (fun x => rbind (k x) K).
  Proof. destruct m; cbn; [|reflexivity]. destruct (k a); reflexivity. Qed.
  Lemma rbind_ext {A B} (m : res A) (k1 k2 : A -> res B) : (forall a, k1 a = k2 a) -> rbind m k1 = rbind m k2.
  Proof. destruct m; cbn; auto. Qed.

  Section Two.
    Variables (f : pulse_cfg) (p p' : pulse) (b s : list num).
    Hypotheses (M : cfg_matches f p) (M' : cfg_matches f p')
      (G : pc_time_grid (core p) = pc_time_grid (core p'))
      (B : pc_base (core p) = Ar b) (B' : pc_base (core p') = Ar (map2 nadd b s))
      (S : shape p (core p) = Ok (Ar s)) (S' : shape p' (core p') = Ok (Ar (repeat (of_Z 0) (length b))))
      (L : length s = length b).

    Lemma apply_op_other o a : o <> OpBase -> o <> OpUpdate -> apply_op p o a = apply_op p' o a.
    Proof.
      intros H1 H2. destruct o; try congruence; cbn [apply_op]; unfold get_initial_guess, get_limited_pulse, get_scaling_function;
      rewrite ?G, ?(cm_guess _ _ M), ?(cm_guess _ _ M'), ?(cm_shrink _ _ M), ?(cm_shrink _ _ M'), ?(cm_lower _ _ M), ?(cm_lower _ _ M'),
        ?(cm_upper _ _ M), ?(cm_upper _ _ M'), ?(cm_scaling _ _ M), ?(cm_scaling _ _ M'); reflexivity.
    Qed.
    Lemma run_ops_other ops a : (forall o, In o ops -> o <> OpBase /\ o <> OpUpdate) -> run_ops p ops a = run_ops p' ops a.
    Proof.
      revert a; induction ops as [|o ops IH]; intros a H; cbn; [reflexivity|].
      destruct (H o (or_introl eq_refl)). rewrite apply_op_other by assumption.
      destruct (apply_op p' o a); cbn; [|reflexivity]. apply IH. intros; apply H; now right.
    Qed.
    Lemma build_same : base_beside_update (names_of f) -> get_build_pulse p = get_build_pulse p'.
    Proof.
      intros (pre & post & E & N1 & N2). unfold get_build_pulse.
      rewrite (cm_options _ _ M), (cm_options _ _ M'), (cm_bins _ _ M), (cm_bins _ _ M'), select_options_names.
      assert (Npre := names_ops_no pre (fun H => N1 (in_or_app _ _ _ (or_introl H))) (fun H => N2 (in_or_app _ _ _ (or_introl H)))).
      assert (Npost := names_ops_no post (fun H => N1 (in_or_app _ _ _ (or_intror H))) (fun H => N2 (in_or_app _ _ _ (or_intror H)))).
      fold (names_ops (names_of f)).
      destruct E as [E|E]; rewrite E; unfold names_ops; rewrite !flat_map_app; fold (names_ops pre); fold (names_ops post);
        rewrite !run_ops_app, (run_ops_other _ _ Npre).
      - destruct (run_ops p' (names_ops pre) _) as [a|]; [|reflexivity]. cbn [rbind].
        change (flat_map _ ["add_base_pulse"%string; "add_new_update_pulse"%string]) with [OpBase; OpUpdate].
        rewrite !run_ops_app. cbn [run_ops apply_op]. rewrite B, B', S, S'. cbn [rbind].
        pose proof (abin_assoc_R a b s L) as AR. apply (rbind_then _ _ _ _ (run_ops p' (names_ops post))) in AR.
        rewrite !rbind_norm. etransitivity; [|exact AR].
        match goal with |- rbind ?m ?k1 = _ => apply (rbind_ext m); intros y end.
        match goal with |- rbind ?m ?k1 = _ => apply (rbind_ext m); intros z end.
        apply run_ops_other; assumption.
      - destruct (run_ops p' (names_ops pre) _) as [a|]; [|reflexivity]. cbn [rbind].
        change (flat_map _ ["add_new_update_pulse"%string; "add_base_pulse"%string]) with [OpUpdate; OpBase].
        rewrite !run_ops_app. cbn [run_ops apply_op]. rewrite B, B', S, S'. cbn [rbind].
        pose proof (abin_assoc_R' a b s L) as AR. apply (rbind_then _ _ _ _ (run_ops p' (names_ops post))) in AR.
        rewrite !rbind_norm. etransitivity; [|exact AR].
        match goal with |- rbind ?m ?k1 = _ => apply (rbind_ext m); intros y end.
        match goal with |- rbind ?m ?k1 = _ => apply (rbind_ext m); intros z end.
        apply run_ops_other; assumption.
    Qed.
  End Two.

  Lemma check_limits_idem (r r' : param) y : pa_lower r' = pa_lower r -> pa_upper r' = pa_upper r ->
    check_limits r' (check_limits r y) = check_limits r y.
  Proof.
    intros E1 E2. unfold check_limits. rewrite E1, E2. generalize (pa_lower r) (pa_upper r). intros l u.
    assert (Refl : forall a : num, nleb a a = true) by (intros a; destruct (nle_total _ NO a a (no_nan _ NX a) (no_nan _ NX a)); assumption).
    assert (Tot : forall a b : num, nleb a b = false -> nleb b a = true).
    { intros a b H. destruct (nle_total _ NO a b (no_nan _ NX a) (no_nan _ NX b)); congruence. }
    pose proof (nle_antisym _ NX) as AS.
    unfold npmin, npmax. rewrite !(no_nan _ NX). cbn [orb].
    destruct (nleb y l) eqn:A.
    - destruct (nleb l u) eqn:B; [now rewrite Refl, B|].
      rewrite (Tot _ _ B). now rewrite B.
    - destruct (nleb y u) eqn:B; [now rewrite A, B|].
      destruct (nleb u l) eqn:C; [|now rewrite Refl]. destruct (nleb l u) eqn:D; [now apply AS|reflexivity].
  Qed.

  Lemma nonzero_time pl tl rl c0 name T :
    new_controls pl tl rl = Ok c0 -> no_optimised_time tl ->
    (forall t, In t tl -> tf_value t <> of_Z 0) -> time_of (c_times c0) name = Ok T -> T <> of_Z 0.
  Proof.
    intros HC NT HZ HT. unfold time_of in HT.
    destruct (dget (c_times c0) name) as [t|] eqn:E; [|discriminate]. injection HT as <-.
    destruct (lookup_time tl name) as [f|] eqn:L.
    - destruct (new_controls_tslot _ _ _ _ _ _ HC L) as (t' & E' & M). rewrite E in E'. injection E' as <-.
      apply find_some in L as [L _]. apply in_rev in L.
      specialize (NT _ L). unfold get_time. destruct M as [MT _ MA].
      destruct (ti_alpha t) as [a|]; [destruct MA as (MA & _); congruence|]. rewrite MT. now apply HZ.
    - exfalso. unfold new_controls in HC. rinv. cbn [c_times] in E.
      match goal with H : new_times tl [] = Ok _ |- _ => pose proof (new_times_dget _ _ _ name H) as K end.
      rewrite L in K. cbn in K. congruence.
  Qed.

  Lemma survive pl tl rl c0 c x c1 d c1' c2 c3 :
    new_controls pl tl rl = Ok c0 -> reachable c0 c ->
    (forall f, In f pl -> plain_basis f /\ pf_overwrite f = false /\ regular_update f /\ zero_at_offset f /\ base_beside_update (names_of f)) ->
    no_optimised_time tl -> (forall t, In t tl -> tf_value t <> of_Z 0) ->
    get_controls_lists x c = Ok (c1, d) -> evaluations c1 c1' -> update_base_controls x c1' = Ok c2 ->
    (c3 = c2 \/ exists rs q r, select_basis rs q c2 = Ok (c3, r)) ->
    exists m c4, get_mean_value c3 = Ok m /\ get_controls_lists m c3 = Ok (c4, d).
  Proof.
    intros HC RC HF NT HZ HG HE HU HS.
    assert (PB : Forall plain_basis pl) by (apply Forall_forall; intros f Hf; now apply HF).
    assert (FX := new_controls_fixed _ _ _ _ NT HC).
    assert (HU0 : update_base_controls x c = Ok c2).
    { rewrite <- update_base_ess, <- (get_controls_ess_r _ _ _ _ HG), <- (evaluations_ess _ _ HE), update_base_ess. exact HU. }
    assert (R2 : reachable c0 c2) by (eapply reach_update; eauto).
    assert (R3 : reachable c0 c3) by (destruct HS as [->|(rs & q & r & HS)]; [assumption|eapply reach_select; eauto]).
    assert (T0 := reachable_times_fixed _ _ FX RC). assert (T2 := reachable_times_fixed _ _ FX R2). assert (T3 := reachable_times_fixed _ _ FX R3).
    assert (WI := new_controls_wi _ _ _ _ HC PB).
    assert (SF := reachable_fix _ _ WI RC). assert (W := same_fix_wi _ _ SF WI).
    assert (SF3 := reachable_fix _ _ WI R3). assert (W3 := same_fix_wi _ _ SF3 WI).
    assert (SF2 := reachable_fix _ _ WI R2). assert (W2 := same_fix_wi _ _ SF2 WI).
    assert (BS : bases c3 = bases c2).
    { destruct HS as [->|(rs & q & r & HS)]; [reflexivity|]. exact (proj1 (select_bases _ _ _ _ _ _ (proj1 W2) HS)). }
    assert (VS : map pa_value (c_params c3) = map pa_value (c_params c2)).
    { destruct HS as [->|(rs & q & r & HS)]; [reflexivity|]. exact (select_params _ _ _ _ _ _ HS). }
    assert (FO : Forall (fun f => length (pf_offset f) = pf_nctrl f) pl).
    { apply Forall_forall. intros f Hf. now apply HF. }
    assert (MV := mean_value _ _ _ _ _ HC PB R3 FO).
    exists (concat (map pf_offset pl) ++ map pa_value (c_params c3)). rewrite MV.
    set (m := concat (map pf_offset pl) ++ map pa_value (c_params c3)) in *.
    assert (LP : forall c', reachable c0 c' -> length (c_pulses c') = length pl).
    { intros c' R'. destruct (pulse_lists _ _ _ _ _ HC PB R') as (E & _). apply (f_equal (@length _)) in E. now rewrite !map_length in E. }
    (* pulses *)
    assert (HP : forall i p3, nth_error (c_pulses c3) i = Some p3 ->
      exists p T a v3, nth_error (c_pulses c) i = Some p /\ gather m (pc_indices (core p3)) = Ok v3 /\
        time_of (c_times c0) (pc_time_name (core p3)) = Ok T /\ get_pulse v3 T p3 = Ok (prepare v3 T p3, a) /\
        nth_error (d_pulses d) i = Some a /\ nth_error (d_timegrids d) i = Some (pc_time_grid (core (prepare v3 T p3)))).
    { intros i p3 E3.
      assert (Li : (i < length pl)%nat) by (rewrite <- (LP _ R3); apply nth_error_Some; congruence).
      destruct (nth_error pl i) as [f|] eqn:Ef; [|apply nth_error_None in Ef; lia].
      destruct (HF f (nth_error_In _ _ Ef)) as (PBf & OV & RU & ZO & BB).
      destruct (good_reachable _ _ _ _ PBf RC (good_new _ _ _ _ _ _ HC Ef)) as (p & Ep & GP).
      destruct (good_reachable _ _ _ _ PBf R2 (good_new _ _ _ _ _ _ HC Ef)) as (p2 & Ep2 & GP2).
      destruct (good_reachable _ _ _ _ PBf R3 (good_new _ _ _ _ _ _ HC Ef)) as (p3' & Ep3 & GP3).
      rewrite E3 in Ep3; injection Ep3 as <-.
      destruct GP as [M GW]. destruct GP2 as [M2 GW2]. destruct GP3 as [M3 GW3].
      (* delivered pulse at c *)
      assert (exists a, nth_error (d_pulses d) i = Some a) as (a & Ea).
      { unfold get_controls_lists in HG. rinv. cbn. destruct (rmap_nth _ _ _ _ _ H0 Ep) as (z & _ & Ez). rewrite nth_error_map, Ez. cbn; eauto. }
      destruct (delivered_pulse_full _ _ _ _ _ _ HG Ea) as (p' & v & T & E' & Hv & HT & Hgr & _ & HGP).
      rewrite Ep in E'; injection E' as <-.
      assert (R1 : reachable c0 c1) by (exact (reach_get _ _ _ _ _ RC HG)).
      rewrite (reachable_times_fixed _ _ FX R1) in HT.
      (* the accepted update *)
      destruct (update_base_base _ _ _ _ _ HU0 Ep2) as (p' & v' & T' & s & E' & Hv' & HT' & Hs & K).
      rewrite Ep in E'; injection E' as <-. rewrite Hv in Hv'; injection Hv' as <-.
      rewrite T2, HT in HT'; injection HT' as <-.
      rewrite (cm_overwrite _ _ M), OV in K. destruct K as (b2 & Hb2 & K).
      rewrite (cm_shape _ _ M) in Hs.
      assert (Lv : length v = pf_nctrl f).
      { apply rmap_length in Hv. rewrite Hv, (wi_pulse_indices _ _ _ W Ep), map_length, seq_length. apply M. }
      destruct (RU _ _ (good_core_of _ _ v T (conj M GW) Lv) Hs) as (sl & -> & Ls).
      (* base arrays *)
      assert (exists b, pc_base (core p) = Ar b /\ length b = pf_bins f) as (b & Eb & Lb).
      { destruct (base_array _ _ _ _ _ _ _ HC PB RC Ef OV) as (b & Hb & Lb). unfold base_of in Hb. rewrite Ep in Hb.
        injection Hb as Hb. eauto. }
      rewrite Eb in Hb2. destruct (aiadd_length _ _ _ Hb2) as (b2l & -> & Lb2).
      apply aiadd_same in Hb2; [|congruence]. subst b2l.
      (* base of p3 *)
      assert (Eb3 : pc_base (core p3) = Ar (map2 nadd b sl)).
      { apply (f_equal (fun l => nth_error l i)) in BS. unfold bases in BS. rewrite !nth_error_map, E3, Ep2 in BS. cbn in BS.
        injection BS as BS. rewrite BS, K. reflexivity. }
      (* vector for p3 *)
      assert (Gm : gather m (pc_indices (core p3)) = Ok (pf_offset f)).
      { rewrite (wi_pulse_indices _ _ _ W3 E3), (cm_nctrl _ _ M3).
        destruct (same_fix_sizes _ _ SF3) as [S1 _]. destruct (new_controls_sizes _ _ _ _ HC) as [S2 _]. rewrite S1, S2.
        assert (SP : pl = firstn i pl ++ f :: skipn (S i) pl).
        { clear - Ef. revert i Ef. induction pl as [|g pl IH]; intros [|i] E; cbn in *; try discriminate.
          - injection E as ->. reflexivity. - f_equal. now apply IH. }
        assert (L1 : length (concat (map pf_offset (firstn i pl))) = offset_of (map pf_nctrl pl) i).
        { unfold offset_of. rewrite firstn_map. clear - FO. revert i. induction FO as [|g l Hg FO IH]; intros [|i]; try reflexivity.
          cbn [firstn map concat]. rewrite app_length, IH, lsum_cons. now rewrite Hg. }
        unfold m. rewrite SP at 1. rewrite map_app, concat_app. cbn [map concat]. rewrite <- !app_assoc.
        destruct ZO as [ZL _]. rewrite <- L1, <- ZL. apply gather_seq. }
      exists p, T, a, (pf_offset f). repeat split; auto.
      - rewrite (cm_time_name _ _ M3), <- (cm_time_name _ _ M). exact HT.
      - unfold get_pulse in *. apply rbind_ok in HGP as (a' & HA & HR). injection HR as ->.
        rewrite <- (build_same f (prepare v T p) (prepare (pf_offset f) T p3) b sl).
        + now rewrite HA.
        + now apply cfg_matches_prepare.
        + now apply cfg_matches_prepare.
        + cbn. now rewrite (cm_bins _ _ M), (cm_bins _ _ M3).
        + exact Eb.
        + exact Eb3.
        + cbn [prepare with_core shape]. rewrite (cm_shape _ _ M). exact Hs.
        + cbn [prepare with_core shape]. rewrite (cm_shape _ _ M3). replace (@length num b) with (pf_bins f) by (symmetry; exact Lb). destruct ZO as [ZO0 ZO].
          apply (ZO (core (prepare (pf_offset f) T p3))); [apply good_core_of; [now split|exact ZO0]|reflexivity|]. cbn [core prepare with_core set_time_grid set_grid pc_final_time]. exact (nonzero_time _ _ _ _ _ _ HC NT HZ HT).
        + exact (eq_trans Ls (eq_sym Lb)).
        + exact BB.
      - rewrite Hgr. cbn. now rewrite (cm_bins _ _ M), (cm_bins _ _ M3).
      }
    (* parameters *)
    assert (HR : forall i r3, nth_error (c_params c3) i = Some r3 ->
       exists v w, gather m (pa_indices r3) = Ok w /\ py_nth w 0 = Ok v /\ nth_error (d_parameters d) i = Some (check_limits r3 v)).
    { intros i r3 E3.
      destruct (same_fix_sizes _ _ SF3) as [S1 LR3]. destruct (new_controls_sizes _ _ _ _ HC) as [S2 LR0].
      assert (Li : (i < length rl)%nat) by (rewrite <- LR0, <- LR3; apply nth_error_Some; congruence).
      destruct (nth_error rl i) as [f|] eqn:Ef; [|apply nth_error_None in Ef; lia].
      destruct (params_cfg _ _ _ _ _ _ _ _ HC PB R3 Ef E3) as (L3 & U3 & _ & _ & I3).
      assert (exists r, nth_error (c_params c) i = Some r) as (r & Er).
      { destruct (same_fix_sizes _ _ SF) as [_ LR]. destruct (nth_error (c_params c) i) eqn:E; [eauto|]. apply nth_error_None in E. lia. }
      destruct (params_cfg _ _ _ _ _ _ _ _ HC PB RC Ef Er) as (L0 & U0 & _ & _ & I0).
      assert (exists v, nth_error (d_parameters d) i = Some v) as (v & Ev).
      { unfold get_controls_lists in HG. rinv. cbn [d_parameters]. destruct (rmap_nth _ _ _ _ _ H1 Er) as (z & _ & Ez). exists (snd z). exact (map_nth_error snd i _ Ez). }
      destruct (delivered_param_nth _ _ _ _ _ _ HG Ev) as (r' & w & y & E' & Hw & Hy & -> & _).
      rewrite Er in E'; injection E' as <-.
      assert (V2 : nth_error (map pa_value (c_params c3)) i = Some (check_limits r y)).
      { rewrite VS. unfold update_base_controls in HU0. rinv. cbn [c_params].
        destruct (rmap_nth _ _ _ _ _ H1 Er) as (z & Hz & Ez). rewrite nth_error_map, Ez. cbn. rinv. unfold set_parameter in Hz. rinv. cbn. congruence. }
      rewrite nth_error_map, E3 in V2. cbn in V2. injection V2 as V2.
      assert (GN : nth_error m (list_sum (map pf_nctrl pl) + i) = Some (check_limits r y)).
      { unfold m. assert (LC : length (concat (map pf_offset pl)) = list_sum (map pf_nctrl pl)).
        { clear - FO. induction FO; [reflexivity|]. cbn [map concat]. rewrite app_length, IHFO, lsum_cons. congruence. }
        rewrite nth_error_app2 by lia. rewrite LC. replace (list_sum (map pf_nctrl pl) + i - list_sum (map pf_nctrl pl))%nat with i by lia.
        rewrite nth_error_map, E3. cbn. now rewrite V2. }
      exists (check_limits r y), [check_limits r y]. rewrite I3. repeat split.
      - unfold gather. cbn [rmap]. rewrite py_nth_nonneg, GN. reflexivity.
      - rewrite Ev. f_equal. symmetry. apply check_limits_idem; congruence. }
    (* assemble *)
    assert (exists c4 d4, get_controls_lists m c3 = Ok (c4, d4)) as (c4 & d4 & H4).
    { unfold get_controls_lists. rewrite T3, set_times_fixed by exact FX. cbn [rbind].
      destruct (rmap_total (fun p => v <-! gather m (pc_indices (core p)); t <-! time_of (c_times c0) (pc_time_name (core p)); get_pulse v t p) (c_pulses c3)) as (ps & ->).
      { intros i p3 E3. destruct (HP i p3 E3) as (p & T & a & v3 & _ & Q1 & Q2 & Q3 & _). rewrite Q1, Q2. cbn [rbind]. eauto. }
      destruct (rmap_total (fun r => v <-! gather m (pa_indices r); get_parameter v r) (c_params c3)) as (rs & ->).
      { intros i r3 E3. destruct (HR i r3 E3) as (v & w & Q1 & Hv & _). rewrite Q1. cbn [rbind]. unfold get_parameter, set_parameter. rewrite Hv. cbn [rbind]; eauto. }
      cbn. eauto. }
    exists c4. split; [reflexivity|]. rewrite H4. do 2 f_equal.
    assert (D : d_pulses d4 = d_pulses d /\ d_timegrids d4 = d_timegrids d /\ d_parameters d4 = d_parameters d).
    { unfold get_controls_lists in H4. rewrite T3, set_times_fixed in H4 by exact FX. cbn [rbind] in H4.
      apply rbind_ok in H4 as (ps & P4 & H4). apply rbind_ok in H4 as (rs & R4 & H4). injection H4 as <- <-. cbn [d_pulses d_timegrids d_parameters].
      assert (LD : length (d_pulses d) = length pl /\ length (d_timegrids d) = length pl /\ length (d_parameters d) = length rl).
      { unfold get_controls_lists in HG. rinv. cbn [d_pulses d_timegrids d_parameters].
        destruct (same_fix_sizes _ _ SF) as [_ LR]. destruct (new_controls_sizes _ _ _ _ HC) as [_ LR0].
        repeat split; etransitivity; try apply map_length; etransitivity; try (eapply rmap_length; eassumption); auto. congruence. }
      destruct LD as (LD1 & LD2 & LD3). assert (LPS := rmap_length _ _ _ P4). rewrite (LP _ R3) in LPS.
      assert (LRS := rmap_length _ _ _ R4).
      destruct (same_fix_sizes _ _ SF3) as [_ LR3]. destruct (new_controls_sizes _ _ _ _ HC) as [_ LR0].
      repeat split; apply list_ext; intros i; rewrite nth_error_map.
      - destruct (nth_error ps i) as [z|] eqn:Ez.
        + destruct (rmap_nth_r _ _ _ _ _ P4 Ez) as (p3 & Hz & E3).
          destruct (HP i p3 E3) as (p & T & a & v3 & _ & Hv & HT & Hg & Ha & _).
          rewrite Hv, HT in Hz. cbn [rbind] in Hz. rewrite Hg in Hz. injection Hz as <-. cbn. now rewrite Ha.
        + apply nth_error_None in Ez. symmetry. cbn [option_map]. apply nth_error_None. lia.
      - destruct (nth_error ps i) as [z|] eqn:Ez.
        + destruct (rmap_nth_r _ _ _ _ _ P4 Ez) as (p3 & Hz & E3).
          destruct (HP i p3 E3) as (p & T & a & v3 & _ & Hv & HT & Hg & _ & Ha).
          rewrite Hv, HT in Hz. cbn [rbind] in Hz. rewrite Hg in Hz. injection Hz as <-. cbn [option_map fst]. now rewrite Ha.
        + apply nth_error_None in Ez. symmetry. cbn [option_map]. apply nth_error_None. lia.
      - destruct (nth_error rs i) as [z|] eqn:Ez.
        + destruct (rmap_nth_r _ _ _ _ _ R4 Ez) as (r3 & Hz & E3).
          destruct (HR i r3 E3) as (v & w & Hw & Hv & Ha).
          rewrite Hw in Hz. cbn [rbind] in Hz. unfold get_parameter, set_parameter in Hz. rewrite Hv in Hz. cbn [rbind] in Hz. injection Hz as <-. cbn [option_map snd]. now rewrite Ha.
        + apply nth_error_None in Ez. symmetry. cbn [option_map]. apply nth_error_None. lia. }
    destruct D as (D1 & D2 & D3). destruct d, d4. cbn in *. congruence.
  Qed.
End Survive.
