(** Durations and time grids. *)
From Coq Require Import String ZArith List Bool Lia Reals Lra.
From Verif Require Import Num NumFacts Py PyFacts ModelPulse ModelControls SpecControls ProofControls ProofLimits ProofShrink.
Import ListNotations.
Open Scope list_scope.

Section Times.
  Context {N : Num}.

  (** a time object still carries its configuration *)
  Record tmatch (f : time_cfg) (t : timep) : Prop := {
    tm_time : ti_time t = tf_value f;
    tm_var : ti_variation t = (tf_upper f - tf_lower f)%num;
    tm_alpha : match ti_alpha t with
               | None => tf_opt f = false
               | Some a => tf_opt f = true /\
                   pa_lower a = ((tf_lower f - tf_value f) / (tf_upper f - tf_lower f))%num /\
                   pa_upper a = ((tf_upper f - tf_value f) / (tf_upper f - tf_lower f))%num /\
                   pa_indices a = index_list (tf_map_index f) 1 /\
                   (pa_value a = of_Z 0 \/ exists x, pa_value a = check_limits a x)
               end
  }.

  Definition tslot (name : string) (f : time_cfg) (d : dict timep) : Prop :=
    exists t, dget d name = Some t /\ tmatch f t.

  Lemma new_time_match f t : new_time f = Ok t -> tmatch f t.
  Proof.
    unfold new_time. destruct (tf_opt f) eqn:E.
    - destruct (neqb _ _); [discriminate|]. intros H; injection H as <-. constructor; cbn; auto.
      repeat split; auto.
    - intros H; injection H as <-. constructor; cbn; auto.
  Qed.

  Lemma new_times_dget l d d' name :
    new_times l d = Ok d' ->
    match lookup_time l name with
    | Some f => tslot name f d'
    | None => dget d' name = dget d name
    end.
  Proof.
    unfold lookup_time. revert d. induction l as [|f l IH]; intros d H; cbn in H.
    - cbn. now injection H as <-.
    - apply rbind_ok in H as (t & Ht & H). specialize (IH _ H).
      cbn [rev]. 
      assert (FA : forall (P : time_cfg -> bool) a b, find P (a ++ b) = match find P a with Some x => Some x | None => find P b end).
      { intros P a b; induction a as [|y a IHa]; cbn; [reflexivity|]. destruct (P y); auto. }
      rewrite FA. destruct (find _ (rev l)); [assumption|]. cbn.
      destruct (String.eqb_spec name (tf_name f)) as [->|NE].
      + rewrite dget_dset_same in IH. exists t; split; [assumption|]. now apply new_time_match.
      + now rewrite dget_dset_other in IH by congruence.
  Qed.

  Lemma new_controls_tslot pl tl rl c name f :
    new_controls pl tl rl = Ok c -> lookup_time tl name = Some f -> tslot name f (c_times c).
  Proof.
    intros H L. unfold new_controls in H. rinv. cbn.
    match goal with H : new_times tl [] = Ok _ |- _ => pose proof (new_times_dget _ _ _ name H) as K end.
    now rewrite L in K.
  Qed.

  Lemma set_times_dget x d d' name t :
    set_times x d = Ok d' -> dget d name = Some t ->
    exists t', dget d' name = Some t' /\ set_time_from x t = Ok t'.
  Proof.
    unfold set_times. revert d'. induction d as [|[k u] d IH]; intros d' H E; cbn in *; [discriminate|].
    rinv. cbn. destruct (String.eqb_spec name k).
    - injection E as ->. eauto.
    - eauto.
  Qed.

  Lemma set_time_from_match x f t t' : tmatch f t -> set_time_from x t = Ok t' -> tmatch f t'.
  Proof.
    intros [A B C] H. unfold set_time_from in H. destruct (ti_alpha t) as [a|] eqn:E.
    - unfold set_parameter in H. rinv. constructor; cbn; auto. destruct C as (C1 & C2 & C3 & C4 & _). repeat split; auto.
      right. eexists. reflexivity.
    - injection H as <-. constructor; auto. now rewrite E.
  Qed.

  Lemma set_times_tslot x d d' name f : set_times x d = Ok d' -> tslot name f d -> tslot name f d'.
  Proof.
    intros H (t & E & M). destruct (set_times_dget _ _ _ _ _ H E) as (t' & E' & Ht).
    exists t'; split; [assumption|]. eapply set_time_from_match; eauto.
  Qed.

  Lemma select_from_times rs idx pos c c' pos' :
    select_basis_from rs idx pos c = Ok (c', pos') -> c_times c' = c_times c.
  Proof.
    revert pos c. induction idx as [|j idx IH]; intros pos c H; cbn in H; [now rinv|].
    destruct (nth_error (c_pulses c) j) as [q|]; [|now rinv].
    destruct (pc_dist (core q)) as [[[k a] b]|]; [|now apply (IH pos c)].
    apply rbind_ok in H as (w & Hw & H). apply IH in H. rewrite H.
    unfold update_control_parameter_indexes. destruct (reindex_pulses _ _). reflexivity.
  Qed.

  Lemma reachable_tslot c0 c name f : reachable c0 c -> tslot name f (c_times c0) -> tslot name f (c_times c).
  Proof.
    intros R; induction R; intros S; auto.
    - specialize (IHR S). unfold get_controls_lists in H. rinv. cbn. eapply set_times_tslot; eauto.
    - specialize (IHR S). unfold get_bare_controls_lists in H. rinv. cbn. assumption.
    - specialize (IHR S). unfold update_base_controls in H. rinv. cbn. eapply set_times_tslot; eauto.
    - specialize (IHR S). now rewrite (select_from_times _ _ _ _ _ _ H).
  Qed.

  Lemma delivered_grid_nth x c c' d i g :
    get_controls_lists x c = Ok (c', d) -> nth_error (d_timegrids d) i = Some g ->
    exists p t, nth_error (c_pulses c) i = Some p /\ dget (c_times c') (pc_time_name (core p)) = Some t /\
        g = linspace0 (get_time t) (pc_bins (core p)).
  Proof.
    intros H E. unfold get_controls_lists in H. rinv. cbn [d_timegrids c_times] in *.
    rewrite nth_error_map in E.
    match goal with H : rmap _ (c_pulses c) = Ok ?l |- _ => destruct (nth_error l i) as [[p' a']|] eqn:En;
      [destruct (rmap_nth_r _ _ _ _ _ H En) as (p & Hp & Ep)|discriminate] end.
    cbn in E; injection E as <-. rinv. unfold get_pulse in Hp. rinv.
    match goal with H : time_of _ _ = Ok _ |- _ => unfold time_of in H; destruct (dget _ _) as [t|] eqn:Et; [|discriminate]; injection H as <- end.
    exists p, t. auto.
  Qed.
End Times.

Section RealTimes.
  Open Scope R_scope.

  Lemma get_time_range (f : time_cfg (N := Rnum)) (t : timep) :
    tmatch f t ->
    (tf_opt f = false -> get_time t = tf_value f) /\
    (tf_opt f = true -> tf_lower f < tf_upper f -> tf_lower f <= tf_value f <= tf_upper f ->
       tf_lower f <= get_time t <= tf_upper f).
  Proof.
    intros [A B C]. unfold get_time. destruct (ti_alpha t) as [a|].
    - destruct C as (C1 & C2 & C3 & _ & C4). split; [congruence|]. intros _ LU VI.
      set (L := tf_lower f) in *. set (U := tf_upper f) in *. set (V := tf_value f) in *.
      rewrite A, B. cbn in C2, C3 |- *.
      assert (D : 0 < U - L) by lra.
      assert (R0 : (L - V) / (U - L) <= pa_value a <= (U - V) / (U - L)).
      { assert (L0 : (L - V) / (U - L) <= 0).
        { apply Rmult_le_reg_r with (U - L); [lra|]. unfold Rdiv. rewrite Rmult_assoc, Rinv_l by lra. lra. }
        assert (U0 : 0 <= (U - V) / (U - L)).
        { apply Rmult_le_reg_r with (U - L); [lra|]. unfold Rdiv. rewrite Rmult_assoc, Rinv_l by lra. lra. }
        destruct C4 as [->|(x & ->)]; [cbn; lra|].
        unfold check_limits. rewrite C2, C3, R_npmin, R_npmax.
        pose proof (Rmax_l ((L - V) / (U - L)) x). split; [|apply Rmin_r].
        apply Rmin_glb; lra. }
      destruct R0 as [R1 R2].
      apply Rmult_le_compat_r with (r := U - L) in R1; [|lra].
      apply Rmult_le_compat_r with (r := U - L) in R2; [|lra].
      unfold Rdiv in R1, R2. rewrite Rmult_assoc, Rinv_l in R1 by lra. rewrite Rmult_assoc, Rinv_l in R2 by lra. lra.
    - split; [auto|congruence].
  Qed.

  Lemma linspace0_spaced (T : R) (n : nat) : equally_spaced T n (linspace0 (N := Rnum) T n).
  Proof.
    split; [apply (linspace0_length (N := Rnum))|]. intros j Hj.
    destruct n as [|[|n]]; [lia| |].
    - assert (j = 0%nat) by lia. subst. cbn. f_equal. lra.
    - cbn [Nat.eqb]. unfold linspace0.
      replace (S (S n) - 1)%nat with (S n) by lia.
      assert (S0 : INR (S n) <> 0) by (apply not_0_INR; lia).
      assert (DV : of_Z (Num := Rnum) (Z.of_nat (S n)) = INR (S n)) by (cbn [of_Z Rnum]; now rewrite <- INR_IZR_INZ).
      rewrite DV.
      destruct (Nat.eq_dec j (S n)) as [->|NE].
      + rewrite set_nth_same.
        2:{ destruct (neqb _ _); rewrite !map_length, seq_length; lia. }
        f_equal. field. exact S0.
      + rewrite set_nth_other by congruence.
        destruct (neqb _ _) eqn:E; rewrite !nth_error_map, nth_error_seq_lt by lia; cbn [option_map]; apply (f_equal (@Some R));
          cbn [of_Z nsub ndiv nmul nadd Rnum] in *; rewrite <- INR_IZR_INZ; cbn [Nat.add]; change (@num Rnum) with R; field; exact S0.
  Qed.
End RealTimes.
