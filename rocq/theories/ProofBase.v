(** Base pulses, parameters, start point, independence of entries, end of a super-iteration. *)
From Coq Require Import String ZArith List Bool Lia Reals Lra.
From Verif Require Import Num NumFacts Py PyFacts ModelPulse ModelControls SpecControls ProofControls ProofLimits ProofShrink
  ProofTimes ProofIndex ProofPipeline ProofEss.
Import ListNotations.
Open Scope list_scope.

Section Base.
  Context {N : Num}.

  (** ** effect of the operations on the base pulses *)
  Definition bases (c : controls) : list arr := map (fun p => pc_base (core p)) (c_pulses c).
  Lemma base_of_bases c i : base_of c i = nth_error (bases c) i.
  Proof. unfold base_of, bases. now rewrite nth_error_map. Qed.

  Lemma get_controls_bases x c c' d : get_controls_lists x c = Ok (c', d) -> bases c' = bases c.
  Proof.
    intros H. apply get_controls_ess_r in H. apply (f_equal (fun c => map (fun p => pc_base (core p)) (c_pulses c))) in H.
    unfold ess in H. cbn in H. rewrite !map_map in H. exact H.
  Qed.
  Lemma get_bare_bases x c c' d : get_bare_controls_lists x c = Ok (c', d) -> bases c' = bases c.
  Proof.
    intros H. unfold get_bare_controls_lists in H. rinv. unfold bases; cbn. rewrite map_map.
    eapply rmap_map_eq; [eassumption|]. intros a b _ E. cbn in E. rinv. unfold get_bare_pulse in E. rinv. reflexivity.
  Qed.
  Lemma reindex_bases m ps : map (fun p => pc_base (core p)) (fst (reindex_pulses m ps)) = map (fun p => pc_base (core p)) ps.
  Proof.
    revert m; induction ps as [|p ps IH]; intros m; [reflexivity|]. cbn [reindex_pulses map].
    specialize (IH (pc_last (core (set_control_parameters_list m p)))).
    destruct (reindex_pulses _ ps); cbn in *. now rewrite IH.
  Qed.
  Lemma reindex_plain m ps : Forall plain ps -> Forall plain (fst (reindex_pulses m ps)).
  Proof.
    intros P; revert m; induction P as [|p ps P1 P2 IH]; intros m; cbn [reindex_pulses]; [constructor|].
    specialize (IH (pc_last (core (set_control_parameters_list m p)))).
    destruct (reindex_pulses _ ps). constructor; [exact P1|exact IH].
  Qed.
  Lemma select_bases rs idx pos c c' pos' : Forall plain (c_pulses c) ->
    select_basis_from rs idx pos c = Ok (c', pos') -> bases c' = bases c /\ Forall plain (c_pulses c').
  Proof.
    revert pos c. induction idx as [|j idx IH]; intros pos c PL H; cbn in H; [rinv; auto|].
    destruct (nth_error (c_pulses c) j) as [q|] eqn:Ej; [|rinv; auto].
    destruct (pc_dist (core q)) as [[[k a] b]|]; [|now apply (IH pos c)].
    apply rbind_ok in H as (w & Hw & H).
    pose proof (Forall_nth_error _ _ _ _ PL Ej) as PQ.
    match type of H with select_basis_from _ _ _ (update_control_parameter_indexes ?x) = _ => set (c1 := x) in * end.
    assert (B1 : bases (update_control_parameter_indexes c1) = bases c).
    { unfold update_control_parameter_indexes. pose proof (reindex_bases (-1) (c_pulses c1)) as RB.
      destruct (reindex_pulses (-1) (c_pulses c1)) as [ps m]. unfold bases. cbn in *. rewrite RB. unfold c1; cbn.
      apply (map_set_nth_same _ _ _ q); [assumption|]. cbn. now rewrite PQ. }
    assert (P1 : Forall plain (c_pulses (update_control_parameter_indexes c1))).
    { unfold update_control_parameter_indexes.
      assert (P0 : Forall plain (c_pulses c1)).
      { unfold c1; cbn. apply Forall_forall. intros r Hr. apply In_nth_error in Hr as (n & Hn).
        destruct (Nat.eq_dec j n) as [->|NE].
        - rewrite set_nth_same in Hn by (apply nth_error_Some; congruence). injection Hn as <-. exact PQ.
        - rewrite set_nth_other in Hn by assumption. eapply Forall_nth_error; eauto. }
      pose proof (reindex_plain (-1) _ P0) as G. destruct (reindex_pulses (-1) (c_pulses c1)). exact G. }
    destruct (IH _ _ P1 H) as [E1 E2]. split; [congruence|assumption].
  Qed.

  (** what an accepted vector does to the base pulse of slot [i] *)
  Lemma update_base_base x c c' i p' :
    update_base_controls x c = Ok c' -> nth_error (c_pulses c') i = Some p' ->
    exists p v T s, nth_error (c_pulses c) i = Some p /\ gather x (pc_indices (core p)) = Ok v /\
      time_of (c_times c') (pc_time_name (core p)) = Ok T /\
      shape p (core (prepare v T p)) = Ok s /\
      if pc_overwrite (core p) then p' = with_core (set_base s (core (prepare v T p))) (prepare v T p)
      else exists b, aiadd (pc_base (core p)) s = Ok b /\ p' = with_core (set_base b (core (prepare v T p))) (prepare v T p).
  Proof.
    intros H E. unfold update_base_controls in H. rinv. cbn [c_pulses c_times] in *.
    match goal with H : rmap _ (c_pulses c) = Ok ?l |- _ => destruct (rmap_nth_r _ _ _ _ _ H E) as (p & Hp & Ep) end.
    rinv. unfold set_base_pulse in Hp. rinv.
    match goal with H1 : gather _ _ = Ok ?v, H2 : time_of _ _ = Ok ?T, H3 : shape _ _ = Ok ?s |- _ => exists p, v, T, s end.
    repeat split; auto.
    change (pc_overwrite (core (prepare x1 x2 p))) with (pc_overwrite (core p)) in Hp || idtac.
    match goal with |- context [if ?b then _ else _] => destruct b eqn:Eo end;
      match type of Hp with context [pc_overwrite ?z] => change (pc_overwrite z) with (pc_overwrite (core p)) in Hp; rewrite Eo in Hp end; rinv; eauto.
  Qed.

  (** the bare update read back after the acceptance is the one that was added *)
  Lemma bare_after_update x c c2 c3 u i p' a :
    update_base_controls x c = Ok c2 -> get_bare_controls_lists x c2 = Ok (c3, u) ->
    nth_error (c_pulses c2) i = Some p' -> nth_error u i = Some a ->
    exists v T, gather x (pc_indices (core p')) = Ok v /\ time_of (c_times c2) (pc_time_name (core p')) = Ok T /\
      shape p' (core (prepare v T p')) = Ok a.
  Proof.
    intros H1 H2 Ep Ea. unfold get_bare_controls_lists in H2. rinv.
    rewrite nth_error_map in Ea.
    match goal with H : rmap _ (c_pulses c2) = Ok ?l |- _ =>
      destruct (rmap_nth _ _ _ _ _ H Ep) as ([q b] & Hq & Eq) end.
    rewrite Eq in Ea. cbn in Ea. injection Ea as <-. rinv. unfold get_bare_pulse in Hq. rinv. eauto 6.
  Qed.


  Lemma update_step f x c c2 c3 u i a :
    slot i f c -> ignores_base f ->
    update_base_controls x c = Ok c2 -> get_bare_controls_lists x c2 = Ok (c3, u) -> nth_error u i = Some a ->
    exists b b', base_of c i = Some b /\ base_of c2 i = Some b' /\
      if pf_overwrite f then b' = a else aiadd b a = Ok b'.
  Proof.
    intros (p & Ep & M) IB H1 H2 Ea.
    assert (exists p', nth_error (c_pulses c2) i = Some p') as (p' & Ep').
    { unfold update_base_controls in H1. rinv. cbn.
      match goal with H : rmap _ (c_pulses c) = Ok ?l |- _ => destruct (rmap_nth _ _ _ _ _ H Ep) as (q & _ & Eq) end. eauto. }
    destruct (update_base_base _ _ _ _ _ H1 Ep') as (p0 & v & T & s & E0 & G & TT & S & K).
    rewrite Ep in E0; injection E0 as <-.
    destruct (bare_after_update _ _ _ _ _ _ _ _ H1 H2 Ep' Ea) as (v' & T' & G' & TT' & S').
    assert (a = s) as ->.
    { rewrite (cm_overwrite _ _ M) in K. rewrite (cm_shape _ _ M) in S.
      destruct (pf_overwrite f).
      - subst p'. change (gather x (pc_indices (core p)) = Ok v') in G'; change (time_of (c_times c2) (pc_time_name (core p)) = Ok T') in TT'; rewrite G in G'. rewrite TT in TT'. injection G' as <-. injection TT' as <-.
        cbn [shape with_core prepare] in S'. rewrite (cm_shape _ _ M) in S'.
        assert (X : core (prepare v T (with_core (set_base s (core (prepare v T p))) (prepare v T p))) = set_base s (core (prepare v T p))) by reflexivity.
        rewrite X, IB in S'. congruence.
      - destruct K as (b & _ & ->). change (gather x (pc_indices (core p)) = Ok v') in G'; change (time_of (c_times c2) (pc_time_name (core p)) = Ok T') in TT'; rewrite G in G'. rewrite TT in TT'. injection G' as <-. injection TT' as <-.
        cbn [shape with_core prepare] in S'. rewrite (cm_shape _ _ M) in S'.
        assert (X : core (prepare v T (with_core (set_base b (core (prepare v T p))) (prepare v T p))) = set_base b (core (prepare v T p))) by reflexivity.
        rewrite X, IB in S'. congruence. }
    unfold base_of. rewrite Ep, Ep'. cbn [option_map].
    rewrite (cm_overwrite _ _ M) in K. destruct (pf_overwrite f).
    - subst p'. eauto.
    - destruct K as (b & HB & ->). eauto.
  Qed.

  Lemma aiadd_same (b s b' : list num) : length s = length b -> aiadd (Ar b) (Ar s) = Ok (Ar b') -> b' = map2 nadd b s.
  Proof.
    intros L H. unfold aiadd in H. rewrite abin_same in H by auto. cbn [rbind] in H.
    rewrite map2_length, L, Nat.min_id, Nat.eqb_refl in H. now injection H as <-.
  Qed.

  Lemma aiadd_length (b : list num) s r : aiadd (Ar b) s = Ok r -> exists l, r = Ar l /\ length l = length b.
  Proof.
    unfold aiadd. intros H. apply rbind_ok in H as (q & H1 & H2).
    destruct q as [x|m].
    - destruct s as [x0|m0]; cbn in H1; [discriminate|].
      destruct (Nat.eqb (length b) (length m0)); [discriminate|]. destruct b as [|? [|]]; try discriminate; destruct m0 as [|? [|]]; discriminate.
    - destruct (Nat.eqb_spec (length m) (length b)); [|discriminate]. injection H2 as <-. eauto.
  Qed.

  (** the operations other than update_base_controls *)
  Lemma accepted_reachable c us c' : accepted c us c' -> reachable c c'.
  Proof.
    induction 1; [apply reach_refl|eapply reach_get; eauto|eapply reach_bare; eauto|eapply reach_select; eauto|eapply reach_update; eauto].
  Qed.

  Lemma accepted_bases pl tl rl c0 us c i f :
    new_controls pl tl rl = Ok c0 -> Forall plain_basis pl -> nth_error pl i = Some f ->
    ignores_base f -> pf_overwrite f = false -> accepted c0 us c ->
    (forall u, In u us -> exists s, nth_error u i = Some (Ar s) /\ length s = pf_bins f) ->
    base_of c i = Some (Ar (fold_left (fun b u => match nth_error u i with Some (Ar s) => map2 nadd b s | _ => b end) us
                                      (repeat (of_Z 0) (pf_bins f)))) /\
    length (fold_left (fun b u => match nth_error u i with Some (Ar s) => map2 nadd b s | _ => b end) us
                                      (repeat (of_Z 0) (pf_bins f))) = pf_bins f.
  Proof.
    intros HC PB Ef IB OV A. 
    assert (WI := new_controls_wi _ _ _ _ HC PB).
    assert (S0 := new_controls_slot _ _ _ _ _ _ HC Ef).
    assert (PBf : plain_basis f) by (eapply Forall_nth_error; eauto).
    induction A; intros U.
    - cbn. split; [|apply repeat_length]. destruct S0 as (p & Ep & M).
      unfold base_of. rewrite Ep. cbn. unfold new_controls in HC. rinv. cbn in Ep.
      match goal with H : new_pulses _ _ = Ok _ |- _ => revert H end. clear - Ep Ef. intros H. revert H Ep Ef.
      generalize (-1)%Z. revert i l. induction pl as [|g pl IH]; intros i l m H Ep Ef; [destruct i; discriminate|].
      cbn in H. rinv. destruct i; cbn in Ep, Ef.
      + injection Ep as ->. injection Ef as ->. unfold new_pulse in H0. rinv. reflexivity.
      + eauto.
    - rewrite base_of_bases, (get_controls_bases _ _ _ _ H), <- base_of_bases. auto.
    - rewrite base_of_bases, (get_bare_bases _ _ _ _ H), <- base_of_bases. auto.
    - assert (W1 : well_indexed c1) by (eapply same_fix_wi; [eapply reachable_fix; [|eapply accepted_reachable]; eauto|assumption]).
      rewrite base_of_bases. destruct (select_bases _ _ _ _ _ _ (proj1 W1) H) as [-> _]. rewrite <- base_of_bases. auto.
    - destruct (U u) as (s & Es & Ls); [apply in_or_app; right; now left|].
      assert (R1 := accepted_reachable _ _ _ A).
      pose proof (reachable_slot _ _ _ _ R1 PBf S0) as S1.
      destruct (update_step _ _ _ _ _ _ _ _ S1 IB H H0 Es) as (b & b' & B1 & B2 & K).
      rewrite OV in K. destruct IHA as [IH1 IH2]; auto; [intros; apply U; apply in_or_app; now left|].
      rewrite B1 in IH1. injection IH1 as ->.
      rewrite B2, fold_left_app. cbn [fold_left]. rewrite Es.
      destruct (aiadd_length _ _ _ K) as (l & -> & Ll).
      apply aiadd_same in K as ->; [|congruence]. split; [reflexivity|]. rewrite map2_length. lia.
  Qed.

  (** ** parameters *)
  Lemma delivered_param_nth x c c' d i v :
    get_controls_lists x c = Ok (c', d) -> nth_error (d_parameters d) i = Some v ->
    exists r w y, nth_error (c_params c) i = Some r /\ gather x (pa_indices r) = Ok w /\ py_nth w 0 = Ok y /\
        v = check_limits r y /\ nth_error (c_params c') i = Some (set_value y r).
  Proof.
    intros H E. unfold get_controls_lists in H. rinv. cbn [d_parameters c_params] in *.
    rewrite nth_error_map in E.
    match goal with H : rmap _ (c_params c) = Ok ?l |- _ => destruct (nth_error l i) as [[p' a']|] eqn:En;
      [destruct (rmap_nth_r _ _ _ _ _ H En) as (p & Hp & Ep)|discriminate] end.
    cbn in E; injection E as ->. unfold get_parameter, set_parameter in Hp. rinv.
    rewrite nth_error_map, En. cbn. eauto 9.
  Qed.

  Lemma params_cfg pl tl rl c0 c i f r :
    new_controls pl tl rl = Ok c0 -> Forall plain_basis pl -> reachable c0 c ->
    nth_error rl i = Some f -> nth_error (c_params c) i = Some r ->
    pa_lower r = rf_lower f /\ pa_upper r = rf_upper f /\ pa_ampl r = rf_ampl f /\ pa_name r = rf_name f /\
    pa_indices r = [Z.of_nat (list_sum (map pf_nctrl pl) + i)].
  Proof.
    intros HC PB R Ef Er. assert (WI := new_controls_wi _ _ _ _ HC PB).
    assert (SF := reachable_fix _ _ WI R). assert (W := same_fix_wi _ _ SF WI).
    rewrite (wi_param_indices _ _ _ W Er).
    destruct (same_fix_sizes _ _ SF) as [-> _]. destruct (new_controls_sizes _ _ _ _ HC) as [-> _].
    destruct SF as [_ SF].
    assert (E0 : nth_error (map rfix (c_params c)) i = Some (rfix r)) by (rewrite nth_error_map, Er; reflexivity).
    rewrite SF in E0. unfold new_controls in HC. rinv. cbn in E0.
    pose proof (new_params_cfg z rl) as C.
    assert (E1 : nth_error (map (fun f => (rf_name f, rf_lower f, rf_upper f, rf_ampl f)) rl) i = Some (rf_name f, rf_lower f, rf_upper f, rf_ampl f))
      by (rewrite nth_error_map, Ef; reflexivity).
    rewrite <- C, nth_error_map in E1. rewrite nth_error_map in E0.
    destruct (nth_error (new_params z rl) i) as [q|]; [|discriminate]. cbn in E0, E1.
    injection E0 as A1 A2 A3 A4 A5 A6. injection E1 as B1 B2 B3 B4. repeat split; congruence.
  Qed.

  Lemma gather_one (x : list num) n w y : gather x [Z.of_nat n] = Ok w -> py_nth w 0 = Ok y -> nth_error x n = Some y.
  Proof.
    unfold gather. cbn [rmap]. intros H E. rinv. rewrite py_nth_nonneg in H0. destruct (nth_error x n); [|discriminate].
    injection H0 as <-. cbn in E. now injection E as ->.
  Qed.

  Lemma delivered_parameter pl tl rl c0 c x c' d i f v :
    new_controls pl tl rl = Ok c0 -> Forall plain_basis pl -> reachable c0 c ->
    get_controls_lists x c = Ok (c', d) -> nth_error rl i = Some f -> nth_error (d_parameters d) i = Some v ->
    exists y, nth_error x (list_sum (map pf_nctrl pl) + i) = Some y /\
      v = npmin (npmax (rf_lower f) y) (rf_upper f) /\
      option_map pa_value (nth_error (c_params c') i) = Some v.
  Proof.
    intros HC PB R HG Ef Ev.
    destruct (delivered_param_nth _ _ _ _ _ _ HG Ev) as (r & w & y & Er & Hw & Hy & -> & Er').
    destruct (params_cfg _ _ _ _ _ _ _ _ HC PB R Ef Er) as (L & U & _ & _ & I).
    rewrite I in Hw. exists y. split; [eapply gather_one; eauto|]. split.
    - unfold check_limits. now rewrite L, U.
    - rewrite Er'. reflexivity.
  Qed.

  (** ** start point *)
  Lemma pulse_lists pl tl rl c0 c : new_controls pl tl rl = Ok c0 -> Forall plain_basis pl -> reachable c0 c ->
    map (fun p => pc_offset (core p)) (c_pulses c) = map pf_offset pl /\
    map (fun p => pc_scale (core p)) (c_pulses c) = map pf_scale pl /\
    map (fun p => pc_nctrl (core p)) (c_pulses c) = map pf_nctrl pl /\
    map pa_ampl (c_params c) = map rf_ampl rl.
  Proof.
    intros HC PB R. assert (WI := new_controls_wi _ _ _ _ HC PB).
    destruct (reachable_fix _ _ WI R) as [F1 F2].
    assert (G1 := f_equal (map (fun x => snd (fst x))) F1).
    assert (G2 := f_equal (map (fun x => snd x)) F1).
    assert (G3 := f_equal (map (fun x => fst (fst (fst (fst (fst x)))))) F1).
    assert (G4 := f_equal (map (fun x => snd (fst (fst x)))) F2).
    rewrite !map_map in G1, G2, G3, G4. cbn [pfix rfix fst snd] in *.
    unfold new_controls in HC. rinv.
    match goal with H : new_pulses _ _ = Ok _ |- _ => destruct (new_pulses_chained _ _ _ _ H) as (_ & _ & E1 & E2 & E3 & _) end.
    cbn in *. repeat split.
    - now rewrite G1.
    - now rewrite G2.
    - now rewrite G3.
    - etransitivity; [exact G4|]. pose proof (new_params_cfg z rl) as C. apply (f_equal (map (fun x => snd x))) in C. rewrite !map_map in C. exact C.
  Qed.

  Lemma lengths_of_lists (g : pulse -> list num) (h : pulse_cfg -> list num) ps pl :
    map g ps = map h pl -> map (fun p => pc_nctrl (core p)) ps = map pf_nctrl pl ->
    Forall (fun f => length (h f) = pf_nctrl f) pl ->
    forall p, In p ps -> length (g p) = pc_nctrl (core p).
  Proof.
    revert pl; induction ps as [|q ps IH]; intros [|f pl] E1 E2 F p; cbn in *; try discriminate; [tauto|].
    injection E1 as E1 E1'. injection E2 as E2 E2'. inversion F; subst.
    intros [->|Hp]; [congruence|eauto].
  Qed.

  Lemma mean_value pl tl rl c0 c :
    new_controls pl tl rl = Ok c0 -> Forall plain_basis pl -> reachable c0 c ->
    Forall (fun f => length (pf_offset f) = pf_nctrl f) pl ->
    get_mean_value c = Ok (concat (map pf_offset pl) ++ map pa_value (c_params c)).
  Proof.
    intros HC PB R F. destruct (pulse_lists _ _ _ _ _ HC PB R) as (E1 & _ & E3 & _).
    assert (WI := new_controls_wi _ _ _ _ HC PB).
    unfold get_mean_value. rewrite (scatter_controls (fun p => pc_offset (core p)) pa_value).
    - now rewrite E1.
    - eapply same_fix_wi; [eapply reachable_fix|]; eauto.
    - eapply lengths_of_lists; eauto.
  Qed.

  Lemma sigma_variation pl tl rl c0 c :
    new_controls pl tl rl = Ok c0 -> Forall plain_basis pl -> reachable c0 c ->
    Forall (fun f => length (pf_scale f) = pf_nctrl f) pl -> no_optimised_time tl ->
    get_sigma_variation c = Ok (concat (map pf_scale pl) ++ map rf_ampl rl).
  Proof.
    intros HC PB R F NO. destruct (pulse_lists _ _ _ _ _ HC PB R) as (_ & E2 & E3 & E4).
    assert (WI := new_controls_wi _ _ _ _ HC PB).
    assert (FX := new_controls_fixed _ _ _ _ NO HC).
    assert (T := reachable_times_fixed _ _ FX R).
    unfold get_sigma_variation.
    assert (optimised_times c = []) as ->.
    { unfold optimised_times. rewrite T. clear - FX. unfold fixed_times in FX. revert FX.
      induction (c_times c0) as [|[k t] d IH]; intros FX; [reflexivity|].
      cbn. rewrite (FX k t (or_introl eq_refl)). cbn. apply IH. intros k0 t0 K0. apply (FX k0 t0). now right. }
    cbn [map]. rewrite app_nil_r, (scatter_controls (fun p => pc_scale (core p)) pa_ampl).
    - now rewrite E2, E4.
    - eapply same_fix_wi; [eapply reachable_fix|]; eauto.
    - eapply lengths_of_lists; eauto.
  Qed.

  (** with optimised durations: all of them write their width into the entry their index names *)
  Lemma scatter_all_app b1 b2 (v : list num) : scatter_all (b1 ++ b2) v = (w <-! scatter_all b1 v; scatter_all b2 w).
  Proof. revert v; induction b1 as [|[i x] b1 IH]; intros v; cbn; [reflexivity|]. destruct (scatter v i x); cbn; auto. Qed.

  Lemma scatter_zero (v : list num) a : v <> [] -> scatter v [0%Z] [a] = Ok (set_nth v 0 a).
  Proof.
    intros H. unfold scatter. cbn [length Nat.eqb scatter_list].
    change 0%Z with (Z.of_nat 0). rewrite (py_set_nonneg v 0 a) by (destruct v; [congruence|cbn; lia]). reflexivity.
  Qed.

  Lemma sigma_all_zero (ts : list param) (v : list num) :
    v <> [] -> (forall a, In a ts -> pa_indices a = [0%Z]) ->
    exists w, scatter_all (map (fun p => (pa_indices p, [pa_ampl p])) ts) v = Ok w /\ length w = length v /\
      (forall j, j <> 0%nat -> nth_error w j = nth_error v j) /\
      (ts <> [] -> exists a, In a ts /\ nth_error w 0 = Some (pa_ampl a)).
  Proof.
    revert v; induction ts as [|t ts IH]; intros v NE H; cbn [map scatter_all].
    - exists v. repeat split; auto. congruence.
    - rewrite (H t (or_introl eq_refl)), scatter_zero by assumption. cbn [rbind].
      destruct (IH (set_nth v 0 (pa_ampl t))) as (w & E & L & J & K).
      + destruct v; [congruence|discriminate].
      + intros; apply H; now right.
      + exists w. rewrite set_nth_length in L. repeat split; auto.
        * intros j Hj. rewrite J by assumption. apply set_nth_other. auto.
        * intros _. destruct ts as [|t2 ts].
          { cbn in E. injection E as <-. exists t. split; [now left|]. destruct v; [congruence|reflexivity]. }
          { destruct K as (a & Ha & Hn); [discriminate|]. exists a. split; [now right|assumption]. }
  Qed.
End Base.
