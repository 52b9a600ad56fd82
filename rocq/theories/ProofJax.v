(** Lemmas on the jax variants of the controls. *)
From Coq Require Import String ZArith List Bool Lia.
From Verif Require Import Num Py PyFacts ModelPulse ModelControls ModelJax SpecJax SpecControls ProofTotal ProofEss.
Import ListNotations.
Open Scope list_scope.

Section Jax.
  Context {N : Num}.

  Lemma nth_error_skipn_add {A} (l : list A) m n : nth_error (skipn m l) n = nth_error l (m + n).
  Proof. revert l. induction m as [|m IH]; intros [|a l]; cbn; [reflexivity|reflexivity|now destruct n|apply IH]. Qed.
  (** a pulse that can be written into a row with [n] places *)
  Definition fits (n : nat) (a : arr) : Prop := match a with Sc _ => True | Ar l => length l = 1 \/ length l = n end.

  Lemma fill_ok n a : fits n a -> exists w, fill n a = Ok w.
  Proof.
    destruct a as [x|[|x [|y l]]]; cbn; eauto.
    - intros [H|H]; [discriminate|]. subst. eauto.
    - intros [H|H]; [discriminate|]. rewrite <- H, Nat.eqb_refl. eauto.
  Qed.
  Lemma fits_amap f n a : fits n (amap f a) <-> fits n a.
  Proof. destruct a; cbn; [tauto|]. now rewrite map_length. Qed.
  Lemma fill_row cast n a w : fill n (amap cast a) = Ok w ->
    length w = n /\ forall j, j < n -> exists y, sample a j = Some y /\ nth_error w j = Some (cast y).
  Proof.
    assert (C : forall x : num, length (repeat x n) = n /\ forall j, j < n -> nth_error (repeat x n) j = Some x).
    { intros x. split; [apply repeat_length|]. intros j H. apply nth_error_repeat. exact H. }
    destruct a as [x|[|x [|y l]]]; cbn [amap map fill]; intros H.
    - injection H as <-. split; [apply (C (cast x))|]. intros j J. exists x. split; [reflexivity|now apply C].
    - cbn in H. destruct n; [|discriminate]. injection H as <-. split; [reflexivity|]. intros j J. lia.
    - injection H as <-. split; [apply (C (cast x))|]. intros j J. exists x. split; [reflexivity|now apply C].
    - revert H. change (cast x :: cast y :: map cast l) with (map cast (x :: y :: l)). generalize (eq_refl (x :: y :: l)). generalize (x :: y :: l) at 1 3 4 as m.
      intros m M. destruct (Nat.eqb _ n) eqn:E; [|discriminate]. intros [= <-]. apply Nat.eqb_eq in E. split; [exact E|].
      rewrite map_length in E. intros j J. rewrite <- E in J. destruct (nth_error m j) as [z|] eqn:Z; [|apply nth_error_None in Z; lia].
      exists z. cbn [sample]. rewrite <- M, Z. split; [reflexivity|]. now apply map_nth_error.
  Qed.

  Lemma row_written cast m n a w : n <= m -> fill (Nat.min n (length (zeros m))) (amap cast a) = Ok w -> row_of cast m n a (w ++ skipn n (zeros m)).
  Proof.
    intros L H. unfold zeros in *. rewrite repeat_length, Nat.min_l in H by exact L. destruct (fill_row _ _ _ _ H) as [W V].
    split; [|split].
    - rewrite app_length, skipn_length, repeat_length. lia.
    - intros j J. destruct (V j J) as (y & Y & Z). exists y. split; [exact Y|]. rewrite nth_error_app1 by lia. exact Z.
    - intros j J. rewrite nth_error_app2 by lia. rewrite W. rewrite nth_error_skipn_add. replace (n + (j - n)) with j by lia. apply nth_error_repeat. lia.
  Qed.

  Notation plain x ts := (fun p => v <-! gather x (pc_indices (core p)); t <-! time_of ts (pc_time_name (core p)); get_pulse v t p).
  Lemma set_row_at (d : list (list num)) row r i n a : length d = i ->
    set_row (d ++ row :: r) i n a = (w <-! fill (Nat.min n (length row)) a; Ok (d ++ (w ++ skipn n row) :: r)).
  Proof.
    intros <-. unfold set_row. rewrite nth_error_app2, Nat.sub_diag by lia. cbn. destruct (fill _ _) as [w|e]; cbn; [|reflexivity]. now rewrite set_nth_app.
  Qed.

  Lemma get_pulse_bins v t (p q : pulse) a : get_pulse v t p = Ok (q, a) -> pc_bins (core q) = pc_bins (core p) /\ length (pc_time_grid (core q)) = pc_bins (core p).
  Proof. unfold get_pulse. intros H. rinv. cbn. split; [reflexivity|apply linspace0_length]. Qed.

  Lemma jax_pulses_spec cast x ts m ps : (forall p, In p ps -> pc_bins (core p) <= m) -> forall i dP dG ps' P' G',
    length dP = i -> length dG = i ->
    jax_pulses cast x ts i ps (dP ++ repeat (zeros m) (length ps)) (dG ++ repeat (zeros m) (length ps)) = Ok (ps', (P', G')) ->
    exists qs RP RG, rmap (plain x ts) ps = Ok qs /\ ps' = map fst qs /\ P' = dP ++ RP /\ G' = dG ++ RG /\ length RP = length ps /\ length RG = length ps /\
      forall k p, nth_error ps k = Some p -> exists q a rp rg, nth_error qs k = Some (q, a) /\ nth_error RP k = Some rp /\ nth_error RG k = Some rg /\
        row_of cast m (pc_bins (core p)) a rp /\ row_of cast m (pc_bins (core p)) (Ar (pc_time_grid (core q))) rg.
  Proof.
    induction ps as [|p ps IH]; intros B i dP dG ps' P' G' LP LG H.
    - cbn in H. injection H as <- <- <-. exists [], [], []. rewrite !app_nil_r. cbn. repeat (split; [reflexivity|]). intros [|k] q [=].
    - cbn [jax_pulses length repeat] in H. apply rbind_ok in H as (v & V & H). apply rbind_ok in H as (t & T & H). apply rbind_ok in H as ([q a] & Q & H).
      destruct (get_pulse_bins _ _ _ _ _ Q) as [Bq Lq]. rewrite !set_row_at in H by assumption.
      apply rbind_ok in H as (P1 & H1 & H). apply rbind_ok in H1 as (wp & WP & H1). injection H1 as <-.
      apply rbind_ok in H as (G1 & H2 & H). apply rbind_ok in H2 as (wg & WG & H2). injection H2 as <-.
      apply rbind_ok in H as ([ps1 [P2 G2]] & H3 & H). injection H as <- <- <-.
      specialize (IH (fun p' I => B p' (or_intror I)) (S i) (dP ++ [wp ++ skipn (pc_bins (core q)) (zeros m)]) (dG ++ [wg ++ skipn (pc_bins (core q)) (zeros m)]) ps1 P2 G2).
      destruct IH as (qs & RP & RG & E1 & E2 & E3 & E4 & E5 & E6 & E7).
      { rewrite app_length. cbn. lia. } { rewrite app_length. cbn. lia. }
      { rewrite <- !app_assoc. exact H3. }
      assert (Bm : pc_bins (core q) <= m) by (rewrite Bq; apply B; now left).
      exists ((q, a) :: qs), ((wp ++ skipn (pc_bins (core q)) (zeros m)) :: RP), ((wg ++ skipn (pc_bins (core q)) (zeros m)) :: RG).
      split. { cbn [rmap]. destruct (pc_indices (core p)) as [|z l] eqn:I; [discriminate|]. cbn [jax_gather] in V. rewrite V. cbn [rbind]. rewrite T. cbn [rbind]. rewrite Q. cbn [rbind]. rewrite E1. reflexivity. }
      split; [cbn; now rewrite E2|]. split; [rewrite E3, <- app_assoc; reflexivity|]. split; [rewrite E4, <- app_assoc; reflexivity|].
      split; [cbn; now rewrite E5|]. split; [cbn; now rewrite E6|].
      intros [|k] p0; cbn [nth_error]; [|apply E7]. intros [= <-]. exists q, a. do 2 eexists. repeat (split; [reflexivity|]).
      rewrite <- Bq. split; apply row_written; try assumption.
  Qed.

  Notation valued x := (fun r => v <-! gather x (pa_indices r); get_parameter v r).
  Lemma jax_params_spec cast x rs : forall i d rs' R', length d = i ->
    jax_params cast x i rs (d ++ zeros (length rs)) = Ok (rs', R') ->
    exists qs, rmap (valued x) rs = Ok qs /\ rs' = map fst qs /\ R' = d ++ map cast (map snd qs).
  Proof.
    induction rs as [|r rs IH]; intros i d rs' R' L H.
    - cbn in H. injection H as <- <-. exists []. cbn. rewrite ?app_nil_r. auto.
    - cbn [jax_params length] in H. apply rbind_ok in H as (v & V & H). apply rbind_ok in H as ([r1 y] & Q & H). apply rbind_ok in H as ([rs1 R1] & H1 & H). injection H as <- <-.
      unfold zeros in H1. cbn [repeat] in H1. rewrite <- L, set_nth_app in H1. specialize (IH (S i) (d ++ [cast y]) rs1 R1).
      destruct IH as (qs & E1 & E2 & E3). { rewrite app_length. cbn. lia. } { rewrite <- app_assoc, <- L. exact H1. }
      exists ((r1, y) :: qs). split. { cbn [rmap]. destruct (pa_indices r) as [|z l] eqn:I; [discriminate|]. cbn [jax_gather] in V. rewrite V. cbn [rbind]. rewrite Q. cbn [rbind]. now rewrite E1. }
      split; [cbn; now rewrite E2|]. rewrite E3, <- app_assoc. reflexivity.
  Qed.

  Lemma jax_times_false x d : jax_set_times false x d = set_times x d.
  Proof. reflexivity. Qed.
  Lemma jax_times_ok b x d ts : jax_set_times b x d = Ok ts -> set_times x d = Ok ts.
  Proof.
    destruct b; [|trivial]. unfold jax_set_times, set_times. revert ts. induction d as [|[k t] d IH]; intros ts H; [exact H|].
    cbn [rmap fst snd] in *. destruct (ti_alpha t); [discriminate|]. cbn [andb] in H. destruct (set_time_from x t) as [t'|]; cbn in *; [|discriminate].
    apply rbind_ok in H as (d' & H1 & H). rewrite (IH _ H1). exact H.
  Qed.
  Lemma fold_max_ge l : forall n, n <= fold_left Nat.max l n /\ forall k, In k l -> k <= fold_left Nat.max l n.
  Proof.
    induction l as [|a l IH]; intros n; cbn; [split; [lia|tauto]|]. destruct (IH (Nat.max n a)) as [A B]. split; [lia|]. intros k [<-|I]; [lia|now apply B].
  Qed.
  Lemma max_bins c : max_bin_numbers c = list_max (map (fun p => pc_bins (core p)) (c_pulses c)).
  Proof.
    unfold max_bin_numbers. generalize (map (fun p => pc_bins (core p)) (c_pulses c)) as l. intros l.
    assert (H : forall n, fold_left Nat.max l n = Nat.max n (list_max l)). { induction l as [|a l IH]; intros n; cbn; [lia|]. rewrite IH. unfold list_max. lia. }
    rewrite H. lia.
  Qed.

  Lemma jax_lists_spec b cp cr x c c' A : jax_lists b cp cr x c = Ok (c', A) ->
    exists d, get_controls_lists x c = Ok (c', d) /\ holds cp cr (map (fun p => pc_bins (core p)) (c_pulses c)) d A.
  Proof.
    unfold jax_lists. intros H. apply rbind_ok in H as (ts & T & H). apply rbind_ok in H as ([ps [P G]] & HP & H). apply rbind_ok in H as ([rs R] & HR & H). injection H as <- <-.
    apply jax_times_ok in T.
    destruct (jax_pulses_spec cp x ts (max_bin_numbers c) (c_pulses c)) with (i := 0) (dP := @nil (list num)) (dG := @nil (list num)) (ps' := ps) (P' := P) (G' := G)
      as (qs & RP & RG & E1 & E2 & E3 & E4 & E5 & E6 & E7); try reflexivity; [|exact HP|].
    { intros p I. apply fold_max_ge. apply (in_map (fun p => pc_bins (core p))). exact I. }
    destruct (jax_params_spec cr x (c_params c) 0 [] rs R eq_refl HR) as (rq & F1 & F2 & F3). cbn in E3, E4, F3. subst.
    eexists. split. { unfold get_controls_lists. rewrite T. cbn [rbind]. rewrite E1. cbn [rbind]. rewrite F1. reflexivity. }
    rewrite max_bins in E7.
    constructor; cbn [d_pulses d_timegrids d_parameters j_pulses j_timegrids j_parameters].
    - intros i n I. rewrite nth_error_map in I. destruct (nth_error (c_pulses c) i) as [p|] eqn:Ep; [|discriminate]. injection I as <-.
      destruct (E7 _ _ Ep) as (q & a & rp & rg & Q & X & _ & Y & _). exists a, rp. split; [rewrite nth_error_map, Q; reflexivity|]. now split.
    - intros i n I. rewrite nth_error_map in I. destruct (nth_error (c_pulses c) i) as [p|] eqn:Ep; [|discriminate]. injection I as <-.
      destruct (E7 _ _ Ep) as (q & a & rp & rg & Q & _ & X & _ & Y). exists (pc_time_grid (core q)), rg. split; [rewrite nth_error_map, Q; reflexivity|]. now split.
    - rewrite map_length. auto.
    - reflexivity.
  Qed.

  (** ** when the arrays can be made *)
  Lemma jax_pulses_ok cast x ts m ps qs : (forall p, In p ps -> pc_bins (core p) <= m /\ pc_indices (core p) <> []) ->
    rmap (plain x ts) ps = Ok qs -> (forall k p a, nth_error ps k = Some p -> nth_error (map snd qs) k = Some a -> fits (pc_bins (core p)) a) ->
    forall i dP dG, length dP = i -> length dG = i -> exists r,
    jax_pulses cast x ts i ps (dP ++ repeat (zeros m) (length ps)) (dG ++ repeat (zeros m) (length ps)) = Ok r.
  Proof.
    revert qs. induction ps as [|p ps IH]; intros qs B H K i dP dG LP LG; [eexists; reflexivity|].
    cbn [rmap] in H. apply rbind_ok in H as ([q a] & Q & H). apply rbind_ok in H as (qs1 & H1 & H). injection H as <-.
    apply rbind_ok in Q as (v & V & Q). apply rbind_ok in Q as (t & T & Q). destruct (get_pulse_bins _ _ _ _ _ Q) as [Bq Lq].
    destruct (B p (or_introl eq_refl)) as [Bm Ne]. cbn [jax_pulses length repeat].
    replace (jax_gather x (pc_indices (core p))) with (gather x (pc_indices (core p))) by (destruct (pc_indices (core p)); [congruence|reflexivity]).
    rewrite V. cbn [rbind]. rewrite T. cbn [rbind]. rewrite Q. cbn [rbind]. rewrite !set_row_at by assumption.
    assert (M : Nat.min (pc_bins (core q)) (length (zeros m)) = pc_bins (core p)) by (unfold zeros; rewrite repeat_length; lia). rewrite M.
    destruct (fill_ok (pc_bins (core p)) (amap cast a)) as [wp WP]. { apply fits_amap. exact (K 0 p a eq_refl eq_refl). }
    destruct (fill_ok (pc_bins (core p)) (Ar (map cast (pc_time_grid (core q))))) as [wg WG]. { right. now rewrite map_length. }
    rewrite WP, WG. cbn [rbind].
    destruct (IH qs1 (fun p' I => B p' (or_intror I)) H1) with (i := S i) (dP := dP ++ [wp ++ skipn (pc_bins (core q)) (zeros m)]) (dG := dG ++ [wg ++ skipn (pc_bins (core q)) (zeros m)]) as [[ps1 PG] E].
    { intros k p' a' X Y. exact (K (S k) p' a' X Y). } { rewrite app_length. cbn. lia. } { rewrite app_length. cbn. lia. }
    rewrite <- !app_assoc in E. cbn [app] in E. rewrite E. eexists. reflexivity.
  Qed.
  Lemma jax_params_ok cast x rs qs : (forall r, In r rs -> pa_indices r <> []) -> rmap (valued x) rs = Ok qs ->
    forall i R, exists r, jax_params cast x i rs R = Ok r.
  Proof.
    revert qs. induction rs as [|r rs IH]; intros qs B H i R; [eexists; reflexivity|].
    cbn [rmap] in H. apply rbind_ok in H as ([q a] & Q & H). apply rbind_ok in H as (qs1 & H1 & H). apply rbind_ok in Q as (v & V & Q). cbn [jax_params].
    replace (jax_gather x (pa_indices r)) with (gather x (pa_indices r)) by (specialize (B r (or_introl eq_refl)); destruct (pa_indices r); [congruence|reflexivity]).
    rewrite V. cbn [rbind]. rewrite Q. cbn [rbind]. destruct (IH qs1 (fun p' I => B p' (or_intror I)) H1 (S i) (set_nth R i (cast a))) as [[rs1 R1] E]. rewrite E. eexists. reflexivity.
  Qed.
  Lemma jax_lists_ok b cp cr x c c' d : get_controls_lists x c = Ok (c', d) ->
    (b = true -> forall k t, In (k, t) (c_times c) -> ti_alpha t = None) ->
    (forall p, In p (c_pulses c) -> pc_indices (core p) <> []) -> (forall r, In r (c_params c) -> pa_indices r <> []) ->
    (forall i p a, nth_error (c_pulses c) i = Some p -> nth_error (d_pulses d) i = Some a -> fits (pc_bins (core p)) a) ->
    exists A, jax_lists b cp cr x c = Ok (c', A).
  Proof.
    intros H T I J K. assert (H' := H). unfold get_controls_lists in H. apply rbind_ok in H as (ts & HT & H). apply rbind_ok in H as (ps & HP & H). apply rbind_ok in H as (rs & HR & H). injection H as <- <-.
    cbn [d_pulses] in K.
    destruct (jax_pulses_ok cp x ts (max_bin_numbers c) (c_pulses c) ps) with (i := 0) (dP := @nil (list num)) (dG := @nil (list num)) as [[p1 [P G]] EP]; try reflexivity; try assumption.
    { intros p Ip. split; [|now apply I]. apply fold_max_ge. apply (in_map (fun p => pc_bins (core p))). exact Ip. }
    destruct (jax_params_ok cr x (c_params c) rs J HR 0 (zeros (length (c_params c)))) as [[r1 R] ER].
    assert (ET : jax_set_times b x (c_times c) = Ok ts).
    { destruct b; [|exact HT]. specialize (T eq_refl). clear -HT T. revert ts HT. unfold jax_set_times, set_times. induction (c_times c) as [|[k t] l IH]; intros ts H; [exact H|].
      cbn [rmap fst snd] in *. rewrite (T k t (or_introl eq_refl)). cbn [andb]. destruct (set_time_from x t); cbn in *; [|discriminate]. apply rbind_ok in H as (l' & H1 & H).
      rewrite (IH (fun k' t' I => T k' t' (or_intror I)) _ H1). exact H. }
    assert (E : jax_lists b cp cr x c = Ok ({| c_pulses := p1; c_params := r1; c_times := ts |}, {| j_pulses := P; j_timegrids := G; j_parameters := R |})).
    { unfold jax_lists. rewrite ET. cbn [rbind]. cbn [app] in EP. rewrite EP. cbn [rbind]. rewrite ER. reflexivity. }
    destruct (jax_lists_spec _ _ _ _ _ _ _ E) as (d' & E' & _). rewrite H' in E'. injection E' as E1 E2 _. rewrite E, <- E1, <- E2. eauto.
  Qed.
  (** an optimised duration stops the differentiation *)
  Lemma jax_traced_time cp cr x c k t : In (k, t) (c_times c) -> ti_alpha t <> None -> exists e, jax_lists true cp cr x c = Err e.
  Proof.
    intros I H. unfold jax_lists. assert (E : exists e, jax_set_times true x (c_times c) = Err e); [|destruct E as [e ->]; now exists e].
    set (g := fun kt : string * timep => t <-! (if (true && match ti_alpha (snd kt) with Some _ => true | None => false end)%bool then Err TypeError else set_time_from x (snd kt)); Ok (fst kt, t)).
    change (exists e, rmap g (c_times c) = Err e). induction (c_times c) as [|[k0 t0] l IH]; [destruct I|]. cbn [rmap]. destruct I as [[= -> ->]|I].
    - replace (g (k, t)) with (Err (A := string * timep) TypeError); [eexists; reflexivity|]. unfold g. cbn [snd]. destruct (ti_alpha t); [reflexivity|congruence].
    - destruct (g (k0, t0)) as [t1|e]; [|eexists; reflexivity]. destruct (IH I) as [e Ee]. cbn [rbind]. rewrite Ee. eexists. reflexivity.
  Qed.
End Jax.
