(** Whole CMA-ES searches follow the adaptation. *)
From Coq Require Import String Reals ZArith List Bool Lia Lra Permutation Sorted FunctionalExtensionality.
From Flocq Require Import Core.Raux.
From RecordUpdate Require Import RecordSet.
From Verif Require Import Num NumFacts Py PyFacts ModelPulse ModelControls ModelLinalg ModelState ModelSearch ModelRun ModelCma ModelCmaRun
  SpecRun SpecSearch SpecCma SpecCmaRun ProofSim ProofNM ProofSearch ProofNMBound ProofSearchCount ProofCma.
From Verif Require ProofCmaAdapt.
Import ListNotations RecordSetNotations.
Open Scope nat_scope.
Open Scope list_scope.
Open Scope run_scope.

Section Chain.
  Context {N : Num} (NO : NumOrder N) (G : settings) (W : world).
  Variable func : vec -> nat -> option num -> M num.
  Variables (x0 sigma_v : vec).
  Variable log : st -> list (vec * num).
  Hypothesis OB : observes func log.
  Hypothesis DN : draws_nothing func.
  Let n := length x0.
  Let R (s : st) := k_randn (s_cnt s).

  Definition still {A} (m : M A) : Prop := forall s a s', m s = (Ok a, s') -> R s' = R s.
  Lemma still_bind {A B} (m : M A) (f : A -> M B) : still m -> (forall a, still (f a)) -> still (bind m f).
  Proof. intros Hm Hk s b s' H. apply bind_ok in H as (a & s1 & E & H). rewrite (Hk _ _ _ _ H). now apply (Hm _ a). Qed.
  Lemma still_ret {A} (a : A) : still (ret a). Proof. intros s b s' H. now injection H as <- <-. Qed.
  Lemma still_lift {A} (r : res A) : still (lift r). Proof. intros s b s' H. now apply lift_ok in H as [_ ->]. Qed.
  Lemma still_get : still get. Proof. intros s b s' H. now injection H as <- <-. Qed.
  Lemma still_upd f : (forall s, R (f s) = R s) -> still (upd f). Proof. intros E s b s' H. injection H as <- <-. apply E. Qed.
  Lemma still_clear b : still (clear b). Proof. intros s u s' H. pose proof (f_equal snd H) as H'. cbn in H'. now rewrite <- H'. Qed.
  Ltac st := repeat first
    [ solve [auto] | apply still_ret | apply still_lift | apply still_get | apply still_clear
    | (apply still_upd; intros ?; reflexivity) | apply still_bind
    | match goal with
      | |- forall _, _ => intro
      | |- still (if ?c then _ else _) => destruct c
      | |- still (match ?c with _ => _ end) => destruct c
      end ].
  Lemma still_poll : still (poll G W). Proof. unfold poll, handle_user_cancellation, set_reason. st. Qed.
  Lemma still_is_conv : still (is_conv G W). Proof. pose proof still_poll. unfold is_conv. st. Qed.
  Lemma still_running : still (get_running G W). Proof. pose proof still_poll. unfold get_running. st. Qed.
  Lemma still_check fsim calls : still (check_stopping_cma G W fsim calls).
  Proof.
    pose proof still_poll. pose proof still_is_conv. unfold check_stopping_cma, set_check, check_time_out, now, set_conv, set_sc_reason. st.
  Qed.

  Definition drawn (p : nat) : vec := map (w_randn W) (seq p n).
  (** every candidate comes from the oracle, with what was evaluated before and the next normal numbers *)
  Definition chained (p : nat) (before g : list (vec * num)) : Prop := forall k x y, nth_error g k = Some (x, y) ->
    exists c, w_cma W x0 sigma_v (before ++ firstn k g) (drawn (p + k * n)) = Ok c /\
      x = match before ++ firstn k g with [] => x0 | _ => c end.
  Lemma chained_app p before g g' : chained p before g -> chained (p + length g * n) (before ++ g) g' -> chained p before (g ++ g').
  Proof.
    intros A B k x y E. destruct (Nat.lt_ge_cases k (length g)) as [L|L].
    - rewrite nth_error_app1 in E by exact L. rewrite firstn_app. replace (k - length g) with 0 by lia. cbn [firstn]. rewrite app_nil_r. eauto.
    - rewrite nth_error_app2 in E by exact L. apply B in E as (c & E1 & E2). exists c.
      rewrite firstn_app, (firstn_all2 g) by lia. rewrite <- app_assoc in E1, E2. split; [|exact E2].
      rewrite <- E1. f_equal. f_equal. rewrite <- Nat.add_assoc, <- Nat.mul_add_distr_r. do 2 f_equal. lia.
  Qed.

  (** the values are answers of the function *)
  Definition asked (g : list (vec * num)) : Prop := forall x y, In (x, y) g -> exists it s s', func x it None s = (Ok y, s').

  Lemma generation_chain m it hist s g s' : generation W func x0 sigma_v m it hist s = (Ok g, s') ->
    chained (R s) hist g /\ R s' = R s + length g * n /\ asked g.
  Proof.
    revert hist s g. induction m as [|m IH]; intros hist s g H; cbn [generation] in H.
    - injection H as <- <-. split; [|split; [cbn; lia|easy]]. intros k x y E. destruct k; discriminate.
    - apply bind_ok in H as (z & s1 & E1 & H).
      assert (z = drawn (R s) /\ R s1 = R s + n) as [-> K1].
      { unfold randn in E1. apply bind_ok in E1 as (t & t1 & Ea & Eb). injection Ea as <- <-. apply bind_ok in Eb as ([] & t2 & Ec & Ed).
        injection Ec as <-. injection Ed as <- <-. split; reflexivity. }
      apply bind_ok in H as (x & s2 & E2 & H). apply lift_ok in E2 as [EX ->].
      cbv zeta in H. apply bind_ok in H as (y & s3 & E3 & H). pose proof (DN _ _ _ _ _ _ E3) as K3.
      apply bind_ok in H as (g1 & s4 & E4 & H). injection H as <- <-. apply IH in E4 as (A & B & Q).
      assert (R s3 = R s + n) as K by (unfold R in *; congruence). rewrite K in A, B. split; [|split; [cbn [length]; lia|]].
      2: { intros x' y' [E|I]; [injection E as <- <-; eauto|now apply Q]. }
      set (xx := match hist with [] => x0 | _ => x end) in *.
      change ((xx, y) :: g1) with ([(xx, y)] ++ g1). apply chained_app.
      + intros k x' y' E. destruct k as [|k]; [|destruct k; discriminate]. injection E as <- <-. exists x. cbn [firstn]. rewrite app_nil_r, Nat.mul_0_l, Nat.add_0_r.
        now split.
      + cbn [length]. rewrite Nat.mul_1_l. exact A.
  Qed.

  Lemma loop_chain l_pop fuel it hist best s best' it' calls s' :
    cma_loop G W func x0 sigma_v l_pop fuel it hist best s = (Ok (best', it', calls), s') ->
    exists L, log s' = log s ++ L /\ chained (R s) hist L /\ asked L.
  Proof.
    revert it hist best s. induction fuel as [|fuel IH]; intros it hist best s H; [discriminate|]. cbn [cma_loop] in H.
    apply bind_ok in H as (c & s1 & E1 & H). pose proof (kept_is_conv G W func log OB _ _ _ E1) as K1. pose proof (still_is_conv _ _ _ E1) as S1.
    destruct c.
    - unfold ret in H. exists []. split; [rewrite app_nil_r; congruence|]. split; [|easy]. intros k x y E. destruct k; discriminate.
    - apply bind_ok in H as (g & s2 & E2 & H).
      destruct (generation_spec W func x0 sigma_v log OB _ _ _ _ _ _ E2) as (_ & K2 & _). destruct (generation_chain _ _ _ _ _ _ E2) as (C2 & S2 & Q2).
      cbv zeta in H.
      apply bind_ok in H as (fsim & s3 & E3 & H). apply lift_ok in E3 as [_ ->].
      apply bind_ok in H as (u & s4 & E4 & H). apply lift_ok in E4 as [_ ->].
      apply bind_ok in H as (i0 & s5 & E5 & H). apply lift_ok in E5 as [_ ->].
      apply bind_ok in H as (x & s6 & E6 & H). apply lift_ok in E6 as [_ ->].
      apply bind_ok in H as (f0 & s7 & E7 & H). apply lift_ok in E7 as [_ ->].
      apply bind_ok in H as (r & s8 & E8 & H). pose proof (still_running _ _ _ E8) as S8. apply (kept_running G W func log OB) in E8.
      apply bind_ok in H as (u' & s9 & E9 & H).
      assert (log s9 = log s8 /\ R s9 = R s8) as [K9 S9].
      { destruct r; [now injection E9 as <- <-|].
        apply bind_ok in E9 as ([] & sa & Ea & E9). pose proof (still_poll _ _ _ Ea) as Sa. apply (kept_poll G W func log OB) in Ea.
        apply bind_ok in E9 as ([] & sb & Eb & E9). injection Eb as <-. injection E9 as <- <-. rewrite !(ob_sc _ _ OB). split; [exact Ea|exact Sa]. }
      apply bind_ok in H as ([] & s10 & E10 & H). pose proof (still_check _ _ _ _ _ E10) as S10. pose proof (kept_check G W func log OB _ _ _ _ _ E10) as K10.
      apply IH in H as (L & L1 & C1 & Q1). exists (g ++ L). split; [rewrite L1, app_assoc; congruence|].
      split; [|intros xx yy I; apply in_app_or in I as [I|I]; [now apply Q2|now apply Q1]].
      apply chained_app; [rewrite <- S1; exact C2|]. replace (R s + length g * n) with (R s10) by congruence. exact C1.
  Qed.
  Lemma run_chain population s r s' : run_cma G W func population x0 sigma_v s = (Ok r, s') ->
    exists L, log s' = log s ++ L /\ chained (R s) [] L /\ asked L.
  Proof.
    intros H. unfold run_cma in H. apply bind_ok in H as ([] & s1 & E1 & H). pose proof (still_poll _ _ _ E1) as S1. apply (kept_poll G W func log OB) in E1.
    apply bind_ok in H as ([] & s2 & E2 & H). injection E2 as <-.
    cbv zeta in H. destruct (_ <? 2); [discriminate|].
    apply bind_ok in H as ([[best it] calls] & s3 & E3 & H). unfold bind, get in H. unfold ret in H.
    assert (s' = s3) as -> by congruence. apply loop_chain in E3 as (L & A & B & Q). exists L.
    split; [rewrite A, (ob_sc _ _ OB); congruence|]. split; [rewrite <- S1; exact B|exact Q].
  Qed.
End Chain.

Lemma firstn_snoc {A} (L : list A) m e : nth_error L m = Some e -> firstn (S m) L = firstn m L ++ [e].
Proof.
  revert m. induction L as [|a L IH]; intros [|m] E; cbn in E; try discriminate.
  - now injection E as ->.
  - cbn. f_equal. now apply IH.
Qed.

Section Follow.
  Variables (eigh : rmat -> rvec * rmat) (argsort : list R -> list nat) (n pop : nat) (x0 sigma_v : list R).
  Hypothesis Hpop : 2 <= pop.
  Hypothesis sorting : forall ys, Permutation (argsort ys) (seq 0 (length ys)) /\ StronglySorted Rle (map (fun i => nth i ys 0%R) (argsort ys)).

  Lemma members_firstn k j (L : list (list R * R)) : S k * pop <= j -> members pop k (firstn j L) = members pop k L.
  Proof. intros H. unfold members. rewrite skipn_firstn_comm, firstn_firstn. f_equal. lia. Qed.
  Lemma after_firstn k j L : k * pop <= j ->
    after_generations eigh argsort n pop x0 sigma_v k (firstn j L) = after_generations eigh argsort n pop x0 sigma_v k L.
  Proof.
    induction k as [|k IH]; intros H; [reflexivity|]. cbn [after_generations]. rewrite IH by lia. now rewrite members_firstn by lia.
  Qed.
  Lemma members_length k (L : list (list R * R)) : S k * pop <= length L -> length (members pop k L) = pop.
  Proof. intros H. unfold members. rewrite firstn_length, skipn_length. lia. Qed.

  Definition sorted_members (g : list (list R * R)) : list (list R * R) := map (fun i => nth i g ([], 0%R)) (argsort (map snd g)).
  Lemma sorted_in_order g : in_order g (sorted_members g).
  Proof.
    destruct (sorting (map snd g)) as [P I]. split.
    - unfold sorted_members. apply Permutation_sym. rewrite P, map_length. now rewrite map_nth_seq.
    - unfold sorted_members. rewrite map_map.
      erewrite map_ext; [exact I|]. intros i. cbv beta. change 0%R with (snd (@nil R, 0%R)) at 2. now rewrite map_nth.
  Qed.
  Lemma ranked_spec g j x y : nth_error (sorted_members g) j = Some (x, y) -> ranked argsort g j = coordinate x.
  Proof.
    unfold sorted_members. intros H. rewrite nth_error_map in H. destruct (nth_error (argsort (map snd g)) j) as [i|] eqn:E; [|discriminate].
    cbn in H. injection H as H. unfold ranked. rewrite (nth_error_nth _ _ 0 E). change (@nil R) with (fst (@nil R, 0%R)).
    rewrite map_nth, H. reflexivity.
  Qed.

  Lemma chain_follows (W : world (N := Rnum)) population p (L : list (list R * R)) :
    w_argsort W = argsort -> n = length x0 -> pop = match population with Some q => q | None => w_pop W n end ->
    chained (N := Rnum) (code_world eigh population W) x0 sigma_v p [] L ->
    follows_cma eigh (normals W p n) n pop x0 (widths n sigma_v) L
      (fun k => after_generations eigh argsort n pop x0 sigma_v k L).
  Proof.
    intros EA EN EP C. split.
    - reflexivity.
    - intros k HK. exists (sorted_members (members pop k L)), (ranked argsort (members pop k L)).
      split; [apply sorted_in_order|]. split; [apply ranked_spec|]. reflexivity.
    - intros x y E. apply C in E as (c & _ & ->). reflexivity.
    - intros j x y E. pose proof E as E'. apply C in E as (c & E & X). cbn [app] in E, X.
      destruct L as [|e L]; [discriminate|]. cbn [firstn] in X.
      assert (x = candidate eigh argsort n pop x0 sigma_v (firstn (S j) (e :: L)) (map (w_randn W) (seq (p + S j * n) n))) as ->.
      { rewrite X. unfold code_world in E. cbn in E. rewrite <- EN, <- EP, EA in E. unfold drawn in E. cbn in E. rewrite <- EN in E. now injection E as <-. }
      assert (S j < length (e :: L)) as LJ by (apply nth_error_Some; congruence).
      assert (length (firstn (S j) (e :: L)) = S j) as LF by (rewrite firstn_length; lia).
      unfold candidate. rewrite LF, after_firstn.
      2: { rewrite Nat.mul_comm. apply Nat.mul_div_le. lia. }
      split; [unfold as_list; now rewrite map_length, seq_length|]. intros i Hi.
      assert (forall v, coordinate (as_list n v) i = v i) as CL.
      { intros v. unfold coordinate, as_list. rewrite (nth_indep _ 0%R (v 0)) by (now rewrite map_length, seq_length). now rewrite map_nth, seq_nth by exact Hi. }
      rewrite CL. unfold cma_sample. do 2 f_equal. unfold rapply. apply ProofCmaAdapt.rsum_ext. intros k Hk. do 2 f_equal.
      unfold as_array, normals. rewrite (nth_indep _ 0%R (w_randn W 0)) by (now rewrite map_length, seq_length). rewrite map_nth, seq_nth by exact Hk.
      reflexivity.
  Qed.

  (** Two sequences of candidates made with the same normal numbers *)
  Section Pair.
    Variables (x0' sigma_v' : list R) (T : list R -> list R) (TA : rvec -> rvec) (U : cma -> cma) (phi : R -> R).
    Hypothesis T_array : forall x, length x = n -> as_array (T x) = TA (as_array x).
    Hypothesis U_start : U (cma_start (as_array x0) (widths n sigma_v)) = cma_start (as_array x0') (widths n sigma_v').
    Hypothesis U_step : forall best counteval S,
      cma_step n (pop / 2) pop eigh (fun k => TA (best k)) counteval (U S) = U (cma_step n (pop / 2) pop eigh best counteval S).
    Hypothesis U_sample : forall S z, as_list n (cma_sample n (U S) z) = T (as_list n (cma_sample n S z)).
    Hypothesis T_start : T x0 = x0'.
    Hypothesis L_start : length x0 = n.
    Hypothesis same_order : forall ys, argsort (map phi ys) = argsort ys.
    Let F (e : list R * R) := (T (fst e), phi (snd e)).

    Lemma members_map k L : members pop k (map F L) = map F (members pop k L).
    Proof. unfold members. now rewrite skipn_map, firstn_map. Qed.
    Lemma ranked_map g : length g <> 0 -> (forall e, In e g -> length (fst e) = n) ->
      ranked argsort (map F g) = fun k => TA (ranked argsort g k).
    Proof.
      intros NZ LN. apply functional_extensionality. intros k. unfold ranked.
      rewrite map_map. cbn [F snd]. rewrite <- (map_map snd phi), same_order.
      set (i := nth k (argsort (map snd g)) 0).
      assert (i < length g) as Hi.
      { destruct (sorting (map snd g)) as [P _]. rewrite map_length in P. unfold i.
        destruct (nth_in_or_default k (argsort (map snd g)) 0) as [I|E]; [|rewrite E; lia].
        apply (Permutation_in _ P), in_seq in I. lia. }
      rewrite map_map. cbn [F fst].
      rewrite (nth_indep _ [] (T (fst (@nil R, 0%R)))) by (now rewrite map_length).
      rewrite (map_nth (fun e => T (fst e))). rewrite T_array by (apply LN, nth_In; exact Hi).
      f_equal. change (@nil R) with (fst (@nil R, 0%R)) at 2. now rewrite map_nth.
    Qed.
    Lemma after_map k L : k * pop <= length L -> (forall e, In e L -> length (fst e) = n) ->
      after_generations eigh argsort n pop x0' sigma_v' k (map F L) = U (after_generations eigh argsort n pop x0 sigma_v k L).
    Proof.
      intros HK LN. induction k as [|k IH]; [symmetry; exact U_start|]. cbn [after_generations]. rewrite IH by lia. rewrite members_map.
      rewrite ranked_map.
      - apply U_step.
      - rewrite members_length by lia. lia.
      - intros e I. apply LN. unfold members in I. rewrite <- (firstn_skipn (k * pop) L). apply in_or_app. right.
        rewrite <- (firstn_skipn pop (skipn (k * pop) L)). apply in_or_app. now left.
    Qed.
    Variables (W : world (N := Rnum)) (population : option nat) (p : nat).
    Hypothesis EA : w_argsort W = argsort.
    Hypothesis EP : pop = match population with Some q => q | None => w_pop W n end.
    Hypothesis L_start' : length x0' = n.
    Lemma chain_candidate (xs : list R) sv (L : list (list R * R)) j x y : length xs = n -> chained (N := Rnum) (code_world eigh population W) xs sv p [] L -> nth_error L (S j) = Some (x, y) ->
      x = candidate eigh argsort n pop xs sv (firstn (S j) L) (map (w_randn W) (seq (p + S j * n) n)).
    Proof.
      intros EN C E. destruct L as [|e L]; [discriminate|]. apply C in E as (c & E & X). cbn [app] in E, X.
      cbn [firstn] in X.
      rewrite X. unfold code_world in E. cbn in E. unfold drawn in E. cbn in E.
      change (@length (@num Rnum) xs) with (@length R xs) in E. rewrite EN, <- EP, EA in E. now injection E as <-.
    Qed.
    Lemma chain_lengths (L : list (list R * R)) : chained (N := Rnum) (code_world eigh population W) x0 sigma_v p [] L -> forall e, In e L -> length (fst e) = n.
    Proof.
      intros C [x y] I. cbn. apply In_nth_error in I as (j & E). destruct j as [|j].
      - apply C in E as (c & _ & ->). exact L_start.
      - rewrite (chain_candidate _ _ _ _ _ _ L_start C E). unfold candidate, as_list. now rewrite map_length, seq_length.
    Qed.
    (** as long as both searches go on their candidates and values correspond *)
    Lemma chain_pair (L L' : list (list R * R)) :
      chained (N := Rnum) (code_world eigh population W) x0 sigma_v p [] L ->
      chained (N := Rnum) (code_world eigh population W) x0' sigma_v' p [] L' ->
      (forall x y y', In (x, y) L -> In (T x, y') L' -> y' = phi y) ->
      forall j x y x' y', nth_error L j = Some (x, y) -> nth_error L' j = Some (x', y') -> x' = T x /\ y' = phi y.
    Proof.
      intros C C' V.
      assert (forall m, m <= length L -> m <= length L' -> firstn m L' = map F (firstn m L)) as K.
      { induction m as [|m IH]; intros H1 H2; [reflexivity|].
        specialize (IH ltac:(lia) ltac:(lia)).
        destruct (nth_error L m) as [[x y]|] eqn:E; [|apply nth_error_None in E; lia].
        destruct (nth_error L' m) as [[x' y']|] eqn:E'; [|apply nth_error_None in E'; lia].
        rewrite !(firstn_snoc _ _ _ E), !(firstn_snoc _ _ _ E'), map_app, <- IH. f_equal. cbn. unfold F. cbn [fst snd].
        assert (x' = T x) as EX.
        { destruct m as [|m].
          - apply C in E as (c & _ & ->). apply C' in E' as (c' & _ & ->). cbn. now symmetry.
          - rewrite (chain_candidate _ _ _ _ _ _ L_start C E), (chain_candidate _ _ _ _ _ _ L_start' C' E'). rewrite IH. unfold candidate. rewrite map_length.
            rewrite after_map.
            + now rewrite U_sample.
            + rewrite Nat.mul_comm. apply Nat.mul_div_le. lia.
            + intros e I. apply (chain_lengths L C). rewrite <- (firstn_skipn (S m) L). apply in_or_app. now left. }
        rewrite EX. do 2 f_equal. apply (V x y y'); [now apply nth_error_In in E|]. rewrite <- EX. now apply nth_error_In in E'. }
      intros j x y x' y' E E'.
      assert (S j <= length L) as B by (apply nth_error_Some; congruence). assert (S j <= length L') as B' by (apply nth_error_Some; congruence).
      specialize (K (S j) B B'). rewrite (firstn_snoc _ _ _ E), (firstn_snoc _ _ _ E'), map_app in K. cbn [map] in K.
      apply app_inj_tail in K as [_ K]. unfold F in K. cbn in K. now injection K as -> ->.
    Qed.
  End Pair.
End Follow.

(** the optimiser's own function does not use numpy's normal numbers *)
Section Own.
  Context {N : Num} (G : settings) (W : world).
  Ltac st := repeat first
    [ solve [auto] | apply still_ret | apply still_lift | apply still_get | apply still_clear
    | (apply still_upd; intros ?; reflexivity) | apply still_bind
    | match goal with
      | |- forall _, _ => intro
      | |- still (if ?c then _ else _) => destruct c
      | |- still (match ?c with _ => _ end) => destruct c
      | |- still (raise _) => let H := fresh in intros ? ? ? H; discriminate H
      end ].
  Lemma still_emit e : still (emit e). Proof. unfold emit. st. Qed.
  Lemma still_now : still (now W). Proof. unfold now. st. Qed.
  Lemma still_update b v o1 o2 i o3 : still (update_controls b v o1 o2 i o3).
  Proof. unfold update_controls. pose proof still_emit. st. Qed.
  Lemma still_average o : still (get_average o). Proof. unfold get_average, std_default. st. Qed.
  Lemma still_store i v : still (store_test i v). Proof. unfold store_test, std_default. st. Qed.
  Lemma still_respond : still (respond G).
  Proof. unfold respond, note_record, log_fom, send_response. pose proof still_average. pose proof still_emit. pose proof still_update. st. Qed.
  Lemma still_routine x it : still (routine_call G W x it).
  Proof.
    unfold routine_call, check_budget, check_goal, check_total_time, stop_because, handle_user_cancellation, set_reason, get_controls, get_data, add_to_track,
      check_advanced, set_sc_reason, set_conv.
    pose proof still_emit. pose proof still_now. pose proof (still_poll G W). pose proof (still_running G W). pose proof still_respond. st.
  Qed.
  Lemma still_re x it ps ii : still (re_evaluate G W x it ps ii).
  Proof.
    revert ii. induction ps; intros ii; cbn [re_evaluate]; unfold test_average; pose proof still_average; pose proof still_store; pose proof still_routine; st.
  Qed.
  Lemma inner_draws_nothing : draws_nothing (inner_routine_call G W).
  Proof.
    intros x it v. change (still (inner_routine_call G W x it v)).
    unfold inner_routine_call, test_average. pose proof still_update. pose proof still_average. pose proof still_store. pose proof still_re. pose proof still_routine. st.
  Qed.
End Own.
