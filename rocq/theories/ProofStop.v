(** The stopping criteria of the direct search methods. *)
From Coq Require Import String ZArith List Bool Lia Permutation Sorted.
From RecordUpdate Require Import RecordSet.
From Verif Require Import Num NumFacts Py PyFacts ModelPulse ModelControls ModelLinalg ModelState ModelSearch ModelRun
  SpecRun SpecSearch SpecStop ProofSim ProofNM ProofSearch ProofNMBound.
Import ListNotations RecordSetNotations.
Open Scope list_scope.
Open Scope run_scope.

Section Extent.
  Context {N : Num} (NO : NumOrder N).
  Lemma npmax_le (a b c : num) : (npmax a b <=? c)%num = true <-> (a <=? c)%num = true /\ (b <=? c)%num = true.
  Proof.
    unfold npmax. destruct (nisnan a) eqn:Ea; cbn [orb].
    - rewrite (nle_nan_l _ NO a c Ea). intuition congruence.
    - destruct (b <=? a)%num eqn:E.
      + split; [|tauto]. intros H. split; [assumption|]. now apply (nle_trans _ NO b a c).
      + split; [|tauto]. intros H. split; [|assumption]. destruct (nisnan b) eqn:Eb; [now rewrite (nle_nan_l _ NO b c Eb) in H|].
        destruct (nle_total _ NO a b Ea Eb) as [K|K]; [|congruence]. now apply (nle_trans _ NO a b c).
  Qed.
  Lemma amax_le l m c : amax l = Ok m -> (m <=? c)%num = true <-> forall y, In y l -> (y <=? c)%num = true.
  Proof.
    destruct l as [|x l]; [discriminate|]. cbn [amax]. intros H. injection H as <-. revert x.
    induction l as [|z l IH]; intros x; cbn [fold_left].
    - split; [intros H y [<-|[]]; assumption|]. intros H. apply H. now left.
    - rewrite IH. split.
      + intros H y [<-|[<-|I]]; [| |apply H; now right]; pose proof (H _ (or_introl eq_refl)) as K; now apply npmax_le in K as [K1 K2].
      + intros H y [<-|I]; [|apply H; right; now right]. apply npmax_le. split; apply H; [now left|right; now left].
  Qed.
  Lemma in_vsub (v w : vec) d : In d (vsub v w) <-> exists k a b, nth_error v k = Some a /\ nth_error w k = Some b /\ d = (a - b)%num.
  Proof.
    unfold vsub. revert w. induction v as [|a v IH]; intros w.
    - cbn. split; [easy|]. intros (k & a & b & H & _). now destruct k.
    - destruct w as [|b w].
      + cbn. split; [easy|]. intros (k & a' & b & _ & H & _). now destruct k.
      + cbn [map2]. split.
        * intros [<-|I]; [exists 0, a, b; repeat split|]. apply IH in I as (k & a' & b' & A & B & C). exists (S k), a', b'. now repeat split.
        * intros ([|k] & a' & b' & A & B & C); cbn in A, B; [injection A as ->; injection B as ->; now left|]. right. apply IH. now exists k, a', b'.
  Qed.
  Lemma check_simplex_small G sim b r : check_simplex G sim = Ok (b, r) ->
    (b = true <-> small_simplex (g_xatol G) sim) /\ r = "Convergence of the simplex."%string.
  Proof.
    unfold check_simplex. intros H. apply rbind_ok in H as (v0 & E0 & H). apply rbind_ok in H as (m & E1 & H). injection H as <- <-.
    split; [|reflexivity]. apply py_nth_first in E0 as (vs & ->). cbn [tl] in E1. rewrite (amax_le _ _ _ E1). split.
    - intros H. exists v0, vs. split; [reflexivity|]. intros v k a b I A B. apply H. apply in_flat_map. exists v. split; [assumption|].
      apply in_map_iff. exists (a - b)%num. split; [reflexivity|]. apply in_vsub. now exists k, a, b.
    - intros (w0 & ws & [= <- <-] & K) y I. apply in_flat_map in I as (v & I & J). apply in_map_iff in J as (d & <- & J).
      apply in_vsub in J as (k & a & b & A & B & ->). now apply (K v k a b).
  Qed.
  Lemma check_simplex_ok G dim sim fsim : simplex_of (S dim) sim fsim -> exists b r, check_simplex G sim = Ok (b, r).
  Proof.
    intros [R C _]. destruct sim as [|v0 [|v vs]]; try discriminate. unfold check_simplex. cbn.
    pose proof (C v0 (or_introl eq_refl)) as L0. pose proof (C v (or_intror (or_introl eq_refl))) as L1.
    destruct v0 as [|a v0], v as [|b v]; try discriminate. cbn. eauto.
  Qed.
End Extent.

Section Stop.
  Context {N : Num} (G : settings) (W : world).

  (** Without Ctrl-C the points where somebody else may act leave the criteria and the clock alone. *)
  Section Quiet.
    Hypothesis NSI : no_sigint W.
    Lemma poll_quiet s : exists s', poll G W s = (Ok tt, s') /\ s_sc s' = s_sc s /\ k_clock (s_cnt s') = k_clock (s_cnt s).
    Proof.
      unfold poll. unfold bind at 1, get. cbv beta iota. rewrite bind_upd. specialize (NSI (k_poll (s_cnt s))).
      destruct (w_async W _); [|eexists; repeat split..|congruence].
      eexists. repeat split.
    Qed.
    Lemma is_conv_quiet s : exists s', is_conv G W s = (Ok (converged s), s') /\ s_sc s' = s_sc s /\ k_clock (s_cnt s') = k_clock (s_cnt s).
    Proof.
      destruct (poll_quiet s) as (s' & E & A & B). exists s'. split; [|now split]. unfold is_conv, bind. rewrite E. cbn.
      unfold converged. now rewrite A.
    Qed.
    Lemma set_check_quiet b r s : exists s', set_check G W b r s = (Ok b, s') /\
      s_sc s' = mk_sc b r (sc_track (s_sc s)) (sc_start (s_sc s)) /\ k_clock (s_cnt s') = k_clock (s_cnt s).
    Proof.
      destruct (poll_quiet s) as (s1 & E & A & B). unfold set_check, bind at 1. rewrite E. cbv beta iota.
      unfold set_conv, set_sc_reason. rewrite !bind_upd.
      match goal with |- context [is_conv G W ?t] => destruct (is_conv_quiet t) as (s2 & E2 & A2 & B2) end.
      exists s2. rewrite E2. split; [reflexivity|]. rewrite A2, B2. cbn. split; [|assumption]. rewrite A. now destruct (s_sc s).
    Qed.
    Lemma check_nm_outcome sim fsim calls s small r : converged s = false -> check_simplex G sim = Ok (small, r) ->
      exists s', check_stopping_nm G W sim fsim calls s = (Ok tt, s') /\ sc_start (s_sc s') = sc_start (s_sc s) /\
        let '(b, r) :=
          if (g_max_eval G <=? Z.of_nat calls)%Z then (true, snd (check_func_eval G calls))
          else if small then (true, r)
          else if (nstd fsim <=? g_fatol G)%num then (true, "Convergence of the FoM (fatol)."%string)
          else if (g_time_lim G <=? minutes (sc_start (s_sc s)) (clock W s))%num
               then (true, "Optimization time for direct search exceeded limit."%string)
               else (false, "Convergence of the FoM."%string)
        in converged s' = b /\ reason s' = r /\ (r = "Optimization time for direct search exceeded limit."%string -> k_clock (s_cnt s') = S (k_clock (s_cnt s))).
    Proof.
      intros C E. assert (r = "Convergence of the simplex."%string) as Er.
      { unfold check_simplex in E. apply rbind_ok in E as (? & _ & E). apply rbind_ok in E as (? & _ & E). now injection E as _ <-. }
      unfold check_stopping_nm. destruct (is_conv_quiet s) as (s1 & E1 & A1 & B1). unfold bind at 1. rewrite E1, C. cbv beta iota.
      destruct (set_check_quiet (fst (check_func_eval G calls)) (snd (check_func_eval G calls)) s1) as (s2 & E2 & A2 & B2).
      unfold bind at 1. rewrite E2. cbn [fst snd check_func_eval]. destruct (g_max_eval G <=? Z.of_nat calls)%Z eqn:F1.
      { exists s2. split; [reflexivity|]. unfold converged, reason. rewrite A2, A1. cbn. rewrite F1. repeat split; discriminate. }
      rewrite E. unfold bind at 1, lift. cbv beta iota.
      destruct (set_check_quiet small r s2) as (s3 & E3 & A3 & B3). unfold bind at 1. cbn [fst snd]. rewrite E3. destruct small.
      { exists s3. split; [reflexivity|]. unfold converged, reason. rewrite A3, A2, A1. cbn. rewrite Er. repeat split; discriminate. }
      destruct (set_check_quiet (fst (check_f_size G fsim)) (snd (check_f_size G fsim)) s3) as (s4 & E4 & A4 & B4).
      unfold bind at 1. rewrite E4. unfold check_f_size in *. destruct (nstd fsim <=? g_fatol G)%num eqn:F2; cbn [fst snd] in *.
      { exists s4. split; [reflexivity|]. unfold converged, reason. rewrite A4, A3, A2, A1. cbn. repeat split; discriminate. }
      unfold check_time_out, now. unfold bind at 1. unfold bind at 1. unfold bind at 1, get. cbv beta iota. rewrite bind_upd.
      unfold ret. unfold bind at 1. cbv beta iota. cbn [fst snd].
      match goal with |- context [poll G W;;; ?k] => unfold bind at 1 end.
      match goal with |- context [poll G W ?t] => destruct (poll_quiet t) as (s5 & E5 & A5 & B5) end. rewrite E5. cbv beta iota.
      unfold set_conv. rewrite bind_upd.
      unfold bind at 1. match goal with |- context [is_conv G W ?t] => destruct (is_conv_quiet t) as (s6 & E6 & A6 & B6) end. rewrite E6.
      cbv beta iota. unfold converged at 1. cbn [s_sc sc_conv set] in A6 |- *. cbn in A5, A6.
      assert (sc_start (s_sc s4) = sc_start (s_sc s)) as T0 by (rewrite A4, A3, A2, A1; reflexivity).
      assert (k_clock (s_cnt s4) = k_clock (s_cnt s)) as K0 by congruence.
      rewrite T0, K0 in *. unfold clock. destruct (g_time_lim G <=? minutes (sc_start (s_sc s)) (w_clock W (k_clock (s_cnt s))))%num eqn:F3.
      - cbn [set]. unfold set_sc_reason. unfold bind at 1. destruct (poll_quiet s6) as (s7 & E7 & A7 & B7). rewrite E7. cbv beta iota.
        eexists. split; [cbn; reflexivity|]. unfold converged, reason. cbn. rewrite A7, A6. cbn. rewrite A5, A4, A3, A2, A1. cbn. repeat split. intros _. rewrite B7, B6. cbn. rewrite B5. cbn. congruence.
      - cbn. exists s6. split; [reflexivity|]. unfold converged, reason. rewrite A6. cbn. rewrite A5, A4, A3, A2, A1. cbn. repeat split; discriminate.
    Qed.
    Lemma check_cma_outcome fsim calls s : converged s = false ->
      exists s', check_stopping_cma G W fsim calls s = (Ok tt, s') /\ sc_start (s_sc s') = sc_start (s_sc s) /\
        let '(b, r) :=
          if (g_max_eval G <=? Z.of_nat calls)%Z then (true, snd (check_func_eval G calls))
          else if (nstd fsim <=? g_fatol G)%num then (true, "Convergence of the FoM (fatol)."%string)
          else ((g_time_lim G <=? minutes (sc_start (s_sc s)) (clock W s))%num, "Optimization time for direct search exceeded limit."%string)
        in converged s' = b /\ reason s' = r.
    Proof.
      intros C. unfold check_stopping_cma. destruct (is_conv_quiet s) as (s1 & E1 & A1 & B1). unfold bind at 1. rewrite E1, C. cbv beta iota.
      destruct (set_check_quiet (fst (check_func_eval G calls)) (snd (check_func_eval G calls)) s1) as (s2 & E2 & A2 & B2).
      unfold bind at 1. rewrite E2. cbn [fst snd check_func_eval]. destruct (g_max_eval G <=? Z.of_nat calls)%Z eqn:F1.
      { exists s2. split; [reflexivity|]. unfold converged, reason. rewrite A2, A1. cbn. rewrite F1. now repeat split. }
      destruct (set_check_quiet (fst (check_f_size G fsim)) (snd (check_f_size G fsim)) s2) as (s4 & E4 & A4 & B4).
      unfold bind at 1. rewrite E4. unfold check_f_size in *. destruct (nstd fsim <=? g_fatol G)%num eqn:F2; cbn [fst snd] in *.
      { exists s4. split; [reflexivity|]. unfold converged, reason. rewrite A4, A2, A1. cbn. now repeat split. }
      unfold check_time_out, now. unfold bind at 1. unfold bind at 1. unfold bind at 1, get. cbv beta iota. rewrite bind_upd.
      unfold ret. unfold bind at 1. cbv beta iota. cbn [fst snd]. unfold bind at 1.
      match goal with |- context [set_check G W ?b ?r ?t] => destruct (set_check_quiet b r t) as (s5 & E5 & A5 & B5) end. rewrite E5. cbn in A5.
      exists s5. split; [reflexivity|]. unfold converged, reason. rewrite A5. cbn. unfold clock.
      replace (sc_start (s_sc s4)) with (sc_start (s_sc s)) by (rewrite A4, A2, A1; reflexivity).
      replace (k_clock (s_cnt s4)) with (k_clock (s_cnt s)) by congruence. now repeat split.
    Qed.
  End Quiet.

  Lemma first_some l r : first_fulfilled l r -> some_fulfilled l.
  Proof. intros (b & P & a & -> & H & _). exists P, r. split; [apply in_or_app; right; now left|assumption]. Qed.
  Lemma first_here (P : Prop) (r : string) l : P -> first_fulfilled ((P, r) :: l) r.
  Proof. intros H. now exists [], P, l. Qed.
  Lemma first_later (P : Prop) (r : string) l r' : ~ P -> first_fulfilled l r' -> first_fulfilled ((P, r) :: l) r'.
  Proof.
    intros NP (b & Q & a & -> & H & K). exists ((P, r) :: b), Q, a. split; [reflexivity|]. split; [assumption|].
    intros Q' r'' [[= <- <-]|I]; [assumption|]. now apply (K Q' r'').
  Qed.

  Definition nm_outcome (sim : list vec) (fsim : list num) (calls : nat) (small : bool) (r : string) (s s' : st) : Prop :=
    sc_start (s_sc s') = sc_start (s_sc s) /\
    let '(b, r) :=
      if (g_max_eval G <=? Z.of_nat calls)%Z then (true, snd (check_func_eval G calls))
      else if small then (true, r)
      else if (nstd fsim <=? g_fatol G)%num then (true, "Convergence of the FoM (fatol)."%string)
      else if (g_time_lim G <=? minutes (sc_start (s_sc s)) (clock W s))%num
           then (true, "Optimization time for direct search exceeded limit."%string)
           else (false, "Convergence of the FoM."%string)
    in converged s' = b /\ reason s' = r /\ (r = "Optimization time for direct search exceeded limit."%string -> k_clock (s_cnt s') = S (k_clock (s_cnt s))).
  Lemma nm_logic (NO : NumOrder N) sim fsim calls s s' small r :
    check_simplex G sim = Ok (small, r) -> nm_outcome sim fsim calls small r s s' ->
      let l := nm_criteria G sim fsim calls (sc_start (s_sc s)) (clock W s) in
      (converged s' = true <-> some_fulfilled l) /\ (converged s' = true -> first_fulfilled l (reason s')) /\
      sc_start (s_sc s') = sc_start (s_sc s) /\
      (converged s' = true -> first_fulfilled (nm_criteria G sim fsim calls (sc_start (s_sc s)) (w_clock W (pred (k_clock (s_cnt s'))))) (reason s')).
  Proof.
    intros E [T K]. cbv zeta.
    assert (converged s' = true -> forall rr, reason s' = rr -> first_fulfilled (nm_criteria G sim fsim calls (sc_start (s_sc s)) (clock W s)) rr ->
      first_fulfilled (nm_criteria G sim fsim calls (sc_start (s_sc s)) (w_clock W (pred (k_clock (s_cnt s'))))) rr) as CK.
    { intros _ rr Er (b & P & a & F & p & np).
      assert (rr = "Optimization time for direct search exceeded limit."%string -> k_clock (s_cnt s') = S (k_clock (s_cnt s))) as KK.
      { destruct (_ <=? _)%Z; [|destruct small; [|destruct (_ <=? _)%num; [|destruct (_ <=? _)%num]]]; destruct K as (K1 & K2 & K3); rewrite <- Er, K2; try discriminate; try exact K3.
        all: intros X; rewrite X in K3; now apply K3. }
      clear Er. destruct b as [|[? ?] [|[? ?] [|[? ?] [|[? ?] b]]]]; cbn in F; injection F; intros; subst.
      - exists [], (g_max_eval G <= Z.of_nat calls)%Z. eexists. split; [reflexivity|]. now split.
      - eexists [_], _, _. split; [reflexivity|]. split; [assumption|]. exact np.
      - eexists [_; _], _, _. split; [reflexivity|]. split; [assumption|]. exact np.
      - eexists [_; _; _], _, _. split; [reflexivity|]. split; [|exact np]. unfold clock in p. rewrite KK by reflexivity. exact p.
      - now destruct b. }
    enough (((converged s' = true <-> some_fulfilled (nm_criteria G sim fsim calls (sc_start (s_sc s)) (clock W s))) /\
      (converged s' = true -> first_fulfilled (nm_criteria G sim fsim calls (sc_start (s_sc s)) (clock W s)) (reason s')))) as [EA EB].
    { split; [exact EA|]. split; [exact EB|]. split; [exact T|]. intros Cv. apply CK; [assumption|reflexivity|now apply EB]. }
    clear CK.
    apply (check_simplex_small NO) in E as [S ->].
    set (l := nm_criteria _ _ _ _ _ _).
    assert (converged s' = true /\ first_fulfilled l (reason s') \/ converged s' = false /\ ~ some_fulfilled l) as [[A B]|[A B]].
    2: (split; [split; [intros _; now apply first_some in B|tauto]|tauto]).
    2: (split; [rewrite A; split; [discriminate|now intros F; apply B in F]|rewrite A; discriminate]).
    unfold l, nm_criteria. fold (minutes (sc_start (s_sc s)) (clock W s)).
    destruct (g_max_eval G <=? Z.of_nat calls)%Z eqn:F1.
    { destruct K as (K1 & K2 & K3). left. split; [assumption|]. rewrite K2. apply first_here. now apply Z.leb_le. }
    assert (~ (g_max_eval G <= Z.of_nat calls)%Z) as N1 by (apply Z.leb_gt in F1; lia).
    destruct small.
    { destruct K as (K1 & K2 & K3). left. split; [assumption|]. rewrite K2. apply first_later; [assumption|]. apply first_here. now apply S. }
    assert (~ small_simplex (g_xatol G) sim) as N2 by (intros F; apply S in F; discriminate).
    destruct (nstd fsim <=? g_fatol G)%num eqn:F2.
    { destruct K as (K1 & K2 & K3). left. split; [assumption|]. rewrite K2. apply first_later; [assumption|]. apply first_later; [assumption|]. now apply first_here. }
    destruct (g_time_lim G <=? minutes (sc_start (s_sc s)) (clock W s))%num eqn:F3.
    { destruct K as (K1 & K2 & K3). left. split; [assumption|]. rewrite K2. do 2 (apply first_later; [assumption|]). apply first_later; [discriminate|]. now apply first_here. }
    destruct K as (K1 & K2 & K3). right. split; [assumption|]. intros (P & rr & I & p). cbn in I.
    destruct I as [I|[I|[I|[I|[]]]]]; injection I as <- <-; first [contradiction | congruence | (unfold minutes in *; congruence)].
  Qed.
  Lemma nm_decides (NO : NumOrder N) (NSI : no_sigint W) sim fsim calls s small r :
    converged s = false -> check_simplex G sim = Ok (small, r) ->
    exists s', check_stopping_nm G W sim fsim calls s = (Ok tt, s') /\
      let l := nm_criteria G sim fsim calls (sc_start (s_sc s)) (clock W s) in
      (converged s' = true <-> some_fulfilled l) /\ (converged s' = true -> first_fulfilled l (reason s')).
  Proof.
    intros C E. destruct (check_nm_outcome NSI sim fsim calls s small r C E) as (s' & H & T & K). exists s'. split; [assumption|].
    destruct (nm_logic NO sim fsim calls s s' small r E (conj T K)) as (A & B & _). now split.
  Qed.
  Lemma cma_decides (NSI : no_sigint W) fsim calls s :
    converged s = false ->
    exists s', check_stopping_cma G W fsim calls s = (Ok tt, s') /\
      let l := cma_criteria G fsim calls (sc_start (s_sc s)) (clock W s) in
      (converged s' = true <-> some_fulfilled l) /\ (converged s' = true -> first_fulfilled l (reason s')).
  Proof.
    intros C. destruct (check_cma_outcome NSI fsim calls s C) as (s' & H & _ & K). exists s'. split; [assumption|]. cbv zeta.
    set (l := cma_criteria _ _ _ _ _).
    assert (converged s' = true /\ first_fulfilled l (reason s') \/ converged s' = false /\ ~ some_fulfilled l) as [[A B]|[A B]].
    2: (split; [split; [intros _; now apply first_some in B|tauto]|tauto]).
    2: (split; [rewrite A; split; [discriminate|now intros F; apply B in F]|rewrite A; discriminate]).
    unfold l, cma_criteria. fold (minutes (sc_start (s_sc s)) (clock W s)).
    destruct (g_max_eval G <=? Z.of_nat calls)%Z eqn:F1.
    { destruct K as [K1 K2]. left. split; [assumption|]. rewrite K2. apply first_here. now apply Z.leb_le. }
    assert (~ (g_max_eval G <= Z.of_nat calls)%Z) as N1 by (apply Z.leb_gt in F1; lia).
    destruct (nstd fsim <=? g_fatol G)%num eqn:F2.
    { destruct K as [K1 K2]. left. split; [assumption|]. rewrite K2. apply first_later; [assumption|]. now apply first_here. }
    destruct K as [K1 K2]. destruct (g_time_lim G <=? minutes (sc_start (s_sc s)) (clock W s))%num eqn:F3.
    { left. split; [assumption|]. rewrite K2. apply first_later; [assumption|]. apply first_later; [discriminate|]. now apply first_here. }
    right. split; [assumption|]. intros (P & rr & I & p). cbn in I.
    destruct I as [I|[I|[I|[]]]]; injection I as <- <-; first [contradiction | congruence | (unfold minutes in *; congruence)].
  Qed.

  (** A fulfilled criterion is never revoked, whoever interferes. *)
  Lemma poll_sc_reason s r s' : poll G W s = (r, s') -> reason s' = reason s.
  Proof.
    unfold poll. intros H. unfold bind at 1, get in H. cbv beta iota in H. rewrite bind_upd in H.
    destruct (w_async W _).
    - now injection H as <- <-.
    - pose proof (f_equal snd H) as H'. cbn in H'. now rewrite <- H'.
    - unfold handle_user_cancellation in H. destruct (has_dsm G); pose proof (f_equal snd H) as H'; cbn in H'; now rewrite <- H'.
  Qed.
  Lemma nm_kept sim fsim calls s r s' : converged s = true -> check_stopping_nm G W sim fsim calls s = (r, s') ->
    converged s' = true /\ reason s' = reason s.
  Proof.
    intros C H. unfold check_stopping_nm, is_conv in H. unfold bind at 1, bind at 1 in H. destruct (poll G W s) as [[[]|e] s1] eqn:E.
    - cbn in H. pose proof (poll_conv G W s _ s1 E C) as C1. pose proof (poll_sc_reason s _ s1 E) as R1. rewrite C1 in H. injection H as <- <-. now split.
    - injection H as <- <-. split; [exact (poll_conv G W s _ s1 E C)|exact (poll_sc_reason s _ s1 E)].
  Qed.
  Lemma cma_kept fsim calls s r s' : converged s = true -> check_stopping_cma G W fsim calls s = (r, s') ->
    converged s' = true /\ reason s' = reason s.
  Proof.
    intros C H. unfold check_stopping_cma, is_conv in H. unfold bind at 1, bind at 1 in H. destruct (poll G W s) as [[[]|e] s1] eqn:E.
    - cbn in H. pose proof (poll_conv G W s _ s1 E C) as C1. pose proof (poll_sc_reason s _ s1 E) as R1. rewrite C1 in H. injection H as <- <-. now split.
    - injection H as <- <-. split; [exact (poll_conv G W s _ s1 E C)|exact (poll_sc_reason s _ s1 E)].
  Qed.

  (** ** how a search ends *)
  Section Ends.
    (** [Q] holds of the states of the search that are of interest, and only of undisturbed ones *)
    Variable Q : st -> Prop.
    Hypothesis Qsc : forall f s, Q (s <|s_sc ::= f|>) <-> Q s.
    Hypothesis Qcnt : forall f s, Q (s <|s_cnt ::= f|>) <-> Q s.
    Hypothesis Qpoll : forall s s', poll G W s = (Ok tt, s') -> Q s' -> Q s /\ s_sc s' = s_sc s.
    Variable func : vec -> nat -> option num -> M num.
    Hypothesis Qfunc : forall x it v s y s', func x it v s = (Ok y, s') -> Q s' -> Q s /\ s_sc s' = s_sc s.

    Lemma poll_clock s r s' : poll G W s = (r, s') -> k_clock (s_cnt s') = k_clock (s_cnt s) /\ (s_running s = false -> s_running s' = false).
    Proof.
      unfold poll. intros H. unfold bind at 1, get in H. cbv beta iota in H. rewrite bind_upd in H.
      destruct (w_async W _).
      - now injection H as <- <-.
      - pose proof (f_equal snd H) as H'. cbn in H'. now rewrite <- H'.
      - unfold handle_user_cancellation in H. destruct (has_dsm G); pose proof (f_equal snd H) as H'; cbn in H'; now rewrite <- H'.
    Qed.
    Lemma is_conv_q s c s' : is_conv G W s = (Ok c, s') -> Q s' ->
      Q s /\ c = converged s /\ s_sc s' = s_sc s /\ k_clock (s_cnt s') = k_clock (s_cnt s).
    Proof.
      intros H q. unfold is_conv in H. apply bind_ok in H as ([] & s1 & E & H). injection H as <- <-.
      destruct (Qpoll s s1 E q) as [A B]. destruct (poll_clock s _ s1 E) as [C _]. unfold converged. rewrite B. now repeat split.
    Qed.
    Lemma set_check_q b r s c s' : set_check G W b r s = (Ok c, s') -> Q s' ->
      Q s /\ c = b /\ s_sc s' = mk_sc b r (sc_track (s_sc s)) (sc_start (s_sc s)) /\ k_clock (s_cnt s') = k_clock (s_cnt s).
    Proof.
      intros H q. unfold set_check in H. apply bind_ok in H as ([] & s1 & E1 & H).
      unfold set_conv, set_sc_reason in H. rewrite !bind_upd in H. apply is_conv_q in H as (A & -> & B & C); [|assumption].
      apply Qsc in A. apply Qsc in A. destruct (Qpoll s s1 E1 A) as [A1 B1]. destruct (poll_clock s _ s1 E1) as [C1 _].
      split; [assumption|]. split; [reflexivity|]. rewrite B, C. cbn. rewrite B1. split; [now destruct (s_sc s)|assumption].
    Qed.
    Lemma check_nm_q sim fsim calls s s' small r : check_simplex G sim = Ok (small, r) ->
      check_stopping_nm G W sim fsim calls s = (Ok tt, s') -> Q s' -> Q s /\ (converged s = false -> nm_outcome sim fsim calls small r s s').
    Proof.
      intros E H q. assert (r = "Convergence of the simplex."%string) as Er.
      { unfold check_simplex in E. apply rbind_ok in E as (? & _ & E). apply rbind_ok in E as (? & _ & E). now injection E as _ <-. }
      unfold check_stopping_nm in H. apply bind_ok in H as (c1 & s1 & E1 & H).
      destruct c1.
      { injection H as <-. destruct (is_conv_q _ _ _ E1 q) as (A & B & _). split; [assumption|]. congruence. }
      apply bind_ok in H as (c2 & s2 & E2 & H). destruct c2.
      { injection H as <-. destruct (set_check_q _ _ _ _ _ E2 q) as (A2 & B2 & C2 & D2). destruct (is_conv_q _ _ _ E1 A2) as (A1 & B1 & C1 & D1).
        split; [assumption|]. intros C. unfold nm_outcome. cbn [fst check_func_eval] in B2. rewrite <- B2. unfold converged, reason. rewrite C2, C1. cbn.
        repeat split; [now symmetry|discriminate]. }
      rewrite E in H. unfold bind at 1, lift in H. cbv beta iota in H. cbn [fst snd] in H. apply bind_ok in H as (c3 & s3 & E3 & H). destruct c3.
      { injection H as <-. destruct (set_check_q _ _ _ _ _ E3 q) as (A3 & B3 & C3 & D3). destruct (set_check_q _ _ _ _ _ E2 A3) as (A2 & B2 & C2 & D2).
        destruct (is_conv_q _ _ _ E1 A2) as (A1 & B1 & C1 & D1).
        split; [assumption|]. intros C. unfold nm_outcome. cbn [fst check_func_eval] in B2. rewrite <- B2, <- B3. unfold converged, reason. rewrite C3, C2, C1. cbn.
        rewrite Er. repeat split; [now symmetry|discriminate]. }
      apply bind_ok in H as (c4 & s4 & E4 & H). destruct c4.
      { injection H as <-. destruct (set_check_q _ _ _ _ _ E4 q) as (A4 & B4 & C4 & D4). destruct (set_check_q _ _ _ _ _ E3 A4) as (A3 & B3 & C3 & D3).
        destruct (set_check_q _ _ _ _ _ E2 A3) as (A2 & B2 & C2 & D2). destruct (is_conv_q _ _ _ E1 A2) as (A1 & B1 & C1 & D1).
        split; [assumption|]. intros C. unfold nm_outcome. cbn [fst check_func_eval] in B2. rewrite <- B2, <- B3.
        unfold check_f_size in B4, C4. destruct (nstd fsim <=? g_fatol G)%num; [|discriminate]. cbn [fst snd] in *. unfold converged, reason. rewrite C4, C3, C2, C1. cbn.
        repeat split; discriminate. }
      unfold check_time_out, now in H. unfold bind at 1 in H. unfold bind at 1 in H. unfold bind at 1, get in H. cbv beta iota in H. rewrite bind_upd in H.
      unfold ret in H. unfold bind at 1 in H. cbv beta iota in H. cbn [fst snd] in H.
      apply bind_ok in H as ([] & s5 & E5 & H). unfold set_conv in H. rewrite bind_upd in H.
      apply bind_ok in H as (c6 & s6 & E6 & H).
      assert (Q s6 /\ sc_start (s_sc s') = sc_start (s_sc s6) /\ converged s' = converged s6 /\ k_clock (s_cnt s') = k_clock (s_cnt s6) /\
        reason s' = if c6 then "Optimization time for direct search exceeded limit."%string else reason s6) as (q6 & T6 & V6 & K6 & R6).
      { destruct c6; [|injection H as <-; now repeat split]. apply bind_ok in H as ([] & s7 & E7 & H). injection H as <-. apply Qsc in q.
        destruct (Qpoll _ _ E7 q) as [A B]. destruct (poll_clock _ _ _ E7) as [C _]. unfold converged, reason. cbn. rewrite B. now repeat split. }
      destruct (is_conv_q _ _ _ E6 q6) as (A6 & B6 & C6 & D6). apply Qsc in A6. destruct (Qpoll _ _ E5 A6) as [A5 B5]. destruct (poll_clock _ _ _ E5) as [D5 _].
      apply (proj1 (Qcnt _ _)) in A5.
      destruct (set_check_q _ _ _ _ _ E4 A5) as (A4 & B4 & C4 & D4). destruct (set_check_q _ _ _ _ _ E3 A4) as (A3 & B3 & C3 & D3).
      destruct (set_check_q _ _ _ _ _ E2 A3) as (A2 & B2 & C2 & D2). destruct (is_conv_q _ _ _ E1 A2) as (A1 & B1 & C1 & D1).
      split; [assumption|]. intros C. unfold nm_outcome. cbn [fst check_func_eval] in B2. rewrite <- B2, <- B3.
      unfold check_f_size in B4, C4. destruct (nstd fsim <=? g_fatol G)%num; [discriminate|]. cbn [fst snd] in *. clear B4.
      cbn in B5, D5, B6, C6, D6. rewrite T6, V6, K6, R6. unfold converged in *. unfold reason in *. rewrite C6. cbn. rewrite D6. cbn. rewrite D5, B5, C4, C3, C2, C1. cbn.
      unfold converged in B6. cbn in B6.
      replace (k_clock (s_cnt s4)) with (k_clock (s_cnt s)) in * by congruence.
      replace (sc_start (s_sc s4)) with (sc_start (s_sc s)) in * by (rewrite C4, C3, C2, C1; reflexivity).
      unfold clock. rewrite <- B6. destruct c6; repeat split; discriminate.
    Qed.

    (** parts of an iteration before the check: criteria untouched, result as described *)
    Definition steps {A} (m : M A) (R : A -> Prop) : Prop :=
      forall s a s', m s = (Ok a, s') -> Q s' -> Q s /\ (converged s = false -> s_sc s' = s_sc s /\ R a).
    Lemma steps_bind {A B} (m : M A) (k : A -> M B) (R : A -> Prop) (T : B -> Prop) :
      steps m R -> (forall a, steps (k a) (fun b => R a -> T b)) -> steps (bind m k) T.
    Proof.
      intros Hm Hk s b s' H q. apply bind_ok in H as (a & s1 & E & H). destruct (Hk a s1 b s' H q) as [q1 X]. destruct (Hm s a s1 E q1) as [q0 A0].
      split; [assumption|]. intros C. destruct (A0 C) as [A1 A2].
      destruct X as [B1 B2]; [unfold converged in *; now rewrite A1|]. split; [congruence|auto].
    Qed.
    Lemma steps_weak {A} (m : M A) (R T : A -> Prop) : steps m R -> (forall a, R a -> T a) -> steps m T.
    Proof. intros H K s a s' E q. destruct (H s a s' E q) as [A1 A2]. split; [assumption|]. intros C. destruct (A2 C). auto. Qed.
    Lemma steps_ret {A} (a : A) (R : A -> Prop) : R a -> steps (ret a) R.
    Proof. intros K s b s' H q. injection H as <- <-. now split. Qed.
    Lemma steps_lift {A} (r : res A) : steps (lift r) (fun _ => True).
    Proof. intros s b s' H q. apply lift_ok in H as [_ ->]. now split. Qed.
    Lemma steps_raise {A} e R : steps (raise (A := A) e) R.
    Proof. intros s b s' H. discriminate. Qed.
    Lemma steps_is_conv : steps (is_conv G W) (eq false).
    Proof. intros s b s' H q. destruct (is_conv_q _ _ _ H q) as (A & B & C & D). split; [assumption|]. intros E. split; [assumption|congruence]. Qed.
    Lemma steps_now : steps (now W) (fun _ => True).
    Proof. intros s b s' H q. unfold now, bind, get, upd, ret in H. injection H as <- <-. apply Qcnt in q. now split. Qed.
    Lemma steps_call x it v calls : steps (call func x it v calls) (fun _ => True).
    Proof.
      intros s b s' H q. unfold call in H. apply bind_ok in H as (y & s1 & E & H). injection H as <- <-. destruct (Qfunc _ _ _ _ _ _ E q). now split.
    Qed.
    (** values at which the continuation is never reached *)
    Lemma steps_skip {A} (m : M A) (R : A -> Prop) (P : Prop) : steps m (fun _ => True) -> steps m (fun b => P -> P -> R b) -> steps m (fun b => P -> R b).
    Proof. intros _ H. eapply steps_weak; [exact H|]. auto. Qed.
    Ltac base := solve [apply steps_lift | apply steps_is_conv | apply steps_call | apply steps_now | auto].
    Ltac st := eapply steps_bind; [base|]; intros ?.
    Lemma steps_sort L : steps (sort_simplex W L) (fun _ => True).
    Proof. unfold sort_simplex. cbv zeta. st. st. now apply steps_ret. Qed.
    Definition going (o : outcome (N := N)) : Prop := exists L, o = Goes L.
    Lemma steps_put x f calls L : steps (put_last x f calls L) going.
    Proof. unfold put_last. st. st. apply steps_ret. intros _ _. eexists. reflexivity. Qed.
    Ltac more := repeat first
      [ eapply steps_bind; [base|]
      | match goal with
        | |- steps (ret _) _ => apply steps_ret; first [now intros | (intros; discriminate) | (intros; eexists; reflexivity)]
        | |- steps (raise _) _ => apply steps_raise
        | |- forall p : (_ * _)%type, _ => intros [? ?]
        | |- forall _, _ => intros ?
        | |- steps (if ?c then _ else _) _ => destruct c
        end
      | (eapply steps_weak; [base|]) ].
    Lemma steps_rows sigma js L : steps (shrink_rows G W func sigma js L) (fun _ => True).
    Proof. revert L. induction js as [|j js IH]; intros L; [now apply steps_ret|]. cbn [shrink_rows]. cbv zeta. more. all: auto. Qed.
    Lemma steps_shrink sigma dim calls L : steps (shrink G W func sigma dim calls L) going.
    Proof. unfold shrink. pose proof (steps_rows sigma). more. Qed.
    Lemma steps_move rho chi psi sigma dim L : steps (nm_move G W func rho chi psi sigma dim L) going.
    Proof.
      unfold nm_move. cbv zeta. pose proof steps_put as P1. pose proof (steps_shrink sigma dim) as P2. more. all: auto.
    Qed.
    Lemma steps_sum n x it acc calls : steps (sum_calls func n x it acc calls) (fun _ => True).
    Proof. revert acc calls. induction n as [|n IH]; intros acc calls; [now apply steps_ret|]. cbn [sum_calls]. more. all: auto. Qed.
    Lemma steps_drift drift_min drift_avg L : steps (nm_drift G W func drift_min drift_avg L) (fun _ => True).
    Proof. unfold nm_drift. cbv zeta. pose proof steps_sum as P1. more. all: auto. Qed.

    Definition user_stopped : string := "User stopped the optimization or higher order stopping criterion has been reached".
    Definition outcome_of (L : nm) (s s' : st) : Prop :=
      sc_start (s_sc s') = sc_start (s_sc s) /\
      (converged s' = false \/ converged s' = true /\
        (reason s' = user_stopped /\ s_running s' = false \/
         first_fulfilled (nm_criteria G (n_sim L) (n_fsim L) (n_calls L) (sc_start (s_sc s)) (w_clock W (pred (k_clock (s_cnt s'))))) (reason s'))).
    Lemma iter_outcome (NO : NumOrder N) rho chi psi sigma dim drift_min drift_avg L s o s' :
      nm_iter G W func rho chi psi sigma dim drift_min drift_avg L s = (Ok o, s') -> Q s' ->
      (forall L', o = Goes L' -> exists n, simplex_of (S n) (n_sim L') (n_fsim L')) ->
      Q s /\ (converged s = false -> exists L', o = Goes L' /\ outcome_of L' s s').
    Proof.
      intros H q SH. unfold nm_iter in H. apply bind_ok in H as (o1 & s1 & E1 & H).
      destruct o1 as [L1|L1].
      1: { unfold ret in H. assert (Broke L1 = o) as <- by congruence. assert (s1 = s') as -> by congruence. clear H. destruct (steps_move _ _ _ _ _ _ _ _ _ E1 q) as [A1 B1]. split; [assumption|]. intros C. destruct (B1 C) as [_ (? & ?)]. discriminate. }
      apply bind_ok in H as (L2 & s2 & E2 & H). apply bind_ok in H as (L3 & s3 & E3 & H).
      cbv zeta in H. apply bind_ok in H as (run & s4 & E4 & H). unfold get_running in E4. apply bind_ok in E4 as ([] & t & Et & E4). injection E4 as <- <-.
      apply bind_ok in H as ([] & s5 & E5 & H). apply bind_ok in H as ([] & s6 & E6 & H). injection H as <- <-.
      destruct (SH _ eq_refl) as (n & SL). cbn [n_sim n_fsim n_calls] in E6, SL. destruct (check_simplex_ok G _ _ _ SL) as (b & r & Ec).
      destruct (check_nm_q _ _ _ _ _ _ _ Ec E6 q) as [q5 D5].
      assert (Q t) as qt.
      { destruct (s_running t); [now injection E5 as <-|]. apply bind_ok in E5 as ([] & s7 & E7 & E5). apply bind_ok in E5 as ([] & s8 & E8 & E5).
        injection E8 as <-. injection E5 as <-. apply Qsc in q5. apply Qsc in q5. now destruct (Qpoll _ _ E7 q5). }
      destruct (Qpoll _ _ Et qt) as [q3 At]. destruct (steps_drift _ _ _ _ _ _ E3 q3) as [q2 A3]. destruct (steps_sort _ _ _ _ E2 q2) as [q1 A2].
      destruct (steps_move _ _ _ _ _ _ _ _ _ E1 q1) as [q0 A1]. split; [assumption|]. intros C. eexists. split; [reflexivity|].
      destruct (A1 C) as [B1 _]. assert (converged s1 = false) as C1 by (unfold converged in *; now rewrite B1).
      destruct (A2 C1) as [B2 _]. assert (converged s2 = false) as C2 by (unfold converged in *; now rewrite B2).
      destruct (A3 C2) as [B3 _]. assert (converged t = false) as Ct by (unfold converged in *; now rewrite At, B3).
      assert (sc_start (s_sc t) = sc_start (s_sc s)) as TT by (rewrite At, B3, B2, B1; reflexivity).
      unfold outcome_of. cbn [n_sim n_fsim n_calls]. destruct (s_running t) eqn:R.
      - unfold ret in E5. assert (t = s5) as <- by congruence. destruct (nm_logic NO _ _ _ _ _ _ _ Ec (D5 Ct)) as (D1 & D2 & D3 & D4).
        split; [congruence|]. destruct (converged s6) eqn:Cs; [right|now left]. split; [reflexivity|]. right. rewrite <- TT. now apply D4.
      - apply bind_ok in E5 as ([] & s7 & E7 & E5). apply bind_ok in E5 as ([] & s8 & E8 & E5). injection E8 as <-. injection E5 as <-.
        assert (Q s7) as q7 by (apply Qsc in q5; now apply Qsc in q5).
        destruct (Qpoll _ _ E7 q7) as [_ A7]. destruct (poll_clock _ _ _ E7) as [_ R7]. specialize (R7 R).
        unfold check_stopping_nm in E6. apply bind_ok in E6 as (c & s9 & E9 & E6). unfold is_conv in E9. apply bind_ok in E9 as ([] & s10 & E10 & E9). injection E9 as <- <-.
        assert (s_running s10 = false) as R10 by (destruct (poll_clock _ _ _ E10) as [_ X]; apply X; exact R7).
        assert (converged s10 = true) as C10 by (refine (poll_conv G W _ _ _ E10 _); reflexivity). unfold converged in C10. rewrite C10 in E6. injection E6 as <-.
        destruct (Qpoll _ _ E10 q) as [_ A10].
        split; [rewrite A10; cbn; rewrite A7; exact TT|]. right. split; [exact C10|]. left. split; [|assumption]. unfold reason. rewrite A10. reflexivity.
    Qed.
    Lemma eval_q rows it calls s a s' : eval_rows func rows it calls s = (Ok a, s') -> Q s' -> Q s /\ s_sc s' = s_sc s.
    Proof.
      revert calls s a s'. induction rows as [|x rows IH]; intros calls s a s' H q; cbn [eval_rows] in H; [now injection H as <- <-|].
      apply bind_ok in H as ([y c] & s1 & E & H). unfold call in E. apply bind_ok in E as (y' & s2 & E & E'). injection E' as <- <- <-.
      apply bind_ok in H as ([ys c'] & s3 & E3 & H). injection H as <- <-. destruct (IH _ _ _ _ E3 q) as [q2 A2]. destruct (Qfunc _ _ _ _ _ _ E q2).
      split; [assumption|congruence].
    Qed.

    Hypothesis SO : sorts W.
    Hypothesis NO : NumOrder N.
    Variables (adaptive : bool) (x0 : vec) (sim : option (list vec)) (drift_min : num) (drift_avg : Z).
    Hypothesis PS : proper_start x0 sim.
    Hypothesis D : x0 <> [].
    Notation bd := (boundary G W func adaptive x0 sim drift_min drift_avg).
    Lemma bd_shape s0 L s : bd s0 L s -> exists n, simplex_of (S n) (n_sim L) (n_fsim L).
    Proof.
      intros B. exists (pred (length x0)). replace (S (pred (length x0))) with (length x0) by (destruct x0; [easy|reflexivity]).
      apply (boundary_sane G W SO func adaptive x0 sim drift_min drift_avg PS (fun _ => True) s0 L s); auto.
    Qed.
    Lemma loop_outcome rho chi psi sigma fuel s0 L s L' s' : nm_parameters adaptive (length x0) = Ok (rho, chi, psi, sigma) ->
      bd s0 L s -> nm_loop G W func rho chi psi sigma (length x0) drift_min drift_avg fuel L s = (Ok L', s') -> Q s' ->
      Q s /\ (converged s = false ->
        exists t, bd s0 L' t /\ s_sc s' = s_sc t /\ k_clock (s_cnt s') = k_clock (s_cnt t) /\ (s_running t = false -> s_running s' = false) /\
          exists u, sc_start (s_sc u) = sc_start (s_sc s) /\ outcome_of L' u t /\ converged t = true).
    Proof.
      intros HP. revert L s. induction fuel as [|fuel IH]; intros L s B H q; [discriminate|]. cbn [nm_loop] in H.
      apply bind_ok in H as (c & s1 & E1 & H). destruct c.
      { injection H as <- <-. destruct (is_conv_q _ _ _ E1 q) as (A1 & B1 & _). split; [assumption|]. congruence. }
      apply bind_ok in H as (o & s2 & E2 & H).
      assert (Q s2) as q2.
      { destruct o as [L2|L2]; [now injection H as _ <-|]. eapply IH; [|exact H|exact q]. exact (at_next G W func adaptive x0 sim drift_min drift_avg s0 L s s1 rho chi psi sigma L2 s2 B E1 HP E2). }
      destruct (iter_outcome NO _ _ _ _ _ _ _ _ _ _ _ E2 q2) as [q1 K].
      { intros L2 ->. exact (bd_shape _ _ _ (at_next G W func adaptive x0 sim drift_min drift_avg s0 L s s1 rho chi psi sigma L2 s2 B E1 HP E2)). }
      destruct (is_conv_q _ _ _ E1 q1) as (q0 & B1 & C1 & D1). split; [assumption|]. intros C.
      destruct K as (L2 & -> & K); [unfold converged in *; now rewrite C1|].
      pose proof (at_next G W func adaptive x0 sim drift_min drift_avg s0 L s s1 rho chi psi sigma L2 s2 B E1 HP E2) as B2.
      destruct (converged s2) eqn:C2.
      - destruct fuel as [|fuel]; [discriminate|]. cbn [nm_loop] in H. apply bind_ok in H as (c & s3 & E3 & H).
        unfold is_conv in E3. apply bind_ok in E3 as ([] & s4 & E4 & E3). injection E3 as <- <-.
        assert (sc_conv (s_sc s4) = true) as C4 by (exact (poll_conv G W _ _ _ E4 C2)). rewrite C4 in H. injection H as <- <-.
        destruct (Qpoll _ _ E4 q) as [_ A4]. destruct (poll_clock _ _ _ E4) as [B4 R4].
        exists s2. split; [assumption|]. split; [assumption|]. split; [assumption|]. split; [assumption|].
        exists s1. split; [now rewrite C1|]. now split.
      - destruct (IH L2 s2 B2 H q) as [_ T]. destruct (T C2) as (t & T1 & T2 & T3 & T4 & u & U1 & U2). exists t. repeat (split; [assumption|]). exists u. split; [|assumption].
        rewrite U1. destruct K as [K _]. rewrite K. now rewrite C1.
    Qed.
    Lemma search_reason s0 r s' : run_nm G W func adaptive x0 sim drift_min drift_avg s0 = (Ok r, s') -> Q s' ->
      exists L s, bd s0 L s /\ hd_error (n_sim L) = Some (r_x r) /\ hd_error (n_fsim L) = Some (r_fval r) /\ n_calls L = r_calls r /\
        (r_reason r = user_stopped /\ s_running s' = false \/
         first_fulfilled (nm_criteria G (n_sim L) (n_fsim L) (n_calls L) (sc_start (s_sc s0)) (w_clock W (pred (k_clock (s_cnt s'))))) (r_reason r)).
    Proof.
      intros H q. unfold run_nm in H.
      apply bind_ok in H as ([] & sa & Ea & H). apply bind_ok in H as ([] & sb & Eb & H).
      apply bind_ok in H as (t0 & sc & Ec & H). apply bind_ok in H as (t1 & sd & Ed & H).
      apply bind_ok in H as ([[[rho chi] psi] sigma] & se & Ee & H). apply lift_ok in Ee as [HP ->]. cbv zeta in H.
      apply bind_ok in H as ([fsim calls] & sf & Ef & H). apply bind_ok in H as (L & s1 & Eg & H).
      apply bind_ok in H as (L' & s2 & HL & H).
      apply bind_ok in H as (x & si & X & H). apply lift_ok in X as [X ->].
      apply bind_ok in H as (fv & si & F & H). apply lift_ok in F as [F ->].
      apply bind_ok in H as (sx & si & Ek & H). injection Ek as <- <-. injection H as <- <-. cbn [r_x r_fval r_calls r_reason].
      assert (bd s0 L s1) as B.
      { eapply at_start with (t := t1) (s1 := sd); [|destruct sim; exact Ef|destruct sim; exact Eg].
        unfold bind at 1. rewrite Ea. unfold bind at 1. rewrite Eb. unfold bind at 1. rewrite Ec. exact Ed. }
      destruct (loop_outcome _ _ _ _ _ _ _ _ _ _ HP B HL q) as [q1 LO].
      assert (converged s1 = false /\ sc_start (s_sc s1) = sc_start (s_sc s0)) as [C T].
      { assert (s_sc s1 = s_sc sf /\ Q sf) as [Es qf].
        { unfold sort_simplex in Eg. cbv zeta in Eg. apply bind_ok in Eg as (? & ? & E1 & Eg). apply lift_ok in E1 as [_ ->].
          apply bind_ok in Eg as (? & ? & E1 & Eg). apply lift_ok in E1 as [_ ->]. now injection Eg as _ <-. }
        apply eval_q in Ef as [qd Ef]; [|assumption].
        injection Eb as <-. unfold now, bind, get, upd, ret in Ec, Ed. injection Ec as _ <-. injection Ed as _ <-. apply Qcnt in qd. apply Qcnt in qd. apply Qsc in qd.
        destruct (Qpoll _ _ Ea qd) as [_ Aa]. unfold converged. rewrite Es, Ef. cbn. now rewrite Aa. }
      destruct (LO C) as (t & Bt & St & Kt & Rt & u & U1 & (U2 & U3) & U4).
      exists L', t. split; [assumption|]. apply py_nth_first in X as (? & X). apply py_nth_first in F as (? & F).
      rewrite X, F. do 2 (split; [reflexivity|]). split; [reflexivity|].
      unfold reason in U3. rewrite <- St, <- Kt, U1, T in U3. destruct U3 as [U3|[_ [[U3 U5]|U3]]]; [congruence| |].
      - left. split; [assumption|now apply Rt].
      - right. rewrite <- X, <- F. exact U3.
    Qed.
  End Ends.
End Stop.
