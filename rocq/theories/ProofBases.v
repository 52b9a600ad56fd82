(** Facts about the shipped bases. *)
From Coq Require Import String ZArith List Bool Lia Reals Lra.
From Verif Require Import Num NumFacts Py PyFacts ModelPulse ModelControls ModelBases SpecControls
  ProofControls ProofLimits ProofShrink ProofTimes ProofIndex ProofPipeline ProofEss ProofBase ProofSI.
Import ListNotations.
From Flocq Require Import Core.
Open Scope list_scope.

Section Generic.
  Context {N : Num} (F : funs N).

  Lemma add_terms_regular term l b a : add_terms term l (Ar b) = Ok a -> exists r, a = Ar r /\ length r = length b.
  Proof.
    revert b. induction l as [|i l IH]; intros b H; cbn [add_terms] in H.
    - injection H as <-. eauto.
    - apply rbind_ok in H as (t & _ & H). apply rbind_ok in H as (p & Hp & H).
      destruct (aiadd_length _ _ _ Hp) as (r & -> & L). destruct (IH _ H) as (r' & -> & L'). exists r'. split; [reflexivity|congruence].
  Qed.

  Lemma sigmoid_sum_regular s c amps taus sigmas cl a : sigmoid_sum F s c amps taus sigmas cl = Ok a ->
    exists r, a = Ar r /\ length r = pc_bins c.
  Proof.
    unfold sigmoid_sum. intros H. apply rbind_ok in H as (p & Hp & H). apply rbind_ok in H as (a0 & _ & H).
    apply rbind_ok in H as (q & Hq & H). unfold zero_pulse in Hp.
    apply add_terms_regular in Hp as (r & -> & L). apply aiadd_length in Hq as (r' & -> & L').
    unfold zeros in L. rewrite repeat_length in L.
    destruct cl.
    - apply aiadd_length in H as (r'' & -> & L''). exists r''; split; [reflexivity|congruence].
    - injection H as <-. exists r'; split; [reflexivity|congruence].
  Qed.

  Lemma shipped_plain b s u : plain_basis (shipped F b s u).
  Proof. intros c. reflexivity. Qed.

  Lemma fourier_regular k c a : fourier_shape F k c = Ok a -> exists r, a = Ar r /\ length r = pc_bins c.
  Proof.
    intros H. apply add_terms_regular in H as (r & -> & L). exists r; split; [reflexivity|]. unfold zeros in L. now rewrite repeat_length in L.
  Qed.

  Lemma shipped_regular b s u : b <> Walsh -> regular_update (shipped F b s u).
  Proof.
    intros NW c a C H. assert (B := co_bins _ _ C). cbn [pf_bins shipped pf_shape] in *. rewrite <- B.
    destruct b; cbn [basis_shape] in H.
    - eapply fourier_regular; eauto.
    - apply add_terms_regular in H as (r & -> & L). exists r; split; [reflexivity|]. unfold zeros in L. now rewrite repeat_length in L.
    - unfold sigmoid_shape in H. eapply sigmoid_sum_regular; exact H.
    - unfold sigmoid_timedep_shape in H. rinv. eapply sigmoid_sum_regular; eassumption.
    - unfold sigmoid_sigmas_shape in H. rinv. eapply sigmoid_sum_regular; eassumption.
    - unfold sigmoid_allparas_shape in H. destruct (allparas_split _ _ _) as [[am dt] ds].
      do 3 (apply rbind_ok in H as (? & ? & H)); eapply sigmoid_sum_regular; exact H.
    - apply add_terms_regular in H as (r & -> & L). exists r; split; [reflexivity|]. unfold zeros in L. now rewrite repeat_length in L.
    - congruence.
    - eapply fourier_regular; eauto.
    - injection H as <-. exists (pc_opt c). split; [reflexivity|]. rewrite (co_opt _ _ C). cbn. now rewrite B.
  Qed.

  Lemma shipped_ignores_base b s u : ignores_base (shipped F b s u).
  Proof.
    unfold ignores_base. intros c b0. destruct b; reflexivity.
  Qed.

  Lemma shipped_ignores_options b s u : ignores_options (shipped F b s u).
  Proof. unfold ignores_options. intros c l. destruct b; reflexivity. Qed.

  Lemma at_nth (l : list num) i d : (i < length l)%nat -> at_ l i = Ok (nth i l d).
  Proof.
    intros L. unfold at_. rewrite py_nth_nonneg.
    destruct (nth_error l i) as [v|] eqn:E; [|apply nth_error_None in E; lia].
    f_equal. symmetry. now apply nth_error_nth.
  Qed.

  Lemma aiadd_same_ok (l m : list num) : length l = length m -> aiadd (Ar l) (Ar m) = Ok (Ar (map2 nadd l m)).
  Proof.
    intros E. unfold aiadd. rewrite (abin_same _ l m E). cbn [rbind].
    assert (L : length (map2 nadd l m) = length l) by (rewrite map2_length; lia). rewrite L, Nat.eqb_refl. reflexivity.
  Qed.
End Generic.

Section Reals.
  Open Scope R_scope.
  Variable F : funs Rnum.

  (** sum of the first [k] values *)
  Fixpoint rsum (g : nat -> R) (k : nat) : R := match k with O => 0 | S k => rsum g k + g k end.

  Lemma rsum_ext g h k : (forall i, (i < k)%nat -> g i = h i) -> rsum g k = rsum h k.
  Proof. induction k as [|k IH]; intros E; cbn; [reflexivity|]. rewrite IH, E by auto. reflexivity. Qed.
  Lemma rsum_lin a b g h k : rsum (fun i => a * g i + b * h i) k = a * rsum g k + b * rsum h k.
  Proof. induction k as [|k IH]; cbn; [lra|]. rewrite IH. lra. Qed.
  Lemma rsum_zero k : rsum (fun _ => 0) k = 0.
  Proof. induction k as [|k IH]; cbn; [reflexivity|]. rewrite IH. lra. Qed.

  Lemma map2_map {A B C D} (f : B -> C -> D) (g : A -> B) (h : A -> C) l :
    map2 f (map g l) (map h l) = map (fun a => f (g a) (h a)) l.
  Proof. induction l; cbn; congruence. Qed.

  Lemma aiadd_map (g h : R -> R) (grid : list R) :
    aiadd (N := Rnum) (Ar (map g grid)) (Ar (map h grid)) = Ok (Ar (map (fun t => g t + h t) grid)).
  Proof.
    unfold aiadd, abin. rewrite !map_length, Nat.eqb_refl. cbn [rbind nadd Rnum].
    rewrite map2_map, map_length, Nat.eqb_refl. reflexivity.
  Qed.

  Lemma add_terms_sum (term : nat -> res arr) (g : nat -> R -> R) (grid : list R) k :
    (forall i, (i < k)%nat -> term i = Ok (Ar (map (g i) grid))) ->
    add_terms (N := Rnum) term (seq 0 k) (Ar (zeros (length grid))) = Ok (Ar (map (fun t => rsum (fun i => g i t) k) grid)).
  Proof.
    intros H.
    assert (K : forall m n, (n + m = k)%nat ->
              add_terms (N := Rnum) term (seq n m) (Ar (map (fun t => rsum (fun i => g i t) n) grid)) =
              Ok (Ar (map (fun t => rsum (fun i => g i t) k) grid))).
    { induction m as [|m IH]; intros n E; cbn [seq add_terms].
      - now replace n with k by lia.
      - rewrite H by lia. cbn [rbind]. rewrite aiadd_map. cbn [rbind]. apply (IH (S n)). lia. }
    specialize (K k 0%nat eq_refl).
    refine (eq_trans (f_equal (fun z => add_terms (N := Rnum) term (seq 0 k) (Ar z)) _) K).
    cbn [rsum]. unfold zeros. cbn [of_Z Rnum]. clear. induction grid as [|t l IH]; [reflexivity|]. cbn. f_equal. exact IH.
  Qed.

  (** [c] has one time point per bin *)
  Definition gridded (c : pcore (N := Rnum)) : Prop := length (pc_time_grid c) = pc_bins c.

  Definition fourier_sum (k : nat) (T : R) (w x : list R) (t : R) : R :=
    rsum (fun i => nth (2 * i) x 0 * f_sin F (2 * f_pi F * nth i w 0 * t / T)%R +
                   nth (2 * i + 1) x 0 * f_cos F (2 * f_pi F * nth i w 0 * t / T)%R) k.

  Lemma fourier_closed k c : gridded c -> length (pc_w c) = k -> length (pc_opt c) = (2 * k)%nat ->
    fourier_shape F k c = Ok (Ar (map (fourier_sum k (pc_final_time c) (pc_w c) (pc_opt c)) (pc_time_grid c))).
  Proof.
    intros G W X. unfold fourier_shape, zero_pulse, fourier_sum. rewrite <- G.
    rewrite (add_terms_sum _ (fun i t => nth (2 * i) (pc_opt c) 0 * f_sin F (2 * f_pi F * nth i (pc_w c) 0 * t / pc_final_time c)%R +
                   nth (2 * i + 1) (pc_opt c) 0 * f_cos F (2 * f_pi F * nth i (pc_w c) 0 * t / pc_final_time c)%R)); [reflexivity|].
    intros i Hi. unfold fourier_term.
    rewrite (at_nth (N := Rnum) (pc_opt c) (2 * i) 0), (at_nth (N := Rnum) (pc_w c) i 0), (at_nth (N := Rnum) (pc_opt c) (2 * i + 1) 0) by lia. reflexivity.
  Qed.

  Definition sinc_sum (s : basis_settings) (T : R) (w x : list R) (t : R) : R :=
    rsum (fun i => nth i x 0 * sinc F (2 * f_pi F * bs_basis_max s * (t - nth i w 0) / T)%R) (bs_k s).
  Lemma sinc_closed s c : gridded c -> length (pc_w c) = bs_k s -> length (pc_opt c) = bs_k s ->
    sinc_shape F s c = Ok (Ar (map (sinc_sum s (pc_final_time c) (pc_w c) (pc_opt c)) (pc_time_grid c))).
  Proof.
    intros G W X. unfold sinc_shape, zero_pulse, sinc_sum. rewrite <- G.
    rewrite (add_terms_sum _ (fun i t => nth i (pc_opt c) 0 * sinc F (2 * f_pi F * bs_basis_max s * (t - nth i (pc_w c) 0) / pc_final_time c)%R)); [reflexivity|].
    intros i Hi. unfold sinc_term.
    rewrite (at_nth (N := Rnum) (pc_opt c) i 0), (at_nth (N := Rnum) (pc_w c) i 0) by lia. reflexivity.
  Qed.

  Definition cheb_sum (k : nat) (T : R) (w x : list R) (t : R) : R :=
    rsum (fun i => nth (2 * i) x 0 * f_cos F (nth i w 0 * f_acos F (cheb_arg T t) + nth (2 * i + 1) x 0)%R) k.
  Lemma cheb_closed k c : gridded c -> length (pc_w c) = k -> length (pc_opt c) = (2 * k)%nat ->
    chebyshev_shape F k c = Ok (Ar (map (cheb_sum k (pc_final_time c) (pc_w c) (pc_opt c)) (pc_time_grid c))).
  Proof.
    intros G W X. unfold chebyshev_shape, zero_pulse, cheb_sum. rewrite <- G.
    rewrite (add_terms_sum _ (fun i t => nth (2 * i) (pc_opt c) 0 * f_cos F (nth i (pc_w c) 0 * f_acos F (cheb_arg (pc_final_time c) t) + nth (2 * i + 1) (pc_opt c) 0)%R)); [reflexivity|].
    intros i Hi. unfold chebyshev_term.
    rewrite (at_nth (N := Rnum) (pc_opt c) (2 * i) 0), (at_nth (N := Rnum) (pc_w c) i 0), (at_nth (N := Rnum) (pc_opt c) (2 * i + 1) 0) by lia. reflexivity.
  Qed.

  (** one sigmoid step *)
  Definition stepf (tau sigma t : R) : R := f_erf F ((t - tau) / (R_sqrt.sqrt 2 * sigma))%R + 1.
  Definition sig_sum (s : basis_settings (N := Rnum)) (T : R) (taus sigmas x : list R) (closing : bool) (t : R) : R :=
    rsum (fun i => nth (i + 1) x 0 / 2 * stepf (nth i taus 0) (nth i sigmas 0) t) (bs_k s)
    + nth 0 x 0 / 2 * stepf (bs_offset s) (bs_sigma s) t
    + (if closing then -1 * fold_left Rplus x 0 / 2 * stepf (T - bs_offset s) (bs_sigma s) t else 0).
  Lemma sig_closed s c amps taus sigmas cl : gridded c -> (bs_k s < length amps)%nat -> (bs_k s <= length taus)%nat -> (bs_k s <= length sigmas)%nat ->
    sigmoid_sum F s c amps taus sigmas cl = Ok (Ar (map (sig_sum s (pc_final_time c) taus sigmas amps cl) (pc_time_grid c))).
  Proof.
    intros G LA LT LS. unfold sigmoid_sum, zero_pulse. rewrite <- G.
    rewrite (add_terms_sum _ (fun i t => nth (i + 1) amps 0 / 2 * stepf (nth i taus 0) (nth i sigmas 0) t)).
    - cbn [rbind]. rewrite (at_nth (N := Rnum) amps 0 0) by lia. cbn [rbind]. unfold step.
      rewrite (aiadd_map _ (fun t => nth 0 amps 0 / 2 * stepf (bs_offset s) (bs_sigma s) t)). cbn [rbind].
      destruct cl.
      + rewrite (aiadd_map _ (fun t => -1 * fold_left Rplus amps 0 / 2 * stepf (pc_final_time c - bs_offset s) (bs_sigma s) t)). reflexivity.
      + unfold sig_sum. do 2 f_equal. apply map_ext. intros t. symmetry. apply Rplus_0_r.
    - intros i Hi. rewrite (at_nth (N := Rnum) amps (i + 1) 0), (at_nth (N := Rnum) taus i 0), (at_nth (N := Rnum) sigmas i 0) by lia. reflexivity.
  Qed.

  Lemma nth_zeros n i : nth i (zeros (N := Rnum) n) 0 = 0.
  Proof. unfold zeros. cbn [of_Z Rnum]. revert i. induction n; intros [|i]; cbn; auto. Qed.
  Lemma map_const (g : R -> R) (grid : list R) n : (forall t, g t = 0) -> length grid = n ->
    map g grid = repeat 0 n.
  Proof. intros E <-. induction grid; cbn; [reflexivity|]. now rewrite E, IHgrid. Qed.

  Lemma sig_sum_zero s T taus sigmas x cl t : (forall i, nth i x 0 = 0) -> fold_left Rplus x 0 = 0 -> sig_sum s T taus sigmas x cl t = 0.
  Proof.
    intros Z S. unfold sig_sum. rewrite (rsum_ext _ (fun _ => 0)), rsum_zero, S, Z.
    - destruct cl; lra.
    - intros i _. rewrite Z. lra.
  Qed.

  Lemma firstn_repeat {A} (x : A) n m : firstn n (repeat x m) = repeat x (Nat.min n m).
  Proof. revert m. induction n; intros [|m]; cbn; congruence. Qed.
  Lemma fold_zeros n : fold_left Rplus (repeat 0 n) 0 = 0.
  Proof. induction n; cbn; [reflexivity|]. now rewrite Rplus_0_l. Qed.
  Lemma nth_repeat0 n i : nth i (repeat 0 n) 0 = 0.
  Proof. exact (nth_zeros n i). Qed.

  Lemma insert_length (x : R) l : length (insert (N := Rnum) x l) = S (length l).
  Proof. induction l; cbn [insert]; [reflexivity|]. destruct nleb; [reflexivity|]. cbn [length]. f_equal. exact IHl. Qed.
  Lemma npsort_length (l : list R) : length (npsort (N := Rnum) l) = length l.
  Proof. induction l as [|x l IH]; [reflexivity|]. exact (eq_trans (insert_length x _) (f_equal S IH)). Qed.

  Lemma first_of_ok (l : list R) : l <> [] -> exists x, first_of (N := Rnum) l = Ok x /\ nth_error l 0 = Some x.
  Proof.
    destruct l as [|x l]; [congruence|]. intros _. exists x. split; [|reflexivity].
    unfold first_of. exact (py_nth_nonneg (x :: l) 0).
  Qed.
  Lemma last_of_ok (l : list R) : l <> [] -> exists x, last_of (N := Rnum) l = Ok x /\ nth_error l (length l - 1) = Some x.
  Proof.
    intros NE. unfold last_of, py_nth. change (@num Rnum) with R. cbn [Z.ltb Z.compare].
    assert (L : (0 < length l)%nat) by (destruct l; [congruence|cbn; lia]).
    replace ((-1 + Z.of_nat (length l) <? 0)%Z) with false by (symmetry; apply Z.ltb_ge; lia).
    replace ((Z.of_nat (length l) <=? -1 + Z.of_nat (length l))%Z) with false by (symmetry; apply Z.leb_gt; lia). cbn [orb].
    replace (Z.to_nat (-1 + Z.of_nat (length l))) with (length l - 1)%nat by lia.
    destruct (nth_error l (length l - 1)) eqn:E; [eauto|]. apply nth_error_None in E. lia.
  Qed.

  Lemma confine_taus_ok off T taus : taus <> [] -> exists r, confine_taus (N := Rnum) off T taus = Ok r /\ length r = length taus.
  Proof.
    intros NE. unfold confine_taus. change (@num Rnum) with R in *.
    assert (NS : npsort (N := Rnum) taus <> []).
    { intros E. apply (f_equal (@length R)) in E. rewrite npsort_length in E. destruct taus; [congruence|discriminate]. }
    destruct (first_of_ok _ NS) as (x & -> & _). destruct (last_of_ok _ NS) as (y & -> & _). cbn [rbind].
    rewrite npsort_length. destruct (Nat.eqb_spec (length taus) 1) as [E|E].
    - destruct (nltb x off); [eexists; split; [reflexivity|exact (eq_sym E)]|]. destruct (nltb _ x); [eexists; split; [reflexivity|exact (eq_sym E)]|eauto].
    - destruct (_ || _)%bool; [|eauto]. eexists. split; [reflexivity|]. now rewrite !map_length.
  Qed.

  Lemma confine_sigmas_ok s T taus d : (length d <= length taus)%nat ->
    exists r, confine_sigmas F s T taus d = Ok r /\ length r = length d.
  Proof.
    intros L. unfold confine_sigmas.
    edestruct (rmap_total (fun i => tau <-! at_ taus i; d0 <-! at_ d i;
       let dmax := nsub (nmul (nsub (ndiv T (of_Z 2)) (nabs (nsub (ndiv T (of_Z 2)) tau))) (ndiv (bs_sigma s) (bs_offset s))) (bs_sigma s) in
       Ok (nadd (bs_sigma s) (ndiv (nmul dmax (nsub (of_Z 1) (f_cos F (nmul (f_pi F) d0)))) (of_Z 2)))) (seq 0 (length d))) as (r & Hr).
    - intros i a E. assert (i < length d)%nat by (rewrite <- (seq_length (length d) 0); apply nth_error_Some; congruence).
      rewrite nth_error_seq_lt in E by lia. injection E as <-. cbn [Nat.add].
      rewrite (at_nth (N := Rnum) taus i 0), (at_nth (N := Rnum) d i 0) by lia. cbn [rbind]. eauto.
    - exists r. split; [exact Hr|]. apply rmap_length in Hr. now rewrite seq_length in Hr.
  Qed.

  Lemma allparas_split_zero s k : exists n dt ds,
    allparas_split (N := Rnum) s k (zeros (basis_nctrl (N := Rnum) SigmoidAllParas s 0)) = (repeat 0 n, dt, ds) /\
    (bs_k s = k -> n = (k + 1)%nat /\ length dt = k /\ length ds = k).
  Proof.
    unfold allparas_split, zeros. cbn [basis_nctrl of_Z Rnum].
    destruct (has_tau s), (has_sigma s); do 3 eexists; (split; [f_equal; f_equal; first [apply firstn_repeat|reflexivity]|]); intros E;
      repeat split; rewrite ?map_length, ?firstn_length, ?skipn_length, ?repeat_length, ?E; try lia.
  Qed.

  Lemma allparas_zero s c n : gridded c -> (0 < bs_k s)%nat -> length (pc_w c) = bs_k s -> pc_bins c = n ->
    pc_opt c = zeros (basis_nctrl (N := Rnum) SigmoidAllParas s 0) ->
    sigmoid_allparas_shape F s c = Ok (Ar (repeat 0 n)).
  Proof.
    intros G K LW B EO. unfold sigmoid_allparas_shape. rewrite EO.
    destruct (allparas_split_zero s (length (pc_w c))) as (m & dt & ds & -> & L). cbv beta iota.
    destruct L as (Lm & Ld & Ls); [auto|].
    rewrite aiadd_same_ok by apply zeros_length. cbn [rbind].
    set (z := map2 nadd (zeros (length (pc_w c))) (pc_w c)).
    assert (Lz : length z = length (pc_w c)) by (unfold z; rewrite map2_length, zeros_length; lia).
    assert (TA : exists r,
        (if has_tau s then taus <-! aiadd (N := Rnum) (Ar z) (Ar dt);
                   confine_taus (bs_offset s) (pc_final_time c) (samples_of taus)
              else Ok (samples_of (Ar z))) = Ok r /\ length r = length (pc_w c)).
    { destruct (has_tau s); [|exists z; split; [reflexivity|exact Lz]].
      rewrite (aiadd_same_ok (N := Rnum) z dt) by exact (eq_trans Lz (eq_sym Ld)). cbn [rbind samples_of].
      match goal with |- context [confine_taus ?o ?T ?l] => destruct (confine_taus_ok o T l) as (r & -> & Lr) end.
      - intros E. apply (f_equal (@length _)) in E. rewrite map2_length in E. cbn in E. change (@num Rnum) with R in *; lia.
      - exists r. split; [reflexivity|]. rewrite Lr, map2_length. change (@num Rnum) with R in *; lia. }
    destruct TA as (r & -> & Lr). cbn [rbind].
    assert (SA : exists q,
         (if (has_sigma s && nleb em10 (bs_offset s))%bool then confine_sigmas F s (pc_final_time c) r ds
          else Ok (map (fun d => nadd d (bs_sigma s)) ds)) = Ok q /\ length q = length (pc_w c)).
    { destruct (_ && _)%bool.
      - destruct (confine_sigmas_ok s (pc_final_time c) r ds) as (q & Hq & Lq); [change (@num Rnum) with R in *; lia|].
        exists q. split; [exact Hq|congruence].
      - eexists; split; [reflexivity|]. now rewrite map_length. }
    destruct SA as (q & -> & Lq). cbn [rbind].
    rewrite sig_closed; [|auto|rewrite repeat_length; lia|change (@num Rnum) with R in *; lia|change (@num Rnum) with R in *; lia].
    do 2 f_equal. apply map_const; [|unfold gridded in G; exact (eq_trans G B)].
    intros t. apply sig_sum_zero; [apply nth_repeat0|apply fold_zeros].
  Qed.

  Lemma shipped_zero b s u : b <> Walsh -> (0 < bs_k s)%nat -> zero_at_offset (shipped F b s u).
  Proof.
    intros NW K. split; [cbn [pf_offset shipped pf_nctrl]; apply zeros_length|].
    intros c C EO _. assert (B := co_bins _ _ C). assert (GR := co_grid _ _ C). assert (LW := co_w _ _ C).
    cbn [pf_offset pf_bins pf_dist pf_shape shipped] in *.
    assert (G : gridded c) by (unfold gridded; congruence).
    assert (M : forall g : R -> R, (forall t, g t = 0) -> Ok (Ar (map g (pc_time_grid c))) = Ok (Ar (N := Rnum) (repeat 0 (cs_bins u)))).
    { intros g Hg. do 2 f_equal. now apply map_const. }
    assert (LO : length (pc_opt c) = basis_nctrl b s (cs_bins u)) by (rewrite EO; apply zeros_length).
    destruct b; cbn [basis_shape basis_nctrl of_Z Rnum] in *; change (@num Rnum) with R in *.
    - rewrite fourier_closed by (auto; lia). apply M. intros t. unfold fourier_sum.
      rewrite (rsum_ext _ (fun _ => 0)); [apply rsum_zero|]. intros i _. rewrite EO, !nth_zeros. lra.
    - rewrite sinc_closed by (auto; lia). apply M. intros t. unfold sinc_sum.
      rewrite (rsum_ext _ (fun _ => 0)); [apply rsum_zero|]. intros i _. rewrite EO, !nth_zeros. lra.
    - unfold sigmoid_shape. rewrite sig_closed; [| auto | change (@num Rnum) with R in *; lia | change (@num Rnum) with R in *; lia | rewrite repeat_length; lia].
      apply M. intros t. rewrite EO. apply sig_sum_zero; [apply nth_zeros|apply fold_zeros].
    - unfold sigmoid_timedep_shape.
      assert (H2 : Nat.div (length (pc_opt c) + 1) 2 = (bs_k s + 1)%nat).
      { change (@num Rnum) with R in *. rewrite LO. replace (2 * bs_k s + 1 + 1)%nat with ((bs_k s + 1) * 2)%nat by lia. apply Nat.div_mul. lia. }
      rewrite H2. rewrite abin_same by (rewrite map_length, skipn_length; change (@num Rnum) with R in *; lia).
      cbn [rbind samples_of].
      match goal with |- context [confine_taus ?o ?T ?l] => destruct (confine_taus_ok o T l) as (r & -> & Lr) end.
      { intros E. apply (f_equal (@length R)) in E. rewrite map2_length, map_length, skipn_length in E. cbn in E. change (@num Rnum) with R in *; lia. }
      rewrite map2_length, map_length, skipn_length in Lr. cbn [rbind].
      rewrite sig_closed; [|auto| | |rewrite repeat_length; lia].
      + apply M. intros t. rewrite EO. unfold zeros. rewrite firstn_repeat. apply sig_sum_zero; [apply nth_repeat0|apply fold_zeros].
      + rewrite firstn_length. change (@num Rnum) with R in *; lia.
      + change (@num Rnum) with R in *; lia.
    - unfold sigmoid_sigmas_shape.
      assert (H2 : Nat.div (length (pc_opt c) + 1) 2 = (bs_k s + 1)%nat).
      { change (@num Rnum) with R in *. rewrite LO. replace (2 * bs_k s + 1 + 1)%nat with ((bs_k s + 1) * 2)%nat by lia. apply Nat.div_mul. lia. }
      rewrite H2.
      match goal with |- context [if ?x then confine_sigmas _ _ ?T ?l ?d else Ok ?e] =>
        assert (exists r, (if x then confine_sigmas F s T l d else Ok e) = Ok r /\ (length r = bs_k s)) as (r & -> & Lr) end.
      { destruct nleb.
        - match goal with |- context [confine_sigmas _ _ ?T ?l ?d] => destruct (confine_sigmas_ok s T l d) as (r & Hr & Lr) end.
          + rewrite map_length, skipn_length. change (@num Rnum) with R in *; lia.
          + exists r. split; [exact Hr|]. rewrite Lr, map_length, skipn_length. change (@num Rnum) with R in *; lia.
        - eexists; split; [reflexivity|]. rewrite !map_length, skipn_length. change (@num Rnum) with R in *; lia. }
      cbn [rbind]. rewrite sig_closed; [|auto| | |change (@num Rnum) with R in *; lia].
      + apply M. intros t. rewrite EO. unfold zeros. rewrite firstn_repeat. apply sig_sum_zero; [apply nth_repeat0|apply fold_zeros].
      + rewrite firstn_length. change (@num Rnum) with R in *; lia.
      + change (@num Rnum) with R in *; lia.
    - exact (allparas_zero s c _ G K LW B EO).
    - rewrite cheb_closed by (auto; lia). apply M. intros t. unfold cheb_sum.
      rewrite (rsum_ext _ (fun _ => 0)); [apply rsum_zero|]. intros i _. rewrite EO, !nth_zeros. lra.
    - congruence.
    - rewrite fourier_closed by (auto; lia). apply M. intros t. unfold fourier_sum.
      rewrite (rsum_ext _ (fun _ => 0)); [apply rsum_zero|]. intros i _. rewrite EO, !nth_zeros. lra.
    - unfold piecewise_shape. rewrite EO. reflexivity.
  Qed.

  (** linear combination of two vectors *)
  Definition lincomb (a b : R) (x y : list R) : list R := map2 (fun p q => a * p + b * q) x y.
  Lemma lincomb_length a b x y : length x = length y -> length (lincomb a b x y) = length x.
  Proof. intros E. unfold lincomb. rewrite map2_length. lia. Qed.
  Lemma nth_lincomb a b x y i : length x = length y -> nth i (lincomb a b x y) 0 = a * nth i x 0 + b * nth i y 0.
  Proof.
    revert y i. induction x as [|p x IH]; intros [|q y] [|i] E; cbn in *; try discriminate; try lra.
    apply IH. lia.
  Qed.
  Lemma fold_plus_acc l c : fold_left Rplus l c = c + fold_left Rplus l 0.
  Proof. revert c. induction l as [|x l IH]; intros c; cbn; [lra|]. rewrite IH, (IH (0 + x)). lra. Qed.
  Lemma fold_lincomb a b x y : length x = length y -> fold_left Rplus (lincomb a b x y) 0 = a * fold_left Rplus x 0 + b * fold_left Rplus y 0.
  Proof.
    revert y. induction x as [|p x IH]; intros [|q y] E; cbn in *; try discriminate; [lra|].
    rewrite fold_plus_acc, (fold_plus_acc x), (fold_plus_acc y). fold (lincomb a b x y). rewrite IH by lia. lra.
  Qed.
  Lemma lincomb_map a b (g h : R -> R) grid : lincomb a b (map g grid) (map h grid) = map (fun t => a * g t + b * h t) grid.
  Proof. exact (map2_map (fun p q => a * p + b * q) g h grid). Qed.

  Lemma shipped_linear b s (c : pcore (N := Rnum)) a1 a2 x y sx sy :
    In b [Fourier; DummyBasis; Sinc; Sigmoid; Piecewise] -> gridded c ->
    (b <> Piecewise -> length (pc_w c) = bs_k s) ->
    length x = basis_nctrl (N := Rnum) b s (pc_bins c) -> length y = length x ->
    basis_shape F b s (set_opt x c) = Ok (Ar sx) -> basis_shape F b s (set_opt y c) = Ok (Ar sy) ->
    basis_shape F b s (set_opt (lincomb a1 a2 x y) c) = Ok (Ar (lincomb a1 a2 sx sy)).
  Proof.
    intros HB G W LX LY. assert (LL := lincomb_length a1 a2 x y (eq_sym LY)).
    assert (EX : forall g h j : R -> R, (forall t, j t = a1 * g t + a2 * h t) ->
      Ok (Ar (N := Rnum) (map g (pc_time_grid c))) = Ok (Ar sx) -> Ok (Ar (N := Rnum) (map h (pc_time_grid c))) = Ok (Ar sy) ->
      Ok (Ar (N := Rnum) (map j (pc_time_grid c))) = Ok (Ar (lincomb a1 a2 sx sy))).
    { intros g h j E H1 H2. injection H1 as <-. injection H2 as <-. do 2 f_equal. rewrite lincomb_map. apply map_ext. exact E. }
    assert (G' : forall z, gridded (set_opt z c)) by (intros; exact G).
    assert (HF : forall k, length (pc_w c) = k -> length x = (2 * k)%nat ->
      fourier_shape F k (set_opt x c) = Ok (Ar sx) -> fourier_shape F k (set_opt y c) = Ok (Ar sy) ->
      fourier_shape F k (set_opt (lincomb a1 a2 x y) c) = Ok (Ar (lincomb a1 a2 sx sy))).
    { intros k Wk Lk.
      rewrite (fourier_closed k (set_opt x c)) by (auto; cbn [set_opt pc_opt]; change (@num Rnum) with R in *; lia).
      rewrite (fourier_closed k (set_opt y c)) by (auto; cbn [set_opt pc_opt]; change (@num Rnum) with R in *; lia).
      rewrite (fourier_closed k (set_opt (lincomb a1 a2 x y) c)) by (auto; cbn [set_opt pc_opt]; change (@num Rnum) with R in *; lia).
      cbn [set_opt pc_time_grid pc_opt pc_w pc_final_time].
      apply EX. intros t. unfold fourier_sum. rewrite <- rsum_lin. apply rsum_ext. intros i _. rewrite !nth_lincomb by auto. lra. }
    cbn in HB. destruct HB as [<-|[<-|[<-|[<-|[<-|[]]]]]]; cbn [basis_shape basis_nctrl] in *.
    - apply HF; auto. apply W. discriminate.
    - apply HF; auto. apply W. discriminate.
    - assert (Wk : length (pc_w c) = bs_k s) by (apply W; discriminate).
      rewrite (sinc_closed s (set_opt x c)) by (auto; cbn [set_opt pc_opt]; change (@num Rnum) with R in *; lia).
      rewrite (sinc_closed s (set_opt y c)) by (auto; cbn [set_opt pc_opt]; change (@num Rnum) with R in *; lia).
      rewrite (sinc_closed s (set_opt (lincomb a1 a2 x y) c)) by (auto; cbn [set_opt pc_opt]; change (@num Rnum) with R in *; lia).
      cbn [set_opt pc_time_grid pc_opt pc_w pc_final_time].
      apply EX. intros t. unfold sinc_sum. rewrite <- rsum_lin. apply rsum_ext. intros i _. rewrite !nth_lincomb by auto. lra.
    - assert (Wk : length (pc_w c) = bs_k s) by (apply W; discriminate).
      unfold sigmoid_shape. cbn [set_opt pc_opt pc_w].
      do 3 (rewrite sig_closed; [|auto|change (@num Rnum) with R in *; lia|change (@num Rnum) with R in *; lia|rewrite repeat_length; lia]).
      cbn [set_opt pc_time_grid pc_opt pc_w pc_final_time].
      apply EX. intros t. unfold sig_sum.
      rewrite (rsum_ext _ (fun i => a1 * (nth (i + 1) x 0 / 2 * stepf (nth i (pc_w c) 0) (nth i (repeat (bs_sigma s) (bs_k s)) 0) t)
         + a2 * (nth (i + 1) y 0 / 2 * stepf (nth i (pc_w c) 0) (nth i (repeat (bs_sigma s) (bs_k s)) 0) t))).
      + rewrite rsum_lin, nth_lincomb, fold_lincomb by auto. change (@num Rnum) with R in *. unfold Rdiv. ring.
      + intros i _. rewrite nth_lincomb by auto. change (@num Rnum) with R in *. unfold Rdiv. ring.
    - unfold piecewise_shape. cbn [set_opt pc_opt]. intros H1 H2. injection H1 as <-. injection H2 as <-. reflexivity.
  Qed.

  Lemma cheb_domain T t : 0 < T -> 0 <= t <= T -> -1 <= cheb_arg (N := Rnum) T t <= 1.
  Proof.
    intros HT Ht. unfold cheb_arg, em10. cbn [nadd nmul ndiv nsub of_Z Rnum].
    assert (0 <= t / T <= 1).
    { split; [apply Rmult_le_pos; [lra|left; apply Rinv_0_lt_compat; lra]|].
      apply Rmult_le_reg_r with T; [lra|]. unfold Rdiv. rewrite Rmult_assoc, Rinv_l by lra. lra. }
    replace (2 * (1 - 1 / 10000000000) * t / T) with (2 * (1 - 1 / 10000000000) * (t / T)) by (field; lra).
    split; nra.
  Qed.

  Lemma cheb_acos_domain k (c : pcore (N := Rnum)) (F' : funs Rnum) :
    0 < pc_final_time c -> (forall t, In t (pc_time_grid c) -> 0 <= t <= pc_final_time c) ->
    f_cos F' = f_cos F -> (forall v, -1 <= v <= 1 -> f_acos F' v = f_acos F v) ->
    chebyshev_shape F' k c = chebyshev_shape F k c.
  Proof.
    intros HT HG EC EA. unfold chebyshev_shape.
    assert (E : forall l p, add_terms (chebyshev_term F' c) l p = add_terms (chebyshev_term F c) l p).
    { induction l as [|i l IH]; intros p; cbn [add_terms]; [reflexivity|].
      assert (chebyshev_term F' c i = chebyshev_term F c i) as ->.
      { unfold chebyshev_term. destruct (at_ (pc_opt c) (2 * i)); [|reflexivity]. cbn [rbind].
        destruct (at_ (pc_w c) i); [|reflexivity]. cbn [rbind]. destruct (at_ (pc_opt c) (2 * i + 1)); [|reflexivity]. cbn [rbind].
        do 2 f_equal. apply map_ext_in. intros t Ht. rewrite EC, EA; [reflexivity|]. apply cheb_domain; auto. }
      destruct (chebyshev_term F c i); [|reflexivity]. cbn [rbind]. destruct (aiadd p a); [|reflexivity]. cbn [rbind]. apply IH. }
    apply E.
  Qed.

  (** the numbers of [l] sorted *)
  Lemma insert_in (x : R) l y : In y (insert (N := Rnum) x l) <-> y = x \/ In y l.
  Proof.
    induction l as [|z l IH]; cbn [insert].
    - cbn. intuition.
    - destruct nleb; cbn [In]; [intuition|]. rewrite IH. intuition.
  Qed.
  Inductive asc : list R -> Prop :=
  | asc_nil : asc []
  | asc_cons x l : (forall y, In y l -> x <= y) -> asc l -> asc (x :: l).
  Lemma insert_asc (x : R) l : asc l -> asc (insert (N := Rnum) x l).
  Proof.
    induction 1 as [|z l Hz A IH]; cbn [insert].
    - constructor; [intros y []|constructor].
    - destruct (nleb (Num := Rnum) x z) eqn:E; [apply Rleb_iff in E|apply Rleb_iff0 in E].
      + constructor; [|now constructor]. intros y [<-|Hy]; [lra|]. specialize (Hz y Hy). lra.
      + constructor; [|exact IH]. intros y Hy. apply insert_in in Hy as [->|Hy]; [lra|auto].
  Qed.
  Lemma npsort_spec (l : list R) : asc (npsort (N := Rnum) l) /\ forall y, In y (npsort (N := Rnum) l) <-> In y l.
  Proof.
    induction l as [|x l [IH1 IH2]]; [split; [constructor|intros; reflexivity]|].
    change (npsort (N := Rnum) (x :: l)) with (insert (N := Rnum) x (npsort (N := Rnum) l)).
    split; [now apply insert_asc|]. intros y. rewrite insert_in, IH2. cbn. intuition.
  Qed.
  Lemma asc_first (l : list R) x y : asc l -> nth_error l 0 = Some x -> In y l -> x <= y.
  Proof. intros A E Hy. destruct A as [|z l Hz A]; [discriminate|]. injection E as ->. destruct Hy as [<-|Hy]; [lra|auto]. Qed.
  Lemma asc_last (l : list R) x y : asc l -> nth_error l (length l - 1) = Some x -> In y l -> y <= x.
  Proof.
    induction 1 as [|z l Hz A IH]; [discriminate|]. cbn [length]. destruct l as [|z' l].
    - intros E [<-|[]]. cbn in E. injection E as ->. lra.
    - replace (S (length (z' :: l)) - 1)%nat with (S (length (z' :: l) - 1)) by (cbn [length]; lia). cbn [nth_error].
      intros E [<-|Hy]; [|auto]. apply Hz. eapply nth_error_In. exact E.
  Qed.

  Lemma confine_taus_inside off T taus r : off <= T - off ->
    confine_taus (N := Rnum) off T taus = Ok r -> forall y, In y r -> off <= y <= T - off.
  Proof.
    intros HO H. unfold confine_taus in H. apply rbind_ok in H as (x & Hx & H). apply rbind_ok in H as (z & Hz & H).
    destruct (npsort_spec taus) as [A I].
    assert (NE : npsort (N := Rnum) taus <> []) by (intros E; rewrite E in Hx; discriminate).
    destruct (first_of_ok _ NE) as (x' & Hx' & Ex). destruct (last_of_ok _ NE) as (z' & Hz' & Ez).
    rewrite Hx in Hx'; injection Hx' as <-. rewrite Hz in Hz'; injection Hz' as <-.
    assert (BD : forall y, In y taus -> x <= y <= z).
    { intros y Hy. apply I in Hy. split; [eapply asc_first; eauto|eapply asc_last; eauto]. }
    change (@num Rnum) with R in *. cbn [nltb nadd nmul ndiv nsub of_Z Rnum] in H. rewrite npsort_length in H.
    change (@num Rnum) with R in *.
    destruct (Nat.eqb_spec (length taus) 1) as [L1|L1].
    - destruct taus as [|t0 [|? ?]]; try discriminate. cbn in Ex. injection Ex as ->.
      destruct (Rlt_bool x off) eqn:E1; [injection H as <-; intros y [<-|[]]; lra|].
      destruct (Rlt_bool (T - off) x) eqn:E2; [injection H as <-; intros y [<-|[]]; lra|].
      apply Rltb_iff0 in E1. apply Rltb_iff0 in E2. injection H as <-. intros y [<-|[]]. lra.
    - destruct (_ || _)%bool eqn:E.
      + assert (E' : x < off \/ T - off < z).
        { apply orb_true_iff in E as [E|E]; apply Rltb_iff in E; auto. }
        set (z1 := if Rlt_bool z (T - off) then T - off else z) in H.
        set (x1 := if Rlt_bool off x then off else x) in H.
        assert (Z1 : z <= z1 /\ T - off <= z1).
        { unfold z1. destruct (Rlt_bool z (T - off)) eqn:Q; [apply Rltb_iff in Q|apply Rltb_iff0 in Q]; lra. }
        assert (X1 : x1 <= x /\ x1 <= off).
        { unfold x1. destruct (Rlt_bool off x) eqn:Q; [apply Rltb_iff in Q|apply Rltb_iff0 in Q]; lra. }
        assert (D : 0 < z1 - x1) by lra.
        injection H as <-. intros y Hy. rewrite map_map in Hy. apply in_map_iff in Hy as (tau & <- & Ht).
        specialize (BD tau Ht).
        set (q := (tau - (z1 - x1) / 2 - x1) * 2 / (z1 - x1)).
        replace (T / 2 + (tau - (z1 - x1) / 2 - x1) * 2 * (T / 2 - off) / (z1 - x1)) with (T / 2 + q * (T / 2 - off)) by (unfold q; field; lra).
        assert (-1 <= q <= 1).
        { unfold q. split.
          - apply Rmult_le_reg_r with (z1 - x1); [lra|]. unfold Rdiv. rewrite Rmult_assoc, Rinv_l by lra. lra.
          - apply Rmult_le_reg_r with (z1 - x1); [lra|]. unfold Rdiv. rewrite Rmult_assoc, Rinv_l by lra. lra. }
        split; nra.
      + apply orb_false_iff in E as [E1 E2]. apply Rltb_iff0 in E1. apply Rltb_iff0 in E2.
        injection H as <-. intros y Hy. specialize (BD y Hy). lra.
  Qed.

  Lemma clip_idem (lo hi x : R) : clip lo hi (clip lo hi x) = clip lo hi x.
  Proof. unfold clip. rewrite !R_npmin, !R_npmax. unfold Rmin, Rmax. repeat destruct Rle_dec; lra. Qed.

  Lemma walsh_parts b s u c : core_of (shipped F b s u) c -> cs_shrink u = false ->
    (forall g, length g = cs_bins u -> guess_samples (shipped F b s u) g <> None) ->
    exists a l, get_initial_guess c = Ok a /\ as_samples (cs_bins u) a = Some (map (clip (pc_lower c) (pc_upper c)) l) /\ length l = cs_bins u.
  Proof.
    intros C SH GS. specialize (GS (pc_time_grid c) (co_grid _ _ C)).
    destruct (guess_samples _ _) as [l|] eqn:E; [|congruence].
    assert (L : length l = cs_bins u).
    { unfold guess_samples in E. cbn [pf_guess shipped pf_bins] in E. destruct (cs_guess u).
      - destruct (f _); [|discriminate]. now apply as_samples_length in E.
      - now apply as_samples_length in E.
      - now apply as_samples_length in E. }
    unfold get_initial_guess, get_limited_pulse. rewrite (co_shrink _ _ C), (co_guess _ _ C). cbn [pf_shrink pf_guess shipped]. rewrite SH.
    unfold guess_samples in E. cbn [pf_guess shipped pf_bins] in E. destruct (cs_guess u).
    - destruct (f _) as [a|]; [|discriminate]. cbn [rbind]. eexists; exists l. split; [reflexivity|]. split; [|exact L]. now apply as_samples_amap.
    - cbn [rbind]. eexists; exists l. split; [reflexivity|]. split; [|exact L]. now apply as_samples_amap.
    - cbn [rbind]. eexists; exists l. split; [reflexivity|]. split; [|exact L]. now apply as_samples_amap.
  Qed.

  Lemma walsh_regular s u : cs_shrink u = false ->
    (forall g, length g = cs_bins u -> guess_samples (shipped F Walsh s u) g <> None) ->
    regular_update (shipped F Walsh s u).
  Proof.
    intros SH GS c a C H. cbn [pf_shape shipped basis_shape pf_bins] in *. unfold walsh_shape in H.
    destruct (walsh_parts _ _ _ _ C SH GS) as (g & l & Hg & Eg & Ll).
    apply rbind_ok in H as (p & Hp & H). destruct (fourier_regular _ _ _ _ Hp) as (r & -> & Lr).
    assert (Lr' : length r = cs_bins u) by (rewrite Lr; exact (co_bins _ _ C)).
    rewrite Hg in H. cbn [rbind] in H. rewrite <- Lr' in Eg. rewrite (abin_as_l _ _ _ _ Eg) in H. cbn [rbind] in H.
    unfold get_limited_pulse in H. rewrite (co_shrink _ _ C) in H. cbn [pf_shrink shipped] in H. rewrite SH in H. cbn [rbind amap] in H.
    match type of H with abin _ (Ar ?m) _ = _ => assert (Lm : length m = length r) end.
    { rewrite map_length, map2_length, map_length, Ll, <- Lr'. apply Nat.min_id. }
    rewrite <- Lm in Eg. rewrite (abin_as_r _ _ _ _ Eg) in H. injection H as <-.
    eexists. split; [reflexivity|]. repeat rewrite ?map_length, ?map2_length. change (@num Rnum) with R in *. lia.
  Qed.

  Lemma map2_minus_self (l : list R) : map2 Rminus l l = repeat 0 (length l).
  Proof. induction l; cbn; [reflexivity|]. now rewrite IHl, Rminus_diag_eq. Qed.
  Lemma map2_plus_zeros (l : list R) : map2 Rplus l (repeat 0 (length l)) = l.
  Proof. induction l; cbn; [reflexivity|]. now rewrite IHl, Rplus_0_r. Qed.

  Lemma walsh_zero s u : cs_shrink u = false ->
    (forall g, length g = cs_bins u -> guess_samples (shipped F Walsh s u) g <> None) ->
    zero_at_offset (shipped F Walsh s u).
  Proof.
    intros SH GS. split; [cbn [pf_offset shipped pf_nctrl]; apply zeros_length|].
    intros c C EO _. cbn [pf_shape shipped basis_shape pf_bins pf_offset basis_nctrl] in *. unfold walsh_shape.
    destruct (walsh_parts _ _ _ _ C SH GS) as (g & l & Hg & Eg & Ll).
    assert (B := co_bins _ _ C). assert (GR := co_grid _ _ C). assert (LW := co_w _ _ C). cbn [pf_bins pf_dist shipped] in *.
    assert (G : gridded c) by (unfold gridded; congruence).
    assert (LO : length (pc_opt c) = (2 * bs_k s)%nat) by (rewrite EO; apply zeros_length).
    rewrite fourier_closed by (auto; lia). cbn [rbind].
    replace (map (fourier_sum (bs_k s) (pc_final_time c) (pc_w c) (pc_opt c)) (pc_time_grid c)) with (repeat 0 (cs_bins u)).
    2:{ symmetry. apply map_const; [|exact GR]. intros t. unfold fourier_sum.
        rewrite (rsum_ext _ (fun _ => 0)); [apply rsum_zero|]. intros i _. rewrite EO, !nth_zeros. lra. }
    rewrite Hg. cbn [rbind].
    assert (Eg' : as_samples (length (repeat 0 (cs_bins u))) g = Some (map (clip (pc_lower c) (pc_upper c)) l)) by (rewrite repeat_length; exact Eg).
    rewrite (abin_as_l _ _ _ _ Eg'). cbn [rbind].
    assert (LM : length (map (clip (pc_lower c) (pc_upper c)) l) = cs_bins u) by (rewrite map_length; exact Ll).
    set (m := map (clip (pc_lower c) (pc_upper c)) l) in *.
    assert (E1 : map2 nadd m (repeat 0 (cs_bins u)) = m).
    { rewrite <- LM. apply map2_plus_zeros. }
    rewrite E1. unfold get_limited_pulse. rewrite (co_shrink _ _ C). cbn [pf_shrink shipped]. rewrite SH. cbn [rbind amap].
    assert (E2 : map (clip (pc_lower c) (pc_upper c)) m = m).
    { unfold m. rewrite map_map. apply map_ext. intros x. apply clip_idem. }
    rewrite E2. rewrite <- LM in Eg. rewrite (abin_as_r _ _ _ _ Eg). do 2 f_equal. rewrite <- LM. apply map2_minus_self.
  Qed.
End Reals.

(** Division by zero replaced by an arbitrary function [d]: a computation whose result does not depend on
    [d] never divides by zero. *)
Definition Rdiv_by (d : R -> R) (x y : R) : R := if Req_bool y 0 then d x else (x / y)%R.
Definition Rnum_div (d : R -> R) : Num := {|
  num := R; of_Z := IZR; nadd := Rplus; nsub := Rminus; nmul := Rmult; ndiv := Rdiv_by d; nabs := Rabs;
  nsqrt := R_sqrt.sqrt; nltb := Rlt_bool; nleb := Rle_bool; neqb := Req_bool; nisnan := fun _ => false |}.

Lemma sinc_no_zero_division d d' fsin fcos facos ferf fpi x :
  sinc (N := Rnum_div d) (mk_funs (Rnum_div d) fsin fcos facos ferf fpi) x =
  sinc (N := Rnum_div d') (mk_funs (Rnum_div d') fsin fcos facos ferf fpi) x.
Proof.
  unfold sinc, em20. cbn [neqb ndiv of_Z Rnum_div f_sin].
  assert (E : forall d, Rdiv_by d 1 100000000000000000000 = (1 / 100000000000000000000)%R).
  { intros e. unfold Rdiv_by. destruct (Req_bool_spec 100000000000000000000 0); [lra|reflexivity]. }
  rewrite !E. destruct (Req_bool_spec x 0) as [Z|NZ].
  - unfold Rdiv_by. destruct (Req_bool_spec (1 / 100000000000000000000) 0); [lra|reflexivity].
  - unfold Rdiv_by. destruct (Req_bool_spec x 0); [contradiction|reflexivity].
Qed.
