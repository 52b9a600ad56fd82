(** The error function: odd, increasing, between -1 and 1, with a Gaussian tail. *)
From Coq Require Import Reals Lra Lia List.
From Coquelicot Require Import Coquelicot.
From Verif Require Import SpecCurves.
Local Open Scope R_scope.

Definition gauss (t : R) : R := exp (- t ^ 2).
Definition G (x : R) : R := RInt gauss 0 x.
Definition h (x s : R) : R := exp (- x ^ 2 * (1 + s ^ 2)) / (1 + s ^ 2).
Definition H (x : R) : R := RInt (h x) 0 1.

Lemma gauss_pos t : 0 < gauss t.
Proof. apply exp_pos. Qed.
Lemma gauss_cont (t : R) : continuous gauss t.
Proof. apply (ex_derive_continuous (K := R_AbsRing) (V := R_NormedModule)). unfold gauss. auto_derive. exact I. Qed.
Lemma gauss_int a b : ex_RInt gauss a b.
Proof. apply (@ex_RInt_continuous R_CompleteNormedModule). intros; apply gauss_cont. Qed.
Lemma G_derive (x : R) : is_derive G x (gauss x).
Proof.
  apply (is_derive_RInt (V := R_CompleteNormedModule) gauss G 0).
  - apply filter_forall. intros y. apply (RInt_correct gauss 0 y), gauss_int.
  - apply gauss_cont.
Qed.
Lemma one_sq s : 1 + s ^ 2 <> 0.
Proof. nra. Qed.
Lemma h_derive (x s : R) : is_derive (fun u => h u s) x (-2 * x * exp (- x ^ 2 * (1 + s ^ 2))).
Proof. unfold h. auto_derive; [exact I|].
  cbn [pow]. field. nra. Qed.
Lemma h_cont (x s : R) : continuous (h x) s.
Proof. apply (ex_derive_continuous (K := R_AbsRing) (V := R_NormedModule)). unfold h. auto_derive. repeat split; try exact I; apply one_sq. Qed.
Lemma h_int x a b : ex_RInt (h x) a b.
Proof. apply (@ex_RInt_continuous R_CompleteNormedModule). intros; apply h_cont. Qed.
Lemma H_derive (x : R) : is_derive H x (- 2 * gauss x * G x).
Proof.
  assert (D : is_derive H x (RInt (fun s => Derive (fun u => h u s) x) 0 1)).
  { apply (is_derive_RInt_param (fun u s => h u s) 0 1 x).
    - apply filter_forall. intros y t _. eexists. apply h_derive.
    - intros t _.
      apply (continuity_2d_pt_ext (fun u v => -2 * u * exp (- u ^ 2 * (1 + v ^ 2)))).
      { intros u v. symmetry. apply is_derive_unique, h_derive. }
      apply continuity_2d_pt_mult.
      + apply continuity_2d_pt_mult; [apply continuity_2d_pt_const|apply continuity_2d_pt_id1].
      + apply (continuity_1d_2d_pt_comp exp (fun u v => - u ^ 2 * (1 + v ^ 2))).
        { apply derivable_continuous_pt, derivable_pt_exp. }
        apply continuity_2d_pt_mult.
        * apply continuity_2d_pt_opp. apply (continuity_1d_2d_pt_comp (fun z => z ^ 2) (fun u v => u)).
          { apply derivable_continuous_pt, derivable_pt_pow. } apply continuity_2d_pt_id1.
        * apply continuity_2d_pt_plus; [apply continuity_2d_pt_const|].
          apply (continuity_1d_2d_pt_comp (fun z => z ^ 2) (fun u v => v)).
          { apply derivable_continuous_pt, derivable_pt_pow. } apply continuity_2d_pt_id2.
    - apply filter_forall. intros y. apply h_int. }
  replace (-2 * gauss x * G x) with (RInt (fun s => Derive (fun u => h u s) x) 0 1); [exact D|].
  rewrite (RInt_ext _ (fun s => scal (-2 * gauss x) (scal x (gauss (x * s + 0))))).
  2:{ intros s _. refine (eq_trans (is_derive_unique _ _ _ (h_derive x s)) _). change (-2 * x * exp (- x ^ 2 * (1 + s ^ 2)) = -2 * exp (- x ^ 2) * (x * exp (- (x * s + 0) ^ 2))).
      replace (- x ^ 2 * (1 + s ^ 2)) with (- x ^ 2 + - (x * s + 0) ^ 2) by ring. rewrite exp_plus. ring. }
  refine (eq_trans (RInt_scal (V := R_CompleteNormedModule) (fun s => scal x (gauss (x * s + 0))) 0 1 (-2 * gauss x) _) _).
  { apply (@ex_RInt_continuous R_CompleteNormedModule). intros z _. apply (ex_derive_continuous (K := R_AbsRing) (V := R_NormedModule)).
    unfold gauss, scal; cbn; unfold mult; cbn. auto_derive. exact I. }
  assert (E := RInt_comp_lin (V := R_CompleteNormedModule) gauss x 0 0 1 (gauss_int _ _)).
  refine (eq_trans (f_equal (fun z => scal (-2 * gauss x) z) E) _).
  unfold scal; cbn. unfold mult; cbn. unfold G. replace (x * 0 + 0) with 0 by ring. replace (x * 1 + 0) with x by ring. reflexivity.
Qed.
Lemma H_0 : H 0 = PI / 4.
Proof.
  unfold H. rewrite (RInt_ext _ (fun s => / (1 + s ^ 2))).
  2:{ intros s _. change (exp (- 0 ^ 2 * (1 + s ^ 2)) / (1 + s ^ 2) = / (1 + s ^ 2) :> R).
      replace (- 0 ^ 2 * (1 + s ^ 2)) with 0 by ring. rewrite exp_0. apply Rmult_1_l. }
  apply is_RInt_unique.
  replace (PI / 4) with (minus (atan 1) (atan 0)).
  2:{ rewrite atan_0, atan_1. unfold minus, plus, opp; cbn. lra. }
  apply (is_RInt_derive (V := R_CompleteNormedModule) atan (fun s => / (1 + s ^ 2))).
  - intros s _. apply is_derive_Reals. apply derivable_pt_lim_atan.
  - intros s _. apply (ex_derive_continuous (K := R_AbsRing) (V := R_NormedModule)). auto_derive. repeat split; try exact I; apply one_sq.
Qed.
Lemma G_0 : G 0 = 0.
Proof. unfold G. apply (RInt_point (V := R_CompleteNormedModule)). Qed.
Lemma G_odd x : G (- x) = - G x.
Proof.
  unfold G. assert (E := RInt_comp_lin (V := R_CompleteNormedModule) gauss (-1) 0 0 x (gauss_int _ _)).
  replace (-1 * 0 + 0) with 0 in E by ring. replace (-1 * x + 0) with (- x) in E by ring.
  refine (eq_trans (eq_sym E) _).
  refine (eq_trans (RInt_ext _ (fun t => opp (gauss t)) _ _ _) _).
  - intros t _. unfold scal, opp; cbn. unfold mult; cbn. unfold gauss. replace (- (-1 * t + 0) ^ 2) with (- t ^ 2) by ring. ring.
  - apply (RInt_opp (V := R_CompleteNormedModule)), gauss_int.
Qed.
Lemma G_incr x y : x < y -> G x < G y.
Proof.
  intros L. assert (0 < RInt gauss x y).
  { apply RInt_gt_0; [exact L|intros; apply gauss_pos|intros; apply gauss_cont]. }
  assert (E := RInt_Chasles gauss 0 x y (gauss_int _ _) (gauss_int _ _)). change (RInt gauss 0 x + RInt gauss x y = RInt gauss 0 y)%R in E. unfold G. lra.
Qed.
Lemma circle x : G x ^ 2 + H x = PI / 4.
Proof.
  assert (Z : forall t, is_derive (fun t => G t ^ 2 + H t) t 0).
  { intros t. replace 0 with (plus (INR 2 * gauss t * G t ^ 1) (-2 * gauss t * G t)) by (unfold plus; cbn; ring).
    apply @is_derive_plus; [apply is_derive_pow, G_derive|apply H_derive]. }
  assert (K : forall t, 0 < t -> G t ^ 2 + H t = PI / 4).
  { intros t Ht. rewrite <- (eq_is_derive (V := R_NormedModule) (fun t => G t ^ 2 + H t) 0 t); [|intros; apply Z|exact Ht].
    cbv beta. rewrite G_0, H_0. ring. }
  destruct (Rtotal_order x 0) as [L|[->|L]].
  - specialize (K (- x) ltac:(lra)). rewrite G_odd in K.
    replace (H (- x)) with (H x) in K; [rewrite <- K; ring|]. unfold H. apply RInt_ext. intros s _. unfold h.
    now replace ((- x) ^ 2) with (x ^ 2) by ring.
  - rewrite G_0, H_0. ring.
  - now apply K.
Qed.
Lemma h_pos x s : 0 < h x s.
Proof. unfold h. apply Rmult_lt_0_compat; [apply exp_pos|]. apply Rinv_0_lt_compat. nra. Qed.
Lemma H_pos x : 0 < H x.
Proof. apply RInt_gt_0; [lra|intros; apply h_pos|intros; apply h_cont]. Qed.
Lemma H_tail x : H x <= gauss x * (PI / 4).
Proof.
  rewrite <- H_0. unfold H.
  assert (E := RInt_scal (V := R_CompleteNormedModule) (h 0) 0 1 (gauss x) (h_int 0 0 1)). 
  refine (Rle_trans _ _ _ _ (Req_le _ _ E)). apply RInt_le; [lra|apply h_int| |].
  - apply (@ex_RInt_continuous R_CompleteNormedModule). intros z _. apply (ex_derive_continuous (K := R_AbsRing) (V := R_NormedModule)). unfold gauss, h, scal; cbn; unfold mult; cbn. auto_derive. repeat split; try exact I; apply one_sq.
  - intros s _. change (h x s <= gauss x * h 0 s). unfold h, gauss. replace (- 0 ^ 2 * (1 + s ^ 2)) with 0 by ring. rewrite exp_0.
    replace (exp (- x ^ 2) * (1 / (1 + s ^ 2))) with (exp (- x ^ 2) / (1 + s ^ 2)) by (field; apply one_sq).
    apply Rmult_le_compat_r; [left; apply Rinv_0_lt_compat; nra|].
    destruct (Req_dec (x ^ 2 * s ^ 2) 0) as [Z|Z].
    + right. f_equal. nra.
    + left. apply exp_increasing. assert (0 <= x ^ 2 * s ^ 2) by (apply Rmult_le_pos; nra). nra.
Qed.

(** ** The error function *)
Lemma sqrt_pi : 0 < sqrt PI.
Proof. apply sqrt_lt_R0, PI_RGT_0. Qed.
Lemma erf_G x : erf x = 2 / sqrt PI * G x.
Proof. reflexivity. Qed.
Lemma erf_0 : erf 0 = 0.
Proof. rewrite erf_G, G_0. ring. Qed.
Lemma erf_odd x : erf (- x) = - erf x.
Proof. rewrite !erf_G, G_odd. ring. Qed.
Lemma two_pi : 0 < 2 / sqrt PI.
Proof. apply Rmult_lt_0_compat; [lra|]. apply Rinv_0_lt_compat, sqrt_pi. Qed.
Lemma erf_incr x y : x < y -> erf x < erf y.
Proof. intros L. rewrite !erf_G. apply Rmult_lt_compat_l; [apply two_pi|now apply G_incr]. Qed.
Lemma erf_mono x y : x <= y -> erf x <= erf y.
Proof. intros [L| ->]; [left; now apply erf_incr|right; reflexivity]. Qed.
Lemma erf_sq x : erf x ^ 2 = 1 - 4 / PI * H x.
Proof.
  rewrite erf_G, Rpow_mult_distr. replace ((2 / sqrt PI) ^ 2) with (4 / PI).
  - pose proof (circle x). replace (G x ^ 2) with (PI / 4 - H x) by lra. field. apply PI_neq0.
  - unfold Rdiv. rewrite Rpow_mult_distr, pow_inv, pow2_sqrt by (left; apply PI_RGT_0). ring.
Qed.
Lemma four_pi : 0 < 4 / PI.
Proof. apply Rmult_lt_0_compat; [lra|]. apply Rinv_0_lt_compat, PI_RGT_0. Qed.
Lemma erf_range x : -1 < erf x < 1.
Proof.
  assert (erf x ^ 2 < 1). { rewrite erf_sq. pose proof (Rmult_lt_0_compat _ _ four_pi (H_pos x)). lra. }
  split; nra.
Qed.
Lemma erf_tail x : 0 <= x -> 1 - exp (- x ^ 2) <= erf x.
Proof.
  intros Hx. assert (0 <= erf x) by (rewrite <- erf_0; now apply erf_mono).
  assert (1 - exp (- x ^ 2) <= erf x ^ 2).
  { rewrite erf_sq. pose proof (Rmult_le_compat_l _ _ _ (Rlt_le _ _ four_pi) (H_tail x)) as M.
    replace (4 / PI * (gauss x * (PI / 4))) with (gauss x) in M by (field; apply PI_neq0). unfold gauss in M. lra. }
  pose proof (erf_range x). nra.
Qed.
Lemma erf_slope x : 0 <= x -> erf x <= 2 / sqrt PI * x.
Proof.
  intros Hx. rewrite erf_G. apply Rmult_le_compat_l; [left; apply two_pi|]. unfold G.
  replace x with (RInt (fun _ => 1) 0 x) at 2.
  - apply RInt_le; [exact Hx|apply gauss_int|apply (@ex_RInt_const R_CompleteNormedModule)|].
    intros t _. unfold gauss. rewrite <- exp_0. destruct (Req_dec t 0) as [->|Z]; [right; f_equal; ring|]. left. apply exp_increasing. nra.
  - rewrite (RInt_const (V := R_CompleteNormedModule)). unfold scal; cbn. unfold mult; cbn. ring.
Qed.

(** ** The normal law *)
Lemma sqrt2_pos : 0 < sqrt 2.
Proof. apply sqrt_lt_R0. lra. Qed.
Lemma Phi_range z : 0 < Phi z < 1.
Proof. unfold Phi. pose proof (erf_range (z / sqrt 2)). lra. Qed.
Lemma Phi_mono x y : x <= y -> Phi x <= Phi y.
Proof.
  intros L. unfold Phi. assert (erf (x / sqrt 2) <= erf (y / sqrt 2)); [|lra].
  apply erf_mono. apply Rmult_le_compat_r; [left; apply Rinv_0_lt_compat, sqrt2_pos|exact L].
Qed.
Lemma Phi_opp z : Phi (- z) = 1 - Phi z.
Proof. unfold Phi. replace (- z / sqrt 2) with (- (z / sqrt 2)) by (unfold Rdiv; ring). rewrite erf_odd. lra. Qed.
Lemma Phi_tail z : 0 <= z -> Phi (- z) <= exp (- z ^ 2 / 2) / 2.
Proof.
  intros Hz. rewrite Phi_opp. unfold Phi.
  assert (P : 0 <= z / sqrt 2) by (apply Rmult_le_pos; [exact Hz|left; apply Rinv_0_lt_compat, sqrt2_pos]).
  pose proof (erf_tail _ P) as T. replace (- (z / sqrt 2) ^ 2) with (- z ^ 2 / 2) in T; [lra|].
  unfold Rdiv. rewrite Rpow_mult_distr, pow_inv, pow2_sqrt by lra. ring.
Qed.
Lemma Phi_0 : Phi 0 = / 2.
Proof. unfold Phi. replace (0 / sqrt 2) with 0 by (unfold Rdiv; ring). rewrite erf_0. lra. Qed.
