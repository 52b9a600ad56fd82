(** * C88: a width of zero makes CMA-ES leave the finite numbers after the first generation. *)
From Coq Require Import ZArith List Bool Lia.
From Flocq Require Import BinarySingleNaN.
From Verif Require Import Num NumFacts Py PyFacts ModelCma64 SpecCma64 ProofCma64 ExampleControls.
Import ListNotations.
Open Scope nat_scope.

Section Zero.
  Variables (n l_pop : nat) (K : rates) (eigh : fmat -> res (fvec * fmat)) (fexp : f64 -> f64) (argsort : list f64 -> list nat) (x0 sg : list f64).
  Hypothesis damping : pos (r_cs K /! r_damps K).
  Hypothesis expected : pos (r_chi K).
  Hypothesis exp_inf : fexp f64_inf = f64_inf.
  Hypothesis exp_nan : fexp f64_nan = f64_nan.
  Variable k : nat.
  Hypothesis inside : k < n.
  Let mu := Nat.div l_pop 2.

  Lemma sigma_of (a b : cma64) : Ok a = Ok b -> f_sigma b = f_sigma a. Proof. intros H. now injection H as ->. Qed.
  Lemma ps_of (a b : cma64) : Ok a = Ok b -> f_ps b = f_ps a. Proof. intros H. now injection H as ->. Qed.
  Lemma step_sigma best c S S' : broken (f_ps S' k) -> f_sigma S = fz 1 \/ high (f_sigma S) -> cma_step64 n mu l_pop K eigh fexp best c S = Ok S' -> high (f_sigma S').
  Proof.
    intros P HS H. assert (E : f_sigma S' = f_sigma S *! fexp (r_cs K /! r_damps K *! (fnorm n (f_ps S') /! r_chi K -! fz 1))).
    { unfold cma_step64 in H. cbv zeta in H. match type of H with (if ?b then _ else _) = _ => destruct b end.
      - apply rbind_ok in H as ([lv B] & _ & H). exact (eq_trans (sigma_of _ _ H) (f_equal (fun p => f_sigma S *! fexp (r_cs K /! r_damps K *! (fnorm n p /! r_chi K -! fz 1))) (eq_sym (ps_of _ _ H)))).
      - exact (eq_trans (sigma_of _ _ H) (f_equal (fun p => f_sigma S *! fexp (r_cs K /! r_damps K *! (fnorm n p /! r_chi K -! fz 1))) (eq_sym (ps_of _ _ H)))). }
    rewrite E. assert (Q : high (fexp (r_cs K /! r_damps K *! (fnorm n (f_ps S') /! r_chi K -! fz 1)))).
    { destruct (high_times _ _ damping (high_minus_one _ (high_div _ _ expected (norm_high n (f_ps S') k inside P)))) as [-> | ->]; [left|right]; assumption. }
    destruct HS as [-> |HS]; [now apply one_high|now apply high_high].
  Qed.
  Lemma step_ps best c S S' : broken (f_ps S k) \/ broken (f_inv S k k) -> cma_step64 n mu l_pop K eigh fexp best c S = Ok S' -> broken (f_ps S' k).
  Proof.
    intros P H. assert (E : exists a b y, f_ps S' k = a *! f_ps S k +! b *! fapply n (f_inv S) y k /! f_sigma S).
    { unfold cma_step64 in H. cbv zeta in H. match type of H with (if ?b then _ else _) = _ => destruct b end.
      - apply rbind_ok in H as ([lv B] & _ & H). apply ps_of in H. apply (f_equal (fun p => p k)) in H. cbn [f_ps] in H. eexists. eexists. eexists. exact H.
      - apply ps_of in H. apply (f_equal (fun p => p k)) in H. cbn [f_ps] in H. eexists. eexists. eexists. exact H. }
    destruct E as (a & b & y & ->). destruct P as [P|P]; [now apply plus_l, times_r|].
    apply plus_r, div_l, times_r. unfold fapply. apply fsum_broken with k; [exact inside|now apply times_l].
  Qed.
  Lemma generations_broken hist S : length sg = n -> nth k sg (fz 0) = B754_zero false \/ nth k sg (fz 0) = B754_zero true -> forall j,
    after_generations64 n mu l_pop K eigh fexp argsort x0 sg j hist = Ok S -> 0 < j -> broken (f_ps S k) /\ high (f_sigma S).
  Proof.
    intros L Z j. revert S. induction j as [|j IH]; intros S H J; [lia|]. cbn [after_generations64] in H. apply rbind_ok in H as (S0 & E & H).
    assert (P : (broken (f_ps S0 k) \/ broken (f_inv S0 k k)) /\ (f_sigma S0 = fz 1 \/ high (f_sigma S0))).
    { destruct j as [|j]; [|destruct (IH S0 E ltac:(lia)); auto]. cbn [after_generations64] in E. injection E as <-. split; [right|now left].
      cbn [cma_start64 f_inv]. unfold eye64, diag64. rewrite Nat.eqb_refl. apply times_l, times_r. apply over_zero. unfold widths64. rewrite L, Nat.eqb_refl. exact Z. }
    destruct P as [P1 P2]. pose proof (step_ps _ _ _ _ P1 H) as Q. split; [exact Q|exact (step_sigma _ _ _ _ Q P2 H)].
  Qed.
End Zero.

(** One parameter with width zero (of either sign).  Once the first generation has been evaluated, every entry of every candidate - not only
    that of this parameter - is infinite or NaN, whatever the figures of merit, the normal numbers, the eigenvectors and the population. *)
Theorem C88_not_finite n l_pop K eigh fexp argsort (x0 sg : list f64) k hist z x :
  pos (r_cs K /! r_damps K) -> pos (r_chi K) -> fexp f64_inf = f64_inf -> fexp f64_nan = f64_nan ->
  length sg = n -> k < n -> nth k sg (fz 0) = B754_zero false \/ nth k sg (fz 0) = B754_zero true -> 0 < l_pop -> l_pop <= length hist ->
  candidate64 n (l_pop / 2) l_pop K eigh fexp argsort x0 sg hist z = Ok x -> length x = n /\ forall v, In v x -> is_finite v = false.
Proof.
  intros H1 H2 H3 H4 L HK Z LP LH H. unfold candidate64 in H. apply rbind_ok in H as (S & E & H). injection H as <-.
  split; [now rewrite map_length, seq_length|].
  assert (J : 0 < length hist / l_pop) by (apply Nat.div_str_pos; lia).
  destruct (generations_broken n l_pop K eigh fexp argsort x0 sg H1 H2 H3 H4 k HK hist S L Z _ E J) as [_ Q].
  intros v I. apply in_map_iff in I as (i & <- & _). unfold cma_sample64. apply plus_r, times_l. now apply high_broken.
Qed.
(** the step size itself: +infinity or NaN *)
Theorem C88_step_size n l_pop K eigh fexp argsort (x0 sg : list f64) k hist j S :
  pos (r_cs K /! r_damps K) -> pos (r_chi K) -> fexp f64_inf = f64_inf -> fexp f64_nan = f64_nan ->
  length sg = n -> k < n -> nth k sg (fz 0) = B754_zero false \/ nth k sg (fz 0) = B754_zero true -> 0 < j ->
  after_generations64 n (l_pop / 2) l_pop K eigh fexp argsort x0 sg j hist = Ok S -> f_sigma S = f64_inf \/ f_sigma S = f64_nan.
Proof. intros H1 H2 H3 H4 L HK Z J E. exact (proj2 (generations_broken n l_pop K eigh fexp argsort x0 sg H1 H2 H3 H4 k HK hist S L Z j E J)). Qed.

(** ** Cases *)
(** two parameters, two candidates per generation: the numbers of CMAES.py:88-108 for this case *)
Definition two_rates : rates :=
  {| r_weight := fun _ => fz 1; r_mueff := fz 1; r_cc := (fz 9 /! fz 2) /! fz 7; r_cs := fz 3 /! fz 8; r_c1 := fz 200 /! fz 1189; r_cmu := fz 0; r_damps := fz 11 /! fz 8;
     r_chi := @nsqrt F64 (fz 2) *! (fz 1 -! fz 1 /! fz 8 +! fz 1 /! fz 84); r_scale := fun _ => fz 1 |}.
(** functions with the values needed: eigenvalues of diagonal matrices, an exponential that is right at zero, the infinities and NaN *)
Definition two_eigh (C : fmat) : res (fvec * fmat) := Ok (fun i => C i i, eye64).
Definition two_exp (x : f64) : f64 := match x with B754_infinity false => f64_inf | B754_infinity true => fz 0 | B754_nan => f64_nan | _ => fz 1 end.
Definition two_sort (l : list f64) : list nat := if @nltb F64 (nth 1 l (fz 0)) (nth 0 l (fz 0)) then [1; 0] else [0; 1].
Definition two_search (sg : list f64) (hist : list (list f64 * f64)) (z : list f64) : res (list f64) :=
  candidate64 2 1 2 two_rates two_eigh two_exp two_sort [fz 1; fz 2] sg hist z.
Definition finite_list (r : res (list f64)) : bool := match r with Ok x => forallb is_finite x | Err _ => false end.
Definition first_two : list (list f64 * f64) := [([fz 1; fz 2], fz 5); ([fz 1 +! fz 1 /! fz 4; fz 2], fz 3)].
Definition ok_list (r : res (list f64)) : bool := match r with Ok _ => true | Err _ => false end.
Definition given (r : res (list f64)) (l : list f64) : bool := match r with Ok x => same_list x l | Err _ => false end.
(** Width zero for the second parameter: the second candidate is the one in the history, the third is infinite or NaN (the conditions of
    [C88_not_finite] are met). *)
Example C88_case : pos (r_cs two_rates /! r_damps two_rates) /\ pos (r_chi two_rates) /\ two_exp f64_inf = f64_inf /\ two_exp f64_nan = f64_nan /\
  nth 1 [fz 1; fz 0] (fz 0) = B754_zero false /\
  two_search [fz 1; fz 0] (firstn 1 first_two) [fz 1 /! fz 4; fz 1] = Ok (fst (nth 1 first_two ([], fz 0))) /\
  exists x, two_search [fz 1; fz 0] first_two [fz 1; fz 1] = Ok x.
Proof.
  split; [vm_compute; exact I|]. split; [vm_compute; exact I|]. split; [reflexivity|]. split; [reflexivity|]. split; [reflexivity|].
  assert (V1 : given (two_search [fz 1; fz 0] (firstn 1 first_two) [fz 1 /! fz 4; fz 1]) (fst (nth 1 first_two ([], fz 0))) = true) by (vm_compute; reflexivity).
  assert (V2 : ok_list (two_search [fz 1; fz 0] first_two [fz 1; fz 1]) = true) by (vm_compute; reflexivity).
  revert V1 V2. generalize (two_search [fz 1; fz 0] (firstn 1 first_two) [fz 1 /! fz 4; fz 1]) (two_search [fz 1; fz 0] first_two [fz 1; fz 1]) (fst (nth 1 first_two ([], fz 0))).
  intros [a|] [b|] l V1 V2; try discriminate. split; [f_equal; now apply same_list_eq|now exists b].
Qed.
(** With a small width instead the same search stays finite. *)
Example C88_small_width : finite_list (two_search [fz 1; fz 1 /! fz 1000] [([fz 1; fz 2], fz 5); ([fz 1 +! fz 1 /! fz 4; fz 2 +! fz 1 /! fz 1000], fz 3)] [fz 1; fz 1]) = true.
Proof. vm_compute. reflexivity. Qed.

Print Assumptions C88_not_finite.
Print Assumptions C88_step_size.
