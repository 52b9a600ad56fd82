(** A slice in which the gradient of GRAPE is not the derivative: a half turn around the axis of the drift. *)
From Coq Require Import Reals Lra.
From mathcomp Require Import all_ssreflect all_algebra.
From mathcomp.real_closed Require Import complex.
From Verif Require Import Py RealStruct SpecQuantum SpecFidelity SpecGrapeExact ModelQuantum ProofQuantum ProofSpectral ProofFidelity ProofWitness
  ProofMatrixCalculus ProofFrobenius ProofSliceChange ProofGrapeExact ProofExponential ProofAntiderivative PropFidelity.
Ltac rring := ring.
Ltac rfield := field.
From mathcomp Require Import ring.
Import Order.TTheory GRing.Theory Num.Theory.
Set Implicit Arguments.
Unset Strict Implicit.
Unset Printing Implicit Defensive.
Local Open Scope ring_scope.

Lemma creal_der (g : R -> R) s l : derivable_pt_lim g s l -> cder (fun u => creal (g u)) s (creal l).
Proof. move=> H. split; first exact: H. exact: derivable_pt_lim_const. Qed.
Lemma mscale m n (f : R -> Cx) (X : 'M[Cx]_(m, n)) s z : cder f s z -> mder (fun u => f u *: X) s (z *: X).
Proof.
  move=> H i j. rewrite mxE. have := cmul H (cconst (X i j) s). rewrite mulr0 addr0. apply: cext => x. by rewrite mxE.
Qed.
Lemma mscale_zero m n (f : R -> Cx) (F : R -> 'M[Cx]_(m, n)) s D : cder f s 0 -> f s = 0 -> mder F s D -> mder (fun u => f u *: F u) s 0.
Proof.
  move=> H E HF i j. have := cmul H (HF i j). rewrite mul0r E mul0r addr0 mxE. apply: cext => x. by rewrite mxE.
Qed.
Lemma creal_mul x y : creal (Rmult x y) = creal x * creal y.
Proof. apply: cx_eq; rewrite ?re_mul ?im_mul ?re_creal ?im_creal; rring. Qed.
Lemma creal_add x y : creal (Rplus x y) = creal x + creal y.
Proof. apply: cx_eq; rewrite ?re_add ?im_add ?re_creal ?im_creal; rring. Qed.
Lemma creal_opp x : creal (Ropp x) = - creal x.
Proof. apply: cx_eq; rewrite ?re_opp ?im_opp ?re_creal ?im_creal; rring. Qed.
Lemma creal0 : creal 0%coqR = 0. Proof. by []. Qed.
Lemma creal1 : creal 1%coqR = 1. Proof. by []. Qed.

Notation Z := (sigma_z Cx).
Notation X := (sigma_x Cx).
Definition om (x : R) : R := sqrt (1 + x * x)%coqR.
Lemma om_pos x : (0 < om x)%coqR. Proof. apply: sqrt_lt_R0. nra. Qed.
Lemma om_sq x : (om x * om x)%coqR = (1 + x * x)%coqR. Proof. apply: sqrt_def. nra. Qed.
Definition tilted (x : R) : 'M[Cx]_2 := Z + creal x *: X.
Lemma tilted_sq x : tilted x *m tilted x = creal (om x * om x)%coqR *: 1%:M.
Proof.
  rewrite om_sq creal_add creal_mul creal1 /tilted /sigma_z /sigma_x scale22 add22 mul22 one22 scale22. by congr mx22; ring.
Qed.
Definition rotation (x s : R) : 'M[Cx]_2 :=
  creal (cos (PI * om x * s)%coqR) *: 1%:M + (- 'i * creal (sin (PI * om x * s) / om x)%coqR) *: tilted x.
Lemma rotation_flow x : flow (number PI *: tilted x) (rotation x).
Proof.
  have P := om_pos x. split.
  - rewrite /rotation Rmult_0_r cos_0 sin_0 /Rdiv Rmult_0_l creal0 creal1 mulr0 scale0r addr0 scale1r. by [].
  - move=> s. set k := (PI * om x)%coqR.
    have D : derivable_pt_lim (fun u => k * u)%coqR s k. { apply: dval (derivable_pt_lim_scal _ k _ _ (derivable_pt_lim_id s)). rring. }
    have Dc : derivable_pt_lim (fun u => cos (k * u))%coqR s (- sin (k * s) * k)%coqR by exact: (derivable_pt_lim_comp _ cos s _ _ D (derivable_pt_lim_cos _)).
    have Ds : derivable_pt_lim (fun u => sin (k * u) / om x)%coqR s (PI * cos (k * s))%coqR.
    { apply: dext (dval _ (derivable_pt_lim_scal _ (/ om x) _ _ (derivable_pt_lim_comp _ sin s _ _ D (derivable_pt_lim_sin _)))).
      - move=> y. rewrite /mult_real_fct /comp /=. rewrite /Rdiv. exact: Rmult_comm.
      - rewrite /k. rfield. lra. }
    have := madd (mscale 1%:M (creal_der Dc)) (mscale (tilted x) (cmul (cconst (- 'i) s) (creal_der Ds))).
    rewrite mul0r add0r. set L := _ + _. set Q := _ *m _. have -> // : L = Q.
    rewrite /L /Q /rotation -/k mulmxDr -!scalemxAr mulmx1 -!scalemxAl tilted_sq !scalerA addrC. apply: f_equal2; apply: f_equal2 => //.
    + rewrite creal_mul -[number PI]/(creal PI). ring.
    + rewrite -[number PI]/(creal PI).
      transitivity ('i ^+ 2 * (creal (sin (k * s) / om x)%coqR * creal PI * creal (om x * om x)%coqR)); last by ring.
      rewrite sqrCi mulN1r -!creal_mul -creal_opp. congr creal. rewrite /k. rfield. lra.
Qed.

Definition r2 : R := (/ sqrt 2)%coqR.
Lemma r2_sq : (r2 * r2)%coqR = (1 / 2)%coqR.
Proof. rewrite /r2 -Rinv_mult sqrt_def; lra. Qed.
Definition aim : 'M[Cx]_2 := pure (ket (creal r2) ('i * creal r2)).
Definition begin : 'M[Cx]_2 := pure (ket (1 : Cx) 0).
Lemma pure22 (a b : Cx) : pure (ket a b) = mx22 (a * a^*) (a * b^*) (b * a^*) (b * b^*).
Proof. apply: mx22P; by rewrite !mxE big_ord1 !mxE. Qed.
Lemma conj_creal x : (creal x)^* = creal x. Proof. exact: real_number. Qed.
Lemma conj_i : ('i : Cx)^* = - 'i.
Proof. apply: cx_eq; rewrite ?re_conj ?im_conj ?re_opp ?im_opp ?re_i ?im_i; rring. Qed.
Definition half : Cx := creal (1 / 2)%coqR.
Lemma aimE : aim = mx22 half (- 'i * half) ('i * half) half.
Proof.
  rewrite /aim pure22 rmorphM conj_i conj_creal. have E : creal r2 * creal r2 = half by rewrite -creal_mul r2_sq.
  congr mx22.
  - exact: E.
  - by rewrite -E; ring.
  - by rewrite -E; ring.
  - transitivity (- 'i ^+ 2 * (creal r2 * creal r2)); first by ring. by rewrite sqrCi E opprK mul1r.
Qed.
Lemma beginE : begin = down Cx.
Proof. rewrite /begin pure22 conjC0 conjC1 /down. by congr mx22; ring. Qed.
Lemma unit_density d (psi : 'cV[Cx]_d) : sandwich psi 1%:M psi = 1 -> density (pure psi).
Proof. have [<- [_ [_ H]]] := C66_state_to_dm psi. exact: H. Qed.
Lemma aim_density : density aim.
Proof.
  apply: unit_density. rewrite /sandwich mulmx1 -adjE ket_bra rmorphM conj_i conj_creal.
  transitivity ((1 - 'i ^+ 2) * (creal r2 * creal r2)); first by ring. rewrite sqrCi -creal_mul r2_sq.
  rewrite opprK -!creal1 -creal_add -creal_mul. congr creal. rfield.
Qed.
Lemma begin_density : density begin.
Proof.
  apply: unit_density. rewrite /sandwich mulmx1 -adjE ket_bra conjC1 conjC0. by rewrite mulr1 mulr0 addr0.
Qed.

Lemma ip_still d (T A B : 'M[Cx]_d) : ip T (0 *m B *m adj A + A *m B *m adj 0) = 0%coqR.
Proof. rewrite adj0 !mul0mx mulmx0 addr0 /ip mulmx0 mxtrace0. by []. Qed.
Section Misled.
  Variable expm : 'M[Cx]_2 -> 'M[Cx]_2.
  Hypothesis EX : computes_exponentials expm.
  Lemma hz : hermitian Z. Proof. apply/hermitianE. by case: (sz_involution Cx). Qed.
  Lemma hx : hermitian X. Proof. apply/hermitianE. by case: (sx_involution Cx). Qed.
  Lemma the_slice x : slice_of expm Z X PI [:: x] 0 = rotation x R1.
  Proof. rewrite slice_ofE /ham /=. apply: expm_unique => //; last exact: rotation_flow. exact: (@adj_ham _ Z X PI hz hx [:: x] 0%N). Qed.
  Lemma slice_still : slice_of expm Z X PI [:: 0%coqR] 0 = - 1%:M.
  Proof.
    rewrite the_slice /rotation -[R1]/(IZR 1) Rmult_1_r /om Rmult_0_l Rplus_0_r sqrt_1 Rmult_1_r cos_PI sin_PI /Rdiv Rmult_0_l creal0 mulr0 scale0r addr0.
    have -> : creal (-1)%coqR = -1; last by rewrite scaleN1r. by rewrite creal_opp creal1.
  Qed.
  Lemma still : derivable_pt_lim (fun x => reached_overlap expm Z X begin aim PI 1 [:: x]) 0%coqR 0%coqR.
  Proof.
    have E : forall x, reached_overlap expm Z X begin aim PI 1 [:: x] = ip aim (rotation x R1 *m begin *m adj (rotation x R1)).
    { move=> x. rewrite /reached_overlap /overlap /state_at /= mulmx1 -!adjE. by rewrite -the_slice. }
    have D : mder (fun x => rotation x R1) 0%coqR 0.
    { have A : mder (fun x => creal (cos (PI * om x))%coqR *: (1%:M : 'M[Cx]_2)) 0%coqR 0.
      { have := mscale (1%:M : 'M[Cx]_2) (creal_der half_turn_cos). by rewrite creal0 scale0r. }
      have B : mder (fun x => (- 'i * creal (sin (PI * om x) / om x)%coqR) *: tilted x) 0%coqR 0.
      { apply: (@mscale_zero _ _ _ _ _ X).
        - have := cmul (cconst (- 'i) 0%coqR) (creal_der half_turn_sin). by rewrite mul0r add0r creal0 mulr0.
        - by rewrite /om Rmult_0_l Rplus_0_r sqrt_1 Rmult_1_r sin_PI /Rdiv Rmult_0_l creal0 mulr0.
        - have := madd (mconst Z 0%coqR) (mscale X (creal_der (derivable_pt_lim_id 0%coqR))). by rewrite add0r creal1 scale1r. }
      have := madd A B. rewrite addr0. apply: mext => x. by rewrite /rotation -[R1]/(IZR 1) Rmult_1_r. }
    apply: dext (dval _ (ip_der aim (mmul (mmulr begin D) (madj D)))) => [x|]; first by rewrite E. exact: ip_still.
  Qed.
  Lemma misled : grape_entry 1 expm Z X begin aim PI [:: 0%coqR] 0 = PI.
  Proof.
    rewrite /grape_entry re_Re. have -> : state_at (slice_of expm Z X PI [:: 0%coqR]) begin 0 = begin by rewrite /state_at /= -adjE adj1 mul1mx mulmx1.
    have -> : costate_at (slice_of expm Z X PI [:: 0%coqR]) 1 aim 0 = aim.
    { rewrite /costate_at /later /= mulmx1 addn0 slice_still -adjE adj_opp adj1 mulNmx mul1mx mulmxN mulmx1 opprK. by []. }
    have -> : X *m begin - begin *m X = mx22 0 (-1) 1 0. { rewrite beginE. exact: comm_down. }
    have H1 : half^* = half by exact: conj_creal. have H2 : adj aim = aim.
    { rewrite aimE adj22 H1 !rmorphM H1 rmorphN conj_i opprK. by []. }
    rewrite -adjE H2 aimE scale22 mul22 tr22 -[number PI]/(creal PI).
    set w := _ + _. have -> : w = - 'i ^+ 2 * (creal PI * (half + half)) by rewrite /w; ring. rewrite sqrCi opprK mul1r /half -creal_add -creal_mul re_creal. rfield.
  Qed.
End Misled.

(** small facts for the statements *)
Lemma nrm0 d : nrm (0 : 'M[Cx]_d) = 0%coqR.
Proof. rewrite /nrm /ip mulmx0 mxtrace0. exact: sqrt_0. Qed.
Lemma Re_number (z : Cx) : 'Re z = number (real_part ('Re z)).
Proof. rewrite -complexRe. by []. Qed.
Lemma set_nth_same (a : seq R) t : (t < size a)%N -> seq.set_nth R0 a t (nth R0 a t) = a.
Proof.
  move=> L. apply: (@eq_from_nth _ R0); first by rewrite size_set_nth; apply/maxn_idPr. move=> i _. rewrite nth_set_nth /=. by case: eqP => [->|].
Qed.
Lemma descent (f : R -> R) x m g : derivable_pt_lim f x m -> (m * g < 0)%coqR ->
  exists e, (0 < e)%coqR /\ forall h, (0 < h < e)%coqR -> (f x < f (x - h * g))%coqR.
Proof.
  move=> D P. have M0 : m <> 0%coqR by move=> E; rewrite E in P; lra. have G0 : g <> 0%coqR by move=> E; rewrite E in P; lra.
  have AM := Rabs_pos_lt _ M0. have AG := Rabs_pos_lt _ G0. have E0 : (0 < Rabs m / 2)%coqR by lra.
  have [[e He] Q] := D _ E0. exists (e / Rabs g)%coqR. split; first exact: Rdiv_lt_0_compat. move=> h [h0 h1].
  have K0 : (- (h * g))%coqR <> 0%coqR by move=> E; have := Rmult_integral_contrapositive_currified h g (Rgt_not_eq _ _ h0) G0; lra.
  have K1 : (Rabs (- (h * g)) < e)%coqR.
  { rewrite Rabs_Ropp Rabs_mult (Rabs_pos_eq h); last lra. apply: (Rmult_lt_reg_r (/ Rabs g)%coqR); first exact: Rinv_0_lt_compat.
    rewrite Rmult_assoc Rinv_r ?Rmult_1_r //. exact: Rabs_no_R0. }
  have := Q _ K0 K1. set k := (- (h * g))%coqR. have -> : (x - h * g = x + k)%coqR by rewrite /k; lra. set q := (_ / k)%coqR => B.
  have E : (f (x + k) - f x = k * q)%coqR by rewrite /q; rfield.
  have S : (0 < k * m)%coqR by rewrite /k; nra. have : (0 < k * q)%coqR; last lra.
  move: B. rewrite /Rabs. case: (Rcase_abs m) => Hm; case: Rcase_abs => Hq; nra.
Qed.
Lemma number_nat k : number (INR k) = k%:R.
Proof. elim: k => [|k IH] //. rewrite S_INR -[number _]/(creal _) creal_add creal1 -[creal (INR k)]/(number (INR k)) IH mulrSr. by []. Qed.
Lemma div_number x k : number x / k.+1%:R = number (x / INR k.+1)%coqR.
Proof.
  have N : (k.+1%:R : Cx) != 0 by rewrite pnatr_eq0. apply: (mulIf N). rewrite mulfVK // -number_nat -![number _]/(creal _) -creal_mul. congr creal.
  rewrite /Rdiv Rmult_assoc Rinv_l ?Rmult_1_r //. exact: not_0_INR.
Qed.
Lemma mxtrace_scalar1 (x : Cx) : \tr (x%:M : 'M_1) = x.
Proof. by rewrite mxtrace_scalar mulr1n. Qed.
Lemma overlap_pure d (U : 'M[Cx]_d) (phi psi : 'cV[Cx]_d) :
  overlap (pure psi) (U *m pure phi *m dagger U) = `|(dagger psi *m (U *m phi)) 0 0| ^+ 2.
Proof.
  rewrite /overlap /pure -!adjE. set z := (adj psi *m (U *m phi)) 0 0. have E : adj psi *m (U *m phi) = z%:M by exact: mx11_scalar.
  have E2 : adj phi *m adj U *m psi = (z^*)%:M.
  { rewrite -adj_mul -[psi in LHS]adjK -adj_mul E. apply/matrixP => i j. by rewrite !ord1 !mxE eqxx !mulr1n. }
  rewrite adj_mul adjK normCK. transitivity (\tr ((adj psi *m (U *m phi)) *m (adj phi *m adj U *m psi))); first by rewrite -[psi *m adj psi *m _]mulmxA mxtrace_mulC !mulmxA.
  rewrite E E2 -scalar_mxM. exact: mxtrace_scalar1.
Qed.
Lemma population_number d (U : 'M[Cx]_d) (phi psi : 'cV[Cx]_d) c :
  - number c * `|(dagger psi *m (U *m phi)) 0 0| ^+ 2 = number (- c * real_part (overlap (pure psi) (U *m pure phi *m dagger U)))%coqR.
Proof.
  rewrite overlap_pure -[number (_ * _)%coqR]/(creal _) creal_mul creal_opp. congr (_ * _). apply: real_creal. apply: rpredX. exact: normr_real.
Qed.
