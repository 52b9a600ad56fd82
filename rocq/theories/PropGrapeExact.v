(** * C82: the gradient of GRAPE and the derivative of the overlap.
    [expm] is any function that computes the exponentials of -i times hermitian matrices over the complex numbers; there is exactly one
    such function on these matrices.  The propagators are those of the piecewise integrator. *)
From Coq Require Import Reals Lra.
From mathcomp Require Import all_ssreflect all_algebra.
From mathcomp.real_closed Require Import complex.
From Verif Require Import Py RealStruct SpecQuantum SpecFidelity SpecGrapeExact ModelQuantum ProofQuantum ProofGrape ProofProblems ProofIsing ProofSpectral ProofFidelity ProofWitness
  ProofMatrixCalculus ProofFrobenius ProofSliceChange ProofGrapeExact ProofExponential ProofHalfTurn PropQuantum PropFidelity.
Import Order.TTheory GRing.Theory Num.Theory.
Set Implicit Arguments.
Unset Strict Implicit.
Unset Printing Implicit Defensive.
Local Open Scope ring_scope.
Local Open Scope seq_scope.

Section C82.
  Variables (d n : nat) (expm : 'M[Cx]_d -> 'M[Cx]_d) (H0 B rho0 target : 'M[Cx]_d) (dt : R).
  Notation M := 'M[Cx]_d.
  Hypothesis exact : computes_exponentials expm.
  Hypothesis drift : hermitian H0.
  Hypothesis control : hermitian B.
  (** amplitudes, the propagators of their slices, and the gradient GRAPE computes from them after any earlier calls *)
  Variables (a : seq R) (store us : seq M) (G G' : grape Cx d) (grads : seq Cx) (t : nat).
  Hypothesis amplitudes : (n <= size a)%N.
  Hypothesis room : (n <= size store)%N.
  Hypothesis propagators : pw_evolution expm store [:: map number a] H0 [:: B] n (number dt) = (us, Ok tt).
  Hypothesis before : reached true false n rho0 target G.
  Hypothesis gradient : get_gradient true false n (number dt) B us G = Ok (G', grads).
  Hypothesis slice_there : (t < n)%N.
  Notation F x := (reached_overlap expm H0 B rho0 target dt n (seq.set_nth R0 a t x)).
  Notation a_t := (nth R0 a t).
  Notation entry := (real_part (nth 0 grads t)).

  Lemma have_all : covers [:: map number a] 1 n.
  Proof. move=> k. rewrite ltnS leqn0 => /eqP ->. split=> //=. by rewrite size_map. Qed.
  Lemma us_nth i : (i < n)%N -> nth 0 us i = slice_of expm H0 B dt a i.
  Proof.
    move=> I. move: propagators. rewrite (@pw_evolutionE _ _ expm _ H0 [:: B] _ n store have_all room) => -[<-].
    rewrite nth_cat size_map size_iota I (nth_map 0%N) ?size_iota // nth_iota //.
  Qed.
  Lemma us_size : (n <= size us)%N.
  Proof.
    move: propagators. rewrite (@pw_evolutionE _ _ expm _ H0 [:: B] _ n store have_all room) => -[<-]. by rewrite size_cat size_map size_iota leq_addr.
  Qed.
  Lemma the_entry : entry = grape_entry n expm H0 B rho0 target dt a t.
  Proof.
    have [G2 [g2 [E [_ [S _]]]]] := gradient_spec (number dt) B before us_size. move: gradient. rewrite E => -[_ <-]. rewrite (S t slice_there) /grape_entry.
    rewrite (@same_state _ rho0 (nth 0 us) (slice_of expm H0 B dt a) t); last by move=> i I; apply: us_nth; exact: ltn_trans I slice_there.
    rewrite (@same_costate _ n target (nth 0 us) (slice_of expm H0 B dt a) t) //; first exact: ltnW. by move=> i /andP [_ I]; apply: us_nth.
  Qed.
  Local Open Scope R_scope.

  (** the entry is real *)
  Theorem C82_real : (nth 0 grads t = number entry)%R.
  Proof.
    have [G2 [g2 [E [_ [S _]]]]] := gradient_spec (number dt) B before us_size. move: gradient. rewrite E => -[_ <-]. rewrite (S t slice_there). exact: Re_number.
  Qed.
  (** the change of the overlap when amplitude [t] becomes [x] *)
  Theorem C82_error x : Rabs (F x - F a_t + (x - a_t) * entry)
    <= Rabs (x - a_t) * dt ^ 2 * (frobenius target * frobenius rho0) * (frobenius (bracket H0 B) + 2 * Rabs (x - a_t) * (frobenius B * frobenius B)).
  Proof.
    rewrite the_entry !frobeniusE. have := @overlap_error _ n expm H0 B rho0 target dt exact drift control a t slice_there x. rewrite set_nth_same //. exact: leq_trans slice_there amplitudes.
  Qed.
  (** the derivative exists and differs from minus the entry by no more than the square of the slice length times a constant *)
  Theorem C82_derivative : exists m, derivable_pt_lim (fun x => F x) a_t m /\
    Rabs (m + entry) <= dt ^ 2 * (frobenius target * frobenius rho0) * frobenius (bracket H0 B).
  Proof. rewrite the_entry !frobeniusE. exact: overlap_derivative. Qed.
  (** for states *)
  Theorem C82_states : density rho0 -> density target -> exists m, derivable_pt_lim (fun x => F x) a_t m /\
    Rabs (m + entry) <= dt ^ 2 * frobenius (bracket H0 B).
  Proof.
    move=> D1 D2. have [m [A Q]] := C82_derivative. exists m. split=> //. apply: Rle_trans Q _. rewrite !frobeniusE.
    have := density_norm D1. have := density_norm D2. have := nrm_ge0 rho0. have := nrm_ge0 target. have := nrm_ge0 (bracket H0 B).
    set u := nrm _. set v := nrm _. set w := nrm _ => U V W V1 W1. have : 0 <= v * w <= 1 by nra. set z := v * w => Z. have : 0 <= dt ^ 2 * u by nra. nra.
  Qed.
  (** if drift and control commute it is exact *)
  Theorem C82_commuting : (bracket H0 B = 0)%R -> derivable_pt_lim (fun x => F x) a_t (- entry).
  Proof.
    move=> Z. have [m [A Q]] := C82_derivative. have -> // : - entry = m. move: Q. rewrite Z !frobeniusE nrm0 Rmult_0_r => Q.
    move: Q. rewrite /Rabs. case: Rcase_abs; lra.
  Qed.
  (** an entry greater than the bound has the right sign: a small step against it increases the overlap *)
  Theorem C82_direction : dt ^ 2 * (frobenius target * frobenius rho0) * frobenius (bracket H0 B) < Rabs entry ->
    exists e, 0 < e /\ forall h, 0 < h < e -> F a_t < F (a_t - h * entry).
  Proof.
    move=> L. have [m [A Q]] := C82_derivative.
    have P : m * entry < 0. { move: Q L. rewrite /Rabs. case: Rcase_abs; case: Rcase_abs; nra. }
    exact: (descent A P).
  Qed.
End C82.

(** ** The bundled Ising problem: real target state, figure of merit [- factor * fidelity] *)
Section C82_Ising.
  Variables (d : nat) (expm sqrtm : 'M[Cx]_d -> 'M[Cx]_d) (D : ising_data Cx d) (phi psi : 'cV[Cx]_d) (c : R).
  Hypothesis exact : computes_exponentials expm.
  Hypothesis roots : roots_pure sqrtm.
  Hypothesis drift : hermitian (i_drift D).
  Hypothesis control : hermitian (i_control D).
  Hypothesis initial : i_rho0 D = pure phi /\ sandwich phi 1%:M phi = 1.
  Hypothesis aim : i_target D = pure psi /\ sandwich psi 1%:M psi = 1 /\ forall i, psi i 0 \is Num.real.
  Hypothesis factor : i_factor D = number c.
  Variables (a grid : seq R) (X X' : ising Cx d) (G G' : grape Cx d) (grads : seq Cx) (t : nat).
  Notation n := (i_slices D).
  Notation dt := (last R0 grid / INR (size grid))%coqR.
  Hypothesis amplitudes : (n <= size a)%N.
  Hypothesis times : grid <> [::].
  Hypothesis room : (n <= size (prop_store X))%N.
  Hypothesis propagators : get_propagator expm D [:: map number a] [:: map number grid] X = (X', Ok tt).
  Hypothesis before : reached true false n (i_rho0 D) (i_target D) G.
  Hypothesis gradient : get_gradient true false n (number dt) (i_control D) (prop_store X') G = Ok (G', grads).
  Hypothesis slice_there : (t < n)%N.
  Notation entry := (real_part (nth 0 grads t)).
  Lemma step_number : last 0 (map number grid) / (size (map number grid))%:R = number dt.
  Proof. rewrite size_map. have -> : last 0 (map number grid) = number (last R0 grid) by case: grid => //= x l; rewrite (last_map number). case: grid times => // x l _. exact: div_number. Qed.
  Lemma stored_slices : pw_evolution expm (prop_store X) [:: map number a] (i_drift D) [:: i_control D] n (number dt) = (prop_store X', Ok tt).
  Proof.
    move: propagators. rewrite /get_propagator /=. have -> : last_ (map number grid) = Ok (last 0 (map number grid)).
    { rewrite (lastE 0). by case: grid times. }
    rewrite step_number. case: (pw_evolution _ _ _ _ _ _ _) => st [] // []. by case=> <-.
  Qed.
  Theorem C82_ising : exists F m, (forall x, answers expm sqrtm D (ising_new D) [:: Merit (map number (seq.set_nth R0 a t x), map number grid)] = [:: Some (Ok (number (F x)))])
    /\ derivable_pt_lim F (nth R0 a t) m
    /\ (Rabs (m - c * entry) <= Rabs c * (dt ^ 2 * frobenius (bracket (i_drift D) (i_control D))))%coqR.
  Proof.
    have [EI NI] := initial. have [ET [NT RT]] := aim.
    have D1 : density (i_rho0 D) by rewrite EI; exact: unit_density. have D2 : density (i_target D) by rewrite ET; exact: unit_density.
    have [m [Hm Q]] := C82_states exact drift control amplitudes room stored_slices before gradient slice_there D1 D2.
    exists (fun x => - c * reached_overlap expm (i_drift D) (i_control D) (i_rho0 D) (i_target D) dt n (seq.set_nth R0 a t x))%coqR, (- c * m)%coqR.
    split; last split.
    - move=> x. have fine : fits D (map number (seq.set_nth R0 a t x), map number grid).
      { split; last by case: grid times. rewrite /= size_map size_set_nth. by apply: leq_trans (leq_maxr _ _). }
      have pos : (0 < n)%N by apply: leq_trans slice_there.
      rewrite [LHS](@C54_plain _ _ expm sqrtm D pos [:: _] (List.Forall_cons _ fine (List.Forall_nil _))) /own_answers /= (C54_real_target _ _ roots EI ET RT) factor. congr [:: Some (Ok _)]. rewrite /final_of step_number /reached_overlap /state_at EI ET. exact: population_number.
    - exact: derivable_pt_lim_scal Hm.
    - set e := real_part _. have -> : (- c * m - c * e = - (c * (m + e)))%coqR by ring. rewrite Rabs_Ropp Rabs_mult. apply: Rmult_le_compat_l Q. exact: Rabs_pos.
  Qed.
End C82_Ising.

(** a half turn in one slice: the entry is pi, the derivative is 0 *)
Theorem C82_refuted : exists (H0 B rho0 target : 'M[Cx]_2) (dt : R), hermitian H0 /\ hermitian B /\ density rho0 /\ density target /\ (0 < dt)%coqR /\
  forall expm, computes_exponentials expm -> exists us G' grads,
    pw_evolution expm [:: 0] [:: [:: number R0]] H0 [:: B] 1 (number dt) = (us, Ok tt) /\
    get_gradient true false 1 (number dt) B us (grape_new false 1 rho0 target) = Ok (G', grads) /\
    real_part (nth 0 grads 0) = PI /\
    derivable_pt_lim (fun x => reached_overlap expm H0 B rho0 target dt 1 [:: x]) R0 R0.
Proof.
  exists (sigma_z Cx), (sigma_x Cx), begin, aim, PI. split; first exact: hz. split; first exact: hx. split; first exact: begin_density. split; first exact: aim_density.
  split; first exact: PI_RGT_0. move=> expm EX.
  have C1 : covers [:: [:: number R0]] 1 1 by move=> k; rewrite ltnS leqn0 => /eqP ->.
  have P := @pw_evolutionE _ _ expm [:: [:: number R0]] (sigma_z Cx) [:: sigma_x Cx] (number PI) 1 [:: 0] C1 isT.
  set us := (_ ++ _) in P. have R1 : reached true false 1 begin aim (grape_new false 1 begin aim) by exact: reached_new.
  have [G' [grads [E _]]] := gradient_spec (number PI) (sigma_x Cx) R1 (us := us) isT.
  exists us, G', grads. do 2 (split; first by []). split; last exact: still.
  rewrite (@the_entry _ 1 expm (sigma_z Cx) (sigma_x Cx) begin aim PI [:: R0] [:: 0] us _ _ grads 0 isT isT P R1 E isT). exact: misled.
Qed.
(** the hypotheses are met: the exponential exists, and this case has a drift that does not commute with the control *)
Example C82_case : exists expm : 'M[Cx]_2 -> 'M[Cx]_2, computes_exponentials expm /\ hermitian (sigma_z Cx) /\ hermitian (sigma_x Cx) /\
  density begin /\ density aim /\ bracket (sigma_z Cx) (sigma_x Cx) <> 0 /\ reached true false 1 begin aim (grape_new false 1 begin aim) /\
  exists us G' grads, pw_evolution expm [:: 0] [:: map number [:: R0]] (sigma_z Cx) [:: sigma_x Cx] 1 (number PI) = (us, Ok tt) /\
    get_gradient true false 1 (number PI) (sigma_x Cx) us (grape_new false 1 begin aim) = Ok (G', grads) /\ real_part (nth 0 grads 0) = PI.
Proof.
  have [expm EX] := expm_exists 2. exists expm. split=> //. split; first exact: hz. split; first exact: hx. split; first exact: begin_density. split; first exact: aim_density.
  split; last split.
  - rewrite /bracket /sigma_z /sigma_x !mul22 => /matrixP /(_ 0 1). rewrite !mxE /= => /eqP. rewrite ?mulr0 ?mul0r ?addr0 ?add0r ?mulr1 ?mul1r ?mulN1r ?mulrN1 ?opprK ?oppr0 ?sub0r. by rewrite ?opprK (eqr_nat Cx 2 0).
  - exact: reached_new.
  - have C1 : covers [:: [:: number R0]] 1 1 by move=> k; rewrite ltnS leqn0 => /eqP ->.
    have P := @pw_evolutionE _ _ expm [:: [:: number R0]] (sigma_z Cx) [:: sigma_x Cx] (number PI) 1 [:: 0] C1 isT.
    set us := (_ ++ _) in P. have R1 : reached true false 1 begin aim (grape_new false 1 begin aim) by exact: reached_new.
    have [G' [grads [E _]]] := gradient_spec (number PI) (sigma_x Cx) R1 (us := us) isT.
    exists us, G', grads. do 2 (split; first by []).
    rewrite (@the_entry _ 1 expm (sigma_z Cx) (sigma_x Cx) begin aim PI [:: R0] [:: 0] us _ _ grads 0 isT isT P R1 E isT). exact: misled.
Qed.
(** a drift that commutes with the control, and the data of an Ising problem with a real target *)
Example C82_commuting_case : bracket (sigma_x Cx) (sigma_x Cx) = 0.
Proof. by rewrite /bracket subrr. Qed.
Example C82_ising_case : exists sqrtm : 'M[Cx]_2 -> 'M[Cx]_2, exists D, exists phi psi : 'cV[Cx]_2, roots_pure sqrtm /\ hermitian (i_drift D) /\ hermitian (i_control D) /\
  (i_rho0 D = pure phi /\ sandwich phi 1%:M phi = 1) /\ (i_target D = pure psi /\ sandwich psi 1%:M psi = 1 /\ forall i, psi i 0 \is Num.real) /\
  i_factor D = number 1%coqR /\ phi <> psi /\ (0 < i_slices D)%N.
Proof.
  exists (@pure_root Cx 2), (IsingData 3 (sigma_z Cx) (sigma_x Cx) (pure (ket (1 : Cx) 0)) (pure (ket (0 : Cx) 1)) 1), (ket 1 0), (ket 0 1).
  have N : forall a b : Cx, sandwich (ket a b) 1%:M (ket a b) = a * a^* + b * b^*.
  { move=> x y. by rewrite /sandwich mulmx1 -adjE ket_bra mulrC [y^* * y]mulrC. }
  split; first exact: C54_root. split; first exact: hz. split; first exact: hx. split; first by rewrite N conjC1 conjC0 mulr1 mulr0 addr0. split.
  - split=> //. split; first by rewrite N conjC1 conjC0 mulr1 mulr0 add0r. move=> i. rewrite mxE. by case: ifP => _; rewrite ?rpred0 ?rpred1.
  - split; first by []. split=> // /matrixP /(_ 0 0). rewrite !mxE /=. move/eqP. by rewrite oner_eq0.
Qed.
Print Assumptions C82_real.
Print Assumptions C82_error.
Print Assumptions C82_derivative.
Print Assumptions C82_states.
Print Assumptions C82_commuting.
Print Assumptions C82_direction.
Print Assumptions C82_ising.
Print Assumptions C82_refuted.
