(** * C72 Whole CMA-ES searches. *)
From Coq Require Import String Reals ZArith List Bool Lia Lra Permutation Sorted FunctionalExtensionality.
From Flocq Require Import Core.Raux.
From RecordUpdate Require Import RecordSet.
From Verif Require Import Num NumFacts Py PyFacts ModelPulse ModelControls ModelLinalg ModelState ModelSearch ModelRun ModelCma ModelCmaRun
  SpecRun SpecSearch SpecCma SpecCmaRun ProofSim ProofNM ProofSearch ProofCma ProofCmaRun ProofCmaScale ProofCmaTotal
  ProofSort ExampleControls ExampleRun ExampleSearch.
From Verif Require ProofCmaAdapt ProofCmaLaw.
Import ListNotations RecordSetNotations.
Open Scope nat_scope.
Open Scope list_scope.

Lemma sorted_reals (l : list R) : StronglySorted (fun a b => Rle_bool a b = true) l -> StronglySorted Rle l.
Proof.
  induction 1 as [|a l I IH F]; constructor; [exact IH|]. rewrite Forall_forall in *. intros b B. specialize (F b B).
  destruct (Rle_bool_spec a b); [assumption|discriminate].
Qed.
Lemma real_sorts (W : world (N := Rnum)) : sorts W ->
  forall ys : list R, Permutation (w_argsort W ys) (seq 0 (length ys)) /\ StronglySorted Rle (map (fun i => nth i ys 0%R) (w_argsort W ys)).
Proof.
  intros SO ys. destruct (SO ys) as [P I]. split; [exact P|]. apply sorted_reals. exact (I (fun _ _ => eq_refl)).
Qed.

Section Run.
  Variables (eigh : rmat -> rvec * rmat) (population : option nat) (W : world (N := Rnum)).
  Definition pop_of (x0 : list R) : nat := match population with Some p => p | None => w_pop W (length x0) end.
  Lemma code_pop G func x0 sigma_v s r s' : run_cma (N := Rnum) G (code_world eigh population W) func population x0 sigma_v s = (Ok r, s') -> 2 <= pop_of x0.
  Proof.
    intros H. unfold run_cma in H. apply bind_ok in H as ([] & s1 & _ & H). apply bind_ok in H as ([] & s2 & _ & H). cbv zeta in H.
    match type of H with (if ?b then _ else _) _ = _ => destruct b eqn:E end; [discriminate|]. apply Nat.ltb_ge in E. exact E.
  Qed.
End Run.

(** The candidates of a search are those of CMA-ES: variables adapted after every generation, fresh normal numbers for every candidate. *)
Theorem C72_run eigh population G (W : world (N := Rnum)) func log (x0 sigma_v : list R) s r s' :
  sorts W -> observes func log -> draws_nothing func ->
  run_cma G (code_world eigh population W) func population x0 sigma_v s = (Ok r, s') ->
  let n := length x0 in
  let pop := match population with Some p => p | None => w_pop W n end in
  exists L V, log s' = log s ++ L /\
    follows_cma eigh (normals W (k_randn (s_cnt s)) n) n pop x0 (if length sigma_v =? n then coordinate sigma_v else fun _ => 3 / 10)%R L V.
Proof.
  intros SO OB DN H n pop. pose proof (code_pop eigh population W _ _ _ _ _ _ _ H) as HP.
  destruct (run_chain G (code_world eigh population W) func x0 sigma_v log OB DN _ _ _ _ H) as (L & E & C & _).
  exists L, (fun k => after_generations eigh (w_argsort W) n pop x0 sigma_v k L). split; [exact E|].
  exact (chain_follows eigh (w_argsort W) n pop x0 sigma_v HP (real_sorts W SO) W population _ L eq_refl eq_refl eq_refl C).
Qed.
(** the function which the optimiser hands to the search draws none of these numbers *)
Theorem C72_own (N : Num) (G : settings) (W : world) : draws_nothing (inner_routine_call G W).
Proof. exact (inner_draws_nothing G W). Qed.

Lemma follows_adapted eigh z n pop x0 sv L V k : follows_cma eigh z n pop x0 sv L V -> k * pop <= length L ->
  adapted n (pop / 2) pop (coordinate x0) sv (V k).
Proof.
  intros F. induction k as [|k IH]; intros H.
  - rewrite (fc_start _ _ _ _ _ _ _ _ F). constructor.
  - destruct (fc_step _ _ _ _ _ _ _ _ F k H) as (o & best & _ & _ & ->). constructor. apply IH. lia.
Qed.
Lemma follows_tuned eigh z n pop x0 sv L V k : solves n eigh -> 1 <= n -> 2 <= pop -> 4 * (pop / 2) <= (n + 2) * (n + 2) ->
  (forall i, i < n -> (0 < sv i)%R) -> follows_cma eigh z n pop x0 sv L V -> k * pop <= length L ->
  exists k', k' <= k /\ (k = 0 \/ due n (pop / 2) pop (k * pop) -> k' = k) /\ tuned n (pop / 2) pop (coordinate x0) sv (c_C (V k')) (V k).
Proof.
  intros SV N1 P2 R SG F. assert (1 <= pop / 2) as M1 by (change 1 with (2 / 2); apply Nat.div_le_mono; lia).
  induction k as [|k IH]; intros H.
  - exists 0. split; [lia|]. split; [reflexivity|]. rewrite (fc_start _ _ _ _ _ _ _ _ F). constructor.
  - destruct (IH ltac:(lia)) as (k' & K1 & _ & T). pose proof (follows_adapted _ _ _ _ _ _ _ _ _ F H) as AD.
    destruct (fc_step _ _ _ _ _ _ _ _ F k H) as (o & best & _ & _ & E).
    destruct (Rlt_le_dec (INR pop / (rate_c1 n (pop / 2) + rate_cmu n (pop / 2)) / INR n / 10) (INR (S k * pop))) as [D|D].
    + exists (S k). split; [lia|]. split; [reflexivity|]. rewrite E. apply tu_decomposed with (C0 := c_C (V k')); [exact T|exact D|].
      rewrite <- E. apply SV.
      * exact (proj1 (ProofCmaAdapt.adapted_semi n (pop / 2) pop N1 M1 (coordinate x0) sv (V (S k)) AD)).
      * apply (ProofCmaAdapt.adapted_definite n (pop / 2) pop N1 M1 (coordinate x0) sv); [now apply ProofCmaAdapt.rates_below_1|intros i I; specialize (SG i I); lra|exact AD].
    + exists k'. split; [lia|]. split; [intros [X|X]; [discriminate|unfold due in X; lra]|]. rewrite E. apply tu_kept; [exact T|unfold due; lra].
Qed.
(** With a correct eigenvalue solver every candidate of a search is mean + sigma*A*z where A A^T is the covariance matrix after some generation, the
    last one as soon as the matrix is being decomposed. *)
Theorem C72_law eigh population G (W : world (N := Rnum)) func log (x0 sigma_v : list R) s r s' :
  sorts W -> observes func log -> draws_nothing func ->
  let n := length x0 in
  let pop := match population with Some p => p | None => w_pop W n end in
  solves n eigh -> 1 <= n -> 4 * (pop / 2) <= (n + 2) * (n + 2) -> length sigma_v = n -> (forall d, In d sigma_v -> (0 < d)%R) ->
  run_cma G (code_world eigh population W) func population x0 sigma_v s = (Ok r, s') ->
  exists L V, log s' = log s ++ L /\ follows_cma eigh (normals W (k_randn (s_cnt s)) n) n pop x0 (coordinate sigma_v) L V /\
    forall j x y, nth_error L (S j) = Some (x, y) ->
      let k := S j / pop in
      exists k' A, k' <= k /\ (k = 0 \/ due n (pop / 2) pop (k * pop) -> k' = k) /\ covariance_root n (c_C (V k')) A /\
        symmetric n (c_C (V k')) /\ definite n (c_C (V k')) /\ (0 < c_sigma (V k))%R /\
        forall i, i < n -> coordinate x i = (c_mean (V k) i + c_sigma (V k) * rsum n (fun l => A i l * normals W (k_randn (s_cnt s)) n (S j) l))%R.
Proof.
  intros SO OB DN n pop SV N1 R LS PS H. pose proof (code_pop eigh population W _ _ _ _ _ _ _ H) as HP. change (2 <= pop) in HP.
  destruct (C72_run eigh population G W func log x0 sigma_v s r s' SO OB DN H) as (L & V & E & F). fold n pop in F.
  rewrite LS, Nat.eqb_refl in F. exists L, V. split; [exact E|]. split; [exact F|].
  intros j x y EJ k.
  assert (S j < length L) as LJ by (apply nth_error_Some; congruence).
  assert (k * pop <= length L) as KL.
  { assert (pop * (S j / pop) <= S j) by (apply Nat.mul_div_le; lia). unfold k. lia. }
  assert (forall i, i < n -> (0 < coordinate sigma_v i)%R) as SG by (intros i I; apply PS, nth_In; lia).
  destruct (follows_tuned _ _ _ _ _ _ _ _ k SV N1 HP R SG F KL) as (k' & K1 & K2 & T).
  assert (1 <= pop / 2) as M1 by (change 1 with (2 / 2); apply Nat.div_le_mono; [lia|exact HP]).
  pose proof (ProofCmaAdapt.rates_below_1 n (pop / 2) N1 M1 R) as RB.
  destruct (ProofCmaLaw.tuned_lawful n (pop / 2) pop N1 M1 RB (coordinate x0) (coordinate sigma_v) SG _ _ T) as [L1 L2 L3 L4 L5].
  exists k', (fun i k0 => c_B (V k) i k0 * c_D (V k) k0)%R. split; [exact K1|]. split; [exact K2|].
  split; [exact (ProofCmaLaw.law_root n (c_B (V k)) (c_D (V k)) _ L4)|].
  assert (adapted n (pop / 2) pop (coordinate x0) (coordinate sigma_v) (V k')) as AD by (apply (follows_adapted _ _ _ _ _ _ _ _ _ F), Nat.le_trans with (k * pop); [now apply Nat.mul_le_mono_r|exact KL]).
  split; [exact (proj1 (ProofCmaAdapt.adapted_semi n (pop / 2) pop N1 M1 _ _ _ AD))|].
  split; [apply (ProofCmaAdapt.adapted_definite n (pop / 2) pop N1 M1 (coordinate x0) (coordinate sigma_v) _ RB); [intros i I; specialize (SG i I); lra|exact AD]|].
  split; [exact (ProofCmaAdapt.adapted_sigma n (pop / 2) pop _ _ _ (follows_adapted _ _ _ _ _ _ _ _ _ F KL))|].
  intros i I. destruct (fc_next _ _ _ _ _ _ _ _ F j x y EJ) as (_ & X). rewrite (X i I). unfold cma_sample, rapply. do 2 f_equal.
  apply ProofCmaAdapt.rsum_ext. intros l _. symmetry. apply Rmult_assoc.
Qed.


(** Two searches with the same normal numbers. *)
Lemma pair_run eigh population G1 G2 (W : world (N := Rnum)) func1 func2 log1 log2 (x0 x0' sigma_v sigma_v' : list R) T TA U phi s1 r1 s1' s2 r2 s2' L1 L2 :
  sorts W -> observes func1 log1 -> observes func2 log2 -> draws_nothing func1 -> draws_nothing func2 ->
  let n := length x0 in let pop := match population with Some p => p | None => w_pop W n end in
  (forall x, length x = n -> as_array (T x) = TA (as_array x)) ->
  U (cma_start (as_array x0) (widths n sigma_v)) = cma_start (as_array x0') (widths n sigma_v') ->
  (2 <= pop -> forall best counteval S, cma_step n (pop / 2) pop eigh (fun k => TA (best k)) counteval (U S) = U (cma_step n (pop / 2) pop eigh best counteval S)) ->
  (forall S z, as_list n (cma_sample n (U S) z) = T (as_list n (cma_sample n S z))) ->
  T x0 = x0' -> length x0' = n -> (forall ys : list R, w_argsort W (map phi ys) = w_argsort W ys) ->
  (forall x y y' it s s' it' t t', length x = n -> func1 x it None s = (Ok y, s') -> func2 (T x) it' None t = (Ok y', t') -> y' = phi y) ->
  k_randn (s_cnt s1) = k_randn (s_cnt s2) ->
  run_cma G1 (code_world eigh population W) func1 population x0 sigma_v s1 = (Ok r1, s1') ->
  run_cma G2 (code_world eigh population W) func2 population x0' sigma_v' s2 = (Ok r2, s2') ->
  log1 s1' = log1 s1 ++ L1 -> log2 s2' = log2 s2 ++ L2 ->
  forall j x y x' y', nth_error L1 j = Some (x, y) -> nth_error L2 j = Some (x', y') -> x' = T x /\ y' = phi y.
Proof.
  intros SO O1 O2 D1 D2 n pop HT HU1 HU2 HU3 HT0 HL HA HV HK H1 H2 E1 E2.
  pose proof (code_pop eigh population W _ _ _ _ _ _ _ H1) as HP. change (2 <= pop) in HP.
  destruct (run_chain G1 (code_world eigh population W) func1 x0 sigma_v log1 O1 D1 _ _ _ _ H1) as (L1' & E1' & C1 & Q1).
  destruct (run_chain G2 (code_world eigh population W) func2 x0' sigma_v' log2 O2 D2 _ _ _ _ H2) as (L2' & E2' & C2 & Q2).
  assert (L1' = L1) as -> by (apply (app_inv_head (log1 s1)); congruence).
  assert (L2' = L2) as -> by (apply (app_inv_head (log2 s2)); congruence).
  rewrite <- HK in C2.
  refine (chain_pair eigh (w_argsort W) n pop x0 sigma_v HP (real_sorts W SO) x0' sigma_v' T TA U phi HT HU1 (HU2 HP) HU3 HT0 eq_refl HA W population _ eq_refl eq_refl HL L1 L2 C1 C2 _).
  intros x y y' I1 I2. destruct (Q1 _ _ I1) as (it & s & s' & F1). destruct (Q2 _ _ I2) as (it' & t & t' & F2).
  refine (HV x y y' it s s' it' t t' _ F1 F2).
  exact (chain_lengths eigh (w_argsort W) n pop x0 sigma_v eq_refl W population _ eq_refl eq_refl L1 C1 (x, y) I1).
Qed.

Lemma shift_coordinate (t x : list R) i : length t = length x -> coordinate (shift t x) i = (coordinate x i + coordinate t i)%R.
Proof.
  revert t i. induction x as [|a x IH]; intros [|b t] i E; try discriminate.
  - destruct i; cbn; lra.
  - destruct i as [|i]; [reflexivity|]. cbn in E. injection E as E. exact (IH t i E).
Qed.
Lemma shift_back (t x : list R) : length t = length x -> shift (map Ropp t) (shift t x) = x.
Proof.
  revert t. induction x as [|a x IH]; intros [|b t] E; try discriminate; [reflexivity|]. cbn in E. injection E as E. cbn. f_equal; [lra|]. exact (IH t E).
Qed.
Lemma rescale_coordinate c (x : list R) i : coordinate (rescale c x) i = (c * coordinate x i)%R.
Proof. revert i. induction x as [|a x IH]; intros [|i]; cbn; try lra. apply IH. Qed.
Lemma coordinate_list n v i : i < n -> coordinate (as_list n v) i = v i.
Proof.
  intros I. unfold coordinate, as_list. rewrite (nth_indep _ 0%R (v 0)) by (now rewrite map_length, seq_length). now rewrite map_nth, seq_nth by exact I.
Qed.
Lemma list_coordinates (x y : list R) : length x = length y -> (forall i, i < length x -> coordinate x i = coordinate y i) -> x = y.
Proof. intros L E. apply (nth_ext x y 0%R 0%R L). exact E. Qed.

(** Moving the start point and the function moves all candidates: as long as both searches go on, candidate and value number j correspond. *)
Theorem C72_moved eigh population G1 G2 (W : world (N := Rnum)) func1 func2 log1 log2 (f : list R -> R) (t x0 sigma_v : list R) s1 r1 s1' s2 r2 s2' L1 L2 :
  sorts W -> observes func1 log1 -> observes func2 log2 -> draws_nothing func1 -> draws_nothing func2 ->
  computes func1 f -> computes func2 (fun x => f (shift (map Ropp t) x)) -> length t = length x0 -> k_randn (s_cnt s1) = k_randn (s_cnt s2) ->
  run_cma G1 (code_world eigh population W) func1 population x0 sigma_v s1 = (Ok r1, s1') ->
  run_cma G2 (code_world eigh population W) func2 population (shift t x0) sigma_v s2 = (Ok r2, s2') ->
  log1 s1' = log1 s1 ++ L1 -> log2 s2' = log2 s2 ++ L2 ->
  forall j x y x' y', nth_error L1 j = Some (x, y) -> nth_error L2 j = Some (x', y') -> x' = shift t x /\ y' = y.
Proof.
  intros SO O1 O2 D1 D2 P1 P2 LT HK H1 H2 E1 E2 j x y x' y' J1 J2.
  refine (pair_run eigh population G1 G2 W func1 func2 log1 log2 x0 (shift t x0) sigma_v sigma_v (shift t) (fun v i => v i + coordinate t i)%R
    (moved (coordinate t)) (fun y => y) s1 r1 s1' s2 r2 s2' L1 L2 SO O1 O2 D1 D2 _ _ _ _ eq_refl _ _ _ HK H1 H2 E1 E2 j x y x' y' J1 J2).
  - intros v LV. apply functional_extensionality. intros i. apply shift_coordinate. congruence.
  - unfold cma_start, moved. cbn. f_equal. apply functional_extensionality. intros i. symmetry. now apply shift_coordinate.
  - intros HP best counteval S. apply ProofCmaLaw.step_moved. change 1 with (2 / 2). apply Nat.div_le_mono; [lia|exact HP].
  - intros S z. apply list_coordinates.
    + unfold as_list, shift. rewrite !map_length, combine_length, map_length, !seq_length. lia.
    + intros i I. unfold as_list in I. rewrite map_length, seq_length in I. rewrite shift_coordinate by (unfold as_list; now rewrite map_length, seq_length).
      rewrite !coordinate_list by exact I. unfold cma_sample. cbn [moved c_mean c_sigma c_B c_D]. ring.
  - unfold shift. rewrite map_length, combine_length. lia.
  - intros ys. now rewrite map_id.
  - intros u v v' it s s' it' a a' LU F1 F2. rewrite (P1 _ _ _ _ _ F1), (P2 _ _ _ _ _ F2). f_equal. apply shift_back. rewrite LT. symmetry. exact LU.
Qed.
(** Only the ranking of the values is used: a function and an increasing function of it give the same candidates. *)
Theorem C72_ranked eigh population G1 G2 (W : world (N := Rnum)) func1 func2 log1 log2 (f : list R -> R) (phi : R -> R) (x0 sigma_v : list R) s1 r1 s1' s2 r2 s2' L1 L2 :
  sorts W -> observes func1 log1 -> observes func2 log2 -> draws_nothing func1 -> draws_nothing func2 ->
  computes func1 f -> computes func2 (fun x => phi (f x)) -> (forall ys : list R, w_argsort W (map phi ys) = w_argsort W ys) -> k_randn (s_cnt s1) = k_randn (s_cnt s2) ->
  run_cma G1 (code_world eigh population W) func1 population x0 sigma_v s1 = (Ok r1, s1') ->
  run_cma G2 (code_world eigh population W) func2 population x0 sigma_v s2 = (Ok r2, s2') ->
  log1 s1' = log1 s1 ++ L1 -> log2 s2' = log2 s2 ++ L2 ->
  forall j x y x' y', nth_error L1 j = Some (x, y) -> nth_error L2 j = Some (x', y') -> x' = x /\ y' = phi y.
Proof.
  intros SO O1 O2 D1 D2 P1 P2 HA HK H1 H2 E1 E2 j x y x' y' J1 J2.
  refine (pair_run eigh population G1 G2 W func1 func2 log1 log2 x0 x0 sigma_v sigma_v (fun x => x) (fun v => v) (fun S => S) phi s1 r1 s1' s2 r2 s2' L1 L2 SO O1 O2 D1 D2
    _ eq_refl _ _ eq_refl eq_refl HA _ HK H1 H2 E1 E2 j x y x' y' J1 J2); try reflexivity.
  intros u v v' it s s' it' a a' LU F1 F2. now rewrite (P1 _ _ _ _ _ F1), (P2 _ _ _ _ _ F2).
Qed.
(** Measuring all parameters in other units changes nothing. *)
Theorem C72_units eigh population G1 G2 (W : world (N := Rnum)) func1 func2 log1 log2 (f : list R -> R) (c : R) (x0 sigma_v : list R) s1 r1 s1' s2 r2 s2' L1 L2 :
  sorts W -> observes func1 log1 -> observes func2 log2 -> draws_nothing func1 -> draws_nothing func2 ->
  computes func1 f -> computes func2 (fun x => f (rescale (/ c) x)) -> (0 < c)%R -> unit_free eigh -> length sigma_v = length x0 -> k_randn (s_cnt s1) = k_randn (s_cnt s2) ->
  run_cma G1 (code_world eigh population W) func1 population x0 sigma_v s1 = (Ok r1, s1') ->
  run_cma G2 (code_world eigh population W) func2 population (rescale c x0) (rescale c sigma_v) s2 = (Ok r2, s2') ->
  log1 s1' = log1 s1 ++ L1 -> log2 s2' = log2 s2 ++ L2 ->
  forall j x y x' y', nth_error L1 j = Some (x, y) -> nth_error L2 j = Some (x', y') -> x' = rescale c x /\ y' = y.
Proof.
  intros SO O1 O2 D1 D2 P1 P2 HC EU LS HK H1 H2 E1 E2 j x y x' y' J1 J2.
  refine (pair_run eigh population G1 G2 W func1 func2 log1 log2 x0 (rescale c x0) sigma_v (rescale c sigma_v) (rescale c) (fun v i => c * v i)%R
    (enlarged c) (fun y => y) s1 r1 s1' s2 r2 s2' L1 L2 SO O1 O2 D1 D2 _ _ _ _ eq_refl _ _ _ HK H1 H2 E1 E2 j x y x' y' J1 J2).
  - intros v LV. apply functional_extensionality. intros i. apply rescale_coordinate.
  - rewrite <- start_enlarged. f_equal; apply functional_extensionality; intros i.
    + symmetry. apply rescale_coordinate.
    + unfold widths. replace (length (rescale c sigma_v)) with (length sigma_v) by (unfold rescale; now rewrite map_length).
      rewrite LS, Nat.eqb_refl. symmetry. apply rescale_coordinate.
  - intros _ best counteval S. now apply step_enlarged.
  - intros S z. apply list_coordinates.
    + unfold as_list, rescale. now rewrite !map_length.
    + intros i I. unfold as_list in I. rewrite map_length, seq_length in I. rewrite rescale_coordinate, !coordinate_list by exact I. apply sample_enlarged.
  - unfold rescale. now rewrite map_length.
  - intros ys. now rewrite map_id.
  - intros u v v' it s s' it' a a' LU F1 F2. rewrite (P1 _ _ _ _ _ F1), (P2 _ _ _ _ _ F2). f_equal.
    unfold rescale. rewrite map_map. rewrite <- (map_id u) at 2. assert (forall d : R, / c * (c * d) = d)%R as K by (intros d; field; lra).
    apply map_ext. exact K.
Qed.

(** A search whose function answers every call ends with a result after at least one generation. *)
Theorem C72_ends eigh population G (W : world (N := Rnum)) func (x0 sigma_v : list R) s :
  sorts W -> no_sigint W -> always_answers func ->
  let pop := match population with Some p => p | None => w_pop W (length x0) end in
  2 <= pop -> Z.to_nat (g_max_eval G) + 2 <= w_fuel W ->
  exists r s', run_cma G (code_world eigh population W) func population x0 sigma_v s = (Ok r, s') /\ pop <= r_calls r.
Proof.
  intros SO NSI FT pop HP HF. apply (run_total G (code_world eigh population W) func x0 sigma_v); auto.
  intros hist z. eexists. reflexivity.
Qed.

(** One parameter, two candidates per generation, sorted by insertion, normal numbers 0, 1, 2, ... *)
Definition line_run : settings (N := Rnum) := ex_run (N := Rnum) KDirect <|g_max_eval := 20%Z|>.
Definition line_world : world (N := Rnum) := ex_world (N := Rnum) [] <|w_randn := fun k => INR k|>.
Definition line_solver (C : rmat) : rvec * rmat := (fun _ => C 0 0, identity).
Definition bowl (x : list R) : R := (coordinate x 0 * coordinate x 0)%R.
Lemma line_sorts : sorts line_world. Proof. apply (argsort_sorts Rnum_order). reflexivity. Qed.
Lemma line_solves : solves 1 line_solver.
Proof.
  intros C _ _. split; cbn.
  - intros [|k] [|l] K L; try lia. unfold identity. cbn. lra.
  - intros [|k] [|l] K L; try lia. unfold identity. cbn. lra.
  - intros [|k] [|l] K L; try lia. unfold identity. cbn. lra.
Qed.
Lemma line_units : unit_free line_solver. Proof. intros a C A. reflexivity. Qed.
Lemma toy_draws (f : list R -> R) : draws_nothing (toy (N := Rnum) f).
Proof. intros x it v s y s' H. apply toy_ok in H as [_ ->]. reflexivity. Qed.
Lemma toy_answers (f : list R -> R) : always_answers (toy (N := Rnum) f).
Proof. intros x it v s. eexists. eexists. reflexivity. Qed.
Lemma line_search f x0 sigma_v s : exists r s' L, run_cma line_run (code_world line_solver (Some 2) line_world) (toy (N := Rnum) f) (Some 2) x0 sigma_v s = (Ok r, s') /\
  toy_log s' = toy_log s ++ L /\ 2 <= length L.
Proof.
  destruct (C72_ends line_solver (Some 2) line_run line_world (toy (N := Rnum) f) x0 sigma_v s) as (r & s' & E & B).
  - exact line_sorts.
  - intros n. discriminate.
  - apply toy_answers.
  - cbn. lia.
  - cbn. lia.
  - destruct (cma_result Rnum_order line_run (code_world line_solver (Some 2) line_world) (toy (N := Rnum) f) x0 sigma_v toy_log (toy_observes f) (Some 2) s r s' line_sorts E)
      as (gens & _ & L & _ & K & _). exists r, s', (concat gens). split; [exact E|]. split; [exact L|]. now rewrite <- K.
Qed.
(** the insertion sort only compares *)
Lemma argsort_monotone (phi : R -> R) : (forall a b, (a < b)%R -> (phi a < phi b)%R) -> forall ys : list R, argsort (N := Rnum) (map phi ys) = argsort (N := Rnum) ys.
Proof.
  intros MO ys. unfold argsort. rewrite map_length.
  assert (forall a b, Rle_bool (phi a) (phi b) = Rle_bool a b) as LE.
  { intros a b. destruct (Rle_bool_spec a b) as [H|H].
    - apply Rle_bool_true. destruct H as [H|H]; [left; now apply MO|right; now f_equal].
    - apply Rle_bool_false. now apply MO. }
  set (F := fun p : R * nat => (phi (fst p), snd p)).
  assert (forall (p : R * nat) l, ins (N := Rnum) (F p) (map F l) = map F (ins (N := Rnum) p l)) as IN.
  { intros p l. induction l as [|q l IH]; [reflexivity|]. cbn [map ins]. change ((fst (F p) <=? fst (F q))%num) with (Rle_bool (phi (fst p)) (phi (fst q))).
    change ((fst p <=? fst q)%num) with (Rle_bool (fst p) (fst q)). rewrite LE. destruct (Rle_bool (fst p) (fst q)); [reflexivity|]. cbn [map]. now rewrite IH. }
  assert (forall l, sort_pairs (N := Rnum) (map F l) = map F (sort_pairs (N := Rnum) l)) as SP.
  { induction l as [|p l IH]; [reflexivity|]. cbn [map]. unfold sort_pairs in *. cbn [fold_right]. rewrite IH. apply IN. }
  assert (forall ys ks, combine (map phi ys) ks = map F (combine ys ks)) as CO.
  { clear. induction ys as [|y ys IH]; intros [|k ks]; cbn; try reflexivity. f_equal. apply IH. }
  rewrite CO, SP, map_map. reflexivity.
Qed.
Example C72_example : exists s r s' L, new_state line_run line_world = Ok s /\
  run_cma line_run (code_world line_solver (Some 2) line_world) (toy (N := Rnum) bowl) (Some 2) [1]%R [1]%R s = (Ok r, s') /\ toy_log s' = toy_log s ++ L /\
  2 <= length L /\ sorts line_world /\ observes (toy (N := Rnum) bowl) toy_log /\ draws_nothing (toy (N := Rnum) bowl) /\ solves 1 line_solver /\ unit_free line_solver /\
  4 * (2 / 2) <= (1 + 2) * (1 + 2) /\
  (exists r s' L, run_cma line_run (code_world line_solver (Some 2) line_world) (toy (N := Rnum) (fun x => bowl (shift (map Ropp [3%R]) x))) (Some 2) (shift [3] [1])%R [1]%R s = (Ok r, s') /\
     toy_log s' = toy_log s ++ L /\ 2 <= length L) /\
  (exists r s' L, run_cma line_run (code_world line_solver (Some 2) line_world) (toy (N := Rnum) (fun x => exp (bowl x))) (Some 2) [1]%R [1]%R s = (Ok r, s') /\
     toy_log s' = toy_log s ++ L /\ 2 <= length L) /\ (forall ys : list R, w_argsort line_world (map exp ys) = w_argsort line_world ys) /\
  (exists r s' L, run_cma line_run (code_world line_solver (Some 2) line_world) (toy (N := Rnum) (fun x => bowl (rescale (/ 5) x))) (Some 2) (rescale 5 [1])%R (rescale 5 [1])%R s = (Ok r, s') /\
     toy_log s' = toy_log s ++ L /\ 2 <= length L).
Proof.
  destruct (new_state line_run line_world) as [s|] eqn:E; [|discriminate].
  destruct (line_search bowl [1]%R [1]%R s) as (r & s' & L & H1 & H2 & H3). exists s, r, s', L.
  split; [reflexivity|]. split; [exact H1|]. split; [exact H2|]. split; [exact H3|]. split; [exact line_sorts|]. split; [apply toy_observes|].
  split; [apply toy_draws|]. split; [exact line_solves|]. split; [exact line_units|]. split; [cbn; lia|].
  split; [apply line_search|]. split; [apply line_search|]. split; [apply argsort_monotone; exact exp_increasing|]. apply line_search.
Qed.

Print Assumptions C72_run.
Print Assumptions C72_own.
Print Assumptions C72_law.
Print Assumptions C72_moved.
Print Assumptions C72_ranked.
Print Assumptions C72_units.
Print Assumptions C72_ends.
