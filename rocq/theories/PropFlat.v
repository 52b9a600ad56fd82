(** * C87: Nelder-Mead searches exactly the plane of its start simplex. *)
From Coq Require Import String ZArith List Bool Reals Lia Lra QArith Qcanon.
From RecordUpdate Require Import RecordSet.
From Verif Require Import Num NumFacts NumQ Py PyFacts ModelPulse ModelControls ModelLinalg ModelCma ModelState ModelSearch ModelRun SpecRun SpecSearch SpecCoords SpecSimplex SpecFlat
  ProofNM ProofCmaAdapt ProofSimplex ProofSort ProofCoords ProofFlat ExampleRun ExampleSearch PropSuper PropDirect PropSimplex PropSearch PropCmaRun PropCoords.
Import ListNotations RecordSetNotations.
Open Scope nat_scope.
Open Scope list_scope.

(** ** Not more than the plane *)
(** The vertices of the start simplex lie in a flat, and two functions agree on it.  Then the searches cannot tell them apart: same calls, same
    effects, same result, and the result lies in the flat - whatever the functions are outside. *)
Theorem C87_unseen (G : settings (N := Rnum)) (W : world (N := Rnum)) n P (func1 func2 : list R -> nat -> option R -> M (N := Rnum) R) adaptive x0 sim dmin davg s :
  sorts W -> 0 < n -> flat n P -> (forall x it v s, P x -> func2 x it v s = func1 x it v s) ->
  length x0 = n -> length sim = S n -> (forall x, In x sim -> P x) ->
  run_nm G W func2 adaptive x0 (Some sim) dmin davg s = run_nm G W func1 adaptive x0 (Some sim) dmin davg s /\
  forall r s', run_nm G W func1 adaptive x0 (Some sim) dmin davg s = (Ok r, s') -> P (r_x r).
Proof.
  intros SO pos FP HF L0 LS FS. assert (F : Forall P sim) by now rewrite Forall_forall.
  pose proof (flat_nm G W n P func1 func2 adaptive x0 sim dmin davg SO pos FP HF L0 LS F s) as H.
  destruct (run_nm G W func1 adaptive x0 (Some sim) dmin davg s) as [[a|e] s1], (run_nm G W func2 adaptive x0 (Some sim) dmin davg s) as [[b|e'] s2]; try contradiction.
  - destruct H as [[-> H] <-]. split; [reflexivity|]. intros r s' [= <- <-]. exact H.
  - destruct H as [<- <-]. split; [reflexivity|]. discriminate.
Qed.
(** the points where an equation holds, and those with a given entry, are such flats *)
Theorem C87_equation_flat n a b : flat n (fun x => length x = n /\ inner n a x = b).
Proof. exact (flat_equation n a b). Qed.
Theorem C87_entry_flat n k v : flat n (fun x => length x = n /\ coord x k = v).
Proof.
  split; [now intros x [H _]|]. intros t x y [L1 E1] [L2 E2]. split; [now apply mix_len|]. rewrite mix_nth by congruence. rewrite E1, E2. ring.
Qed.
(** ** Not less than the plane *)
Lemma coefficients adaptive n rho chi psi sigma : 0 < n -> adaptive = false \/ 2 <= n ->
  nm_parameters (N := Rnum) adaptive n = Ok (rho, chi, psi, sigma) -> (rho <> 0 /\ chi <> 0 /\ psi <> 0 /\ sigma <> 0)%R.
Proof.
  intros pos H E. unfold nm_parameters in E. destruct adaptive.
  - destruct H as [H|H]; [discriminate|]. destruct n as [|k]; [lia|]. cbv zeta in E. injection E as <- <- <- <-.
    cbn [of_Z Rnum nadd nsub nmul ndiv]. change (IZR (Z.pos (Pos.of_succ_nat k))) with (IZR (Z.of_nat (S k))). change (@num Rnum) with R. assert (D : (2 <= IZR (Z.of_nat (S k)))%R) by (apply IZR_le; lia).
    generalize dependent (IZR (Z.of_nat (S k))). intros d D.
    assert (I : (0 < / d <= / 2)%R). { split; [apply Rinv_0_lt_compat; lra|apply Rinv_le_contravar; lra]. }
    replace (1 / (2 * d))%R with (/ d / 2)%R by (field; lra). unfold Rdiv. repeat split; lra.
  - cbv zeta in E. injection E as <- <- <- <-. cbn [of_Z Rnum nadd nsub nmul ndiv]. repeat split; lra.
Qed.
(** At every loop head an equation holds at all vertices exactly if it holds at all vertices of the start simplex - except with adaptive
    coefficients for a single parameter. *)
Theorem C87_equations (G : settings (N := Rnum)) (W : world (N := Rnum)) n func adaptive x0 (sim : list (list R)) dmin davg s0 L s a b :
  sorts W -> 0 < n -> length x0 = n -> length sim = S n -> (forall x, In x sim -> length x = n) -> adaptive = false \/ 2 <= n ->
  boundary G W func adaptive x0 (Some sim) dmin davg s0 L s -> (equation n a b (n_sim L) <-> equation n a b sim).
Proof.
  intros SO pos L0 LS LX AD B.
  destruct (head_inside G W n func adaptive x0 sim dmin davg s0 L s SO pos L0 LS LX (fun rho chi psi sigma => coefficients adaptive n rho chi psi sigma pos AD) B) as (_ & I2 & _ & I4).
  split; [exact (I4 eq_refl a b)|]. intros K x I. rewrite Forall_forall in I2. now apply (proj2 (I2 x I)).
Qed.
(** ** As the algorithms start the search *)
Lemma start_full n d (mean sg : list R) : length mean = n -> orthonormal n d -> length d = n -> (forall j, j < n -> coord sg j <> 0%R) ->
  full n (mean :: map (fun u => map (fun j => coord mean j + coord sg j * coord u j)%R (seq 0 n)) d).
Proof.
  intros LM [OL OO] LD Z a b K i I.
  assert (W : forall k, k < n -> rsum n (fun j => coord (nth k d []) j * (coord a j * coord sg j))%R = 0%R).
  { intros k HK. assert (Iu : In (nth k d []) d) by (apply nth_In; lia).
    pose proof (K _ (or_introl eq_refl)) as K0. pose proof (K _ (or_intror (in_map _ _ _ Iu))) as K1. cbn beta in K1.
    assert (E : inner n a (map (fun j => coord mean j + coord sg j * coord (nth k d []) j)%R (seq 0 n)) = (1 * inner n a mean + 1 * rsum n (fun j => coord (nth k d []) j * (coord a j * coord sg j)))%R).
    { unfold inner. rewrite <- rsum_two. apply rsum_ext. intros j J. rewrite coord_seq by exact J. ring. }
    lra. }
  set (Q := fun k j => coord (nth k d []) j).
  assert (HQ : forall k l, k < n -> l < n -> rsum n (fun i => Q k i * Q l i)%R = if Nat.eqb k l then 1%R else 0%R).
  { intros k l A B. apply OO; apply nth_error_nth'; lia. }
  assert (V : (coord a i * coord sg i = 0)%R).
  { rewrite <- (rsum_delta n i (fun j => coord a j * coord sg j)%R I).
    transitivity (rsum n (fun j => rsum n (fun k => Q k i * (Q k j * (coord a j * coord sg j)))))%R.
    - apply rsum_ext. intros j J. transitivity (rsum n (fun k => Q k i * Q k j)%R * (coord a j * coord sg j))%R.
      + rewrite (rows_orthonormal n Q HQ i j I J), (Nat.eqb_sym i j). destruct (Nat.eqb j i); ring.
      + rewrite <- rsum_scal_r. apply rsum_ext. intros k _. ring.
    - rewrite rsum_swap. transitivity (rsum n (fun _ => 0%R)); [|rewrite rsum_const; ring].
      apply rsum_ext. intros k HK. rewrite rsum_scal. unfold Q at 2. rewrite (W k HK). ring. }
  specialize (Z i I). apply Rmult_integral in V as [V|V]; [exact V|contradiction].
Qed.
(** All widths different from zero: no equation but the trivial one ever holds at all vertices - the search never loses a direction. *)
Theorem C87_full (G : settings (N := Rnum)) (W : world (N := Rnum)) n func adaptive (mean sg r : list R) (p q : Z) sim dmin davg s0 L s :
  sorts W -> length mean = n -> length sg = n -> length r = n -> q <> 0%Z -> coord r 0 = (IZR p / IZR q)%R -> (forall j, j < n -> coord sg j <> 0%R) ->
  simplex_creation (N := Rnum) mean sg r = Ok sim -> adaptive = false \/ 2 <= n ->
  boundary G W func adaptive mean (Some sim) dmin davg s0 L s -> full n (n_sim L).
Proof.
  intros SO LM LS LR HQ HR Z HS AD B. destruct (start_shape mean sg r n sim LM LS HS) as (pos & L1 & L2).
  destruct (C15_simplex n mean sg r LM LS LR pos (C15_every_draw r p q HQ HR)) as (d & O & LD & E).
  assert (ES : sim = mean :: map (fun u => map (fun j => coord mean j + coord sg j * coord u j)%R (seq 0 n)) d).
  { pose proof (eq_trans (eq_sym HS) E) as Q. now injection Q as ->. }
  intros a b K. apply (C87_equations G W n func adaptive mean sim dmin davg s0 L s a b SO pos LM L1 L2 AD B) in K. rewrite ES in K. exact (start_full n d mean sg LM O LD Z a b K).
Qed.
(** A width of zero: the entry never changes; two functions that agree where it has its start value give the same search. *)
Theorem C87_zero_width (G : settings (N := Rnum)) (W : world (N := Rnum)) n k adaptive (func1 func2 : list R -> nat -> option R -> M (N := Rnum) R) (mean sg r : list R) (p q : Z) sim dmin davg s :
  sorts W -> g_method G = MNelderMead adaptive -> length mean = n -> length sg = n -> length r = n -> q <> 0%Z -> coord r 0 = (IZR p / IZR q)%R -> k < n -> coord sg k = 0%R ->
  (forall x it v s, length x = n -> coord x k = coord mean k -> func2 x it v s = func1 x it v s) ->
  simplex_creation (N := Rnum) mean sg r = Ok sim ->
  run_dsm G W func2 mean sg sim dmin davg s = run_dsm G W func1 mean sg sim dmin davg s /\
  forall res s', run_dsm G W func1 mean sg sim dmin davg s = (Ok res, s') -> coord (r_x res) k = coord mean k.
Proof.
  intros SO GM LM LS LR HQ HR HK Z HF HS. destruct (start_shape mean sg r n sim LM LS HS) as (pos & L1 & L2). unfold run_dsm. rewrite GM.
  destruct (C87_unseen G W n (fun x => length x = n /\ coord x k = coord mean k) func1 func2 adaptive mean sim dmin davg s SO pos (C87_entry_flat n k (coord mean k))) as [A B]; try assumption.
  - intros x it v s1 [H1 H2]. now apply HF.
  - intros x I. split; [now apply L2|]. pose proof (C15_within_widths n mean sg r p q sim LM LS LR HQ HR HS x k I HK) as H. rewrite Z, Rabs_R0 in H.
    unfold Rabs in H. destruct (Rcase_abs _); lra.
  - split; [exact A|]. intros res s' H. apply (B res s' H).
Qed.

(** ** Boundary *)
(** Adaptive coefficients shrink the simplex of a single parameter to a point: both vertices agree although they were different, and the search
    ends because of the size of the simplex, after five calls.  With fixed coefficients the search goes on and finds a smaller value. *)
Definition patient_run : settings (N := Qcnum) := square_run <|g_max_eval := 30%Z|>.
Definition both {N : Num} (G : settings) (W : world) (f : vec -> num) (x0 : vec) (sim : option (list vec)) (P : nm -> dsm_result -> dsm_result -> bool) : bool :=
  match new_state G W with
  | Ok s => match heads G W (toy f) true x0 sim (g_drift_min G) (g_drift_avg G) 1 s,
                  run_nm G W (toy f) true x0 sim (g_drift_min G) (g_drift_avg G) s, run_nm G W (toy f) false x0 sim (g_drift_min G) (g_drift_avg G) s with
            | Some (L, _), (Ok r, _), (Ok r2, _) => P L r r2
            | _, _, _ => false
            end
  | Err _ => false
  end.
Lemma both_exist {N : Num} G W f x0 sim P : both G W f x0 sim P = true -> exists s L sL r s' r2 s2, new_state G W = Ok s /\
  boundary G W (toy f) true x0 sim (g_drift_min G) (g_drift_avg G) s L sL /\
  run_nm G W (toy f) true x0 sim (g_drift_min G) (g_drift_avg G) s = (Ok r, s') /\ run_nm G W (toy f) false x0 sim (g_drift_min G) (g_drift_avg G) s = (Ok r2, s2) /\ P L r r2 = true.
Proof.
  unfold both. destruct (new_state G W) as [s|]; [|discriminate]. destruct (heads G W (toy f) true x0 sim _ _ 1 s) as [[L sL]|] eqn:EH; [|discriminate].
  destruct (run_nm G W (toy f) true x0 sim _ _ s) as [[r|] s'] eqn:E1; [|discriminate]. destruct (run_nm G W (toy f) false x0 sim _ _ s) as [[r2|] s2] eqn:E2; [|discriminate].
  intros H. exists s, L, sL, r, s', r2, s2. split; [reflexivity|]. split; [now apply heads_boundary with (n := 1)|]. split; [exact E1|]. split; [exact E2|exact H].
Qed.
Theorem C87_adaptive_refuted : exists s L sL r s' r2 s2, new_state patient_run square_world = Ok s /\ sorts square_world /\
  boundary patient_run square_world (toy (N := Qcnum) bump) true [qc 0 1] from04 (g_drift_min patient_run) (g_drift_avg patient_run) s L sL /\
  n_sim L = ([[qc 0 1]; [qc 0 1]] : list (vec (N := Qcnum))) /\
  run_nm patient_run square_world (toy (N := Qcnum) bump) true [qc 0 1] from04 (g_drift_min patient_run) (g_drift_avg patient_run) s = (Ok r, s') /\
  r_calls r = 5 /\ r_reason r = "Convergence of the simplex."%string /\
  run_nm patient_run square_world (toy (N := Qcnum) bump) false [qc 0 1] from04 (g_drift_min patient_run) (g_drift_avg patient_run) s = (Ok r2, s2) /\
  (r_fval r2 <? r_fval r)%num = true.
Proof.
  assert (V : both (N := Qcnum) patient_run square_world bump [qc 0 1] from04 (fun L r r2 => Qc_list_eqb (n_sim L) [[qc 0 1]; [qc 0 1]] && Nat.eqb (r_calls r) 5 &&
    String.eqb (r_reason r) "Convergence of the simplex." && (r_fval r2 <? r_fval r)%num)%bool = true) by (vm_compute; reflexivity).
  apply both_exist in V as (s & L & sL & r & s' & r2 & s2 & E & B & E1 & E2 & V).
  apply andb_prop in V as [V V4]. apply andb_prop in V as [V V3]. apply andb_prop in V as [V1 V2]. apply Qc_list_eqb_eq in V1. apply Nat.eqb_eq in V2. apply String.eqb_eq in V3.
  exists s, L, sL, r, s', r2, s2. split; [exact E|]. split; [exact square_sorts|]. split; [exact B|]. split; [exact V1|]. split; [exact E1|]. split; [exact V2|]. split; [exact V3|]. split; [exact E2|exact V4].
Qed.

(** ** Cases *)
Lemma rows_first (sim : list (list R)) s : forall c, exists fs calls, eval_rows first_entry sim 0 c s = (Ok (fs, calls), s) /\ length fs = length sim.
Proof.
  induction sim as [|x sim IH]; intros c; [now exists [], c|]. destruct (IH (S c)) as (fs & calls & E & L). exists (nth 0 x 0%R :: fs), calls.
  cbn [eval_rows]. unfold call, bind, first_entry at 1, ret at 1 2. change (@num Rnum) with R in *. rewrite E. split; [reflexivity|]. cbn. now rewrite L.
Qed.
(** every simplex of the right shape leads to a loop head *)
Lemma some_head (sim : list (list R)) x0 s0 : exists L s, boundary line_run line_world first_entry false x0 (Some sim) 0%R 1 s0 L s.
Proof.
  destruct ((poll line_run line_world;;; set_conv false;;; now line_world;;; now line_world)%run s0) as [[t|e] s1] eqn:E0; [|cbv in E0; discriminate].
  destruct (rows_first sim s1 0) as (fs & calls & E1 & LF). destruct (line_sorts fs) as [Q _].
  assert (HB : forall i, In i (w_argsort line_world fs) -> i < length sim).
  { intros i I. apply (Permutation.Permutation_in i Q) in I. apply in_seq in I. change (@num Rnum) with R in *. lia. }
  eexists. exists s1. eapply at_start; [exact E0|exact E1|]. unfold sort_simplex. cbn [n_sim n_fsim n_calls n_it n_drift]. unfold bind, lift.
  change (vec (N := Rnum)) with (list R) in *. change (@num Rnum) with R in *. rewrite (gather_all [] sim _ HB), (gather_all 0%R fs); [reflexivity|]. intros i I. rewrite LF. now apply HB.
Qed.
(** two parameters with widths 1/10 and 3: the conditions of [C87_full] are met and there are loop heads *)
Example C87_full_case : exists sim s0 L s, sorts line_world /\ (4 <> 0)%Z /\ coord [1 / 4; 1 / 2]%R 0 = (IZR 1 / IZR 4)%R /\ (forall j, j < 2 -> coord [1 / 10; 3]%R j <> 0%R) /\
  simplex_creation (N := Rnum) [1; 2]%R [1 / 10; 3]%R [1 / 4; 1 / 2]%R = Ok sim /\ new_state line_run line_world = Ok s0 /\
  boundary line_run line_world first_entry false [1; 2]%R (Some sim) 0%R 1 s0 L s.
Proof.
  destruct (simplex_creation (N := Rnum) [1; 2]%R [1 / 10; 3]%R [1 / 4; 1 / 2]%R) as [sim|] eqn:E; [|discriminate].
  destruct (new_state line_run line_world) as [s0|] eqn:E0; [|discriminate]. destruct (some_head sim [1; 2]%R s0) as (L & s & B).
  exists sim, s0, L, s. split; [exact line_sorts|]. split; [discriminate|]. split; [reflexivity|].
  split; [intros [|[|j]] J; [cbn; lra|cbn; lra|lia]|]. split; [reflexivity|]. split; [reflexivity|exact B].
Qed.
(** the second parameter with width zero, and two functions that agree where it is 2 *)
Definition bent : list R -> nat -> option R -> M (N := Rnum) R := fun x _ _ => ret (nth 0 x 0 + 7 * (coord x 1 - 2))%R.
Example C87_zero_case : coord [1 / 10; 0]%R 1 = 0%R /\ g_method line_run = MNelderMead false /\ coord [1 / 4; 1 / 2]%R 0 = (IZR 1 / IZR 4)%R /\
  (forall x it v s, length x = 2 -> coord x 1 = coord [1; 2]%R 1 -> bent x it v s = first_entry x it v s) /\ bent [1; 3]%R 0 None <> first_entry [1; 3]%R 0 None /\
  exists sim s, simplex_creation (N := Rnum) [1; 2]%R [1 / 10; 0]%R [1 / 4; 1 / 2]%R = Ok sim /\ new_state line_run line_world = Ok s.
Proof.
  split; [reflexivity|]. split; [reflexivity|]. split; [reflexivity|]. split; [|split].
  - intros x it v s L C. unfold bent, first_entry, ret. cbn in C. rewrite C. do 2 f_equal. cbn. ring.
  - destruct (new_state line_run line_world) as [s|] eqn:E; [|discriminate]. intros H. apply (f_equal (fun m => fst (m s))) in H. unfold bent, first_entry, ret, coord in H. cbn in H. injection H as H. lra.
  - eexists. eexists. split; reflexivity.
Qed.

Print Assumptions C87_unseen.
Print Assumptions C87_equation_flat.
Print Assumptions C87_entry_flat.
Print Assumptions C87_equations.
Print Assumptions C87_full.
Print Assumptions C87_zero_width.
Print Assumptions C87_adaptive_refuted.
