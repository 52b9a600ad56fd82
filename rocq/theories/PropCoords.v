(** * C86: Nelder-Mead does not depend on the coordinates of the vectors it varies. *)
From Coq Require Import String ZArith List Bool Reals Lia Lra QArith Qcanon.
From RecordUpdate Require Import RecordSet.
From Verif Require Import Num NumFacts NumQ Py ModelPulse ModelControls ModelLinalg ModelState ModelSearch ModelRun SpecRun SpecSearch SpecStop SpecCoords ProofNM ProofSort ProofCoords ExampleRun ExampleSearch PropSuper PropDirect PropSearch PropCmaRun.
Import ListNotations RecordSetNotations.
Open Scope nat_scope.
Open Scope list_scope.

(** the same result at the image of the point *)
Definition at_image (f : list R -> list R) (r : dsm_result (N := Rnum)) : dsm_result (N := Rnum) := mk_result (r_fval r) (f (r_x r)) (r_nit r) (r_calls r) (r_reason r).

(** [func2] at the image of a point does what [func1] does at the point.  Then the two searches, the second started from the image of the
    simplex of the first, make the same calls with the same effects, and the second ends as the first does, at the image of its point - if the
    criterion xatol tells no simplex from its image. *)
Theorem C86_coordinates (G : settings (N := Rnum)) (W : world (N := Rnum)) n f (func1 func2 : list R -> nat -> option R -> M (N := Rnum) R) adaptive x0 sim dmin davg s :
  sorts W -> 0 < n -> affine n f ->
  (forall x it v s, length x = n -> func2 (f x) it v s = func1 x it v s) ->
  (forall sim : list (list R), length sim = S n -> (forall x, In x sim -> length x = n) ->
     (small_simplex (N := Rnum) (g_xatol G) (map f sim) <-> small_simplex (N := Rnum) (g_xatol G) sim)) ->
  length x0 = n -> length sim = S n -> (forall x, In x sim -> length x = n) ->
  run_nm G W func2 adaptive (f x0) (Some (map f sim)) dmin davg s =
  (match fst (run_nm G W func1 adaptive x0 (Some sim) dmin davg s) with Ok r => Ok (at_image f r) | Err e => Err e end,
   snd (run_nm G W func1 adaptive x0 (Some sim) dmin davg s)).
Proof.
  intros SO P AF HF HX L0 LS LR. pose proof (alike_nm G W n f func1 func2 adaptive x0 sim dmin davg SO P AF HF HX L0 LS LR s) as H.
  change (vec (N := Rnum)) with (list R) in *. change (@num Rnum) with R in *.
  destruct (run_nm G W func1 adaptive x0 (Some sim) dmin davg s) as [[a|e] s1], (run_nm G W func2 adaptive (f x0) (Some (map f sim)) dmin davg s) as [[b|e'] s2]; try contradiction; cbn [fst snd].
  - destruct H as [[-> _] <-]. reflexivity.
  - destruct H as [<- <-]. reflexivity.
Qed.

(** ** Which maps *)
Lemma in_units_len a b x n : length a = n -> length b = n -> length x = n -> length (in_units a b x) = n.
Proof. intros. unfold in_units. apply map2_len; [now apply map2_len|assumption]. Qed.
Lemma in_units_mix a b : forall t x y, length a = length x -> length b = length x -> length y = length x -> in_units a b (mix t x y) = mix t (in_units a b x) (in_units a b y).
Proof.
  unfold in_units, mix. revert b. induction a as [|p a IH]; intros b t [|q x] y A B L; cbn in A; try discriminate; [destruct b, y; try discriminate; reflexivity|].
  destruct b as [|r b], y as [|w y]; try discriminate. cbn in *. apply f_equal2; [ring|]. apply IH; lia.
Qed.
(** other units and another zero of every entry *)
Theorem C86_units_affine n a b : length a = n -> length b = n -> affine n (in_units a b).
Proof. intros A B. split; [intros; now apply in_units_len|]. intros t x y X Y. apply in_units_mix; congruence. Qed.
(** every linear map with a shift *)
Theorem C86_linear_affine n A b : length A = n -> (forall row, In row A -> length row = n) -> length b = n -> affine n (linear A b).
Proof.
  intros LA LR LB. split; [intros x X; unfold linear; apply map2_len; [now rewrite map_length|assumption]|]. intros t x y X Y.
  unfold linear. revert b LB. rewrite <- LA. assert (F : Forall (fun row => length row = n) A) by now rewrite Forall_forall. clear LR LA.
  induction F as [|row A R F IH]; intros [|c b] L; cbn in L; try discriminate; [reflexivity|]. cbn [map map2]. unfold mix in *. cbn [map2]. apply f_equal2; [|apply IH; lia].
  rewrite <- R in X, Y. clear IH F L R. revert x y X Y. induction row as [|p row IH]; intros [|q x] [|w y] X Y; cbn in X, Y; try discriminate; [cbn; ring|].
  cbn [map2 fold_right]. specialize (IH x y ltac:(lia) ltac:(lia)).
  set (S1 := fold_right Rplus 0%R (map2 Rmult row (map2 _ x y))) in *. set (S2 := fold_right Rplus 0%R (map2 Rmult row x)) in *. set (S3 := fold_right Rplus 0%R (map2 Rmult row y)) in *.
  assert (E : S1 = ((1 - t) * S2 + t * S3)%R) by lra. rewrite E. ring.
Qed.

(** ** The criterion xatol *)
(** a negative tolerance is never reached, whatever the coordinates *)
Theorem C86_xatol_off n f (tol : R) : 0 < n -> affine n f -> (tol < 0)%R -> forall sim : list (list R), length sim = S n -> (forall x, In x sim -> length x = n) ->
  (small_simplex (N := Rnum) tol (map f sim) <-> small_simplex (N := Rnum) tol sim).
Proof.
  intros P AF T sim L H.
  assert (K : forall l : list (list R), length l = S n -> (forall x, In x l -> length x = n) -> ~ small_simplex (N := Rnum) tol l).
  { intros l LL HL (v0 & vs & -> & Q). destruct vs as [|v vs]; [cbn in LL; lia|]. pose proof (HL v0 (or_introl eq_refl)) as W0. pose proof (HL v (or_intror (or_introl eq_refl))) as W1.
    destruct v0 as [|p v0]; [cbn in W0; lia|]. destruct v as [|q v]; [cbn in W1; lia|]. specialize (Q (q :: v) 0 q p (or_introl eq_refl) eq_refl eq_refl).
    cbn in Q. apply Raux.Rle_bool_true in Q || (revert Q; case Raux.Rle_bool_spec; [intros Q _|discriminate]). pose proof (Rabs_pos (q - p)). lra. }
  split; intros Q; exfalso.
  - apply (K (map f sim)); [now rewrite map_length| |exact Q]. intros x I. apply in_map_iff in I as (y & <- & I). apply (proj1 AF). now apply H.
  - exact (K sim L H Q).
Qed.
(** a shift, and changes of sign, change no difference *)
Theorem C86_shift n a b (tol : R) : length a = n -> length b = n -> (forall p, In p a -> Rabs p = 1%R) ->
  forall sim : list (list R), length sim = S n -> (forall x, In x sim -> length x = n) ->
  (small_simplex (N := Rnum) tol (map (in_units a b) sim) <-> small_simplex (N := Rnum) tol sim).
Proof.
  intros A B U sim L H.
  assert (E : forall x k, length x = n -> nth_error (in_units a b x) k = match nth_error a k, nth_error x k, nth_error b k with Some p, Some q, Some r => Some (p * q + r)%R | _, _, _ => None end).
  { intros x k X. unfold in_units. clear U H L. revert b x n k A B X. induction a as [|p a' IH]; intros [|r b'] [|q x] [|m] k A B X; cbn in *; try discriminate; [now destruct k|].
    destruct k; cbn; [reflexivity|]. now apply (IH b' x m); lia. }
  assert (D : forall x y k p q, length x = n -> length y = n -> nth_error x k = Some p -> nth_error y k = Some q ->
    exists p' q', nth_error (in_units a b x) k = Some p' /\ nth_error (in_units a b y) k = Some q' /\ Rabs (p' - q') = Rabs (p - q)).
  { intros x y k p q X Y Ep Eq. rewrite !E, Ep, Eq by assumption. assert (K : k < n) by (rewrite <- X; apply nth_error_Some; congruence).
    destruct (nth_error a k) as [c|] eqn:Ea; [|apply nth_error_None in Ea; lia]. destruct (nth_error b k) as [r|] eqn:Eb; [|apply nth_error_None in Eb; lia].
    exists (c * p + r)%R, (c * q + r)%R. split; [reflexivity|]. split; [reflexivity|]. replace (c * p + r - (c * q + r))%R with (c * (p - q))%R by ring.
    rewrite Rabs_mult, (U c) by (eapply nth_error_In; exact Ea). ring. }
  destruct sim as [|v0 vs]; [discriminate|]. pose proof (H v0 (or_introl eq_refl)) as W0. split.
  - intros (w0 & ws & [= <- <-] & Q). exists v0, vs. split; [reflexivity|]. intros v k p q I Ep Eq.
    destruct (D v v0 k p q (H v (or_intror I)) W0 Ep Eq) as (p' & q' & Ep' & Eq' & R). pose proof (Q (in_units a b v) k p' q' (in_map _ _ _ I) Ep' Eq') as Z.
    cbn in Z |- *. unfold Rminus in *. rewrite <- R. exact Z.
  - intros (w0 & ws & [= <- <-] & Q). exists (in_units a b v0), (map (in_units a b) vs). split; [reflexivity|]. intros v k p' q' I Ep' Eq'.
    apply in_map_iff in I as (w & <- & I). assert (W1 : length w = n) by (apply H; now right).
    assert (K : k < n) by (rewrite <- (in_units_len a b w n A B W1); apply nth_error_Some; intros Z; pose proof (eq_trans (eq_sym Z) Ep'); discriminate).
    destruct (nth_error w k) as [p|] eqn:Ep; [|apply nth_error_None in Ep; lia]. destruct (nth_error v0 k) as [q|] eqn:Eq; [|apply nth_error_None in Eq; lia].
    destruct (D w v0 k p q W1 W0 Ep Eq) as (p2 & q2 & Ep2 & Eq2 & R). pose proof (Q w k p q I Ep Eq) as Z.
    assert (p2 = p') as -> by (pose proof (eq_trans (eq_sym Ep2) Ep') as E1; now injection E1). assert (q2 = q') as -> by (pose proof (eq_trans (eq_sym Eq2) Eq') as E1; now injection E1). cbn in Z |- *. unfold Rminus in *. rewrite R. exact Z.
Qed.

(** ** The start simplex *)
Lemma schmidt_len (cols done : list (list R)) : length (gram_schmidt_from (N := Rnum) done cols) = length done + length cols.
Proof. revert done. induction cols as [|v cols IH]; intros done; cbn [gram_schmidt_from length]; [symmetry; apply Nat.add_0_r|]. rewrite IH, app_length. cbn [length]. rewrite <- Nat.add_assoc. reflexivity. Qed.
(** in other units the mean moves with the points and the widths are multiplied: the start simplex is the image of the start simplex *)
Theorem C86_start (a b m sg r : list R) n : length a = n -> length b = n -> length m = n -> length sg = n ->
  simplex_creation (N := Rnum) (in_units a b m) (map2 Rmult a sg) r =
  match simplex_creation (N := Rnum) m sg r with Ok sim => Ok (map (in_units a b) sim) | Err e => Err e end.
Proof.
  intros A B LM LS. assert (E : length (in_units a b m) = n) by now apply in_units_len. unfold simplex_creation. change (@num Rnum) with R in *. rewrite E, LM.
  destruct n as [|k]; [reflexivity|]. f_equal. cbn [map]. set (cols := gram_schmidt _).
  assert (V : forall d, length d = S k -> vadd (N := Rnum) (map2 Rmult d (map2 Rmult a sg)) (in_units a b m) = in_units a b (vadd (N := Rnum) (map2 Rmult d sg) m)).
  { unfold vadd, in_units. clear E. revert b m sg A B LM LS. generalize (S k) as n. clear k cols. induction a as [|p a' IH]; intros [|n] [|q b'] [|w m] [|v sg] A B LM LS [|e d] LD; cbn in *; try discriminate; try reflexivity.
    apply f_equal2; [ring|]. apply (IH n); lia. }
  assert (Z0 : forall w : list R, length w = S k -> vadd (N := Rnum) (zeros (N := Rnum) (S k)) w = w).
  { unfold vadd, zeros. generalize (S k) as n. intros n w <-. induction w as [|p w IH]; cbn in *; [reflexivity|]. apply f_equal2; [ring|exact IH]. }
  apply f_equal2.
  - rewrite (Z0 _ E), (Z0 _ LM). reflexivity.
  - rewrite !map_map. apply map_ext_in. intros i I. apply V. unfold row_of. rewrite map_length. unfold cols, gram_schmidt. rewrite schmidt_len. unfold simplex_rows. now rewrite map_length, seq_length.
Qed.
Lemma start_shape (m sg r : list R) n sim : length m = n -> length sg = n -> simplex_creation (N := Rnum) m sg r = Ok sim ->
  0 < n /\ length sim = S n /\ forall x, In x sim -> length x = n.
Proof.
  intros LM LS H. unfold simplex_creation in H. change (@num Rnum) with R in *. rewrite LM in H. destruct n as [|k]; [discriminate|]. injection H as <-. split; [lia|].
  split; [cbn [length]; now rewrite !map_length, seq_length|]. intros x [<-|I].
  - apply map2_len; [unfold zeros; now rewrite repeat_length|exact LM].
  - assert (Q : forall i, length (vadd (N := Rnum) (map2 Rmult (row_of (N := Rnum) (gram_schmidt (simplex_rows (N := Rnum) (S k) r)) i) sg) m) = S k).
    { intros i. apply map2_len; [|exact LM]. apply map2_len; [|exact LS]. unfold row_of. rewrite map_length. unfold gram_schmidt. rewrite schmidt_len. unfold simplex_rows. now rewrite map_length, seq_length. }
    rewrite map_map in I. destruct I as [<-|I]; [apply Q|]. apply in_map_iff in I as (i & <- & _). apply Q.
Qed.

(** The search as the algorithms start it: the control parameters in other units, with their widths, give the image of the search.  For
    units that differ from the old ones by more than the sign, xatol has to be switched off. *)
Theorem C86_search (G : settings (N := Rnum)) (W : world (N := Rnum)) n a b m sg r sim adaptive (func1 func2 : list R -> nat -> option R -> M (N := Rnum) R) dmin davg s :
  sorts W -> g_method G = MNelderMead adaptive -> length a = n -> length b = n -> length m = n -> length sg = n ->
  (forall x it v s, length x = n -> func2 (in_units a b x) it v s = func1 x it v s) ->
  (forall p, In p a -> Rabs p = 1%R) \/ (g_xatol G < 0)%R ->
  simplex_creation (N := Rnum) m sg r = Ok sim -> exists sim2,
    simplex_creation (N := Rnum) (in_units a b m) (map2 Rmult a sg) r = Ok sim2 /\
    run_dsm G W func2 (in_units a b m) (map2 Rmult a sg) sim2 dmin davg s =
    (match fst (run_dsm G W func1 m sg sim dmin davg s) with Ok r => Ok (at_image (in_units a b) r) | Err e => Err e end, snd (run_dsm G W func1 m sg sim dmin davg s)).
Proof.
  intros SO GM A B LM LS HF HX HS. exists (map (in_units a b) sim). rewrite (C86_start a b m sg r n A B LM LS), HS. split; [reflexivity|].
  destruct (start_shape m sg r n sim LM LS HS) as (P & L1 & L2). pose proof (C86_units_affine n a b A B) as AF. unfold run_dsm. rewrite GM.
  apply (C86_coordinates G W n (in_units a b) func1 func2 adaptive m sim dmin davg s SO P AF HF); try assumption.
  destruct HX as [U|T]; [now apply C86_shift|now apply C86_xatol_off].
Qed.

(** ** Boundary *)
(** With xatol switched on the size of the units matters: the search for the minimum of (x-2)^2 from 0 and 1 ends after six calls because of the
    limit of five; with the vector in units of ten million (exact arithmetic, the same function of the same points) it ends after four, as the
    simplex is smaller than xatol. *)
Definition units : Qc := qc 10000000 1.
Theorem C86_xatol_refuted : exists (G : settings (N := Qcnum)) (W : world (N := Qcnum)) (f1 f2 : list Qc -> Qc) s r1 r2 s1 s2,
  sorts W /\ new_state G W = Ok s /\ (forall x : Qc, f2 [(x / units)%Qc] = f1 [x]) /\
  run_nm G W (toy (N := Qcnum) f1) false [qc 0 1] (Some [[qc 0 1]; [qc 1 1]]) (g_drift_min G) (g_drift_avg G) s = (Ok r1, s1) /\
  run_nm G W (toy (N := Qcnum) f2) false [(qc 0 1 / units)%Qc] (Some [[(qc 0 1 / units)%Qc]; [(qc 1 1 / units)%Qc]]) (g_drift_min G) (g_drift_avg G) s = (Ok r2, s2) /\
  r_calls r1 = 6 /\ r_calls r2 = 4 /\ r_reason r2 = "Convergence of the simplex."%string /\ r_reason r1 <> r_reason r2.
Proof.
  set (f2 := fun x : list Qc => square (map (fun v => (v * units)%Qc) x)).
  assert (V1 : search (N := Qcnum) square_run square_world square [qc 0 1] (Some [[qc 0 1]; [qc 1 1]])
    (fun s r s' => Nat.eqb (r_calls r) 6 && negb (String.eqb (r_reason r) "Convergence of the simplex."))%bool = true) by (vm_compute; reflexivity).
  assert (V2 : search (N := Qcnum) square_run square_world f2 [(qc 0 1 / units)%Qc] (Some [[(qc 0 1 / units)%Qc]; [(qc 1 1 / units)%Qc]])
    (fun s r s' => Nat.eqb (r_calls r) 4 && String.eqb (r_reason r) "Convergence of the simplex.")%bool = true) by (vm_compute; reflexivity).
  apply search_exists in V1 as (s & r1 & s1 & E1 & H1 & K1). apply search_exists in V2 as (s' & r2 & s2 & E2 & H2 & K2).
  rewrite E1 in E2. injection E2 as <-. apply andb_prop in K1 as [A1 B1]. apply andb_prop in K2 as [A2 B2].
  exists square_run, square_world, square, f2, s, r1, r2, s1, s2. split; [exact square_sorts|]. split; [exact E1|]. split.
  { intros x. unfold f2. cbn [map]. f_equal. f_equal. rewrite Qcmult_comm. apply Qcmult_div_r. discriminate. }
  split; [exact H1|]. split; [exact H2|]. clear H1 H2 E1. apply Nat.eqb_eq in A1, A2. apply String.eqb_eq in B2. split; [exact A1|]. split; [exact A2|]. split; [exact B2|].
  intros E. rewrite E, B2 in B1. discriminate.
Qed.

(** ** Cases *)
(** the plane turned by a quarter and moved, the first entry to be made small, xatol switched off: all conditions are met *)
Definition quarter : list R -> list R := linear [[0; -1]; [1; 0]]%R [3; 5]%R.
Definition first_entry : list R -> nat -> option R -> M (N := Rnum) R := fun x _ _ => ret (nth 0 x 0%R).
Definition second_entry : list R -> nat -> option R -> M (N := Rnum) R := fun x _ _ => ret (nth 1 x 0 - 5)%R.
Definition loose_run : settings (N := Rnum) := line_run <|g_xatol := (-1)%R|>.
Example C86_case : affine 2 quarter /\ sorts line_world /\ quarter [1; 2]%R = [1; 6]%R /\
  (forall x it v s, length x = 2 -> second_entry (quarter x) it v s = first_entry x it v s) /\
  (forall sim : list (list R), length sim = 3 -> (forall x, In x sim -> length x = 2) ->
     (small_simplex (N := Rnum) (g_xatol loose_run) (map quarter sim) <-> small_simplex (N := Rnum) (g_xatol loose_run) sim)) /\
  exists s, new_state loose_run line_world = Ok s.
Proof.
  assert (AF : affine 2 quarter) by (apply C86_linear_affine; [reflexivity|intros row [<-|[<-|[]]]; reflexivity|reflexivity]).
  split; [exact AF|]. split; [exact line_sorts|]. split; [unfold quarter, linear; cbn; repeat (apply f_equal2; [ring|]); reflexivity|]. split; [|split].
  - intros [|p [|q [|]]] it v s L; try discriminate. unfold second_entry, first_entry, quarter, linear, ret. cbn. do 2 f_equal. ring.
  - intros sim L H. apply (C86_xatol_off 2); try assumption; [lia|cbn; lra].
  - eexists. reflexivity.
Qed.
(** degrees with another zero and sign: the case of [C86_search] with xatol in force *)
Example C86_search_case : (forall p : R, In p [-1; 1]%R -> Rabs p = 1%R) /\ in_units [-1; 1]%R [180; 0]%R [30; 7]%R = [150; 7]%R /\
  exists sim, simplex_creation (N := Rnum) [30; 7]%R [10; 1]%R [0; 0]%R = Ok sim.
Proof.
  split; [intros p [<-|[<-|[]]]; [rewrite Rabs_left; lra|apply Rabs_R1]|]. split; [unfold in_units; cbn; repeat (apply f_equal2; [ring|]); reflexivity|]. eexists. reflexivity.
Qed.

Print Assumptions C86_coordinates.
Print Assumptions C86_units_affine.
Print Assumptions C86_linear_affine.
Print Assumptions C86_xatol_off.
Print Assumptions C86_shift.
Print Assumptions C86_start.
Print Assumptions C86_search.
Print Assumptions C86_xatol_refuted.
