(** * C77 Automatic differentiation hands out the same controls, padded with zeros.
    [get_controls_lists]: the controls as the other algorithms get them; [get_controls_jax_obj c64 traced]: the two-dimensional arrays of the
    algorithm with automatic differentiation, [traced] while it differentiates; [c64], [f32]: the conversions to single precision. *)
From Coq Require Import String ZArith List Bool Lia Reals Lra.
From RecordUpdate Require Import RecordSet.
From Verif Require Import Num NumFacts NumQ Py PyFacts ModelPulse ModelBases ModelControls ModelState ModelRun ModelJax SpecControls SpecRun SpecJax ModelImport ModelJson ModelConfig SpecConfig SpecWhole
  ProofBase ProofBases ProofControls ProofExtra ProofIndex ProofTimes ProofCtl ProofEss ProofDraw ProofJax ExampleControls PropControls PropConfig PropWhole.
Import ListNotations.
Open Scope string_scope.
Open Scope list_scope.
Open Scope nat_scope.

Section C77.
  Context {N : Num} (c64 f32 : num -> num).

  Lemma bins_are pl tl rl c0 c : new_controls pl tl rl = Ok c0 -> List.Forall plain_basis pl -> reachable c0 c ->
    map (fun p => pc_bins (core p)) (c_pulses c) = map pf_bins pl.
  Proof.
    intros HC PB R. destruct (pulse_lists _ _ _ _ _ HC PB R) as (E1 & _).
    assert (L : length (c_pulses c) = length pl) by (apply (f_equal (@length _)) in E1; now rewrite !map_length in E1).
    apply nth_error_ext_eq. intros i. rewrite !nth_error_map. destruct (nth_error pl i) as [f|] eqn:Ef.
    - destruct (reachable_slot _ _ _ _ R (proj1 (List.Forall_forall _ _) PB _ (nth_error_In _ _ Ef)) (new_controls_slot _ _ _ _ _ _ HC Ef)) as (p & -> & M). cbn. now rewrite (cm_bins _ _ M).
    - apply nth_error_None in Ef. rewrite (proj2 (nth_error_None (c_pulses c) i)) by lia. reflexivity.
  Qed.

  (** ** The arrays hold the controls of the same vector, and the object is left in the same state *)
  Theorem C77_same_controls pl tl rl c0 c traced x c' A :
    new_controls pl tl rl = Ok c0 -> List.Forall plain_basis pl -> reachable c0 c -> get_controls_jax_obj c64 traced x c = Ok (c', A) ->
    exists d, get_controls_lists x c = Ok (c', d) /\ holds c64 c64 (map pf_bins pl) d A.
  Proof. intros HC PB R H. destruct (jax_lists_spec _ _ _ _ _ _ _ H) as (d & D & K). rewrite (bins_are _ _ _ _ _ HC PB R) in K. eauto. Qed.
  (** they can be made whenever every pulse has one sample per bin *)
  Theorem C77_arrays_exist pl tl rl c0 c traced x c' d :
    new_controls pl tl rl = Ok c0 -> List.Forall plain_basis pl -> reachable c0 c -> get_controls_lists x c = Ok (c', d) ->
    (traced = true -> no_optimised_time tl) ->
    (forall i f, nth_error pl i = Some f -> exists l, nth_error (d_pulses d) i = Some (Ar l) /\ length l = pf_bins f) ->
    exists A, get_controls_jax_obj c64 traced x c = Ok (c', A).
  Proof.
    intros HC PB R D T S. destruct (index_partition _ _ _ _ _ HC PB R) as (_ & _ & I1 & I2).
    assert (P0 : List.Forall (fun f => pf_nctrl f <> 0) pl).
    { apply List.Forall_forall. intros f If Z. rewrite (C09_no_parameters_raise N pl tl rl) in HC by eauto. discriminate. }
    refine (jax_lists_ok traced c64 c64 x c c' d D _ _ _ _).
    - intros B k t J. specialize (T B). pose proof (new_controls_fixed _ _ _ _ T HC) as K. rewrite (reachable_times_fixed _ _ K R) in J. exact (K k t J).
    - intros p J Z. apply (in_map (fun p => length (pc_indices (core p)))) in J. rewrite I1, Z in J. cbn in J. apply in_map_iff in J as (f & F0 & J).
      rewrite List.Forall_forall in P0. exact (P0 f J F0).
    - intros r J Z. apply (in_map (fun p => length (pa_indices p))) in J. rewrite I2, Z in J. cbn in J. apply in_map_iff in J as (f & F0 & J). discriminate.
    - intros i p a Ep Ea. pose proof (bins_are _ _ _ _ _ HC PB R) as B. apply (f_equal (fun l => nth_error l i)) in B. rewrite !nth_error_map, Ep in B. cbn in B.
      destruct (nth_error pl i) as [f|] eqn:Ef; [|discriminate]. injection B as B. destruct (S i f Ef) as (l & El & Ll). rewrite El in Ea. injection Ea as <-. right. congruence.
  Qed.
  (** in particular for every vector of the right length, under the conditions of C56 *)
  Theorem C77_total pl tl rl c0 c traced x :
    new_controls pl tl rl = Ok c0 -> reachable c0 c -> usable pl tl -> List.Forall plain_basis pl -> List.Forall array_guess pl ->
    x <> [] -> length x = get_control_parameters_number c -> (traced = true -> no_optimised_time tl) ->
    exists c' d A, get_controls_lists x c = Ok (c', d) /\ get_controls_jax_obj c64 traced x c = Ok (c', A) /\ holds c64 c64 (map pf_bins pl) d A.
  Proof.
    intros HC R U PB AG Nx Lx T. destruct (C56_delivery_total N _ _ _ _ _ _ HC R U AG Nx Lx) as (c' & d & D & _ & _ & _ & S).
    destruct (C77_arrays_exist _ _ _ _ _ traced _ _ _ HC PB R D T S) as [A HA]. exists c', d, A. split; [exact D|]. split; [exact HA|].
    destruct (C77_same_controls _ _ _ _ _ _ _ _ _ HC PB R HA) as (d' & D' & H). rewrite D in D'. injection D' as <-. exact H.
  Qed.

  (** ** With the same number of bins in every pulse there is no padding *)
  Theorem C77_equal_bins pl n d A : List.Forall (fun f => pf_bins f = n) pl -> holds c64 c64 (map pf_bins pl) d A ->
    length (d_pulses d) = length pl -> length (d_timegrids d) = length pl ->
    (forall a, In a (d_pulses d) -> exists l, a = Ar l /\ length l = n) -> (forall g, In g (d_timegrids d) -> length g = n) ->
    j_pulses A = map (fun a => map c64 (samples a)) (d_pulses d) /\ j_timegrids A = map (map c64) (d_timegrids d).
  Proof.
    intros B H L1 L2 S1 S2.
    assert (Row : forall m l row, row_of c64 m n (Ar l) row -> length l = n -> m = n -> row = map c64 l).
    { intros m l row (R1 & R2 & _) Ll ->. apply nth_error_ext_eq. intros j. rewrite nth_error_map. destruct (Nat.ltb_spec j n) as [J|J].
      - destruct (R2 j J) as (y & Y & ->). replace (nth_error l j) with (Some y); [reflexivity|]. unfold sample in Y. destruct l as [|z [|z' l]]; [now destruct j| |now symmetry].
        cbn in Ll. replace j with 0 by lia. cbn. now symmetry.
      - rewrite (proj2 (nth_error_None row j)) by lia. rewrite (proj2 (nth_error_None l j)) by lia. reflexivity. }
    assert (Max : pl <> [] -> list_max (map pf_bins pl) = n).
    { intros Ne. clear - B Ne. induction B as [|f pl E B IH]; [congruence|]. cbn. rewrite E. destruct pl as [|g pl]; [cbn; lia|]. unfold list_max in IH. rewrite IH by discriminate. lia. }
    assert (Bi : forall i, i < length pl -> nth_error (map pf_bins pl) i = Some n).
    { intros i I. rewrite nth_error_map. destruct (nth_error pl i) as [f|] eqn:Ef; [|apply nth_error_None in Ef; lia]. cbn. f_equal. rewrite List.Forall_forall in B. apply B. now apply nth_error_In in Ef. }
    destruct (h_rows _ _ _ _ _ H) as [R1 R2]. rewrite map_length in R1, R2.
    split; apply nth_error_ext_eq; intros i; rewrite nth_error_map; destruct (Nat.ltb_spec i (length pl)) as [I|I];
      try (rewrite !(proj2 (nth_error_None _ i)) by lia; reflexivity); assert (Ne : pl <> []) by (intros ->; cbn in I; lia).
    - destruct (h_pulses _ _ _ _ _ H i n (Bi i I)) as (a & row & Ea & Er & K). rewrite Ea, Er. cbn. destruct (S1 a (nth_error_In _ _ Ea)) as (l & -> & Ll).
      f_equal. exact (Row _ _ _ K Ll (Max Ne)).
    - destruct (h_timegrids _ _ _ _ _ H i n (Bi i I)) as (g & row & Eg & Er & K). rewrite Eg, Er. cbn.
      f_equal. exact (Row _ _ _ K (S2 g (nth_error_In _ _ Eg)) (Max Ne)).
  Qed.

  (** ** A pulse with fewer bins than another one: its row and its time grid end with zeros *)
  Theorem C77_shorter_pulse pl d A i f : holds c64 c64 (map pf_bins pl) d A -> nth_error pl i = Some f -> pf_bins f < list_max (map pf_bins pl) ->
    exists row grid, nth_error (j_pulses A) i = Some row /\ nth_error (j_timegrids A) i = Some grid /\ forall y, last row y = of_Z 0 /\ last grid y = of_Z 0.
  Proof.
    intros H Ef L. assert (B : nth_error (map pf_bins pl) i = Some (pf_bins f)) by (rewrite nth_error_map, Ef; reflexivity).
    assert (Last : forall a row, row_of c64 (list_max (map pf_bins pl)) (pf_bins f) a row -> forall y, last row y = of_Z 0).
    { intros a row (R1 & _ & R3) y. specialize (R3 (length row - 1) ltac:(lia)). assert (Ne : row <> []) by (intros ->; cbn in R1; lia).
      destruct (exists_last Ne) as (l & z & ->). rewrite last_last. rewrite app_length in R3. cbn in R3. rewrite nth_error_app2 in R3 by lia. replace (length l + 1 - 1 - length l) with 0 in R3 by lia. cbn in R3. congruence. }
    destruct (h_pulses _ _ _ _ _ H _ _ B) as (a & row & _ & Er & K1). destruct (h_timegrids _ _ _ _ _ H _ _ B) as (g & grid & _ & Eg & K2).
    exists row, grid. split; [exact Er|]. split; [exact Eg|]. intros y. split; eapply Last; eassumption.
  Qed.

  (** ** Amplitudes: the places of the bins hold values between the converted limits, the others zero *)
  Theorem C77_amplitudes (O : NumOrder N) pl tl rl c0 c traced x c' A i f row :
    (forall a b, nleb a b = true -> nleb (c64 a) (c64 b) = true) ->
    new_controls pl tl rl = Ok c0 -> List.Forall plain_basis pl -> reachable c0 c -> get_controls_jax_obj c64 traced x c = Ok (c', A) ->
    nth_error pl i = Some f -> nth_error (j_pulses A) i = Some row ->
    pf_shrink f = false -> ends_with_limit (pf_options f) -> nisnan (pf_lower f) = false -> nisnan (pf_upper f) = false ->
    forall j y, nth_error row j = Some y ->
      (j < pf_bins f -> (exists z, nisnan z = true /\ y = c64 z) \/ between (c64 (pf_lower f)) (c64 (pf_upper f)) y) /\ (pf_bins f <= j -> y = of_Z 0).
  Proof.
    intros Mono HC PB R H Ef Er Sh Op Nl Nu j y Ey. destruct (C77_same_controls _ _ _ _ _ _ _ _ _ HC PB R H) as (d & D & K).
    assert (B : nth_error (map pf_bins pl) i = Some (pf_bins f)) by (rewrite nth_error_map, Ef; reflexivity).
    destruct (h_pulses _ _ _ _ _ K _ _ B) as (a & row' & Ea & Er' & R1 & R2 & R3). rewrite Er in Er'. injection Er' as <-. split; intros J.
    - destruct (R2 j J) as (z & Z & Y). rewrite Ey in Y. injection Y as ->.
      assert (I : In z (samples a)) by (destruct a as [w|[|w [|w' l]]]; cbn in Z; [injection Z as ->; now left|now destruct j|injection Z as ->; now left|exact (nth_error_In _ _ Z)]).
      destruct (C01_samples_within_limits N O _ _ _ _ _ _ _ _ _ _ _ HC R D Ef Ea ltac:(rewrite List.Forall_forall in PB; exact (PB f (nth_error_In _ _ Ef))) Sh Op Nl Nu z I) as [Z'|[[B1 B2]|[B1 B2]]];
        [left; eauto|right; left|right; right]; split; apply Mono; assumption.
    - assert (J' : j < length row) by (apply nth_error_Some; congruence). rewrite (R3 j ltac:(lia)) in Ey. congruence.
  Qed.

  (** ** An optimised duration: the figure of merit is evaluated, but the differentiation raises, whatever the vector *)
  Theorem C77_optimised_duration pl tl rl c0 c x name t : new_controls pl tl rl = Ok c0 -> reachable c0 c ->
    lookup_time tl name = Some t -> tf_opt t = true -> exists e, get_controls_jax_obj c64 true x c = Err e.
  Proof.
    intros HC R L O. destruct (reachable_tslot _ _ _ _ R (new_controls_tslot _ _ _ _ _ _ HC L)) as (s & E & M).
    assert (I : In (name, s) (c_times c)).
    { clear - E. induction (c_times c) as [|[k v] l IH]; cbn in E; [discriminate|]. destruct (String.eqb name k) eqn:K; [apply String.eqb_eq in K as ->; injection E as ->; now left|right; auto]. }
    apply (jax_traced_time c64 c64 x c name s I). intros Z. pose proof (tm_alpha _ _ M) as T. rewrite Z in T. congruence.
  Qed.

  (** ** [get_best_controls]: real arrays of the same shape *)
  Theorem C77_best_controls pl tl rl c0 c c' A :
    new_controls pl tl rl = Ok c0 -> List.Forall plain_basis pl -> reachable c0 c -> get_best_controls_AD c64 f32 c = Ok (c', A) ->
    exists m d, get_mean_value c = Ok m /\ get_controls_lists m c = Ok (c', d) /\ holds f32 (fun y => f32 (c64 y)) (map pf_bins pl) d A.
  Proof.
    intros HC PB R H. unfold get_best_controls_AD in H. apply rbind_ok in H as (m & M & H). destruct (jax_lists_spec _ _ _ _ _ _ _ H) as (d & D & K).
    rewrite (bins_are _ _ _ _ _ HC PB R) in K. eauto.
  Qed.

  (** ** Runs: what the user gets in a call, in a gradient and in a file, when the optimiser is constructed from a dictionary *)
  Theorem C77_run (F : funs N) (E : env) (D : list (key * value num)) su W r s e dl :
    construct F E D = (true, Good su) -> g_kind (su_settings su) = KAD -> optimise (su_settings su) W = Ok (r, s) -> In e (history s) -> gives e dl ->
    (forall i f, nth_error (g_pulses (su_settings su)) i = Some f -> exists l, nth_error (d_pulses dl) i = Some (Ar l) /\ length l = pf_bins f) ->
    exists x c c' A, get_controls_jax_obj c64 false x c = Ok (c', A) /\ holds c64 c64 (map pf_bins (g_pulses (su_settings su))) dl A /\ forall y a, e = EvEval y dl a -> y = x.
  Proof.
    intros H _ R I K S. destruct (C76_from_controls F E _ _ _ _ _ _ _ H R I K) as (c0 & c & x & c' & C & A & B & Q). pose proof (said_plain F E _ _ H) as PB.
    destruct (C77_arrays_exist _ _ _ _ _ false _ _ _ C PB A B ltac:(discriminate) S) as [J HJ]. exists x, c, c', J. split; [exact HJ|]. split; [|exact Q].
    destruct (C77_same_controls _ _ _ _ _ _ _ _ _ C PB A HJ) as (d' & D' & X). rewrite B in D'. injection D' as <-. exact X.
  Qed.
End C77.

(** ** Two pulses with two and three bins, amplitudes between 1 and 2, and a parameter *)
Section Cases.
  Context {N : Num}.
  Definition jx_pulse (n : nat) : pulse_cfg :=
    ModelBases.shipped ex_funs Piecewise (ex_basis 1)
      {| cs_name := "p"; cs_bins := n; cs_time_name := "t"; cs_lower := of_Z 1; cs_upper := of_Z 2; cs_guess := GArr (repeat (of_Z 1) n); cs_scaling := SOther;
         cs_shrink := false; cs_options := None; cs_overwrite := false |}.
  Definition jx_pulses : list pulse_cfg := [jx_pulse 2; jx_pulse 3].
  Definition jx_vector : list num := map of_Z [1; 0; 5; 0; 1; 3]%Z.
End Cases.
Definition jx_check (opt traced : bool) : bool :=
  match new_controls (N := F64) jx_pulses [ex_time 4 0 8 opt] [ex_param 0 2] with
  | Ok c0 => match get_controls_jax_obj (fun y => y) traced jx_vector c0 with
    | Ok (_, A) => Nat.eqb (length (j_pulses A)) 2 && same_list (nth 0 (j_pulses A) []) (map f64_of_Z [2; 1; 0]%Z) && same_list (nth 1 (j_pulses A) []) (map f64_of_Z [2; 1; 2]%Z)
        && same_list (nth 0 (j_timegrids A) []) (map f64_of_Z [0; 4; 0]%Z) && same_list (nth 1 (j_timegrids A) []) (map f64_of_Z [0; 2; 4]%Z)
        && same_list (j_parameters A) [f64_of_Z 2]
    | Err _ => false
    end
  | Err _ => false
  end.
Example C77_example : exists c0 c' A, new_controls (N := F64) jx_pulses [ex_time 4 0 8 false] [ex_param 0 2] = Ok c0 /\ List.Forall plain_basis (jx_pulses (N := F64)) /\
  no_optimised_time (N := F64) [ex_time 4 0 8 false] /\ get_controls_jax_obj (fun y => y) true jx_vector c0 = Ok (c', A) /\
  j_pulses A = [map f64_of_Z [2; 1; 0]; map f64_of_Z [2; 1; 2]]%Z /\ nth 0 (j_timegrids A) [] = map f64_of_Z [0; 4; 0]%Z /\ j_parameters A = [f64_of_Z 2].
Proof.
  assert (V : jx_check false true = true) by (vm_compute; reflexivity). unfold jx_check in V.
  destruct (new_controls _ _ _) as [c0|] eqn:C; [|discriminate]. destruct (get_controls_jax_obj _ _ _ _) as [[c' A]|] eqn:G; [|discriminate].
  apply andb_prop in V as [V V5]. apply andb_prop in V as [V _]. apply andb_prop in V as [V V4]. apply andb_prop in V as [V V3]. apply andb_prop in V as [V1 V2].
  apply Nat.eqb_eq in V1. apply same_list_eq in V2, V3, V4, V5. exists c0, c', A. split; [reflexivity|].
  split. { apply List.Forall_cons; [apply shipped_plain|]. apply List.Forall_cons; [apply shipped_plain|apply List.Forall_nil]. }
  split. { intros t [<-|[]]. reflexivity. }
  split; [exact G|]. split; [|auto]. destruct (j_pulses A) as [|a [|b [|]]]; try discriminate. cbn [nth] in V2, V3. now rewrite V2, V3.
Qed.

(** The places after the last bin break the limits of the pulse, and the last entry of the time grid is not its final time. *)
Theorem C77_padding_refuted : exists (pl : list (pulse_cfg (N := F64))) c0 c' A row grid y, new_controls pl [ex_time 4 0 8 false] [ex_param 0 2] = Ok c0 /\
  (forall f, In f pl -> pf_lower f = f64_of_Z 1 /\ pf_upper f = f64_of_Z 2 /\ pf_shrink f = false /\ pf_options f = None) /\
  get_controls_jax_obj (fun y => y) false jx_vector c0 = Ok (c', A) /\
  nth_error (j_pulses A) 0 = Some row /\ In y row /\ ~ between (N := F64) (f64_of_Z 1) (f64_of_Z 2) y /\
  nth_error (j_timegrids A) 0 = Some grid /\ last grid (f64_of_Z 4) = f64_of_Z 0 /\ time_of (c_times c') "t" = Ok (f64_of_Z 4).
Proof.
  assert (V : jx_check false false = true) by (vm_compute; reflexivity). unfold jx_check in V.
  destruct (new_controls _ _ _) as [c0|] eqn:C; [|discriminate]. destruct (get_controls_jax_obj _ _ _ _) as [[c' A]|] eqn:G; [|discriminate].
  apply andb_prop in V as [V V5]. apply andb_prop in V as [V _]. apply andb_prop in V as [V V4]. apply andb_prop in V as [V V3]. apply andb_prop in V as [V1 V2].
  apply Nat.eqb_eq in V1. apply same_list_eq in V2, V4.
  assert (PB : List.Forall (plain_basis (N := F64)) jx_pulses). { apply List.Forall_cons; [apply shipped_plain|]. apply List.Forall_cons; [apply shipped_plain|apply List.Forall_nil]. }
  destruct (C77_same_controls _ _ _ _ _ _ _ _ _ _ C PB (reach_refl c0) G) as (d & D & K).
  destruct (C77_shorter_pulse _ _ _ _ 0 _ K eq_refl) as (row & grid & R1 & R2 & R3); [cbn; lia|].
  exists jx_pulses, c0, c', A, row, grid, (f64_of_Z 0). split; [exact C|].
  split. { intros f [<-|[<-|[]]]; auto. }
  split; [exact G|]. split; [exact R1|]. split. { rewrite (nth_error_nth _ _ [] R1) in V2. rewrite V2. right. right. now left. }
  split. { unfold between. intros [[Z _]|[Z _]]; vm_compute in Z; discriminate. }
  split; [exact R2|]. split; [apply R3|].
  unfold get_controls_lists in D. apply rbind_ok in D as (ts & T & D). apply rbind_ok in D as (ps & _ & D). apply rbind_ok in D as (rs & _ & D). injection D as <- _. cbn [c_times].
  assert (NT : no_optimised_time (N := F64) [ex_time 4 0 8 false]) by (intros t [<-|[]]; reflexivity).
  pose proof (new_controls_fixed _ _ _ _ NT C) as FT.
  rewrite (set_times_fixed _ _ FT) in T. injection T as <-.
  unfold new_controls in C. apply rbind_ok in C as ([ps' m] & _ & C). apply rbind_ok in C as (ts & T & C). injection C as <-. cbn [c_times]. cbn [new_times new_time ex_time tf_opt rbind dset tf_name] in T. injection T as <-. reflexivity.
Qed.

(** an optimised duration *)
Example C77_optimised_duration_example : exists c0, new_controls (N := F64) jx_pulses [ex_time 4 0 8 true] [ex_param 0 2] = Ok c0 /\
  lookup_time (N := F64) [ex_time 4 0 8 true] "t" = Some (ex_time 4 0 8 true) /\
  (exists r, get_controls_jax_obj (fun y => y) false jx_vector c0 = Ok r) /\ exists e, get_controls_jax_obj (fun y => y) true jx_vector c0 = Err e.
Proof.
  assert (V : match new_controls (N := F64) jx_pulses [ex_time 4 0 8 true] [ex_param 0 2] with
    | Ok c0 => match get_controls_jax_obj (fun y => y) false jx_vector c0 with Ok _ => true | Err _ => false end | Err _ => false end = true) by (vm_compute; reflexivity).
  destruct (new_controls _ _ _) as [c0|] eqn:C; [|discriminate]. exists c0. split; [reflexivity|]. split; [reflexivity|].
  split. { destruct (get_controls_jax_obj _ _ _ _) as [r|]; [eauto|discriminate]. }
  exact (C77_optimised_duration _ _ _ _ _ _ _ "t" (ex_time 4 0 8 true) C (reach_refl c0) eq_refl eq_refl).
Qed.
Example C77_best_example : exists c0 r, new_controls (N := F64) jx_pulses [ex_time 4 0 8 false] [ex_param 0 2] = Ok c0 /\ get_best_controls_AD (fun y => y) (fun y => y) c0 = Ok r.
Proof.
  assert (V : match new_controls (N := F64) jx_pulses [ex_time 4 0 8 false] [ex_param 0 2] with
    | Ok c0 => match get_best_controls_AD (fun y => y) (fun y => y) c0 with Ok _ => true | Err _ => false end | Err _ => false end = true) by (vm_compute; reflexivity).
  destruct (new_controls _ _ _) as [c0|] eqn:C; [|discriminate]. destruct (get_best_controls_AD _ _ _) as [r|] eqn:B; [|discriminate]. eauto.
Qed.
(** the conditions of [C77_total], and a run with automatic differentiation *)
Example C77_total_example : exists c0, new_controls (N := Rnum) [ex_std Fourier 3 false] [ex_time 1 0 2 false] [] = Ok c0 /\
  usable (N := Rnum) [ex_std Fourier 3 false] [ex_time 1 0 2 false] /\ List.Forall plain_basis [ex_std (N := Rnum) Fourier 3 false] /\
  List.Forall array_guess [ex_std (N := Rnum) Fourier 3 false] /\ no_optimised_time (N := Rnum) [ex_time 1 0 2 false] /\ get_control_parameters_number c0 = 2.
Proof.
  destruct C56_example as (c0 & A & B & C & D). exists c0. split; [exact A|]. split; [exact B|].
  split. { apply List.Forall_cons; [apply shipped_plain|apply List.Forall_nil]. }
  split; [exact C|]. split; [|exact D]. intros t [<-|[]]. reflexivity.
Qed.

Definition jx_samples (l : list (pulse_cfg (N := Qcnum))) (d : delivered (N := Qcnum)) : bool :=
  Nat.eqb (length l) (length (d_pulses d)) && forallb (fun fa => match snd fa with Ar m => Nat.eqb (length m) (pf_bins (fst fa)) | Sc _ => false end) (combine l (d_pulses d)).
Example C77_run_example : exists su r s e dl, construct (N := Qcnum) ex_funs wh_env (wh_dict ["algorithm_name" :-> VStr "AD"; "super_iteration_number" :-> VInt 1] (wh_pulse wh_steps)) = (true, Good su) /\
  g_kind (su_settings su) = KAD /\ optimise (su_settings su) (wh_world None [[9; -9; 1]; [0; 1; 8]]%Z) = Ok (r, s) /\ In e (history s) /\ gives e dl /\
  forall i f, nth_error (g_pulses (su_settings su)) i = Some f -> exists l, nth_error (d_pulses dl) i = Some (Ar l) /\ length l = pf_bins f.
Proof.
  destruct (both_exist (construct (N := Qcnum) ex_funs wh_env (wh_dict ["algorithm_name" :-> VStr "AD"; "super_iteration_number" :-> VInt 1] (wh_pulse wh_steps))) (wh_world None [[9; -9; 1]; [0; 1; 8]]%Z)
    (fun su r s => match g_kind (su_settings su) with KAD => true | _ => false end && existsb (fun e => match e with EvEval _ d _ => jx_samples (g_pulses (su_settings su)) d | _ => false end) (history s))) as (su & r & s & H1 & H2 & X).
  { vm_compute. reflexivity. }
  apply andb_prop in X as [X1 X2]. apply existsb_exists in X2 as (e & I & X2). destruct e as [x dl a| | | | | | |]; try discriminate.
  exists su, r, s, (EvEval x dl a), dl. split; [exact H1|]. split; [destruct (g_kind _); [discriminate|discriminate|discriminate|reflexivity]|]. split; [exact H2|]. split; [exact I|]. split; [constructor|].
  apply andb_prop in X2 as [X2 X3]. apply Nat.eqb_eq in X2. clear -X2 X3. revert X2 X3. generalize (d_pulses dl) as m. induction (g_pulses (su_settings su)) as [|g l IH]; intros [|b m] L X i f E; try discriminate; [now destruct i|].
  cbn in X. apply andb_prop in X as [X Y]. destruct i as [|i]; cbn in E |- *; [|apply (IH m); auto]. injection E as <-. destruct b as [|k]; [discriminate|]. exists k. split; [reflexivity|now apply Nat.eqb_eq].
Qed.
Print Assumptions C77_same_controls.
Print Assumptions C77_arrays_exist.
Print Assumptions C77_total.
Print Assumptions C77_equal_bins.
Print Assumptions C77_shorter_pulse.
Print Assumptions C77_amplitudes.
Print Assumptions C77_optimised_duration.
Print Assumptions C77_best_controls.
Print Assumptions C77_run.
Print Assumptions C77_padding_refuted.
