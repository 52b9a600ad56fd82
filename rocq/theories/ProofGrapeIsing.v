(** The first time grid of a pulse of steps does not depend on the vector. *)
From Coq Require Import List Reals Lia.
From Verif Require Import Num NumFacts Py ModelPulse ModelBases ModelControls SpecControls SpecGrapeVector ProofBases ProofTimes ProofPipeline ProofBase ProofControls ProofEss ProofSI ProofCtl
  ProofExtra ProofGrapeVector PropControls PropGrapeVector.
Import ListNotations.

Section Grid.
  Context F s u pl tl rl c (x ss gs bs : list R) (S : of_steps F s u pl tl rl c x ss gs bs).
  Lemma grid_size g : first_grid (N := Rnum) x c g -> length g = cs_bins u.
  Proof.
    intros (c' & d & HG & Eg). destruct (os_new _ _ _ _ _ _ _ _ _ _ _ S) as (c0 & HC & RC).
    destruct (delivered_grid _ _ _ _ _ _ _ _ _ _ _ HC RC HG (eq_refl : nth_error (shipped F Piecewise s u :: pl) 0 = Some _) (ProofBases.shipped_plain _ _ _ _) Eg) as (T & _ & [L _]).
    exact L.
  Qed.
  Lemma grid_stays g y l : first_grid (N := Rnum) x c g -> first_pulse (N := Rnum) y c l -> first_grid (N := Rnum) y c g.
  Proof.
    intros HX (c' & d & HG & Ea). destruct (os_new _ _ _ _ _ _ _ _ _ _ _ S) as (c0 & HC & RC).
    destruct (delivered_pulse_full _ _ _ _ _ _ HG Ea) as (? & ? & ? & _ & _ & _ & Q & _).
    match type of Q with nth_error _ _ = Some ?g' => assert (E : g' = g) end.
    { refine (same_grid F s u pl tl rl c0 c HC RC _ x g HX y c' d _ HG Q). exact (os_times _ _ _ _ _ _ _ _ _ _ _ S). }
    exists c', d. split; [exact HG|]. now rewrite <- E.
  Qed.
  Lemma pulse_once (y l l' : list R) : first_pulse (N := Rnum) y c l -> first_pulse (N := Rnum) y c l' -> l = l'.
  Proof. intros (c1 & d1 & H1 & E1) (c2 & d2 & H2 & E2). rewrite H1 in H2. injection H2 as <- <-. rewrite E1 in E2. now injection E2. Qed.
  Lemma put_same (y : list R) j : j < length y -> put j (nth j y 0%R) y = y.
  Proof. revert j. induction y as [|a y IH]; intros [|j] J; cbn in *; try lia; [reflexivity|]. unfold put in *. cbn. now rewrite IH by lia. Qed.
End Grid.
