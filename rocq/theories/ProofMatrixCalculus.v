(** Calculus of complex matrices that depend on a real number, Frobenius norms. *)
From Coq Require Import Reals Lra.
From mathcomp Require Import all_ssreflect all_algebra.
From mathcomp.real_closed Require Import complex.
From Verif Require Import RealStruct SpecQuantum ModelQuantum ProofQuantum.
Import Order.TTheory GRing.Theory Num.Theory.
Set Implicit Arguments.
Unset Strict Implicit.
Unset Printing Implicit Defensive.
Delimit Scope R_scope with coqR.
Local Open Scope ring_scope.

Definition re (z : Cx) : R := complex.Re (z : R[i]).
Definition im (z : Cx) : R := complex.Im (z : R[i]).
Lemma re_add (x y : Cx) : re (x + y) = (re x + re y)%coqR. Proof. by case: x y => a b [c e]. Qed.
Lemma im_add (x y : Cx) : im (x + y) = (im x + im y)%coqR. Proof. by case: x y => a b [c e]. Qed.
Lemma re_opp (x : Cx) : re (- x) = (- re x)%coqR. Proof. by case: x. Qed.
Lemma im_opp (x : Cx) : im (- x) = (- im x)%coqR. Proof. by case: x. Qed.
Lemma re_mul (x y : Cx) : re (x * y) = (re x * re y - im x * im y)%coqR. Proof. by case: x y => a b [c e]. Qed.
Lemma im_mul (x y : Cx) : im (x * y) = (re x * im y + im x * re y)%coqR. Proof. by case: x y => a b [c e]. Qed.
Lemma re_conj (x : Cx) : re (x^*) = re x. Proof. by case: x. Qed.
Lemma im_conj (x : Cx) : im (x^*) = (- im x)%coqR. Proof. by case: x. Qed.
Lemma re_0 : re 0 = 0%coqR. Proof. by []. Qed.
Lemma im_0 : im 0 = 0%coqR. Proof. by []. Qed.
Lemma re_1 : re 1 = 1%coqR. Proof. by []. Qed.
Lemma im_1 : im 1 = 0%coqR. Proof. by []. Qed.
Lemma re_i : re 'i = 0%coqR. Proof. by []. Qed.
Lemma im_i : im 'i = 1%coqR. Proof. by []. Qed.
Lemma cx_eq (x y : Cx) : re x = re y -> im x = im y -> x = y.
Proof. case: x y => a b [c e]. by rewrite /re /im /= => -> ->. Qed.
Lemma re_real (x : R) : re (x%:C)%C = x. Proof. by []. Qed.
Lemma im_real (x : R) : im (x%:C)%C = 0%coqR. Proof. by []. Qed.
Lemma re_Re (z : Cx) : re ('Re z) = re z. Proof. by rewrite -complexRe. Qed.
Lemma cx_ge0 (z : Cx) : 0 <= z -> (0 <= re z)%coqR /\ im z = 0%coqR.
Proof. rewrite lecE /= => /andP [/eqP I /RleP P]. split=> //. Qed.
Definition creal (x : R) : Cx := (x%:C)%C.
Lemma re_creal x : re (creal x) = x. Proof. by []. Qed.
Lemma im_creal x : im (creal x) = 0%coqR. Proof. by []. Qed.

(** ** derivatives *)
Definition cder (f : R -> Cx) (s : R) (z : Cx) : Prop :=
  derivable_pt_lim (fun u => re (f u)) s (re z) /\ derivable_pt_lim (fun u => im (f u)) s (im z).
Definition mder m n (F : R -> 'M[Cx]_(m, n)) (s : R) (D : 'M[Cx]_(m, n)) : Prop := forall i j, cder (fun u => F u i j) s (D i j).

Lemma dext (f g : R -> R) s l : (forall x, f x = g x) -> derivable_pt_lim f s l -> derivable_pt_lim g s l.
Proof. move=> E H eps P. case: (H eps P) => d Hd. exists d => h h0 hd. rewrite -!E. exact: Hd. Qed.
Lemma dval (f : R -> R) s l l' : l = l' -> derivable_pt_lim f s l -> derivable_pt_lim f s l'. Proof. by move=> ->. Qed.
Lemma cext f g s z : (forall x, f x = g x) -> cder f s z -> cder g s z.
Proof. move=> E [A B]. split; [apply: dext A|apply: dext B] => x; by rewrite E. Qed.
Lemma cconst z s : cder (fun _ => z) s 0.
Proof. split; exact: derivable_pt_lim_const. Qed.
Lemma cadd f g s y z : cder f s y -> cder g s z -> cder (fun u => f u + g u) s (y + z).
Proof.
  move=> [A B] [A' B']. split.
  - rewrite re_add. apply: dext (derivable_pt_lim_plus _ _ _ _ _ A A') => x. by rewrite /plus_fct re_add.
  - rewrite im_add. apply: dext (derivable_pt_lim_plus _ _ _ _ _ B B') => x. by rewrite /plus_fct im_add.
Qed.
Lemma copp f s y : cder f s y -> cder (fun u => - f u) s (- y).
Proof.
  move=> [A B]. split.
  - rewrite re_opp. apply: dext (derivable_pt_lim_opp _ _ _ A) => x. by rewrite /opp_fct re_opp.
  - rewrite im_opp. apply: dext (derivable_pt_lim_opp _ _ _ B) => x. by rewrite /opp_fct im_opp.
Qed.
Lemma cconj f s y : cder f s y -> cder (fun u => (f u)^*) s (y^*).
Proof.
  move=> [A B]. split.
  - rewrite re_conj. apply: dext A => x. by rewrite re_conj.
  - rewrite im_conj. apply: dext (derivable_pt_lim_opp _ _ _ B) => x. by rewrite /opp_fct im_conj.
Qed.
Lemma cmul f g s y z : cder f s y -> cder g s z -> cder (fun u => f u * g u) s (y * g s + f s * z).
Proof.
  move=> [A B] [A' B']. split.
  - apply: dext (dval _ (derivable_pt_lim_minus _ _ _ _ _ (derivable_pt_lim_mult _ _ _ _ _ A A') (derivable_pt_lim_mult _ _ _ _ _ B B'))).
    + move=> x. by rewrite /minus_fct /mult_fct re_mul.
    + rewrite re_add !re_mul. ring.
  - apply: dext (dval _ (derivable_pt_lim_plus _ _ _ _ _ (derivable_pt_lim_mult _ _ _ _ _ A B') (derivable_pt_lim_mult _ _ _ _ _ B A'))).
    + move=> x. by rewrite /plus_fct /mult_fct im_mul.
    + rewrite im_add !im_mul. ring.
Qed.
Lemma csum I (r : seq I) (F : I -> R -> Cx) D s : (forall i, cder (F i) s (D i)) -> cder (fun u => \sum_(i <- r) F i u) s (\sum_(i <- r) D i).
Proof.
  move=> H. elim: r => [|i r IH].
  - rewrite big_nil. apply: cext (cconst 0 s) => x. by rewrite big_nil.
  - rewrite big_cons. apply: cext (cadd (H i) IH) => x. by rewrite big_cons.
Qed.

Section Matrices.
  Variables m n p : nat.
  Lemma mext (F G : R -> 'M[Cx]_(m, n)) s D : (forall x, F x = G x) -> mder F s D -> mder G s D.
  Proof. move=> E H i j. apply: cext (H i j) => x. by rewrite E. Qed.
  Lemma mconst (X : 'M[Cx]_(m, n)) s : mder (fun _ => X) s 0.
  Proof. move=> i j. rewrite mxE. exact: cconst. Qed.
  Lemma madd (F G : R -> 'M[Cx]_(m, n)) s D E : mder F s D -> mder G s E -> mder (fun u => F u + G u) s (D + E).
  Proof. move=> A B i j. rewrite mxE. apply: cext (cadd (A i j) (B i j)) => x. by rewrite mxE. Qed.
  Lemma mopp (F : R -> 'M[Cx]_(m, n)) s D : mder F s D -> mder (fun u => - F u) s (- D).
  Proof. move=> A i j. rewrite mxE. apply: cext (copp (A i j)) => x. by rewrite mxE. Qed.
  Lemma madj (F : R -> 'M[Cx]_(m, n)) s D : mder F s D -> mder (fun u => adj (F u)) s (adj D).
  Proof. move=> A i j. rewrite !mxE. apply: cext (cconj (A j i)) => x. by rewrite !mxE. Qed.
  Lemma mmul (F : R -> 'M[Cx]_(m, n)) (G : R -> 'M[Cx]_(n, p)) s D E : mder F s D -> mder G s E -> mder (fun u => F u *m G u) s (D *m G s + F s *m E).
  Proof.
    move=> A B i j. rewrite !mxE -big_split /=. apply: cext (csum _ (fun k => cmul (A i k) (B k j))) => x. by rewrite mxE.
  Qed.
End Matrices.
Lemma mtrace n (F : R -> 'M[Cx]_n) s D : mder F s D -> cder (fun u => \tr (F u)) s (\tr D).
Proof. move=> A. apply: csum => i. exact: A. Qed.
Lemma mmulr m n p (F : R -> 'M[Cx]_(m, n)) (X : 'M[Cx]_(n, p)) s D : mder F s D -> mder (fun u => F u *m X) s (D *m X).
Proof. move=> A. have := mmul A (mconst X s). by rewrite mulmx0 addr0. Qed.
Lemma mmull m n p (F : R -> 'M[Cx]_(n, p)) (X : 'M[Cx]_(m, n)) s D : mder F s D -> mder (fun u => X *m F u) s (X *m D).
Proof. move=> A. have := mmul (mconst X s) A. by rewrite mul0mx add0r. Qed.

(** ** growth of functions *)
Local Open Scope R_scope.
Lemma growth_le (f f' : R -> R) (a b : R) : (forall s, 0 <= s <= 1 -> derivable_pt_lim f s (f' s)) -> (forall s, 0 <= s <= 1 -> f' s <= a * s + b) ->
  forall T, 0 <= T <= 1 -> f T - f 0 <= a * T ^ 2 / 2 + b * T.
Proof.
  move=> D B T [T0 T1]. case: T0 => [T0|<-]; last by rewrite Rminus_diag_eq //; lra.
  pose g s := f s - (a * s ^ 2 / 2 + b * s). pose g' s := f' s - (a * s + b).
  have Dg : forall s, 0 <= s <= T -> derivable_pt_lim g s (g' s).
  { move=> s S. apply: derivable_pt_lim_minus; first by apply: D; lra.
    apply: dext (dval _ (derivable_pt_lim_plus _ _ _ _ _ (derivable_pt_lim_scal _ (a / 2) _ _ (derivable_pt_lim_pow s 2)) (derivable_pt_lim_scal _ b _ _ (derivable_pt_lim_id s)))).
    - move=> x. rewrite /plus_fct /mult_real_fct /Ranalysis1.id. by field.
    - simpl. by field. }
  case: (MVT_cor2 g g' 0 T T0 Dg) => c [E [C0 C1]].
  have Bc := B c ltac:(lra). have G : g' c <= 0 by rewrite /g'; lra.
  have G' : g' c * (T - 0) <= 0 by nra.
  rewrite -E /g in G'. lra.
Qed.
Lemma growth (f f' : R -> R) (a b : R) : (forall s, 0 <= s <= 1 -> derivable_pt_lim f s (f' s)) -> (forall s, 0 <= s <= 1 -> Rabs (f' s) <= a * s + b) ->
  forall T, 0 <= T <= 1 -> Rabs (f T - f 0) <= a * T ^ 2 / 2 + b * T.
Proof.
  move=> D B T HT. apply: Rabs_le. split.
  - have := @growth_le (fun s => - f s) (fun s => - f' s) a b _ _ T HT. move=> H.
    have : - f T - - f 0 <= a * T ^ 2 / 2 + b * T; last lra.
    apply: H => s S; first by apply: derivable_pt_lim_opp; apply: D. have := B s S. move: (Rle_abs (- f' s)). rewrite Rabs_Ropp. lra.
  - apply: (@growth_le f f' a b) => // s S. have := B s S. move: (Rle_abs (f' s)). lra.
Qed.
Lemma no_growth (f : R -> R) : (forall s, derivable_pt_lim f s 0) -> forall T, f T = f 0.
Proof.
  move=> D T. have H : forall a b, a < b -> f b = f a.
  { move=> a b ab. case: (MVT_cor2 f (fun _ => 0) a b ab (fun c _ => D c)) => c [E _]. lra. }
  case: (Rtotal_order 0 T) => [L|[<-|G]] //; [exact: H|symmetry; exact: H].
Qed.
Local Close Scope R_scope.
Lemma constant_matrix m n (F : R -> 'M[Cx]_(m, n)) : (forall s, mder F s 0) -> forall T, F T = F R0.
Proof.
  move=> D T. apply/matrixP => i j. apply: cx_eq.
  - apply: (@no_growth (fun u => re (F u i j))) => s. have [A _] := D s i j. by rewrite mxE in A.
  - apply: (@no_growth (fun u => im (F u i j))) => s. have [_ A] := D s i j. by rewrite mxE in A.
Qed.
