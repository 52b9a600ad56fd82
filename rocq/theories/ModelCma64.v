(** Model of the arithmetic of CMA-ES in binary64: the definitions of ModelCma.v and ModelCmaRun.v with rounding, infinities and NaN.
    Simplification: sums and matrix products are added from left to right (BLAS may use another order). *)
From Coq Require Import ZArith List Bool.
From Flocq Require Import BinarySingleNaN.
From Verif Require Import Num Py.
Import ListNotations.

Definition fvec := nat -> f64.
Definition fmat := nat -> nat -> f64.
Notation "x +! y" := (@nadd F64 x y) (at level 50, left associativity).
Notation "x -! y" := (@nsub F64 x y) (at level 50, left associativity).
Notation "x *! y" := (@nmul F64 x y) (at level 40, left associativity).
Notation "x /! y" := (@ndiv F64 x y) (at level 40, left associativity).
Definition fz (k : Z) : f64 := @of_Z F64 k.

(** a sum over k < n; [A.dot(v)]; [np.linalg.norm] *)
Fixpoint fsum (n : nat) (f : nat -> f64) : f64 := match n with O => fz 0 | S n => fsum n f +! f n end.
Definition fapply (n : nat) (A : fmat) (v : fvec) : fvec := fun i => fsum n (fun j => A i j *! v j).
Definition fnorm (n : nat) (v : fvec) : f64 := @nsqrt F64 (fsum n (fun i => v i *! v i)).

(** CMAES.py:88-108, 118: numbers that depend on the numbers of parameters and candidates only.  Simplification: given instead of computed
    ([np.log]); [r_scale] is [np.sqrt(1 - np.power(1 - cs, 2 * counteval / l_pop))] as a function of [counteval] *)
Record rates := mk_rates {
  r_weight : fvec; r_mueff : f64; r_cc : f64; r_cs : f64; r_c1 : f64; r_cmu : f64; r_damps : f64; r_chi : f64; r_scale : nat -> f64
}.

(** local variables of [run_dsm] changed by the adaptation, as in ModelCma.v *)
Record cma64 := mk_cma64 {
  f_mean : fvec; f_sigma : f64; f_pc : fvec; f_ps : fvec; f_B : fmat; f_D : fvec; f_C : fmat; f_inv : fmat
}.

(** [np.eye] and [np.diag] *)
Definition eye64 : fmat := fun i j => if Nat.eqb i j then fz 1 else fz 0.
Definition diag64 (v : fvec) : fmat := fun i j => if Nat.eqb i j then v i else fz 0.

(** CMAES.py:76-116; the products with B are elementwise; [D**(-1)] is [1/D] *)
Definition cma_start64 (x0 sigma_v : fvec) : cma64 :=
  {| f_mean := x0; f_sigma := fz 1; f_pc := fun _ => fz 0; f_ps := fun _ => fz 0; f_B := eye64; f_D := sigma_v;
     f_C := fun i j => eye64 i j *! diag64 (fun i => sigma_v i *! sigma_v i) i j *! eye64 j i;
     f_inv := fun i j => eye64 i j *! diag64 (fun i => fz 1 /! sigma_v i) i j *! eye64 j i |}.

(** CMAES.py:142: candidate from normal numbers *)
Definition cma_sample64 (n : nat) (S : cma64) (z : fvec) : fvec :=
  fun i => f_mean S i +! f_sigma S *! fapply n (f_B S) (fun j => f_D S j *! z j) i.

Section Step.
  Variables (n mu l_pop : nat) (K : rates).
  (** scipy.linalg.eigh, which can raise (with check_finite it does for infinities and NaN), and numpy.exp *)
  Variable eigh : fmat -> res (fvec * fmat).
  Variable fexp : f64 -> f64.

  (** CMAES.py:165-198, as [cma_step] in ModelCma.v *)
  Definition cma_step64 (best : nat -> fvec) (counteval : nat) (S : cma64) : res cma64 :=
    let cc := r_cc K in let cs := r_cs K in let c1 := r_c1 K in let cmu := r_cmu K in let m := r_mueff K in
    let xold := f_mean S in
    let xmean := fun i => fsum mu (fun k => best k i *! r_weight K k) in
    let y := fun i => xmean i -! xold i in
    let z := fapply n (f_inv S) y in
    let ps := fun i => (fz 1 -! cs) *! f_ps S i +! @nsqrt F64 (cs *! (fz 2 -! cs) *! m) *! z i /! f_sigma S in
    let h := fnorm n ps /! r_scale K counteval /! r_chi K in
    let hsig := if @nltb F64 h (fz 14 /! fz 10 +! fz 2 /! (fz (Z.of_nat n) +! fz 1)) then fz 1 else fz 0 in
    let pc := fun i => (fz 1 -! cc) *! f_pc S i +! hsig *! @nsqrt F64 (cc *! (fz 2 -! cc) *! m) *! y i /! f_sigma S in
    let artmp := fun i k => fz 1 /! f_sigma S *! (best k i -! xold i) in
    let C := fun i j =>
      (fz 1 -! c1 -! cmu) *! f_C S i j +! c1 *! (pc i *! pc j +! (fz 1 -! hsig) *! cc *! (fz 2 -! cc) *! f_C S i j) +!
      cmu *! fsum mu (fun k => artmp i k *! (r_weight K k *! artmp j k)) in
    let sigma := f_sigma S *! fexp (cs /! r_damps K *! (fnorm n ps /! r_chi K -! fz 1)) in
    if @nltb F64 (fz (Z.of_nat l_pop) /! (c1 +! cmu) /! fz (Z.of_nat n) /! fz 10) (fz (Z.of_nat counteval)) then
      let C := fun i j => if Nat.leb i j then C i j else C j i in
      (r <-! eigh C;
       let (lv, B) := r in
       let D := fun i => @nsqrt F64 (lv i) in
       Ok {| f_mean := xmean; f_sigma := sigma; f_pc := pc; f_ps := ps; f_B := B; f_D := D; f_C := C;
             f_inv := fun i j => fsum n (fun k => B i k *! (fz 1 /! D k *! B j k)) |})%res
    else
      Ok {| f_mean := xmean; f_sigma := sigma; f_pc := pc; f_ps := ps; f_B := f_B S; f_D := f_D S; f_C := C; f_inv := f_inv S |}.

  (** numpy.argsort *)
  Variable argsort : list f64 -> list nat.
  Variables (x0 sigma_v : list f64).
  (** lists and arrays *)
  Definition array64 (x : list f64) : fvec := fun i => nth i x (fz 0).
  (** CMAES.py:80-81 *)
  Definition widths64 : fvec := if Nat.eqb (length sigma_v) n then array64 sigma_v else fun _ => fz 3 /! fz 10.
  (** CMAES.py:151-152, 165: [arx[:, ind[k]]] *)
  Definition ranked64 (g : list (list f64 * f64)) : nat -> fvec :=
    fun k => array64 (nth (nth k (argsort (map snd g)) 0) (map fst g) []).
  (** candidates of generation number k (from 0) *)
  Definition members64 (k : nat) (hist : list (list f64 * f64)) : list (list f64 * f64) := firstn l_pop (skipn (k * l_pop) hist).
  (** CMAES.py:76-116 and 136-198: local variables after k generations *)
  Fixpoint after_generations64 (k : nat) (hist : list (list f64 * f64)) : res cma64 :=
    match k with
    | O => Ok (cma_start64 (array64 x0) widths64)
    | S k => (s <-! after_generations64 k hist; cma_step64 (ranked64 (members64 k hist)) (S k * l_pop) s)%res
    end.
  (** CMAES.py:142: the candidate made after the evaluations [hist].  Simplification: an exception of eigh shows at the next candidate instead
      of the end of the generation *)
  Definition candidate64 (hist : list (list f64 * f64)) (z : list f64) : res (list f64) :=
    (s <-! after_generations64 (length hist / l_pop) hist; Ok (map (cma_sample64 n s (array64 z)) (seq 0 n)))%res.
End Step.
