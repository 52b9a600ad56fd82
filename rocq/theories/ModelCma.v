(** * Adaptation of CMA-ES (gradientfreemethods/CMAES.py:75-198), in exact real arithmetic.
    Arrays are functions of their indices; [n] is the number of parameters ([N = len(x0)]), [mu] the number of
    selected candidates.  What the adaptation does is an oracle in the model of whole runs ([w_cma] in ModelState.v);
    here it is written out. *)
From Coq Require Import Reals.
From Flocq Require Import Core.Raux.
Open Scope R_scope.

Definition rvec := nat -> R.
Definition rmat := nat -> nat -> R.
(** [np.sum] and the sums inside [dot] *)
Fixpoint rsum (k : nat) (f : nat -> R) : R :=
  match k with O => 0 | S k => rsum k f + f k end.
(** [np.linalg.norm] *)
Definition rnorm (n : nat) (v : rvec) : R := sqrt (rsum n (fun i => v i * v i)).
(** [A.dot(v)] *)
Definition rapply (n : nat) (A : rmat) (v : rvec) : rvec := fun i => rsum n (fun j => A i j * v j).

(** CMAES.py:90 before normalisation: [np.linspace(1, mu, num=mu)] has entry number k equal to k+1 *)
Definition raw_weight (mu k : nat) : R := ln (INR mu + / 2) - ln (INR (S k)).
(** CMAES.py:90-92 *)
Definition weight (mu k : nat) : R := raw_weight mu k / rsum mu (raw_weight mu).
(** CMAES.py:94 *)
Definition mueff (mu : nat) : R := 1 / rsum mu (fun k => weight mu k * weight mu k).

Section Rates.
  Variables (n mu : nat).
  Let N := INR n.
  Let m := mueff mu.
  (** CMAES.py:97 *)
  Definition rate_cc : R := (4 + m / N) / (N + 4 + 2 * m / N).
  (** CMAES.py:99 *)
  Definition rate_cs : R := (m + 2) / (N + m + 5).
  (** CMAES.py:101 *)
  Definition rate_c1 : R := 2 / ((N + 13 / 10) * (N + 13 / 10) + m).
  (** CMAES.py:103 *)
  Definition rate_cmu : R := Rmin (1 - rate_c1) (2 * (m - 2 + 1 / m) / ((N + 2) * (N + 2) + m)).
  (** CMAES.py:105 *)
  Definition damps : R := 1 + 2 * Rmax 0 (sqrt ((m - 1) / (N + 1)) - 1) + rate_cs.
  (** CMAES.py:120 *)
  Definition chi_n : R := sqrt N * (1 - 1 / (4 * N) + 1 / (21 * (N * N))).
End Rates.

(** local variables of [run_dsm] changed by the adaptation *)
Record cma := mk_cma {
  c_mean : rvec;      (* xmean *)
  c_sigma : R;        (* sigma *)
  c_pc : rvec;
  c_ps : rvec;
  c_B : rmat;
  c_D : rvec;
  c_C : rmat;
  c_inv : rmat        (* invsqrtC *)
}.

(** [np.eye] and [np.diag] *)
Definition identity : rmat := fun i j => if Nat.eqb i j then 1 else 0.
Definition diagonal (v : rvec) : rmat := fun i j => if Nat.eqb i j then v i else 0.

(** CMAES.py:76-116; the products with B are elementwise ([*] on arrays) *)
Definition cma_start (x0 sigma_v : rvec) : cma :=
  {| c_mean := x0; c_sigma := 1; c_pc := fun _ => 0; c_ps := fun _ => 0; c_B := identity; c_D := sigma_v;
     c_C := fun i j => identity i j * diagonal (fun i => sigma_v i * sigma_v i) i j * identity j i;
     c_inv := fun i j => identity i j * diagonal (fun i => / sigma_v i) i j * identity j i |}.

(** CMAES.py:142: candidate from normal numbers *)
Definition cma_sample (n : nat) (S : cma) (z : rvec) : rvec :=
  fun i => c_mean S i + c_sigma S * rapply n (c_B S) (fun j => c_D S j * z j) i.

Section Step.
  Variables (n mu l_pop : nat).
  (** scipy.linalg.eigh: eigenvalues and matrix of eigenvectors *)
  Variable eigh : rmat -> rvec * rmat.

  (** CMAES.py:165-198: [best k] is candidate number k in increasing order of the values,
      [arx[:, ind[k]]]; [counteval] the number of evaluations so far ([eigeneval] stays 0) *)
  Definition cma_step (best : nat -> rvec) (counteval : nat) (S : cma) : cma :=
    let cc := rate_cc n mu in let cs := rate_cs n mu in
    let c1 := rate_c1 n mu in let cmu := rate_cmu n mu in
    let m := mueff mu in
    let xold := c_mean S in
    let xmean := fun i => rsum mu (fun k => best k i * weight mu k) in
    let y := fun i => xmean i - xold i in
    let z := rapply n (c_inv S) y in
    let ps := fun i => (1 - cs) * c_ps S i + sqrt (cs * (2 - cs) * m) * z i / c_sigma S in
    let h := rnorm n ps / sqrt (1 - Rpower (1 - cs) (2 * INR counteval / INR l_pop)) / chi_n n in
    let hsig := if Rlt_bool h (14 / 10 + 2 / (INR n + 1)) then 1 else 0 in
    let pc := fun i => (1 - cc) * c_pc S i + hsig * sqrt (cc * (2 - cc) * m) * y i / c_sigma S in
    let artmp := fun i k => 1 / c_sigma S * (best k i - xold i) in
    let C := fun i j =>
      (1 - c1 - cmu) * c_C S i j + c1 * (pc i * pc j + (1 - hsig) * cc * (2 - cc) * c_C S i j) +
      cmu * rsum mu (fun k => artmp i k * (weight mu k * artmp j k)) in
    let sigma := c_sigma S * exp (cs / damps n mu * (rnorm n ps / chi_n n - 1)) in
    if Rlt_bool (INR l_pop / (c1 + cmu) / INR n / 10) (INR counteval) then
      (* np.triu(C) + np.triu(C, 1).T *)
      let C := fun i j => if Nat.leb i j then C i j else C j i in
      let (lv, B) := eigh C in
      let D := fun i => sqrt (lv i) in
      {| c_mean := xmean; c_sigma := sigma; c_pc := pc; c_ps := ps; c_B := B; c_D := D; c_C := C;
         c_inv := fun i j => rsum n (fun k => B i k * (1 / D k * B j k)) |}
    else
      {| c_mean := xmean; c_sigma := sigma; c_pc := pc; c_ps := ps; c_B := c_B S; c_D := c_D S; c_C := C;
         c_inv := c_inv S |}.
End Step.
