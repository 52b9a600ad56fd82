(** * Vocabulary for statements about the adaptation of CMA-ES. *)
From Coq Require Import Reals.
From Verif Require Import ModelCma.
Open Scope R_scope.

Definition symmetric (n : nat) (A : rmat) : Prop := forall i j, (i < n)%nat -> (j < n)%nat -> A i j = A j i.
(** [v^T A v] *)
Definition quadratic (n : nat) (A : rmat) (v : rvec) : R := rsum n (fun i => rsum n (fun j => v i * A i j * v j)).
Definition semidefinite (n : nat) (A : rmat) : Prop := forall v, 0 <= quadratic n A v.
Definition definite (n : nat) (A : rmat) : Prop :=
  forall v, (exists i, (i < n)%nat /\ v i <> 0) -> 0 < quadratic n A v.

(** states of the adaptation: any candidates may have been selected in the generations, any number of evaluations
    counted, and the eigenvalue solver may answer anything *)
Inductive adapted (n mu l_pop : nat) (x0 sigma_v : rvec) : cma -> Prop :=
| ad_start : adapted n mu l_pop x0 sigma_v (cma_start x0 sigma_v)
| ad_step eigh best counteval S : adapted n mu l_pop x0 sigma_v S ->
    adapted n mu l_pop x0 sigma_v (cma_step n mu l_pop eigh best counteval S).

(** ** Law of the candidates *)
(** The columns of [B] are orthonormal eigenvectors of [C], [lv] the eigenvalues: what scipy.linalg.eigh promises. *)
Record eigenpairs (n : nat) (C : rmat) (lv : rvec) (B : rmat) : Prop := mk_eigenpairs {
  ep_columns : forall k l, (k < n)%nat -> (l < n)%nat -> rsum n (fun i => B i k * B i l) = if Nat.eqb k l then 1 else 0;
  ep_rows : forall i j, (i < n)%nat -> (j < n)%nat -> rsum n (fun k => B i k * B j k) = if Nat.eqb i j then 1 else 0;
  ep_sum : forall i j, (i < n)%nat -> (j < n)%nat -> C i j = rsum n (fun k => B i k * lv k * B j k)
}.
(** the matrix is decomposed in the generation after which this many evaluations were made *)
Definition due (n mu l_pop counteval : nat) : Prop :=
  INR l_pop / (rate_c1 n mu + rate_cmu n mu) / INR n / 10 < INR counteval.
(** states of the adaptation if the eigenvalue solver keeps its promise; [C0] is the covariance matrix when it was last decomposed *)
Inductive tuned (n mu l_pop : nat) (x0 sigma_v : rvec) : rmat -> cma -> Prop :=
| tu_start : tuned n mu l_pop x0 sigma_v (c_C (cma_start x0 sigma_v)) (cma_start x0 sigma_v)
| tu_kept eigh best counteval C0 S : tuned n mu l_pop x0 sigma_v C0 S -> ~ due n mu l_pop counteval ->
    tuned n mu l_pop x0 sigma_v C0 (cma_step n mu l_pop eigh best counteval S)
| tu_decomposed eigh best counteval C0 S : tuned n mu l_pop x0 sigma_v C0 S -> due n mu l_pop counteval ->
    let S' := cma_step n mu l_pop eigh best counteval S in
    eigenpairs n (c_C S') (fst (eigh (c_C S'))) (snd (eigh (c_C S'))) ->
    tuned n mu l_pop x0 sigma_v (c_C S') S'.
(** the matrix [A] with [x = mean + sigma * A z] has [A A^T = C] *)
Definition covariance_root (n : nat) (C A : rmat) : Prop :=
  forall i j, (i < n)%nat -> (j < n)%nat -> rsum n (fun k => A i k * A j k) = C i j.
(** [W] is symmetric, not negative, and [W C W] is the identity *)
Definition inverse_root (n : nat) (C W : rmat) : Prop :=
  symmetric n W /\ semidefinite n W /\
  forall i l, (i < n)%nat -> (l < n)%nat ->
    rsum n (fun j => rsum n (fun k => W i j * C j k * W k l)) = if Nat.eqb i l then 1 else 0.
(** everything moved by [t] *)
Definition moved (t : rvec) (S : cma) : cma :=
  {| c_mean := fun i => c_mean S i + t i; c_sigma := c_sigma S; c_pc := c_pc S; c_ps := c_ps S; c_B := c_B S; c_D := c_D S;
     c_C := c_C S; c_inv := c_inv S |}.
(** the same in other units: every length is multiplied by [c] *)
Definition enlarged (c : R) (S : cma) : cma :=
  {| c_mean := fun i => c * c_mean S i; c_sigma := c_sigma S; c_pc := fun i => c * c_pc S i; c_ps := c_ps S; c_B := c_B S;
     c_D := fun i => c * c_D S i; c_C := fun i j => c * c * c_C S i j; c_inv := fun i j => / c * c_inv S i j |}.
(** a solver that finds the same eigenvectors when the matrix is multiplied by a number *)
Definition unit_free (eigh : rmat -> rvec * rmat) : Prop := forall a C, 0 < a ->
  eigh (fun i j => a * C i j) = (fun k => a * fst (eigh C) k, snd (eigh C)).
