(** * Vocabulary for the quantum part, independent of the program. *)
From mathcomp Require Import all_ssreflect all_algebra.
Import GRing.Theory Num.Theory.
Set Implicit Arguments.
Unset Strict Implicit.
Unset Printing Implicit Defensive.
Local Open Scope ring_scope.

Section Spec.
  Variable C : numClosedFieldType.

  (** conjugate transpose *)
  Definition dagger {m n} (X : 'M[C]_(m, n)) : 'M[C]_(n, m) := \matrix_(i, j) (X j i)^*.
  Definition hermitian {n} (X : 'M[C]_n) : Prop := forall i j, X i j = (X j i)^*.
  Definition unitary {n} (X : 'M[C]_n) : Prop := dagger X *m X = 1%:M.
  (** [expm] turns -i times a hermitian matrix into a unitary one, as the matrix exponential does *)
  Definition exponentiates {n} (expm : 'M[C]_n -> 'M[C]_n) : Prop := forall H, hermitian H -> unitary (expm (- 'i *: H)).

  (** amplitude of control [k] in slice [i]; the array [drive] has an amplitude for [K] controls and [n] slices *)
  Definition amplitude (drive : seq (seq C)) (k i : nat) : C := nth 0 (nth [::] drive k) i.
  Definition covers (drive : seq (seq C)) (K n : nat) : Prop := forall k, (k < K)%N -> (k < size drive)%N /\ (n <= size (nth [::] drive k))%N.

  Section Dim.
    Variable d : nat.
    Notation M := 'M[C]_d.
    (** Hamiltonian of slice [i] and its propagator *)
    Definition hamiltonian (drive : seq (seq C)) (A : M) (B : seq M) (i : nat) : M :=
      A + \sum_(k < size B) amplitude drive k i *: nth 0 B k.
    Definition propagator (expm : M -> M) (drive : seq (seq C)) (A : M) (B : seq M) (dt : C) (i : nat) : M :=
      expm ((- 'i * dt) *: hamiltonian drive A B i).
    (** time-ordered product U_(n-1) ... U_1 U_0 X *)
    Fixpoint evolved (U : nat -> M) (X : M) (n : nat) : M := if n is m.+1 then U m *m evolved U X m else X.
    (** the slices from [t] on: U_(n-1) ... U_t *)
    Definition later (U : nat -> M) (n t : nat) : M := evolved (fun i => U (t + i)%N) 1%:M (n - t).
    (** slice [t] multiplied by 1 + X *)
    Definition nudge (U : nat -> M) (t : nat) (X : M) (i : nat) : M := if i == t then U i *m (1%:M + X) else U i.
    (** state and co-state at the beginning of slice [t] *)
    Definition state_at (U : nat -> M) (rho0 : M) (t : nat) : M := evolved U 1%:M t *m rho0 *m dagger (evolved U 1%:M t).
    Definition costate_at (U : nat -> M) (n : nat) (target : M) (t : nat) : M := dagger (later U n t) *m target *m later U n t.
    (** overlap of two density matrices *)
    Definition overlap (X Y : M) : C := \tr (dagger X *m Y).
    (** fidelity of two density matrices *)
    Definition uhlmann (sqrtm : M -> M) (rho sigma : M) : C := `|\tr (sqrtm (sqrtm rho *m sigma *m sqrtm rho))| ^+ 2.
  End Dim.
End Spec.

Section States.
  Variables (C : numClosedFieldType) (n : nat).
  (** <u|X|v> *)
  Definition sandwich (u : 'cV[C]_n) (X : 'M[C]_n) (v : 'cV[C]_n) : C := (dagger u *m X *m v) 0 0.
  Definition semidefinite (X : 'M[C]_n) : Prop := hermitian X /\ forall v, 0 <= sandwich v X v.
  (** the projector |psi><psi| *)
  Definition pure (psi : 'cV[C]_n) : 'M[C]_n := psi *m dagger psi.
  (** [R] is the square root of the positive semidefinite matrix [X]; [sqrtm] finds it for pure states *)
  Definition root_of (X R : 'M[C]_n) : Prop := semidefinite R /\ R *m R = X.
  Definition roots_pure (sqrtm : 'M[C]_n -> 'M[C]_n) : Prop := forall psi, root_of (pure psi) (sqrtm (pure psi)).
End States.

(** ** The bundled problems *)
Section Problems.
  Variable C : numClosedFieldType.
  (** Hamiltonian (delta1 sigma_z + (x + delta2) sigma_x) / 2 of a driven qubit, entry by entry *)
  Definition qubit_hamiltonian (x delta1 delta2 : C) : 'M[C]_2 :=
    \matrix_(i, j) (if i == j then (if val i == 0%N then delta1 / 2%:R else - delta1 / 2%:R) else (x + delta2) / 2%:R).
  (** the state reached from [psi0] under the amplitudes [drive], one after the other *)
  Fixpoint driven (expm : 'M[C]_2 -> 'M[C]_2) (delta1 delta2 dt : C) (drive : seq C) (psi : 'cV[C]_2) : 'cV[C]_2 :=
    if drive is x :: drive then driven expm delta1 delta2 dt drive (expm ((- 'i * dt) *: qubit_hamiltonian x delta1 delta2) *m psi) else psi.
  (** u and v describe the same physical state *)
  Definition same_ray {n} (u v : 'cV[C]_n) : Prop := exists c, `|c| = 1 /\ v = c *: u.
End Problems.

(** ** Requests to a problem that keeps propagators between calls *)
Section Requests.
  Variable X V : Type.
  (** the propagators of a control, the figure of merit of a control *)
  Inductive request := Propagators (x : X) | Merit (x : X).
  Definition control_of (r : request) : X := match r with Propagators x => x | Merit x => x end.
  (** the answers if each figure of merit belongs to the control last given to a request for propagators since the figure of merit
      before, and to its own control if there was no such request; no answer for propagators *)
  Fixpoint pending_answers (merit : X -> V) (pending : option X) (rs : seq request) : seq (option V) :=
    match rs with
    | [::] => [::]
    | Propagators x :: rs => None :: pending_answers merit (Some x) rs
    | Merit x :: rs => Some (merit (odflt x pending)) :: pending_answers merit None rs
    end.
  (** an evaluation of the gradient method: propagators, then the figure of merit unless the evaluation is refused *)
  Definition evaluation (e : X * bool) : seq request := Propagators e.1 :: if e.2 then [::] else [:: Merit e.1].
  (** each figure of merit belongs to its own control *)
  Definition own_answers (merit : X -> V) (rs : seq request) : seq (option V) :=
    [seq (if r is Merit x then Some (merit x) else None) | r <- rs].
End Requests.
