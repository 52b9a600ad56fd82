(** * What curves the shipped bases are said to draw.
    Only real analysis: nothing here refers to the model. *)
From Coq Require Import Reals List Lra.
From Coquelicot Require Import Coquelicot.
Import ListNotations.
Local Open Scope R_scope.

(** the error function and the distribution function of the normal law *)
Definition erf (x : R) : R := 2 / sqrt PI * RInt (fun t => exp (- t ^ 2)) 0 x.
Definition Phi (z : R) : R := (1 + erf (z / sqrt 2)) / 2.

(** sum of the numbers 0, ..., n - 1 under [f] *)
Fixpoint summed (f : nat -> R) (n : nat) : R := match n with O => 0 | S n => summed f n + f n end.

(** a sum of [k] harmonics with the frequencies [w] (in oscillations per duration [T]); harmonic i has the coefficients 2i of the sine
    and 2i+1 of the cosine *)
Definition harmonics (k : nat) (T : R) (w x : list R) (t : R) : R :=
  summed (fun i => nth (2 * i) x 0 * sin (2 * PI * nth i w 0 * (t / T)) + nth (2 * i + 1) x 0 * cos (2 * PI * nth i w 0 * (t / T))) k.
(** size of harmonic i *)
Definition size_of (x : list R) (i : nat) : R := sqrt (nth (2 * i) x 0 ^ 2 + nth (2 * i + 1) x 0 ^ 2).

(** sin y / y with the value 1 at 0 *)
Definition cardinal_sine (y : R) : R := if Req_EM_T y 0 then 1 else sin y / y.
Definition cardinal_series (k : nat) (bmax T : R) (w x : list R) (t : R) : R :=
  summed (fun i => nth i x 0 * cardinal_sine (2 * PI * bmax * (t - nth i w 0) / T)) k.

(** Chebyshev polynomials *)
Fixpoint chebyshev (n : nat) (x : R) : R :=
  match n with
  | O => 1
  | S n' => match n' with O => x | S n'' => 2 * x * chebyshev n' x - chebyshev n'' x end
  end.

(** smooth steps: step i of height [amps (i+1)] at [taus i] with width [sigmas i]; the opening step of height [amps 0] at [off], and a
    closing step that takes everything back at [T - off] *)
Definition smooth_steps (k : nat) (off sigma T : R) (amps taus sigmas : list R) (t : R) : R :=
  summed (fun i => nth (i + 1) amps 0 * Phi ((t - nth i taus 0) / nth i sigmas 0)) k
  + nth 0 amps 0 * Phi ((t - off) / sigma)
  - summed (fun i => nth i amps 0) (k + 1) * Phi ((t - (T - off)) / sigma).
