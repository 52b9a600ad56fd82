(** * Model of the shipped bases, quocslib/pulses/basis/*.py. *)
From Coq Require Import String ZArith List Bool.
From Verif Require Import Num Py ModelPulse.
Import ListNotations.
Open Scope list_scope.

(** Elementary functions that the bases take from numpy and scipy.  They are parameters of the model:
    nothing about them is assumed unless a theorem says so. *)
Record funs {N : Num} := mk_funs {
  f_sin : num -> num;
  f_cos : num -> num;
  f_acos : num -> num;
  f_erf : num -> num;
  f_pi : num
}.
Arguments funs : clear implicits.

Section Bases.
  Context {N : Num} (F : funs N).
  Open Scope num_scope.

  Let n1 := of_Z 1.
  Let n2 := of_Z 2.
  (** the literals 1e-10 (also written 10**(-10)) and 1.0e-20; the quotients are the correctly rounded
      literals in binary64 *)
  Definition em10 : num := n1 / of_Z 10000000000.
  Definition em20 : num := n1 / of_Z 100000000000000000000.

  (** Settings of a pulse that only its basis reads: the dictionary "basis" and "amplitude_variation". *)
  Record basis_settings := mk_basis_settings {
    bs_k : nat;               (* basis_vector_number *)
    bs_w_lower : num;         (* random_super_parameter_distribution: lower_limit *)
    bs_w_upper : num;         (* random_super_parameter_distribution: upper_limit *)
    bs_ampl : num;            (* amplitude_variation *)
    bs_basis_max : num;       (* Sinc.py:45 *)
    bs_offset : num;          (* Sigmoid*.py *)
    bs_sigma : num;
    bs_tau_var : num;
    bs_sigma_var : num
  }.

  (** [for ii in range(k): pulse += term(ii)] *)
  Fixpoint add_terms (term : nat -> res arr) (l : list nat) (pulse : arr) : res arr :=
    match l with
    | [] => Ok pulse
    | i :: l => t <-! term i; pulse <-! aiadd pulse t; add_terms term l pulse
    end.

  (** [xx[i]] with a non-negative index *)
  Definition at_ (l : list num) (i : nat) : res num := py_nth l (Z.of_nat i).

  (** np.zeros(self.bins_number) *)
  Definition zero_pulse (c : pcore) : arr := Ar (zeros (pc_bins c)).

  (** Fourier.py:52-70, DummyBasis.py:65-90 and the sum of Walsh.py:76-78 *)
  Definition fourier_term (c : pcore) (i : nat) : res arr :=
    a <-! at_ (pc_opt c) (2 * i);
    w <-! at_ (pc_w c) i;
    b <-! at_ (pc_opt c) (2 * i + 1);
    let arg t := n2 * f_pi F * w * t / pc_final_time c in
    Ok (Ar (map (fun t => a * f_sin F (arg t) + b * f_cos F (arg t)) (pc_time_grid c))).
  Definition fourier_shape (k : nat) (c : pcore) : res arr :=
    add_terms (fourier_term c) (seq 0 k) (zero_pulse c).

  (** Sinc.py:61-64 *)
  Definition sinc (t : num) : num :=
    let y := if neqb t (of_Z 0) then em20 else t in f_sin F y / y.
  (** Sinc.py:54-78 *)
  Definition sinc_term (bmax : num) (c : pcore) (i : nat) : res arr :=
    a <-! at_ (pc_opt c) i;
    w <-! at_ (pc_w c) i;
    Ok (Ar (map (fun t => a * sinc (n2 * f_pi F * bmax * (t - w) / pc_final_time c)) (pc_time_grid c))).
  Definition sinc_shape (s : basis_settings) (c : pcore) : res arr :=
    add_terms (sinc_term (bs_basis_max s) c) (seq 0 (bs_k s)) (zero_pulse c).

  (** the step [a/2 * (erf((t - tau)/(sqrt(2)*sigma)) + 1)] of the sigmoid bases *)
  Definition step (c : pcore) (a tau sigma : num) : arr :=
    Ar (map (fun t => a / n2 * (f_erf F ((t - tau) / (nsqrt n2 * sigma)) + n1)) (pc_time_grid c)).
  (** [-np.sum(a)]; the unary minus of numpy is the sign flip, written [-1 * x] *)
  Definition neg (x : num) : num := of_Z (-1) * x.

  (** the common end of the sigmoid bases: steps at [taus] with the given widths, the first step and,
      if [closing], the closing step (Sigmoid.py:70-73, SigmoidTimeDep.py:93-100, SigmoidSigmas.py:88-94,
      SigmoidAllParas.py:136-144) *)
  Definition sigmoid_sum (s : basis_settings) (c : pcore) (amps taus sigmas : list num) (closing : bool)
    : res arr :=
    p <-! add_terms (fun i => a <-! at_ amps (i + 1); tau <-! at_ taus i; sg <-! at_ sigmas i;
                              Ok (step c a tau sg)) (seq 0 (bs_k s)) (zero_pulse c);
    a0 <-! at_ amps 0;
    p <-! aiadd p (step c a0 (bs_offset s) (bs_sigma s));
    if closing
    then aiadd p (step c (neg (nsum amps)) (pc_final_time c - bs_offset s) (bs_sigma s))
    else Ok p.

  (** Sigmoid.py:55-74; the same width for every step *)
  Definition sigmoid_shape (s : basis_settings) (c : pcore) : res arr :=
    sigmoid_sum s c (pc_opt c) (pc_w c) (repeat (bs_sigma s) (bs_k s)) true.

  (** np.sort; simplification: insertion sort, which gives the same list up to the order of equal
      elements for lists without NaN *)
  Fixpoint insert (x : num) (l : list num) : list num :=
    match l with
    | [] => [x]
    | y :: l => if x <=? y then x :: y :: l else y :: insert x l
    end.
  Definition npsort (l : list num) : list num := fold_right insert [] l.

  (** [l[0]] and [l[-1]] *)
  Definition first_of (l : list num) : res num := py_nth l 0.
  Definition last_of (l : list num) : res num := py_nth l (-1).

  (** SigmoidTimeDep.py:77-91, SigmoidAllParas.py:112-125: keep the step times inside the pulse *)
  Definition confine_taus (off T : num) (taus : list num) : res (list num) :=
    let sorted := npsort taus in
    first <-! first_of sorted;
    last <-! last_of sorted;
    if Nat.eqb (length sorted) 1 then
      if first <? off then Ok [off]
      else if (T - off) <? first then Ok [T - off]
      else Ok taus
    else if ((first <? off) || ((T - off) <? last))%bool then
      let last := if last <? (T - off) then T - off else last in
      let first := if off <? first then off else first in
      let rel := map (fun tau => tau - (last - first) / n2 - first) taus in
      Ok (map (fun r => T / n2 + r * n2 * (T / n2 - off) / (last - first)) rel)
    else Ok taus.

  Definition samples_of (a : arr) : list num := match a with Sc x => [x] | Ar l => l end.

  (** SigmoidTimeDep.py:62-100 *)
  Definition sigmoid_timedep_shape (s : basis_settings) (c : pcore) : res arr :=
    let h := Nat.div (length (pc_opt c) + 1) 2 in
    let amps := firstn h (pc_opt c) in
    let del_tau := map (fun x => x * bs_tau_var s / bs_ampl s) (skipn h (pc_opt c)) in
    taus <-! abin nadd (Ar (pc_w c)) (Ar del_tau);
    taus <-! confine_taus (bs_offset s) (pc_final_time c) (samples_of taus);
    sigmoid_sum s c amps taus (repeat (bs_sigma s) (bs_k s)) true.

  (** SigmoidSigmas.py:80-86, SigmoidAllParas.py:127-134: widths confined by the distance to the edges *)
  Definition confine_sigmas (s : basis_settings) (T : num) (taus del_sig : list num) : res (list num) :=
    let kappa := bs_sigma s / bs_offset s in
    rmap (fun i =>
            tau <-! at_ taus i;
            d <-! at_ del_sig i;
            let dmax := (T / n2 - nabs (T / n2 - tau)) * kappa - bs_sigma s in
            Ok (bs_sigma s + dmax * (n1 - f_cos F (f_pi F * d)) / n2)) (seq 0 (length del_sig)).

  (** SigmoidSigmas.py:59-94 *)
  Definition sigmoid_sigmas_shape (s : basis_settings) (c : pcore) : res arr :=
    let h := Nat.div (length (pc_opt c) + 1) 2 in
    let amps := firstn h (pc_opt c) in
    let del_sig := map (fun x => nabs x * bs_sigma_var s) (skipn h (pc_opt c)) in
    sigmas <-! (if em10 <=? bs_offset s
                then confine_sigmas s (pc_final_time c) (pc_w c) del_sig
                else Ok (map (fun d => d + bs_sigma s) del_sig));
    sigmoid_sum s c amps (pc_w c) sigmas true.

  (** SigmoidAllParas.py:53-57: which quantities are optimised *)
  Definition has_tau (s : basis_settings) : bool := em10 <? bs_tau_var s.
  Definition has_sigma (s : basis_settings) : bool := em10 <? bs_sigma_var s.
  (** SigmoidAllParas.py:76-107: amplitudes, time adjustments and width adjustments *)
  Definition allparas_split (s : basis_settings) (n : nat) (x : list num) : list num * list num * list num :=
    let tau_of l := map (fun y => y * bs_tau_var s / bs_ampl s) l in
    let sig_of l := map (fun y => nabs y * bs_sigma_var s / bs_ampl s) l in
    if has_tau s then
      if has_sigma s then
        (firstn (n + 1) x, tau_of (firstn n (skipn (n + 1) x)), sig_of (skipn (2 * n + 1) x))
      else (firstn (n + 1) x, tau_of (skipn (n + 1) x), zeros n)
    else if has_sigma s then (firstn (n + 1) x, zeros n, sig_of (skipn (n + 1) x))
    else (x, zeros n, zeros n).
  (** SigmoidAllParas.py:66-144 *)
  Definition sigmoid_allparas_shape (s : basis_settings) (c : pcore) : res arr :=
    let n := length (pc_w c) in
    let '(amps, del_tau, del_sig) := allparas_split s n (pc_opt c) in
    taus <-! aiadd (Ar (zeros n)) (Ar (pc_w c));
    taus <-! (if has_tau s
              then taus <-! aiadd taus (Ar del_tau);
                   confine_taus (bs_offset s) (pc_final_time c) (samples_of taus)
              else Ok (samples_of taus));
    sigmas <-! (if (has_sigma s && (em10 <=? bs_offset s))%bool
                then confine_sigmas s (pc_final_time c) taus del_sig
                else Ok (map (fun d => d + bs_sigma s) del_sig));
    sigmoid_sum s c amps taus sigmas (em10 <=? bs_offset s).

  (** Chebyshev.py:53-72 *)
  Definition cheb_arg (T t : num) : num := of_Z (-1) + em10 + n2 * (n1 - em10) * t / T.
  Definition chebyshev_term (c : pcore) (i : nat) : res arr :=
    a <-! at_ (pc_opt c) (2 * i);
    w <-! at_ (pc_w c) i;
    b <-! at_ (pc_opt c) (2 * i + 1);
    Ok (Ar (map (fun t => a * f_cos F (w * f_acos F (cheb_arg (pc_final_time c) t) + b)) (pc_time_grid c))).
  Definition chebyshev_shape (k : nat) (c : pcore) : res arr :=
    add_terms (chebyshev_term c) (seq 0 k) (zero_pulse c).

  (** Walsh.py:59-89: a Fourier sum, limited together with the initial guess *)
  Definition walsh_shape (k : nat) (c : pcore) : res arr :=
    p <-! fourier_shape k c;
    g <-! get_initial_guess c;
    p <-! abin nadd g p;
    p <-! get_limited_pulse c p;
    g <-! get_initial_guess c;
    abin nsub p g.

  (** PiecewiseBasis.py:49-62 *)
  Definition piecewise_shape (c : pcore) : res arr := Ok (Ar (pc_opt c)).

  Inductive basis_kind :=
  | Fourier | Sinc | Sigmoid | SigmoidTimeDep | SigmoidSigmas | SigmoidAllParas | Chebyshev | Walsh
  | DummyBasis | Piecewise.

  (** the method _get_shaped_pulse of each class *)
  Definition basis_shape (b : basis_kind) (s : basis_settings) : pcore -> res arr :=
    match b with
    | Fourier | DummyBasis => fourier_shape (bs_k s)
    | Sinc => sinc_shape s
    | Sigmoid => sigmoid_shape s
    | SigmoidTimeDep => sigmoid_timedep_shape s
    | SigmoidSigmas => sigmoid_sigmas_shape s
    | SigmoidAllParas => sigmoid_allparas_shape s
    | Chebyshev => chebyshev_shape (bs_k s)
    | Walsh => walsh_shape (bs_k s)
    | Piecewise => piecewise_shape
    end.

  (** control_parameters_number in the constructors: Fourier.py:45, Sinc.py:47, Sigmoid.py:48,
      SigmoidTimeDep.py:53, SigmoidSigmas.py:50, SigmoidAllParas.py:53-57, Chebyshev.py:46, Walsh.py:44,
      DummyBasis.py:50, PiecewiseBasis.py:41 *)
  Definition basis_nctrl (b : basis_kind) (s : basis_settings) (bins : nat) : nat :=
    match b with
    | Fourier | DummyBasis | Chebyshev | Walsh => 2 * bs_k s
    | Sinc => bs_k s
    | Sigmoid => bs_k s + 1
    | SigmoidTimeDep | SigmoidSigmas => 2 * bs_k s + 1
    | SigmoidAllParas => bs_k s + 1 + (if has_tau s then bs_k s else 0) + (if has_sigma s then bs_k s else 0)
    | Piecewise => bins
    end.

  (** scale_coefficients, at the end of each constructor *)
  Definition basis_scale (b : basis_kind) (s : basis_settings) (bins : nat) : list num :=
    let n := basis_nctrl b s bins in
    match b with
    | Fourier | DummyBasis | Chebyshev | Walsh | Sinc => repeat (bs_ampl s / nsqrt n2 * n1) n
    | _ => repeat (bs_ampl s * n1) n
    end.

  (** Pulse settings that do not depend on the basis: user dictionary of BasePulse.py:36-55 *)
  Record common_settings := mk_common_settings {
    cs_name : string; cs_bins : nat; cs_time_name : string; cs_lower : num; cs_upper : num;
    cs_guess : guess_fn; cs_scaling : scaling_fn; cs_shrink : bool; cs_options : option (list string);
    cs_overwrite : bool
  }.

  (** A pulse with a shipped basis.  ChoppedBasis.py:49-54: nothing is overloaded; PiecewiseBasis has no
      random super-parameters. *)
  Definition shipped (b : basis_kind) (s : basis_settings) (u : common_settings) : pulse_cfg :=
    {| pf_name := cs_name u; pf_bins := cs_bins u; pf_time_name := cs_time_name u;
       pf_lower := cs_lower u; pf_upper := cs_upper u; pf_guess := cs_guess u; pf_scaling := cs_scaling u;
       pf_shrink := cs_shrink u; pf_options := cs_options u; pf_overwrite := cs_overwrite u;
       pf_nctrl := basis_nctrl b s (cs_bins u);
       pf_scale := basis_scale b s (cs_bins u);
       pf_offset := zeros (basis_nctrl b s (cs_bins u));
       pf_dist := match b with Piecewise => None | _ => Some (bs_k s, bs_w_lower s, bs_w_upper s) end;
       pf_shape := basis_shape b s; pf_chop := fun c => c |}.
End Bases.
Arguments basis_settings {N}.
