(** How the contribution of one slice changes with its amplitude. *)
From Coq Require Import Reals Lra.
From mathcomp Require Import all_ssreflect all_algebra.
From mathcomp.real_closed Require Import complex.
From Verif Require Import RealStruct SpecQuantum ModelQuantum ProofQuantum ProofSpectral ProofFidelity ProofMatrixCalculus ProofFrobenius ProofAntiderivative.
Import Order.TTheory GRing.Theory Num.Theory.
Set Implicit Arguments.
Unset Strict Implicit.
Unset Printing Implicit Defensive.
Local Open Scope ring_scope.

Lemma exchange_terms (Z : zmodType) (a b c e f g : Z) : a - b - (c - e) = (a - f) - (b - g) + ((f - c) - (g - e)).
Proof.
  rewrite !opprB [RHS]addrACA [a - f + _]addrA subrK [g - b + _]addrC [e - g + _]addrA subrK.
  by rewrite [LHS]addrACA [RHS]addrACA [- b - c]addrC.
Qed.
Section Flow.
  Variable d : nat.
  Notation M := 'M[Cx]_d.
  Definition flow (K : M) (V : R -> M) : Prop := V R0 = 1%:M /\ forall s, mder V s ((- 'i *: K) *m V s).

  Lemma conj_neg_i : (- 'i)^* = 'i :> Cx.
  Proof. apply: cx_eq; rewrite ?re_conj ?im_conj ?re_opp ?im_opp ?re_i ?im_i; ring. Qed.
  Lemma flow_unitary K V : adj K = K -> flow K V -> forall s, adj (V s) *m V s = 1%:M /\ V s *m adj (V s) = 1%:M.
  Proof.
    move=> HK [V0 DV] s. have E : adj (V s) *m V s = 1%:M.
    { rewrite (@constant_matrix _ _ (fun u => adj (V u) *m V u) _ s); first by rewrite V0 adj1 mulmx1.
      move=> u. have := mmul (madj (DV u)) (DV u). rewrite adj_mul adj_scale conj_neg_i HK. set D := _ + _. have -> : D = 0; last by [].
      by rewrite /D -mulmxA -scalemxAl -scalemxAl -!scalemxAr !scaleNr subrr. }
    split=> //. exact: mulmx1C.
  Qed.

  Section One.
    Variables (K : M) (V : R -> M).
    Hypotheses (HK : adj K = K) (FV : flow K V).
    Let VV s : adj (V s) *m V s = 1%:M := proj1 (flow_unitary HK FV s).
    Let Vv s : V s *m adj (V s) = 1%:M := proj2 (flow_unitary HK FV s).
    (** a matrix seen from the moving frame *)
    Definition turned (B : M) (s : R) : M := adj (V s) *m B *m V s.
    Lemma turned0 B : turned B R0 = B. Proof. by rewrite /turned (proj1 FV) adj1 mul1mx mulmx1. Qed.
    Lemma nrm_turned B s : nrm (turned B s) = nrm B.
    Proof. rewrite /turned -mulmxA nrm_ul ?adjK // nrm_ur //. Qed.
    Lemma turned_der B s : mder (turned B) s (turned ('i *: commutator K B) s).
    Proof.
      have := mmul (mmulr B (madj (proj2 FV s))) (proj2 FV s). rewrite adj_mul adj_scale conj_neg_i HK.
      set D := _ + _. have -> : D = turned ('i *: commutator K B) s; last by [].
      by rewrite /D /turned /commutator -!scalemxAl -!scalemxAr -!scalemxAl scaleNr -scalerBr mulmxBr mulmxBl !mulmxA.
    Qed.
    Lemma nrm_i n m (X : 'M[Cx]_(n, m)) : nrm ('i *: X) = nrm X.
    Proof. by rewrite -[LHS]nrm_opp -scaleNr nrm_neg_i. Qed.
    Lemma ip_der m n (Y : 'M[Cx]_(m, n)) F s D : mder F s D -> derivable_pt_lim (fun u => ip Y (F u)) s (ip Y D).
    Proof. move=> H. by have [A _] := mtrace (mmull (adj Y) H). Qed.
    Local Open Scope R_scope.
    (** a matrix function with bounded derivative *)
    Lemma moved_by (F F' : R -> M) b : (forall s, 0 <= s <= 1 -> mder F s (F' s)) -> (forall s, 0 <= s <= 1 -> nrm (F' s) <= b) ->
      forall s, 0 <= s <= 1 -> nrm (F s - F 0)%R <= b * s.
    Proof.
      move=> DF B s S. set Y := (F s - F 0)%R.
      have H : Rabs (ip Y (F s) - ip Y (F 0)) <= 0 * s ^ 2 / 2 + (nrm Y * b) * s.
      { apply: (@growth (fun u => ip Y (F u)) (fun u => ip Y (F' u))) => // u U; first exact: ip_der (DF u U).
        have := cs Y (F' u). have := B u U. have := nrm_ge0 Y. nra. }
      have E : ip Y (F s) - ip Y (F 0) = nrm Y * nrm Y. { by rewrite nrm_sq -[ip Y Y]/(ip Y (F s - F 0)%R) ip_addr ip_oppr. }
      rewrite E in H. have P := nrm_ge0 Y. have B0 := Rle_trans _ _ _ (nrm_ge0 (F' s)) (B s S).
      move: (Rle_abs (nrm Y * nrm Y)) => A. have H' : nrm Y * nrm Y <= nrm Y * (b * s) by lra.
      case: P => [P|<-]; first exact: Rmult_le_reg_l P H'. apply: Rmult_le_pos; lra.
    Qed.
    Lemma turned_moves B s : 0 <= s <= 1 -> nrm (turned B s - B)%R <= nrm (commutator K B) * s.
    Proof.
      move=> S. have := @moved_by (turned B) (turned ('i *: commutator K B)%R) (nrm (commutator K B)) _ _ s S. rewrite turned0. apply.
      - move=> u _. exact: turned_der.
      - move=> u _. rewrite nrm_turned nrm_i. exact: Rle_refl.
    Qed.
    Local Close Scope R_scope.

    Section Changed.
      Variables (B : M) (eps : R) (W : R -> M) (rho mu : M).
      Hypotheses (HB : adj B = B) (FW : flow (K + creal eps *: B) W).
      Let HKB : adj (K + creal eps *: B) = K + creal eps *: B.
      Proof.
        rewrite adj_add adj_scale HK HB. have -> : (creal eps)^* = creal eps; last by [].
        apply: cx_eq; rewrite ?re_conj ?im_conj ?im_creal //. ring.
      Qed.
      Definition relative (s : R) : M := adj (V s) *m W s.
      Definition seen (s : R) : M := relative s *m rho *m adj (relative s).
      Lemma relative_unitary s : adj (relative s) *m relative s = 1%:M /\ relative s *m adj (relative s) = 1%:M.
      Proof.
        have [A A'] := flow_unitary HKB FW s. rewrite /relative adj_mul adjK. split.
        - by rewrite mulmxA -[adj (W s) *m V s *m _]mulmxA Vv mulmx1.
        - by rewrite mulmxA -[adj (V s) *m W s *m _]mulmxA A' mulmx1.
      Qed.
      Lemma seen0 : seen R0 = rho.
      Proof. by rewrite /seen /relative (proj1 FV) (proj1 FW) adj1 mulmx1 adj1 mul1mx mulmx1. Qed.
      Lemma nrm_seen s : nrm (seen s) = nrm rho.
      Proof. have [A A'] := relative_unitary s. rewrite /seen -mulmxA nrm_ul // nrm_ur // adjK. exact: A. Qed.
      Lemma relative_der s : mder relative s (creal eps *: (- 'i *: (turned B s *m relative s))).
      Proof.
        have := mmul (madj (proj2 FV s)) (proj2 FW s). rewrite adj_mul adj_scale conj_neg_i HK. set D := _ + _.
        have -> : D = creal eps *: (- 'i *: (turned B s *m relative s)); last by [].
        have E1 : turned B s *m relative s = adj (V s) *m B *m W s.
        { by rewrite /turned /relative !mulmxA -[_ *m B *m V s *m _]mulmxA Vv mulmx1. }
        rewrite /D E1 scalerDr mulmxDl mulmxDr addrA.
        have -> : adj (V s) *m ('i *: K) *m W s + adj (V s) *m ((- 'i *: K) *m W s) = 0.
        { by rewrite mulmxA -!scalemxAr -!scalemxAl scaleNr subrr. }
        by rewrite add0r mulmxA -!scalemxAr -!scalemxAl !scalerA mulrC.
      Qed.
      Lemma adj_turned s : adj (turned B s) = turned B s.
      Proof. by rewrite /turned !adj_mul adjK HB mulmxA. Qed.
      Lemma seen_der s : mder seen s (creal eps *: (- 'i *: commutator (turned B s) (seen s))).
      Proof.
        have := mmul (mmulr rho (relative_der s)) (madj (relative_der s)). set D := _ + _.
        have -> : D = creal eps *: (- 'i *: commutator (turned B s) (seen s)); last by [].
        have Ec : (creal eps)^* = creal eps by apply: cx_eq; rewrite ?re_conj ?im_conj ?im_creal //; ring.
        rewrite /D /commutator /seen !adj_scale adj_mul adj_turned conj_neg_i Ec -!scalemxAl -!scalemxAr -scalerDr.
        congr (_ *: _). rewrite scalerBr !scaleNr opprK. by rewrite !mulmxA.
      Qed.
      Local Open Scope R_scope.
      Lemma seen_moves s : 0 <= s <= 1 -> nrm (seen s - rho)%R <= (Rabs eps * (2 * (nrm B * nrm rho))) * s.
      Proof.
        move=> S. have := @moved_by seen (fun s => creal eps *: (- 'i *: commutator (turned B s) (seen s)))%R (Rabs eps * (2 * (nrm B * nrm rho))) _ _ s S. rewrite seen0. apply.
        - move=> u _. exact: seen_der.
        - move=> u _. rewrite nrm_scale nrm_neg_i. apply: Rmult_le_compat_l; first exact: Rabs_pos.
          have := nrm_commutator (turned B u) (seen u). by rewrite nrm_turned nrm_seen.
      Qed.
      (** the overlap with [mu] *)
      Definition entry_of (A X : M) : R := ip mu (- 'i *: commutator A X)%R.
      Lemma entry_diff A X A' X' : entry_of A X - entry_of A' X' = ip mu (- 'i *: (commutator (A - A') X + commutator A' (X - X')))%R.
      Proof.
        rewrite /entry_of -[Rminus _ _]/(Rplus _ _) -ip_oppr -ip_addr -scalerBr. congr (ip mu (_ *: _)).
        rewrite /commutator !mulmxBl !mulmxBr. exact: exchange_terms.
      Qed.
      Lemma entry_bound A X A' X' : Rabs (entry_of A X - entry_of A' X') <= nrm mu * (2 * (nrm (A - A')%R * nrm X) + 2 * (nrm A' * nrm (X - X')%R)).
      Proof.
        rewrite entry_diff. apply: Rle_trans (cs _ _) _. apply: Rmult_le_compat_l; first exact: nrm_ge0. rewrite nrm_neg_i.
        apply: Rle_trans (nrm_add _ _) _. apply: Rplus_le_compat; exact: nrm_commutator.
      Qed.
      Lemma seen_ip_der s : derivable_pt_lim (fun u => ip mu (seen u)) s (eps * entry_of (turned B s) (seen s)).
      Proof. rewrite -ip_scaler. exact: ip_der (seen_der s). Qed.
      Lemma change_linear : Rabs (ip mu (seen 1) - ip mu rho - eps * entry_of B rho)
        <= Rabs eps * (nrm mu * nrm rho) * (nrm (commutator K B) + 2 * Rabs eps * (nrm B * nrm B)).
      Proof.
        pose f s := ip mu (seen s) - eps * entry_of B rho * s. pose f' s := eps * (entry_of (turned B s) (seen s) - entry_of B rho).
        set a := Rabs eps * (nrm mu * (2 * (nrm (commutator K B) * nrm rho) + 2 * (nrm B * (Rabs eps * (2 * (nrm B * nrm rho)))))).
        have H : Rabs (f 1 - f 0) <= a * 1 ^ 2 / 2 + 0 * 1.
        { apply: (@growth f f' a 0) => [s S|s S|]; last lra.
          - apply: dval (derivable_pt_lim_minus _ _ _ _ _ (seen_ip_der s) (derivable_pt_lim_scal _ (eps * entry_of B rho) _ _ (derivable_pt_lim_id s))).
            rewrite /f'. ring.
          - rewrite /f' Rabs_mult Rplus_0_r. rewrite /a Rmult_assoc. apply: Rmult_le_compat_l; first exact: Rabs_pos.
            apply: Rle_trans (entry_bound _ _ _ _) _. rewrite Rmult_assoc. apply: Rmult_le_compat_l; first exact: nrm_ge0. rewrite nrm_seen.
            have A1 := turned_moves B S. have A2 := seen_moves S. have P1 := nrm_ge0 rho. have P2 := nrm_ge0 B.
            have B1 := Rmult_le_compat_r _ _ _ P1 A1. have B2 := Rmult_le_compat_l _ _ _ P2 A2. lra. }
        move: H. rewrite /f. have -> : seen 0 = rho by exact: seen0. move=> H.
        have -> : ip mu (seen 1) - ip mu rho - eps * entry_of B rho = ip mu (seen 1) - eps * entry_of B rho * 1 - (ip mu rho - eps * entry_of B rho * 0) by ring.
        apply: Rle_trans H _. rewrite /a. apply: Req_le. field.
      Qed.
      Lemma change_exact G : (forall s, derivable_pt_lim G s (entry_of (turned B s) rho)) ->
        Rabs (ip mu (seen 1) - ip mu rho - eps * (G 1 - G 0)) <= 2 * (nrm mu * nrm rho) * (nrm B * nrm B) * (Rabs eps * Rabs eps).
      Proof.
        move=> DG. pose f s := ip mu (seen s) - eps * G s. pose f' s := eps * (entry_of (turned B s) (seen s) - entry_of (turned B s) rho).
        set a := Rabs eps * (nrm mu * (2 * (nrm B * (Rabs eps * (2 * (nrm B * nrm rho)))))).
        have H : Rabs (f 1 - f 0) <= a * 1 ^ 2 / 2 + 0 * 1.
        { apply: (@growth f f' a 0) => [s S|s S|]; last lra.
          - apply: dval (derivable_pt_lim_minus _ _ _ _ _ (seen_ip_der s) (derivable_pt_lim_scal _ eps _ _ (DG s))).
            rewrite /f'. ring.
          - rewrite /f' Rabs_mult Rplus_0_r. rewrite /a Rmult_assoc. apply: Rmult_le_compat_l; first exact: Rabs_pos.
            apply: Rle_trans (entry_bound _ _ _ _) _. rewrite Rmult_assoc. apply: Rmult_le_compat_l; first exact: nrm_ge0. rewrite subrr nrm_turned.
            have -> : nrm (0%R : M) = 0 by rewrite /nrm /ip mulmx0 mxtrace0 re_0 sqrt_0.
            have A2 := seen_moves S. have P2 := nrm_ge0 B. have B2 := Rmult_le_compat_l _ _ _ P2 A2. lra. }
        move: H. rewrite /f. have -> : seen 0 = rho by exact: seen0. move=> H.
        have -> : ip mu (seen 1) - ip mu rho - eps * (G 1 - G 0) = ip mu (seen 1) - eps * G 1 - (ip mu rho - eps * G 0) by ring.
        apply: Rle_trans H _. rewrite /a. apply: Req_le. field.
      Qed.
    End Changed.
    Local Open Scope R_scope.
    (** the derivative lies close to the entry *)
    Lemma mean_entry B rho mu : exists L, Rabs (L - entry_of mu B rho) <= nrm mu * nrm rho * nrm (commutator K B) /\
      forall eps W, adj B = B -> flow (K + creal eps *: B)%R W ->
        Rabs (ip mu (seen W rho 1) - ip mu rho - eps * L) <= 2 * (nrm mu * nrm rho) * (nrm B * nrm B) * (Rabs eps * Rabs eps).
    Proof.
      have D : forall s, derivable_pt_lim (fun s => entry_of mu (turned B s) rho) s (entry_of mu (turned ('i *: commutator K B)%R s) rho).
      { move=> s. rewrite /entry_of /commutator. have T := turned_der B s.
        have := ip_der mu (mmull (- 'i)%:M (madd (mmulr rho T) (mopp (mmull rho T)))). rewrite mul_scalar_mx.
        apply: dext => x. by rewrite mul_scalar_mx. }
      have [G [G0 DG]] := antiderivative_exists _ _ D. exists (G 1 - G 0). split.
      - pose f s := G s - entry_of mu B rho * s. pose f' s := entry_of mu (turned B s) rho - entry_of mu B rho.
        set a := nrm mu * (2 * (nrm (commutator K B) * nrm rho)).
        have H : Rabs (f 1 - f 0) <= a * 1 ^ 2 / 2 + 0 * 1.
        { apply: (@growth f f' a 0) => [s S|s S|]; last lra.
          - apply: dval (derivable_pt_lim_minus _ _ _ _ _ (DG s) (derivable_pt_lim_scal _ (entry_of mu B rho) _ _ (derivable_pt_lim_id s))). rewrite /f'. ring.
          - rewrite /f' Rplus_0_r. apply: Rle_trans (entry_bound _ _ _ _ _) _. rewrite /a Rmult_assoc. apply: Rmult_le_compat_l; first exact: nrm_ge0. rewrite subrr.
            have -> : nrm (0%R : M) = 0 by rewrite /nrm /ip mulmx0 mxtrace0 re_0 sqrt_0.
            have A1 := turned_moves B S. have P1 := nrm_ge0 rho. have B1 := Rmult_le_compat_r _ _ _ P1 A1. lra. }
        move: H. rewrite /f => H. have -> : G 1 - G 0 - entry_of mu B rho = G 1 - entry_of mu B rho * 1 - (G 0 - entry_of mu B rho * 0) by ring.
        apply: Rle_trans H _. rewrite /a. apply: Req_le. field.
      - move=> eps W HB FW. exact: change_exact.
    Qed.
    Local Close Scope R_scope.
    (** seen from the end of the slice *)
    Lemma seen_end W rho lam : ip (turned lam R1) (seen W rho R1) = ip lam (W R1 *m rho *m adj (W R1)).
    Proof.
      rewrite /ip /seen /turned /relative !adj_mul !adjK !mulmxA -[_ *m adj lam *m V _ *m adj (V _)]mulmxA Vv mulmx1.
      rewrite mxtrace_mulC !mulmxA Vv mul1mx. by [].
    Qed.
  End One.
End Flow.
