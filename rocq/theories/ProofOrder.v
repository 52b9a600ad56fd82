(** Two runs of which one sees the figure of merit through a function that keeps the order. *)
From Coq Require Import String ZArith List Bool Lia.
From RecordUpdate Require Import RecordSet.
From Verif Require Import Num Py ModelPulse ModelControls ModelLinalg ModelState ModelSearch ModelRun SpecRun SpecOrder.
Import ListNotations RecordSetNotations.
Open Scope list_scope.
Open Scope run_scope.

Lemma py_nth_map {A B} (f : A -> B) l i : py_nth (map f l) i = match py_nth l i with Ok a => Ok (f a) | Err e => Err e end.
Proof.
  unfold py_nth. rewrite map_length. destruct (_ || _)%bool; [reflexivity|]. rewrite nth_error_map. now destruct (nth_error _ _).
Qed.
Lemma set_nth_map {A B} (f : A -> B) l i v : set_nth (map f l) i (f v) = map f (set_nth l i v).
Proof. revert i. induction l as [|a l IH]; intros [|i]; cbn; auto. now rewrite IH. Qed.
Lemma py_set_map {A B} (f : A -> B) l i v : py_set (map f l) i (f v) = match py_set l i v with Ok a => Ok (map f a) | Err e => Err e end.
Proof. unfold py_set. rewrite map_length, set_nth_map. now destruct (_ || _)%bool. Qed.
Lemma gather_through {A B} (f : A -> B) l idx : gather (map f l) idx = match gather l idx with Ok a => Ok (map f a) | Err e => Err e end.
Proof.
  unfold gather. induction idx as [|i idx IH]; cbn; [reflexivity|]. rewrite py_nth_map. destruct (py_nth l i); cbn; [|reflexivity].
  rewrite IH. now destruct (rmap (py_nth l) idx).
Qed.

Lemma py_nth_in {A} (Q : A -> Prop) l i a : Forall Q l -> py_nth l i = Ok a -> Q a.
Proof.
  intros F. unfold py_nth. destruct (_ || _)%bool; [discriminate|]. destruct (nth_error _ _) eqn:E; [|discriminate]. intros [= <-].
  apply nth_error_In in E. rewrite Forall_forall in F. now apply F.
Qed.
Lemma set_nth_in {A} (Q : A -> Prop) l i v : Forall Q l -> Q v -> Forall Q (set_nth l i v).
Proof. intros F Hv. revert i. induction F; intros [|i]; cbn; auto. Qed.
Lemma py_set_in {A} (Q : A -> Prop) l i v l' : Forall Q l -> Q v -> py_set l i v = Ok l' -> Forall Q l'.
Proof. intros F Hv. unfold py_set. destruct (_ || _)%bool; [discriminate|]. intros [= <-]. now apply set_nth_in. Qed.
Lemma gather_in {A} (Q : A -> Prop) l idx l' : Forall Q l -> gather l idx = Ok l' -> Forall Q l'.
Proof.
  intros F. unfold gather. revert l'. induction idx as [|i idx IH]; cbn; intros l'; [intros [= <-]; constructor|].
  destruct (py_nth l i) eqn:E; [|discriminate]. cbn. destruct (rmap _ idx); [|discriminate]. cbn. intros [= <-]. constructor; [|now apply IH].
  exact (py_nth_in _ _ _ _ F E).
Qed.

Section Order.
  Context {N : Num} (PV ok : num -> Prop) (fl hc : num -> num) (G1 : settings) (W1 : world) (tol : num).
  Notation G2 := (goal_through fl tol G1).
  Notation W2 := (through fl W1).
  Hypothesis ord : keeps_order ok hc.
  Hypothesis Hvalues : values_in PV W1.
  Hypothesis Hgoal : forall g, g_goal G1 = Some g -> PV g.
  Hypothesis Hok : forall v, PV v -> ok (factor G1 * v)%num.
  Hypothesis Hcost : forall v, (factor G1 * fl v)%num = hc (factor G1 * v)%num.
  Hypothesis Hlog : forall v, (factor G1 * hc v)%num = fl (factor G1 * v)%num.
  Hypothesis Hin : forall v, inside G1 fl v = hc v.
  Hypothesis Hstart : ok initial_fom.
  Hypothesis Hinit : hc initial_fom = initial_fom.
  Hypothesis Hsort : sorts_by_comparison W1 ok hc.
  Hypothesis Hcma : forall p, g_method G1 = MCMAES p -> samples_by_comparison W1 ok hc.
  Hypothesis Hplain : compares_only G1.
  Hypothesis Hspread : same_spread G1 tol ok hc.

  Let ev := event_through G1 fl.
  Definition view (s : st) : st :=
    mk_st (s_running s) (s_reason s) (s_start s) (s_iter s) (s_alg_iter s) (hc (s_fom s)) (s_std s) (s_status s) (s_xx s) (hc (s_best s))
      (s_best_xx s) (s_is_record s) (map fl (s_fom_list s)) (s_iter_list s) (s_sent s) (s_hist s) (map (event_through G1 fl) (s_trace s)) (s_controls s)
      (s_sc s) (s_re s) (s_book s) (s_cnt s).
  Definition inv (s : st) : Prop := re_step (s_re s) = 0 /\ ok (s_fom s) /\ ok (s_best s).
  Definition like {A} (P : A -> A -> Prop) (m1 m2 : M A) : Prop := forall s, inv s ->
    match m1 s, m2 (view s) with
    | (Ok a, s1), (Ok b, s2) => P a b /\ s2 = view s1 /\ inv s1
    | (Err e, s1), (Err e', s2) => e' = e /\ s2 = view s1 /\ inv s1
    | _, _ => False
    end.
  (** the same result *)
  Notation same := (like eq).
  Lemma like_bind {A B} (P : A -> A -> Prop) (Q : B -> B -> Prop) m1 m2 k1 k2 :
    like P m1 m2 -> (forall a b, P a b -> like Q (k1 a) (k2 b)) -> like Q (bind m1 k1) (bind m2 k2).
  Proof.
    intros H K s I. specialize (H s I). unfold bind. destruct (m1 s) as [[a|e] s1], (m2 (view s)) as [[b|e'] s2]; try contradiction.
    - destruct H as (H & -> & I1). exact (K a b H s1 I1).
    - exact H.
  Qed.
  Lemma like_seq {A B} (P : B -> B -> Prop) (m1 m2 : M A) k1 k2 : same m1 m2 -> (forall a, like P (k1 a) (k2 a)) -> like P (bind m1 k1) (bind m2 k2).
  Proof. intros H K. eapply like_bind; [exact H|]. intros a b ->. apply K. Qed.
  Lemma like_get {B} (P : B -> B -> Prop) k1 k2 : (forall s, inv s -> like P (k1 s) (k2 (view s))) -> like P (bind get k1) (bind get k2).
  Proof. intros K s I. exact (K s I s I). Qed.
  Lemma like_upd f1 f2 : (forall s, f2 (view s) = view (f1 s)) -> (forall s, inv s -> inv (f1 s)) -> same (upd f1) (upd f2).
  Proof. intros H K s I. cbn. rewrite H. auto. Qed.
  Lemma like_ret {A} (P : A -> A -> Prop) a b : P a b -> like P (ret a) (ret b).
  Proof. intros H s I. cbn. auto. Qed.
  Lemma like_raise {A} (P : A -> A -> Prop) e : like P (raise e) (raise e).
  Proof. intros s I. cbn. auto. Qed.
  Lemma like_lift {A} (r : res A) : same (lift r) (lift r).
  Proof. intros s I. cbn. destruct r; auto. Qed.
  Lemma like_lift_map {A} (Q : A -> Prop) (f : A -> A) (r r' : res A) : r' = match r with Ok a => Ok (f a) | Err e => Err e end ->
    (forall a, r = Ok a -> Q a) -> like (fun a b => b = f a /\ Q a) (lift r) (lift r').
  Proof. intros -> K s I. cbn. destruct r; auto. Qed.
  Lemma like_weaken {A} (P Q : A -> A -> Prop) m1 m2 : like P m1 m2 -> (forall a b, P a b -> Q a b) -> like Q m1 m2.
  Proof.
    intros H K s I. specialize (H s I). destruct (m1 s) as [[a|e] s1], (m2 (view s)) as [[b|e'] s2]; try contradiction; intuition.
  Qed.
  Ltac up := apply like_upd; [intros; reflexivity|intros ? ?; assumption].
  Lemma like_emit e : same (emit e) (emit (ev e)).
  Proof. unfold emit. up. Qed.
  Lemma like_emit' e e' : e' = ev e -> same (emit e) (emit e').
  Proof. intros ->. apply like_emit. Qed.
  Lemma like_now : same (now W1) (now W2).
  Proof. unfold now. apply like_get. intros s I. apply like_seq; [up|]. intros _. now apply like_ret. Qed.
  Lemma like_clear c : same (clear c) (clear c).
  Proof. unfold clear. apply like_seq; [up|]. intros _. now apply like_emit'. Qed.
  Lemma like_conv b : same (set_conv b) (set_conv b). Proof. unfold set_conv. up. Qed.
  Lemma like_sc_reason r : same (set_sc_reason r) (set_sc_reason r). Proof. unfold set_sc_reason. up. Qed.
  Lemma like_reason r : same (set_reason r) (set_reason r). Proof. unfold set_reason. up. Qed.
  Lemma like_cancel : same (handle_user_cancellation G1) (handle_user_cancellation G2).
  Proof.
    unfold handle_user_cancellation. apply like_seq; [apply like_reason|]. intros _. apply like_seq; [|intros _; apply like_clear].
    change (has_dsm G2) with (has_dsm G1). destruct (has_dsm G1); [apply like_conv|apply like_raise].
  Qed.
  Lemma like_poll : same (poll G1 W1) (poll G2 W2).
  Proof.
    unfold poll. apply like_get. intros s I. apply like_seq; [up|]. intros _. change (w_async W2) with (w_async W1). change (s_cnt (view s)) with (s_cnt s).
    destruct (w_async W1 _); [now apply like_ret|apply like_clear|apply like_cancel].
  Qed.
  Lemma like_running : same (get_running G1 W1) (get_running G2 W2).
  Proof. unfold get_running. apply like_seq; [apply like_poll|]. intros _. apply like_get. intros s I. now apply like_ret. Qed.
  Lemma like_is_conv : same (is_conv G1 W1) (is_conv G2 W2).
  Proof. unfold is_conv. apply like_seq; [apply like_poll|]. intros _. apply like_get. intros s I. now apply like_ret. Qed.
  Lemma like_check b r : same (set_check G1 W1 b r) (set_check G2 W2 b r).
  Proof.
    unfold set_check. apply like_seq; [apply like_poll|]. intros _. apply like_seq; [apply like_conv|]. intros _.
    apply like_seq; [apply like_sc_reason|]. intros _. apply like_is_conv.
  Qed.
  Lemma like_time_out : same (check_time_out G1 W1) (check_time_out G2 W2).
  Proof. unfold check_time_out. apply like_seq; [apply like_now|]. intros t. apply like_get. intros s I. now apply like_ret. Qed.
  Lemma f_size fsim : Forall ok fsim -> check_f_size G2 (map hc fsim) = check_f_size G1 fsim.
  Proof. intros F. unfold check_f_size. change (g_fatol G2) with tol. now rewrite (Hspread _ F). Qed.
  Ltac conv c := apply like_seq; [first [apply like_is_conv|apply like_check]|]; intros c; destruct c; [now apply like_ret|].
  Lemma like_stopping_nm sim fsim calls : Forall ok fsim -> same (check_stopping_nm G1 W1 sim fsim calls) (check_stopping_nm G2 W2 sim (map hc fsim) calls).
  Proof.
    intros F. unfold check_stopping_nm. rewrite (f_size _ F). conv c. conv c. apply like_seq; [apply like_lift|]. intros r. conv c. conv c.
    apply like_seq; [apply like_time_out|]. intros [b w]. apply like_seq; [apply like_poll|]. intros _. apply like_seq; [apply like_conv|]. intros _.
    apply like_seq; [apply like_is_conv|]. intros [|]; [|now apply like_ret]. apply like_seq; [apply like_poll|]. intros _. apply like_sc_reason.
  Qed.
  Lemma like_stopping_cma fsim calls : Forall ok fsim -> same (check_stopping_cma G1 W1 fsim calls) (check_stopping_cma G2 W2 (map hc fsim) calls).
  Proof.
    intros F. unfold check_stopping_cma. rewrite (f_size _ F). conv c. conv c. conv c. apply like_seq; [apply like_time_out|]. intros [b w]. apply like_seq; [apply like_check|]. intros _. now apply like_ret.
  Qed.
  Lemma cbs_off : match g_cbs_n G1 with Some n => (1 <? n)%Z | None => false end = false.
  Proof. destruct Hplain as (_ & _ & _ & _ & H). destruct (g_cbs_n G1) as [n|]; [|reflexivity]. specialize (H n eq_refl). apply Z.ltb_ge. lia. Qed.
  Lemma like_track v : same (add_to_track G1 v) (add_to_track G2 (hc v)).
  Proof.
    unfold add_to_track. change (has_dsm G2) with (has_dsm G1). change (g_cbs_n G2) with (g_cbs_n G1). pose proof cbs_off as C.
    destruct (has_dsm G1), (g_cbs_n G1); rewrite ?C; now apply like_ret.
  Qed.
  Lemma like_advanced : same (check_advanced G1 W1) (check_advanced G2 W2).
  Proof.
    unfold check_advanced. change (has_dsm G2) with (has_dsm G1). change (g_cbs_n G2) with (g_cbs_n G1). pose proof cbs_off as C.
    destruct (has_dsm G1), (g_cbs_n G1); rewrite ?C; now apply like_ret.
  Qed.

  (** ** Nelder-Mead *)
  Definition vnm (L : nm) : nm := mk_nm (n_sim L) (map hc (n_fsim L)) (n_calls L) (n_it L) (n_drift L).
  Definition vout (o : outcome) : outcome := match o with Broke L => Broke (vnm L) | Goes L => Goes (vnm L) end.
  Definition vpair {A} (p : num * A) : num * A := (hc (fst p), snd p).
  Definition gnm (L : nm) : Prop := Forall ok (n_fsim L).
  Definition gout (o : outcome) : Prop := match o with Broke L => gnm L | Goes L => gnm L end.
  Definition gpair {A} (p : num * A) : Prop := ok (fst p).
  Notation thru Q f := (like (fun a b => b = f a /\ Q a)).
  Section NM.
    Variables func1 func2 : vec -> nat -> option num -> M num.
    Hypothesis Hf : forall x it, thru ok hc (func1 x it None) (func2 x it None).
    Variables (rho chi psi sigma : num) (dim : nat) (drift_min : num) (drift_avg : Z).
    Hypothesis Hdrift : (of_Z 0 <? drift_min)%num = false.
    Lemma like_call x it calls : thru gpair vpair (call func1 x it None calls) (call func2 x it None calls).
    Proof. unfold call. eapply like_bind; [apply Hf|]. intros a b [-> O]. now apply like_ret. Qed.
    Lemma like_rows rows it calls : thru (fun p => Forall ok (fst p)) (fun p => (map hc (fst p), snd p)) (eval_rows func1 rows it calls) (eval_rows func2 rows it calls).
    Proof.
      revert calls. induction rows as [|x rows IH]; intros calls; cbn [eval_rows]; [apply like_ret; split; [reflexivity|constructor]|].
      eapply like_bind; [apply like_call|]. intros [y c] b [-> O]. cbn [vpair fst snd]. eapply like_bind; [apply IH|]. intros [ys c2] b [-> O2].
      apply like_ret. split; [reflexivity|]. constructor; assumption.
    Qed.
    Lemma like_sort L : gnm L -> thru gnm vnm (sort_simplex W1 L) (sort_simplex W2 (vnm L)).
    Proof.
      intros F. unfold sort_simplex. cbn [vnm n_sim n_fsim n_calls n_it n_drift]. change (w_argsort W2) with (w_argsort W1). rewrite !(Hsort _ F).
      apply like_seq; [apply like_lift|]. intros sim. eapply like_bind; [apply (like_lift_map (Forall ok)); [apply gather_through|intros a; now apply gather_in]|].
      intros f b [-> O]. now apply like_ret.
    Qed.
    Lemma like_put x f calls L : gnm L -> ok f -> thru gout vout (put_last x f calls L) (put_last x (hc f) calls (vnm L)).
    Proof.
      intros F O. unfold put_last. cbn [vnm n_sim n_fsim n_calls n_it n_drift]. apply like_seq; [apply like_lift|]. intros sim.
      eapply like_bind; [apply (like_lift_map (Forall ok)); [apply py_set_map|intros a; now apply py_set_in]|]. intros fs b [-> O2]. now apply like_ret.
    Qed.
    Lemma like_shrink_rows js L : gnm L -> thru gnm vnm (shrink_rows G1 W1 func1 sigma js L) (shrink_rows G2 W2 func2 sigma js (vnm L)).
    Proof.
      revert L. induction js as [|j js IH]; intros L F; cbn [shrink_rows]; [now apply like_ret|].
      cbn [vnm n_sim n_fsim n_calls n_it n_drift]. apply like_seq; [apply like_lift|]. intros s0. apply like_seq; [apply like_lift|]. intros sj.
      apply like_seq; [apply like_lift|]. intros sim. apply like_seq; [apply like_is_conv|]. intros [|]; [now apply like_ret|].
      eapply like_bind; [apply like_call|]. intros [y c] b [-> O]. cbn [vpair fst snd].
      eapply like_bind; [apply (like_lift_map (Forall ok)); [apply py_set_map|intros a; now apply py_set_in]|]. intros fs b [-> O2].
      now apply (IH (mk_nm sim fs c (n_it L) (n_drift L))).
    Qed.
    Lemma like_shrink calls L : gnm L -> thru gout vout (shrink G1 W1 func1 sigma dim calls L) (shrink G2 W2 func2 sigma dim calls (vnm L)).
    Proof.
      intros F. unfold shrink. eapply like_bind; [now apply (like_shrink_rows _ (mk_nm (n_sim L) (n_fsim L) calls (n_it L) (n_drift L)))|].
      intros a b [-> O]. now apply like_ret.
    Qed.
    Ltac values := eapply like_bind; [apply (like_lift_map ok); [apply py_nth_map|intros ?; now apply py_nth_in]|]; intros ? ? [-> ?].
    Ltac branch := match goal with |- like _ (if ?b then _ else _) _ => destruct b end.
    Ltac points := apply like_seq; [apply like_lift|]; intros ?.
    Ltac calls := eapply like_bind; [apply like_call|]; intros [? ?] ? [-> ?]; cbn [vpair fst snd].
    Ltac compare := match goal with |- context [(hc ?x <? hc ?y)%num] => rewrite (proj1 (ord x y ltac:(assumption) ltac:(assumption)))
                                  | |- context [(hc ?x <=? hc ?y)%num] => rewrite (proj2 (ord x y ltac:(assumption) ltac:(assumption))) end; branch.
    Lemma like_move L : gnm L -> thru gout vout (nm_move G1 W1 func1 rho chi psi sigma dim L) (nm_move G2 W2 func2 rho chi psi sigma dim (vnm L)).
    Proof.
      intros F. unfold nm_move. cbv zeta. cbn [vnm n_sim n_fsim n_calls n_it n_drift]. points. calls. values. unfold gpair in *. cbn [fst] in *. compare.
      - apply like_seq; [apply like_is_conv|]. intros [|]; [now apply like_ret|]. calls. unfold gpair in *. cbn [fst] in *. compare; now apply like_put.
      - values. compare; [now apply like_put|]. values. compare.
        + apply like_seq; [apply like_is_conv|]. intros [|]; [now apply like_ret|]. calls. unfold gpair in *. cbn [fst] in *. compare; [now apply like_put|now apply like_shrink].
        + apply like_seq; [apply like_is_conv|]. intros [|]; [now apply like_ret|]. calls. unfold gpair in *. cbn [fst] in *. compare; [now apply like_put|now apply like_shrink].
    Qed.
    Lemma like_drift L : gnm L -> thru gnm vnm (nm_drift G1 W1 func1 drift_min drift_avg L) (nm_drift G2 W2 func2 drift_min drift_avg (vnm L)).
    Proof. intros F. unfold nm_drift. rewrite Hdrift. now apply like_ret. Qed.
    Lemma like_iter L : gnm L -> thru gout vout (nm_iter G1 W1 func1 rho chi psi sigma dim drift_min drift_avg L) (nm_iter G2 W2 func2 rho chi psi sigma dim drift_min drift_avg (vnm L)).
    Proof.
      intros F. unfold nm_iter. eapply like_bind; [now apply like_move|]. intros [K|K] b [-> O]; [now apply like_ret|]. cbn [vout].
      eapply like_bind; [now apply like_sort|]. intros K1 b [-> O1]. eapply like_bind; [now apply like_drift|]. intros K2 b [-> O2].
      cbv zeta. cbn [vnm n_sim n_fsim n_calls n_it n_drift]. apply like_seq; [apply like_running|]. intros r.
      apply like_seq; [|intros _; apply like_seq; [now apply like_stopping_nm|intros _; now apply like_ret]].
      destruct r; [now apply like_ret|]. apply like_seq; [apply like_poll|]. intros _. apply like_seq; [apply like_conv|]. intros _. apply like_sc_reason.
    Qed.
    Lemma like_loop fuel L : gnm L -> thru gnm vnm (nm_loop G1 W1 func1 rho chi psi sigma dim drift_min drift_avg fuel L) (nm_loop G2 W2 func2 rho chi psi sigma dim drift_min drift_avg fuel (vnm L)).
    Proof.
      revert L. induction fuel as [|fuel IH]; intros L F; cbn [nm_loop]; [apply like_raise|].
      apply like_seq; [apply like_is_conv|]. intros [|]; [now apply like_ret|]. eapply like_bind; [now apply like_iter|].
      intros [K|K] b [-> O]; [now apply like_ret|]. now apply IH.
    Qed.
  End NM.

  Section Searches.
    Variables func1 func2 : vec -> nat -> option num -> M num.
    Hypothesis Hf : forall x it, thru ok hc (func1 x it None) (func2 x it None).
    (** results of a search: the point, the counts and the reason; CMA-ES without a generation reports the value 0 *)
    Definition like_result (a b : dsm_result) : Prop :=
      r_x b = r_x a /\ r_nit b = r_nit a /\ r_calls b = r_calls a /\ r_reason b = r_reason a.
    Lemma like_run_nm adaptive x0 simplex drift_min drift_avg : (of_Z 0 <? drift_min)%num = false ->
      like like_result (run_nm G1 W1 func1 adaptive x0 simplex drift_min drift_avg) (run_nm G2 W2 func2 adaptive x0 simplex drift_min drift_avg).
    Proof.
      intros Hd. unfold run_nm. apply like_seq; [apply like_poll|]. intros _. apply like_seq; [apply like_conv|]. intros _. cbv zeta.
      apply like_seq; [apply like_now|]. intros _. apply like_seq; [apply like_now|]. intros t. apply like_seq; [apply like_lift|]. intros [[[rho chi] psi] sigma].
      eapply like_bind; [apply like_rows; exact Hf|]. intros [fs c] b [-> O]. cbn [fst snd].
      eapply like_bind; [now apply (like_sort (mk_nm _ fs c 1 t))|]. intros L b [-> O1].
      eapply like_bind; [apply like_loop; [exact Hf|exact Hd|exact O1]|]. intros K b [-> O2]. cbn [vnm n_sim n_fsim n_calls n_it n_drift].
      apply like_seq; [apply like_lift|]. intros x. eapply like_bind; [apply (like_lift_map ok); [apply py_nth_map|intros ?; now apply py_nth_in]|]. intros f b [-> O3].
      apply like_get. intros s I. apply like_ret. repeat split.
    Qed.
    Lemma like_randn n : same (randn W1 n) (randn W2 n).
    Proof. unfold randn. apply like_get. intros s I. apply like_seq; [up|]. intros _. now apply like_ret. Qed.
    Hypothesis Hc : samples_by_comparison W1 ok hc.
    Let gh (l : list (vec * num)) := Forall (fun e => ok (snd e)) l.
    Let vh (l : list (vec * num)) := map (fun e => (fst e, hc (snd e))) l.
    Lemma like_generation x0 sg n it hist : gh hist -> thru gh vh (generation W1 func1 x0 sg n it hist) (generation W2 func2 x0 sg n it (vh hist)).
    Proof.
      revert hist. induction n as [|n IH]; intros hist F; cbn [generation]; [apply like_ret; split; [reflexivity|constructor]|].
      apply like_seq; [apply like_randn|]. intros z. change (w_cma W2) with (w_cma W1). unfold vh at 2. rewrite (proj1 (Hc _ F)).
      apply like_seq; [apply like_lift|]. intros x. cbv zeta.
      replace (match vh hist with [] => x0 | _ => x end) with (match hist with [] => x0 | _ => x end) by (destruct hist; reflexivity).
      eapply like_bind; [apply Hf|]. intros y b [-> O]. set (x' := match hist with [] => x0 | _ => x end).
      replace (vh hist ++ [(x', hc y)]) with (vh (hist ++ [(x', y)])) by (unfold vh; now rewrite map_app).
      eapply like_bind; [apply IH; apply Forall_app; split; [exact F|now constructor]|]. intros g b [-> O2]. apply like_ret. split; [reflexivity|now constructor].
    Qed.
    Definition like_found (a b : num * vec * nat * nat) : Prop := snd (fst (fst b)) = snd (fst (fst a)) /\ snd (fst b) = snd (fst a) /\ snd b = snd a.
    Lemma like_cma_loop x0 sg l_pop fuel it hist best best' : gh hist -> snd best' = snd best ->
      like like_found (cma_loop G1 W1 func1 x0 sg l_pop fuel it hist best) (cma_loop G2 W2 func2 x0 sg l_pop fuel it (vh hist) best').
    Proof.
      revert it hist best best'. induction fuel as [|fuel IH]; intros it hist best best' F E; cbn [cma_loop]; [apply like_raise|].
      apply like_seq; [apply like_is_conv|]. intros [|]; [apply like_ret; repeat split; [exact E|unfold vh; now rewrite map_length]|].
      eapply like_bind; [now apply like_generation|]. intros g b [-> O]. cbv zeta.
      assert (F2 : gh (hist ++ g)) by (apply Forall_app; now split).
      assert (F3 : Forall ok (map snd g)) by (apply Forall_map; exact O).
      replace (vh hist ++ vh g) with (vh (hist ++ g)) by (unfold vh; now rewrite map_app).
      assert (E1 : map snd (vh g) = map hc (map snd g)) by (unfold vh; rewrite !map_map; reflexivity).
      assert (E2 : map fst (vh g) = map fst g) by (unfold vh; rewrite !map_map; reflexivity).
      assert (E3 : length (vh (hist ++ g)) = length (hist ++ g)) by (unfold vh; apply map_length).
      rewrite E1, E2, E3. change (w_argsort W2) with (w_argsort W1). rewrite !(Hsort _ F3).
      eapply like_bind; [apply (like_lift_map (Forall ok)); [apply gather_through|intros ?; now apply gather_in]|]. intros fs b [-> O4]. change (w_cma_adapt W2) with (w_cma_adapt W1). unfold vh at 1. rewrite (proj2 (Hc _ F2)).
      apply like_seq; [apply like_lift|]. intros _. apply like_seq; [apply like_lift|]. intros i0. apply like_seq; [apply like_lift|]. intros x.
      eapply like_bind; [apply (like_lift_map ok); [apply py_nth_map|intros ?; now apply py_nth_in]|]. intros f0 b [-> O5]. apply like_seq; [apply like_running|]. intros r.
      apply like_seq; [|intros _; apply like_seq; [now apply like_stopping_cma|intros _; now apply IH]].
      destruct r; [now apply like_ret|]. apply like_seq; [apply like_poll|]. intros _. apply like_seq; [apply like_conv|]. intros _. apply like_sc_reason.
    Qed.
    Lemma like_run_cma population x0 sg : like like_result (run_cma G1 W1 func1 population x0 sg) (run_cma G2 W2 func2 population x0 sg).
    Proof.
      unfold run_cma. apply like_seq; [apply like_poll|]. intros _. apply like_seq; [apply like_conv|]. intros _. cbv zeta. change (w_pop W2) with (w_pop W1).
      destruct (_ <? 2)%nat; [apply like_raise|]. eapply like_bind; [apply (like_cma_loop x0 sg _ _ 1 [] (of_Z 0, zeros (length x0))); [constructor|reflexivity]|].
      intros [[bst it] c] [[bst' it'] c'] (E1 & E2 & E3). cbn [fst snd] in *. subst. apply like_get. intros s I. apply like_ret. repeat split; assumption.
    Qed.
  End Searches.

  (** ** The evaluation of a vector and the run *)
  Lemma like_stop w c : same (stop_because G1 W1 w c) (stop_because G2 W2 w c).
  Proof.
    unfold stop_because. apply like_seq; [apply like_poll|]. intros _. apply like_seq; [apply like_reason|]. intros _.
    apply like_seq; [|intros _; apply like_clear]. change (has_dsm G2) with (has_dsm G1). destruct (has_dsm G1); [apply like_conv|now apply like_ret].
  Qed.
  Lemma like_budget : same (check_budget G1 W1) (check_budget G2 W2).
  Proof.
    unfold check_budget. apply like_get. intros s I. change (g_max_total G2) with (g_max_total G1). change (s_iter (view s)) with (s_iter s).
    destruct (_ <=? _)%Z; [apply like_stop|now apply like_ret].
  Qed.
  Lemma like_goal : same (check_goal G1 W1) (check_goal G2 W2).
  Proof.
    unfold check_goal. apply like_get. intros s I. unfold goal. change (g_goal G2) with (option_map fl (g_goal G1)). change (factor G2) with (factor G1).
    change (s_best (view s)) with (hc (s_best s)). revert Hgoal. destruct (g_goal G1) as [g|]; intros Hgoal; cbn [option_map]; [|now apply like_ret].
    rewrite Hcost, (proj2 (ord _ _ (proj2 (proj2 I)) (Hok _ (Hgoal g eq_refl)))). match goal with |- like _ (if ?b then _ else _) _ => destruct b end; [apply like_stop|now apply like_ret].
  Qed.
  Lemma like_time : same (check_total_time G1 W1) (check_total_time G2 W2).
  Proof.
    unfold check_total_time. change (g_total_lim G2) with (g_total_lim G1). destruct (g_total_lim G1 <? of_Z 10000000000)%num; [|now apply like_ret].
    apply like_seq; [apply like_now|]. intros t. apply like_get. intros s I. change (s_start (view s)) with (s_start s). destruct (s_start s); [|apply like_raise].
    apply like_seq; [now apply like_emit'|]. intros _. match goal with |- like _ (if ?b then _ else _) _ => destruct b end; [apply like_stop|now apply like_ret].
  Qed.
  Lemma like_controls x : same (get_controls G1 x) (get_controls G2 x).
  Proof.
    unfold get_controls. apply like_get. intros s I. change (s_controls (view s)) with (s_controls s). apply like_seq; [apply like_lift|]. intros [c d].
    apply like_seq; [up|]. intros _. change (g_kind G2) with (g_kind G1). destruct (g_kind G1); try now apply like_ret.
    destruct (d_pulses d), (d_timegrids d); first [now apply like_ret|apply like_raise].
  Qed.
  Lemma like_data x : same (get_data G1 W1 x) (get_data G2 W2 x).
  Proof.
    unfold get_data. apply like_seq; [apply like_poll|]. intros _. apply like_get. intros s I. change (s_sent (view s)) with (s_sent s).
    destruct (s_sent s) as [d|]; [|apply like_raise]. change (s_hist (view s)) with (s_hist s). cbv zeta.
    change (w_fom W2 (d :: s_hist s)) with (map_answer fl (w_fom W1 (d :: s_hist s))).
    apply like_seq; [up|]. intros _. apply like_seq; [now apply like_emit'|]. intros _.
    destruct (w_fom W1 _) as [|[[| |v] sd stt]] eqn:EA; cbn [map_answer a_fom a_std a_status]; try apply like_raise.
    apply like_seq.
    - match goal with |- like _ (if ?b then _ else _) _ => destruct b end; [now apply like_ret|apply like_clear].
    - intros _. change (factor G2) with (factor G1). apply like_upd; [intros u; rewrite Hcost; reflexivity|].
      intros u (I1 & _ & I3). repeat split; [exact I1| |exact I3]. exact (Hok _ (Hvalues _ _ v EA eq_refl)).
  Qed.
  Lemma like_save b v o1 o2 i o3 : same (update_controls b v o1 o2 i o3) (update_controls b (hc v) o1 o2 i o3).
  Proof.
    unfold update_controls. apply like_get. intros s I. change (s_sent (view s)) with (s_sent s). destruct (s_sent s) as [d|]; [|now apply like_ret].
    destruct b; [|now apply like_ret]. apply like_emit'. cbn. now rewrite Hin.
  Qed.
  Lemma like_send v o : same (send_response v o) (send_response (hc v) o).
  Proof.
    unfold send_response. apply like_get. intros s I. change (s_status (view s)) with (s_status s). destruct (s_status s) as [c|]; [|now apply like_ret].
    destruct (c =? 0)%Z; [|apply like_clear]. apply like_seq; [apply like_save|]. intros _. apply like_emit'. cbn. now rewrite Hin.
  Qed.
  Lemma like_std : same std_default std_default.
  Proof.
    unfold std_default. apply like_get. intros s I. change (s_std (view s)) with (s_std s). destruct (s_std s); [now apply like_ret|].
    apply like_seq; [up|]. intros _. now apply like_ret.
  Qed.
  Lemma like_average : like (fun a b => b = (hc (fst a), snd a) /\ ok (fst a)) (get_average None) (get_average None).
  Proof.
    unfold get_average. apply like_get. intros s I. change (s_re (view s)) with (s_re s). rewrite (proj1 I). cbv zeta.
    apply like_seq; [apply like_std|]. intros sd. apply like_ret. split; [reflexivity|apply I].
  Qed.
  Lemma like_note v : ok v -> same (note_record v) (note_record (hc v)).
  Proof.
    intros O. unfold note_record. apply like_get. intros s I. change (s_best (view s)) with (hc (s_best s)). rewrite (proj1 (ord _ _ O (proj2 (proj2 I)))).
    match goal with |- like _ (if ?b then _ else _) _ => destruct b end; [|now apply like_ret].
    apply like_upd; [reflexivity|]. intros u (I1 & I2 & _). repeat split; [exact I1|exact I2|exact O].
  Qed.
  Lemma like_log v : same (log_fom G1 v) (log_fom G2 (hc v)).
  Proof.
    unfold log_fom. apply like_get. intros s I. change (s_status (view s)) with (s_status s). destruct (s_status s) as [c|]; [|now apply like_ret].
    destruct (c =? 0)%Z; [|now apply like_ret]. change (factor G2) with (factor G1). apply like_upd; [|intros ? ?; assumption]. intros u. rewrite Hlog.
    exact (f_equal (fun L => view u <|s_fom_list := L|> <|s_iter_list ::= fun l => l ++ [s_iter u]|>) (eq_sym (map_app fl (s_fom_list u) [(factor G1 * v)%num]))).
  Qed.
  Lemma like_respond : same (respond G1) (respond G2).
  Proof.
    unfold respond. change (g_kind G2) with (g_kind G1). change (g_steps G2) with (g_steps G1). destruct Hplain as ([->| ->] & -> & _).
    - eapply like_bind; [apply like_average|]. intros [v sd] b [-> O]. cbn [fst snd] in *. apply like_seq; [now apply like_note|]. intros _.
      apply like_seq; [apply like_log|]. intros _. apply like_get. intros s I. apply like_send.
    - apply like_get. intros s I. cbv zeta. change (s_fom (view s)) with (hc (s_fom s)). apply like_seq; [|intros _; apply like_send].
      apply like_seq; [apply like_note, I|]. intros _. apply like_log.
  Qed.
  Lemma like_routine x it : thru ok hc (routine_call G1 W1 x it) (routine_call G2 W2 x it).
  Proof.
    unfold routine_call. apply like_seq; [apply like_budget|]. intros _. apply like_seq; [apply like_goal|]. intros _. apply like_seq; [apply like_time|]. intros _.
    apply like_seq; [apply like_running|]. intros r. destruct (negb r); [apply like_ret; split; [now symmetry|exact Hstart]|]. apply like_seq; [up|]. intros _.
    apply like_seq; [apply like_controls|]. intros d. apply like_seq; [up|]. intros _. apply like_seq; [apply like_running|]. intros r2.
    destruct (negb r2); [apply like_ret; split; [now symmetry|exact Hstart]|]. apply like_seq; [apply like_data|]. intros _. apply like_seq; [apply like_respond|]. intros _.
    apply like_get. intros s I. change (s_fom (view s)) with (hc (s_fom s)). apply like_seq; [apply like_track|]. intros _.
    apply like_seq; [apply like_advanced|]. intros _. apply like_get. intros s2 I2. apply like_ret. split; [reflexivity|apply I2].
  Qed.
  Lemma like_inner x it : thru ok hc (inner_routine_call G1 W1 x it None) (inner_routine_call G2 W2 x it None).
  Proof.
    unfold inner_routine_call. apply like_seq; [apply like_upd; [reflexivity|intros s (_ & I2 & I3); now repeat split]|]. intros _.
    eapply like_bind; [apply like_routine|]. intros y b [-> O]. change (g_steps G2) with (g_steps G1). destruct Hplain as (_ & -> & _). now apply like_ret.
  Qed.
  Lemma like_mean : same mean_value mean_value.
  Proof. unfold mean_value. apply like_get. intros s I. apply like_lift. Qed.
  Lemma like_sigma : same sigma_variation sigma_variation.
  Proof. unfold sigma_variation. apply like_get. intros s I. apply like_lift. Qed.
  Lemma like_draw n : same (draw G1 W1 n) (draw G2 W2 n).
  Proof.
    unfold draw. apply like_get. intros s I. change (uses_seed G2) with (uses_seed G1).
    destruct (uses_seed G1); (apply like_seq; [up|]; intros _; now apply like_ret).
  Qed.
  Lemma like_choose : same (choose_basis G1 W1) (choose_basis G2 W2).
  Proof.
    unfold choose_basis. apply like_get. intros s I. change (uses_seed G2) with (uses_seed G1).
    destruct (uses_seed G1); (apply like_seq; [apply like_lift|]; intros [c p]; up).
  Qed.
  Lemma like_dsm m sg simplex : like like_result
    (run_dsm G1 W1 (inner_routine_call G1 W1) m sg simplex (g_drift_min G1) (g_drift_avg G1))
    (run_dsm G2 W2 (inner_routine_call G2 W2) m sg simplex (g_drift_min G2) (g_drift_avg G2)).
  Proof.
    unfold run_dsm. change (g_method G2) with (g_method G1). destruct (g_method G1) as [a|p] eqn:E.
    - apply like_run_nm; [exact like_inner|apply Hplain].
    - apply like_run_cma; [exact like_inner|now apply (Hcma p)].
  Qed.
  Lemma like_build : same (dsm_build G1 W1) (dsm_build G2 W2).
  Proof.
    unfold dsm_build. apply like_seq; [apply like_mean|]. intros m. apply like_seq; [apply like_sigma|]. intros sg. apply like_seq; [apply like_draw|]. intros r.
    apply like_seq; [apply like_lift|]. intros simplex. apply like_seq; [up|]. intros _. eapply like_bind; [apply like_dsm|].
    intros a b (_ & _ & _ & ->). up.
  Qed.
  Lemma like_base : same update_base update_base.
  Proof.
    unfold update_base. apply like_get. intros s I. change (s_best_xx (view s)) with (s_best_xx s). destruct (s_best_xx s); [|apply like_raise].
    apply like_seq; [apply like_lift|]. intros c. apply like_seq; [up|]. intros _. now apply like_ret.
  Qed.
  Lemma like_super k : same (super_iteration G1 W1 k) (super_iteration G2 W2 k).
  Proof.
    unfold super_iteration. change (drift_after_si G2) with (drift_after_si G1).
    replace (drift_after_si G1) with false by (unfold drift_after_si; destruct Hplain as (_ & _ & -> & -> & _); reflexivity). cbn [andb].
    apply like_seq; [unfold reset_start_time; apply like_seq; [apply like_now|]; intros t; up|]. intros _.
    apply like_seq; [unfold reset_track; up|]. intros _. apply like_seq; [up|]. intros _. apply like_seq; [now apply like_ret|]. intros _.
    apply like_seq; [apply like_choose|]. intros _. apply like_seq; [apply like_build|]. intros _. unfold update_base_pulses.
    apply like_seq; [apply like_base|]. intros x. up.
  Qed.
  Lemma like_supers ks : same (dcrab_loop G1 W1 ks) (dcrab_loop G2 W2 ks).
  Proof.
    induction ks as [|k ks IH]; cbn [dcrab_loop]; [now apply like_ret|]. apply like_seq; [apply like_running|]. intros r. destruct (negb r); [now apply like_ret|].
    apply like_seq; [apply like_super|]. intros _. exact IH.
  Qed.
  Lemma like_run : same (run G1 W1) (run G2 W2).
  Proof.
    unfold run. change (g_kind G2) with (g_kind G1). change (super_range G2) with (super_range G1). destruct Hplain as ([->| ->] & _); [apply like_supers|apply like_build].
  Qed.
  Lemma like_final : thru (fun _ => True) (map_final fl) (final_results G1) (final_results G2).
  Proof.
    unfold final_results. apply like_get. intros s I. cbv zeta. change (g_kind G2) with (g_kind G1). change (factor G2) with (factor G1).
    change (s_best (view s)) with (hc (s_best s)). rewrite Hlog. destruct Hplain as ([->| ->] & _); [now apply like_ret|].
    change (s_xx (view s)) with (s_xx s). destruct (s_xx s); [now apply like_ret|apply like_raise].
  Qed.
  Lemma like_end : same (end_ G1) (end_ G2).
  Proof.
    unfold end_. eapply like_bind; [apply like_final|]. intros f b [-> _]. apply like_seq; [now apply like_emit'|]. intros _. apply like_get. intros s I.
    change (s_reason (view s)) with (s_reason s). now apply like_emit'.
  Qed.
  Theorem view_optimise r s : optimise G1 W1 = Ok (r, s) -> optimise G2 W2 = Ok (r, view s).
  Proof.
    unfold optimise. assert (E : new_state G2 W2 = (s <-! new_state G1 W1; Ok (view s))%res).
    { unfold new_state. change (g_pulses G2) with (g_pulses G1). change (g_times G2) with (g_times G1). change (g_params G2) with (g_params G1).
      destruct (new_controls _ _ _) as [c|]; [|reflexivity]. cbv zeta. unfold rbind. f_equal.
      revert Hinit. generalize (@initial_fom N). intros i0 E0. unfold view. cbn [s_fom s_best]. rewrite E0. reflexivity. }
    assert (I : forall s, new_state G1 W1 = Ok s -> inv s).
    { unfold new_state. intros s0. destruct (new_controls _ _ _); [|discriminate]. intros H0. injection H0 as <-. exact (conj eq_refl (conj Hstart Hstart)). }
    rewrite E. destruct (new_state G1 W1) as [s0|e]; [|discriminate].
    change (Ok (execute G1 W1 s0) = Ok (r, s) -> Ok (execute G2 W2 (view s0)) = Ok (r, view s)).
    assert (K : same (execute G1 W1) (execute G2 W2)).
    { unfold execute. apply like_seq; [unfold begin; apply like_seq; [apply like_now|]; intros t; up|]. intros _.
      apply like_seq; [apply like_run|]. intros _. apply like_end. }
    specialize (K s0 (I _ eq_refl)). intros H. assert (H' : execute G1 W1 s0 = (r, s)) by congruence. rewrite H' in K. destruct (execute G2 W2 (view s0)) as [[a|e] s2], r as [[]|e1]; try contradiction.
    - destruct K as (<- & -> & _). reflexivity.
    - destruct K as (-> & -> & _). reflexivity.
  Qed.
End Order.
