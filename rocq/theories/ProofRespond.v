(** The answer of the algorithm to one evaluation: records, log, best-controls file. *)
From Coq Require Import String ZArith List Bool Lia.
From RecordUpdate Require Import RecordSet.
From Verif Require Import Num Py ModelPulse ModelControls ModelLinalg ModelState ModelSearch ModelRun ProofSim ProofRoutine.
Import ListNotations RecordSetNotations.
Open Scope list_scope.
Open Scope bool_scope.
Open Scope run_scope.

Section Respond.
  Context {N : Num} (G : settings).

  (** ** any configuration *)
  Definition untouched (s t : st) : Prop :=
    t = s <|s_running := s_running t|> <|s_trace := s_trace t|> <|s_std := s_std t|> <|s_best := s_best t|>
          <|s_best_xx := s_best_xx t|> <|s_is_record := s_is_record t|> <|s_fom_list := s_fom_list t|>
          <|s_iter_list := s_iter_list t|>.
  Lemma untouched_refl s : untouched s s.
  Proof. unfold untouched. destruct s; reflexivity. Qed.
  Lemma untouched_trans s t u : untouched s t -> untouched t u -> untouched s u.
  Proof. unfold untouched. intros H K. rewrite H in K. cbn in K. rewrite K. reflexivity. Qed.

  Definition answer_event (e : event) : Prop :=
    match e with EvSave _ | EvPlot _ _ | EvCleared ByStatus => True | _ => False end.
  Record resp (s t : st) (evs : list event) : Prop := mk_resp {
    rp_same : untouched s t;
    rp_trace : s_trace t = evs ++ s_trace s;
    rp_evs : Forall answer_event evs;
    rp_run : s_running t = s_running s && negb (existsb clears evs)
  }.
  Lemma resp_trans s t u e1 e2 : resp s t e1 -> resp t u e2 -> resp s u (e2 ++ e1).
  Proof.
    intros [A1 B1 C1 D1] [A2 B2 C2 D2]. constructor.
    - eapply untouched_trans; eauto.
    - rewrite B2, B1. apply app_assoc.
    - now apply Forall_app.
    - rewrite D2, D1, existsb_app, negb_orb. destruct (s_running s), (existsb clears e1), (existsb clears e2); reflexivity.
  Qed.
  Lemma resp_nil s t : untouched s t -> s_trace t = s_trace s -> s_running t = s_running s -> resp s t [].
  Proof. intros. constructor; auto. cbn. now rewrite andb_true_r. Qed.
  Lemma resp_refl s : resp s s [].
  Proof. apply resp_nil; [apply untouched_refl|reflexivity|reflexivity]. Qed.

  Lemma std_resp s v t : std_default s = (Ok v, t) -> resp s t [].
  Proof.
    unfold std_default, bind, get, ret, upd. destruct (s_std s); intros H; injection H as <- <-; [apply resp_refl|].
    apply resp_nil; reflexivity.
  Qed.
  Lemma average_resp s v t : get_average None s = (Ok v, t) -> resp s t [].
  Proof.
    unfold get_average. change (bind get ?k s) with (k s s). cbv beta zeta.
    destruct (re_step (s_re s)); destruct (std_ok s) as (w & u & E); rewrite (bind_ok _ _ _ _ _ E);
      intros H; injection H as <- <-; now apply std_resp in E.
  Qed.
  Lemma note_resp v s t : note_record v s = (Ok tt, t) -> resp s t [].
  Proof.
    unfold note_record, bind, get, ret, upd. destruct (v <? s_best s)%num; intros H; injection H as <-; [|apply resp_refl].
    apply resp_nil; reflexivity.
  Qed.
  Lemma log_resp v s t : log_fom G v s = (Ok tt, t) -> resp s t [].
  Proof.
    unfold log_fom, bind, get, ret, upd. destruct (s_status s) as [c|]; [destruct (c =? 0)%Z|]; intros H; injection H as <-;
      try apply resp_refl.
    apply resp_nil; reflexivity.
  Qed.
  Lemma emit_resp e s : answer_event e -> clears e = false -> resp s (s <|s_trace ::= cons e|>) [e].
  Proof.
    intros H K. constructor.
    - unfold untouched. destruct s; reflexivity.
    - reflexivity.
    - now constructor.
    - cbn. rewrite K. cbn. now rewrite andb_true_r.
  Qed.
  Lemma send_resp v o s t c : s_status s = Some c -> send_response v o s = (Ok tt, t) ->
    exists evs, resp s t evs /\ (c = 0%Z -> existsb clears evs = false) /\ (c <> 0%Z -> s_running t = false).
  Proof.
    intros Hc. unfold send_response. change (bind get ?k s) with (k s s). cbv beta. rewrite Hc.
    destruct (c =? 0)%Z eqn:E.
    - apply Z.eqb_eq in E as ->.
      assert (U : exists evs s', update_controls (s_is_record s) v None o (s_iter s) (Some 0%Z) s = (Ok tt, s') /\
                    resp s s' evs /\ existsb clears evs = false).
      { unfold update_controls. change (bind get ?k s) with (k s s). cbv beta.
        destruct (s_sent s); [|exists [], s; auto using resp_refl].
        destruct (s_is_record s); [|exists [], s; auto using resp_refl].
        eexists. eexists. split; [reflexivity|]. split; [apply emit_resp; [exact I|reflexivity]|reflexivity]. }
      destruct U as (evs & s' & E & P & K). rewrite (bind_ok _ _ _ _ _ E). intros H. injection H as <-.
      exists (EvPlot (s_iter s) v :: evs). split; [|split; [intros _; exact K|congruence]].
      apply (resp_trans s s' _ evs [EvPlot (s_iter s) v] P). apply emit_resp; [exact I|reflexivity].
    - apply Z.eqb_neq in E. intros H. injection H as <-.
      exists [EvCleared ByStatus]. split; [|split; [congruence|reflexivity]].
      constructor; cbn; auto; [unfold untouched; destruct s; reflexivity|repeat constructor|now rewrite andb_false_r].
  Qed.

  Lemma resp_status s t evs : resp s t evs -> s_status t = s_status s.
  Proof. intros H. exact (f_equal s_status (rp_same _ _ _ H)). Qed.

  Lemma respond_resp s t c : s_status s = Some c -> respond G s = (Ok tt, t) ->
    exists evs, resp s t evs /\ (c = 0%Z -> existsb clears evs = false) /\ (c <> 0%Z -> s_running t = false).
  Proof.
    intros Hc. unfold respond.
    assert (L : forall s1 v o, resp s s1 [] -> send_response v o s1 = (Ok tt, t) ->
                exists evs, resp s t evs /\ (c = 0%Z -> existsb clears evs = false) /\ (c <> 0%Z -> s_running t = false)).
    { intros s1 v o P H. apply (send_resp _ _ _ _ c) in H as (evs & Q & K1 & K2).
      - exists (evs ++ []). split; [now apply (resp_trans _ s1)|]. now rewrite app_nil_r.
      - now rewrite (resp_status _ _ _ P). }
    assert (B : forall v, (exists s1, (note_record v;;; log_fom G v) s = (Ok tt, s1) /\ resp s s1 [])).
    { intros v. destruct (note_ok v s) as (s1 & E1). destruct (log_ok G v s1) as (s2 & E2). exists s2.
      split; [now rewrite (bind_ok _ _ _ _ _ E1)|]. apply note_resp in E1. apply log_resp in E2.
      exact (resp_trans _ _ _ _ _ E1 E2). }
    assert (B2 : forall v, forall k : M unit, (note_record v;;; log_fom G v;;; k) s
                 = (let s1 := snd ((note_record v;;; log_fom G v) s) in k s1)).
    { intros v k. destruct (note_ok v s) as (s1 & E1). destruct (log_ok G v s1) as (s2 & E2).
      rewrite !(bind_ok _ _ _ _ _ E1), !(bind_ok _ _ _ _ _ E2). now rewrite E2. }
    destruct (g_kind G).
    - destruct (average_ok None s) as ([v sg] & s1 & E1). rewrite (bind_ok _ _ _ _ _ E1). apply average_resp in E1.
      assert (E2 : exists s2, (match g_steps G with None => note_record v | Some _ => ret tt end) s1 = (Ok tt, s2) /\ resp s1 s2 []).
      { destruct (g_steps G); [exists s1; auto using resp_refl|]. destruct (note_ok v s1) as (s2 & E2). exists s2.
        split; [exact E2|]. now apply note_resp in E2. }
      destruct E2 as (s2 & E2 & P2). rewrite (bind_ok _ _ _ _ _ E2).
      destruct (log_ok G v s2) as (s3 & E3). rewrite (bind_ok _ _ _ _ _ E3). apply log_resp in E3.
      change (bind get ?k s3) with (k s3 s3). cbv beta. apply L.
      apply (resp_trans _ s2 _ [] []); [|exact E3]. now apply (resp_trans _ s1 _ [] []).
    - change (bind get ?k s) with (k s s). cbv beta zeta.
      destruct (g_steps G) as [ps|].
      + destruct (average_ok None s) as ([v sg] & s1 & E1). destruct (log_ok G v s1) as (s2 & E2).
        assert (E3 : (' (avg, _) <- get_average None;; log_fom G avg) s = (Ok tt, s2)) by now rewrite (bind_ok _ _ _ _ _ E1).
        rewrite (bind_ok _ _ _ _ _ E3). apply L. apply average_resp in E1. apply log_resp in E2.
        exact (resp_trans _ _ _ _ _ E1 E2).
      + destruct (B (s_fom s)) as (s1 & E1 & P1). rewrite (bind_ok _ _ _ _ _ E1). now apply L.
    - change (bind get ?k s) with (k s s). cbv beta zeta. rewrite B2. cbv zeta.
      destruct (B (s_fom s)) as (s1 & E1 & P1). rewrite E1. now apply L.
    - change (bind get ?k s) with (k s s). cbv beta zeta. rewrite B2. cbv zeta.
      destruct (B (s_fom s)) as (s1 & E1 & P1). rewrite E1. now apply L.
  Qed.

  (** ** without re-evaluation *)
  Definition better (s : st) : bool := (s_fom s <? s_best s)%num.
  Definition good (c : Z) : bool := (c =? 0)%Z.
  Definition plain (d : delivered) (c : Z) (s : st) : st :=
    s <|s_std := match g_kind G with KdCRAB => match s_std s with Some v => Some v | None => Some (of_Z 1) end | _ => s_std s end|>
      <|s_best := if better s then s_fom s else s_best s|>
      <|s_best_xx := if better s then s_xx s else s_best_xx s|>
      <|s_is_record := better s|>
      <|s_fom_list := if good c then s_fom_list s ++ [(factor G * s_fom s)%num] else s_fom_list s|>
      <|s_iter_list := if good c then s_iter_list s ++ [s_iter s] else s_iter_list s|>
      <|s_running := if good c then s_running s else false|>
      <|s_trace := if good c
                   then EvPlot (s_iter s) (s_fom s) ::
                        (if better s then [EvSave (mk_saved d (s_fom s) None (super_of G s) (s_iter s) (Some c))] else [])
                        ++ s_trace s
                   else EvCleared ByStatus :: s_trace s|>.

  Lemma plain_trace d c s : s_trace (plain d c s) =
    if good c
    then EvPlot (s_iter s) (s_fom s) ::
         (if better s then [EvSave (mk_saved d (s_fom s) None (super_of G s) (s_iter s) (Some c))] else []) ++ s_trace s
    else EvCleared ByStatus :: s_trace s.
  Proof. reflexivity. Qed.
  Lemma plain_best d c s : s_best (plain d c s) = if better s then s_fom s else s_best s.
  Proof. reflexivity. Qed.
  Lemma plain_foms d c s :
    s_fom_list (plain d c s) = if good c then s_fom_list s ++ [(factor G * s_fom s)%num] else s_fom_list s.
  Proof. reflexivity. Qed.
  Lemma plain_iters d c s : s_iter_list (plain d c s) = if good c then s_iter_list s ++ [s_iter s] else s_iter_list s.
  Proof. reflexivity. Qed.

  Lemma respond_plain d c s : g_steps G = None -> re_step (s_re s) = 0 -> s_sent s = Some d -> s_status s = Some c ->
    s_is_record s = false -> respond G s = (Ok tt, plain d c s).
  Proof.
    intros Es Er Ed Ec Ei. destruct s. cbn in Er, Ed, Ec, Ei. subst.
    unfold respond, plain, better, good, super_of. rewrite Es.
    destruct (g_kind G); lazy -[Z.eqb factor app re_step num nltb nleb of_Z nmul]; rewrite ?Er; try destruct s_std;
      lazy -[Z.eqb factor app re_step num nltb nleb of_Z nmul];
      destruct (nltb s_fom s_best); lazy -[Z.eqb factor app re_step num nltb nleb of_Z nmul];
      destruct (Z.eqb c 0) eqn:Ec; lazy -[Z.eqb factor app re_step num nltb nleb of_Z nmul]; rewrite ?Ec; reflexivity.
  Qed.
End Respond.
