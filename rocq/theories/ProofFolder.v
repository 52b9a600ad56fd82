(** * Results folder: lemmas. *)
From Coq Require Import String List Bool Arith Lia.
From Verif Require Import ModelFolder SpecFolder.
Import ListNotations.
Open Scope list_scope.

Lemma update_same D p n : update D p n p = Some n.
Proof. unfold update, path_eqb. destruct (list_eq_dec _ _ _); congruence. Qed.
Lemma update_other D p n q : q <> p -> update D p n q = D q.
Proof. unfold update, path_eqb. destruct (list_eq_dec _ _ _); congruence. Qed.
Lemma parent_snoc (p : path) x : parent (p ++ [x]) = p.
Proof. apply removelast_last. Qed.
Lemma isdir_true D p : isdir D p = true <-> D p = Some Dir.
Proof. unfold isdir. destruct (D p) as [[]|]; split; congruence. Qed.
Lemma exists_false D p : exists_ D p = false <-> D p = None.
Proof. unfold exists_. destruct (D p); split; congruence. Qed.

(** what a step can do to the file system *)
Inductive effect (P : process) : fs -> phase -> fs -> phase -> Prop :=
| Nothing D ph ph' : ph' = ph \/ ~ has_folder ph' -> effect P D ph D ph'
| Rooted D ph ph' : D root = None -> ~ has_folder ph -> ~ has_folder ph' -> effect P D ph (update D root Dir) ph'
| Made D ph : ~ has_folder ph -> D (results_path P) = None -> effect P D ph (update D (results_path P) Dir) WriteVersion
| Wrote D ph f c ph' : has_folder ph -> has_folder ph' -> effect P D ph (update D (results_path P ++ [f]) (File c)) ph'
| Skipped D ph ph' : has_folder ph -> has_folder ph' -> effect P D ph D ph'.
Lemma step_effect P output D ph : let '(D', ph') := step P output D ph in effect P D ph D' ph'.
Proof.
  assert (NF : forall e, ~ has_folder (Failed e)) by (intros e [H|[H|H]]; discriminate).
  assert (W : forall f c ph ph', has_folder ph -> has_folder ph' -> let '(D', ph'') := after (write D (results_path P ++ [f]) c) ph' in effect P D ph D' ph'').
  { intros f c p1 p2 H1 H2. unfold after, write. destruct (isdir D (results_path P ++ [f])); [apply Nothing; right; apply NF|].
    destruct (isdir D (parent (results_path P ++ [f]))); [apply Wrote; auto|apply Nothing; right; apply NF]. }
  destruct ph; simpl step.
  - apply Nothing. right. destruct (isdir D root); intros [H|[H|H]]; discriminate.
  - unfold after, mkdir. destruct (exists_ D root) eqn:E; [apply Nothing; right; apply NF|]. apply exists_false in E. destruct (isdir D (parent root)); [apply Rooted; auto; intros [H|[H|H]]; discriminate|apply Nothing; right; apply NF].
  - apply Nothing. right. destruct (isdir D (results_path P)); intros [H|[H|H]]; discriminate.
  - apply Nothing. right. destruct (exists_ D root); intros [H|[H|H]]; discriminate.
  - unfold mkdir. destruct (exists_ D root) eqn:E; [apply Nothing; right; intros [H|[H|H]]; discriminate|]. apply exists_false in E.
    destruct (isdir D (parent root)); [apply Rooted; auto; intros [H|[H|H]]; discriminate|apply Nothing; right; apply NF].
  - unfold after, mkdir. destruct (exists_ D (results_path P)) eqn:E; [apply Nothing; right; apply NF|]. apply exists_false in E.
    destruct (isdir D (parent (results_path P))); [apply Made; auto; intros [H|[H|H]]; discriminate|apply Nothing; right; apply NF].
  - apply W; unfold has_folder; auto.
  - destruct (create_logfile P); [apply W; unfold has_folder; auto|apply Skipped; unfold has_folder; auto].
  - destruct output as [[f c]|]; [apply W; unfold has_folder; auto|apply Nothing; auto].
  - apply Nothing. auto.
Qed.

Section System.
  Variables (P : nat -> process) (D0 : fs).
  Hypothesis T : tree D0.
  Definition good (S : system) : Prop :=
    preserves D0 (disk S)
    /\ (forall i, has_folder (phases S i) -> D0 (results_path (P i)) = None /\ disk S (results_path (P i)) = Some Dir)
    /\ (forall i j, i <> j -> has_folder (phases S i) -> has_folder (phases S j) -> results_path (P i) <> results_path (P j)).
  Lemma new_file p f : D0 p = None -> D0 (p ++ [f]) = None.
  Proof. intros H. destruct (D0 (p ++ [f])) eqn:E; auto. destruct T as [_ T2]. assert (X : D0 p = Some Dir) by (apply (T2 p f); congruence). congruence. Qed.
  Lemma folder_root i : results_path (P i) <> root.
  Proof. unfold results_path, root. simpl. congruence. Qed.
  Lemma folder_file i j f : results_path (P i) <> results_path (P j) ++ [f].
  Proof. unfold results_path, root. simpl. congruence. Qed.
  Lemma move_good i o S : good S -> good (move P i o S).
  Proof.
    intros [H1 [H2 H3]]. unfold move. pose proof (step_effect (P i) o (disk S) (phases S i)) as E. destruct (step (P i) o (disk S) (phases S i)) as [D ph].
    remember (disk S) as D1. remember (phases S i) as ph1. 
    assert (HF : forall j, has_folder ((fun j => if Nat.eqb j i then ph else phases S j) j) -> j = i /\ has_folder ph \/ j <> i /\ has_folder (phases S j)).
    { intros j. cbn. destruct (Nat.eqb_spec j i); auto. }
    assert (KEEP : forall D2, disk S = D2 -> (has_folder ph -> has_folder (phases S i)) ->
      (forall j k, j <> k -> has_folder ((fun j => if Nat.eqb j i then ph else phases S j) j) -> has_folder ((fun j => if Nat.eqb j i then ph else phases S j) k) -> results_path (P j) <> results_path (P k))).
    { intros _ _ K j k N A B. apply HF in A. apply HF in B. apply H3; auto; [destruct A as [[-> A]|[_ A]]|destruct B as [[-> B]|[_ B]]]; auto. }
    destruct E as [D ph1 ph' Q|D ph1 ph' R N1 N2|D ph1 N R|D ph1 f c ph' A B|D ph1 ph' A B]; subst; unfold good; cbn [disk phases].
    - assert (K : has_folder ph' -> has_folder (phases S i)) by (destruct Q as [->|Q]; tauto). split; [exact H1|]. split; [|apply (KEEP _ eq_refl K)].
      intros j A. apply HF in A. apply H2. destruct A as [[-> A]|[_ A]]; auto.
    - split; [|split].
      + intros p n Hp. rewrite update_other; auto. intros ->. apply H1 in Hp. congruence.
      + intros j A. apply HF in A. destruct A as [[_ A]|[_ A]]; [tauto|]. apply H2 in A. rewrite update_other; auto. apply folder_root.
      + apply (KEEP _ eq_refl). tauto.
    - split; [|split].
      + intros p n Hp. rewrite update_other; auto. intros ->. apply H1 in Hp. congruence.
      + intros j A. apply HF in A. destruct A as [[-> A]|[J A]].
        * split; [|apply update_same]. destruct (D0 (results_path (P i))) eqn:E; auto. apply H1 in E. congruence.
        * apply H2 in A. destruct A as [A1 A2]. split; auto. rewrite update_other; auto. intros X. rewrite X in A2. congruence.
      + intros j k JK A B. apply HF in A. apply HF in B. destruct A as [[-> A]|[J A]]; destruct B as [[-> B]|[K B]]; try tauto.
        * intros X. apply H2 in B. destruct B as [_ B]. rewrite <- X in B. congruence.
        * intros X. apply H2 in A. destruct A as [_ A]. rewrite X in A. congruence.
        * auto.
    - destruct (H2 _ A) as [A1 A2]. split; [|split].
      + intros p n Hp. rewrite update_other; auto. intros ->. rewrite (new_file _ f A1) in Hp. discriminate.
      + intros j C. apply HF in C. assert (C' : has_folder (phases S j)) by (destruct C as [[-> _]|[_ C]]; auto). apply H2 in C'. rewrite update_other; auto. apply folder_file.
      + apply (KEEP _ eq_refl). tauto.
    - split; [exact H1|]. split; [|apply (KEEP _ eq_refl); tauto]. intros j C. apply HF in C. apply H2. destruct C as [[-> _]|[_ C]]; auto.
  Qed.
  Lemma run_good l S : good S -> good (run P l S).
  Proof. revert S. induction l as [|[i o] l IH]; intros S H; simpl; auto. apply IH, move_good, H. Qed.
  Lemma start_good : good (start D0).
  Proof. split; [intros p n; auto|]. split; cbn; [intros i [H|[H|H]]; discriminate|intros i j _ [H|[H|H]]; discriminate]. Qed.
  (** a move of another optimiser does not touch the folder *)
  Lemma move_other S i j o rest : good S -> i <> j -> has_folder (phases S j) -> disk (move P i o S) (results_path (P j) ++ rest) = disk S (results_path (P j) ++ rest).
  Proof.
    intros [H1 [H2 H3]] N F. unfold move. pose proof (step_effect (P i) o (disk S) (phases S i)) as E. destruct (step (P i) o (disk S) (phases S i)) as [D ph]. cbn [disk].
    remember (disk S) as D1. remember (phases S i) as ph1. destruct (H2 _ F) as [F1 F2].
    destruct E as [D ph1 ph' Q|D ph1 ph' R N1 N2|D ph1 N' R|D ph1 f c ph' A B|D ph1 ph' A B]; auto; apply update_other; intros X.
    - assert (Y : results_path (P j) = results_path (P i) /\ rest = []) by (unfold results_path, root in *; simpl in *; injection X as -> ->; auto). destruct Y as [Y _]. rewrite Y in F2. congruence.
    - subst ph1. apply (H3 _ _ N A F). unfold results_path, root in *. simpl in *. injection X as -> _. reflexivity.
  Qed.
End System.


(** ** alone *)
Lemma step_S n P D ph : steps (S n) P D ph = let '(D, ph) := step P None D ph in steps n P D ph.
Proof. reflexivity. Qed.
Ltac go := rewrite step_S; cbn [step].
Lemma failed_stays n P D e : steps n P D (Failed e) = (D, Failed e).
Proof. induction n; simpl; auto. Qed.
Ltac go' := rewrite ?failed_stays; reflexivity.
Lemma isdir_false D p : D p <> Some Dir -> isdir D p = false.
Proof. unfold isdir. destruct (D p) as [[]|]; congruence. Qed.
Lemma construct_refused P D : tree D -> (exists c, D root = Some (File c)) \/ D (results_path P) <> None -> construct P D = (D, Failed EExists).
Proof.
  intros [T1 T2] H. unfold construct. go. destruct (D root) as [[|c]|] eqn:R.
  - destruct H as [[c H]|H]; [discriminate|]. rewrite (proj2 (isdir_true D root) R). go. destruct (D (results_path P)) as [[|c]|] eqn:F; [| |congruence].
    + rewrite (proj2 (isdir_true _ _) F). go'.
    + rewrite (isdir_false D (results_path P)) by congruence. go. unfold exists_. rewrite R. go. unfold mkdir, exists_. rewrite F. cbn [after fst snd]. go'.
  - rewrite (isdir_false D root) by congruence. go. unfold mkdir, exists_. rewrite R. cbn [after fst snd]. go'.
  - destruct H as [[c H]|H]; [discriminate|]. exfalso. apply (T2 root (client_job_name P)) in H. congruence.
Qed.
Lemma write_new D p f c : D p = Some Dir -> D (p ++ [f]) <> Some Dir -> write D (p ++ [f]) c = (update D (p ++ [f]) (File c), None).
Proof. intros H F. unfold write. rewrite isdir_false by auto. rewrite parent_snoc. rewrite (proj2 (isdir_true D p) H). reflexivity. Qed.
Lemma running_stays n P D : steps n P D Running = (D, Running).
Proof. induction n; simpl; auto. Qed.
Lemma finish k P D : tree D -> D (results_path P) = None -> forall D1, (forall p, D1 p = D p \/ p = root) -> D1 root = Some Dir ->
  exists D', steps (4 + k) P D1 CheckParent = (D', Running) /\ D' (results_path P) = Some Dir /\ (forall p, D' p = D1 p \/ exists rest, p = results_path P ++ rest).
Proof.
  intros [T1 T2] F D1 H R. change (4 + k) with (S (S (S (S k)))). go. unfold exists_ at 1. rewrite R.
  assert (F1 : D1 (results_path P) = None) by (destruct (H (results_path P)) as [E|E]; [congruence|unfold results_path, root in E; simpl in E; discriminate]).
  assert (F2 : forall f, D1 (results_path P ++ [f]) = None).
  { intros f. destruct (H (results_path P ++ [f])) as [E|E]; [|unfold results_path, root in E; simpl in E; discriminate]. rewrite E. destruct (D (results_path P ++ [f])) eqn:X; auto. rewrite (T2 (results_path P) f) in F; congruence. }
  go. unfold mkdir. rewrite (proj2 (exists_false D1 _) F1). unfold results_path at 1. rewrite parent_snoc. rewrite (proj2 (isdir_true D1 root) R). cbn [after fst snd]; go.
  assert (NE : forall f, results_path P ++ [f] <> results_path P) by (intros f E; unfold results_path, root in E; simpl in E; discriminate).
  set (D2 := update D1 (results_path P) Dir). rewrite (write_new D2); [|apply update_same|unfold D2; rewrite update_other; [rewrite F2; discriminate|apply NE]]. cbn [after fst snd]; go.
  set (D3 := update D2 (results_path P ++ ["quocs_version.txt"%string]) _).
  assert (S3 : D3 (results_path P) = Some Dir) by (unfold D3; rewrite update_other; [apply update_same|intro E; symmetry in E; apply NE in E; auto]).
  assert (O3 : forall p, D3 p = D1 p \/ exists rest, p = results_path P ++ rest).
  { intros p. unfold D3, D2, update, path_eqb. destruct (list_eq_dec _ _ _) as [->|_]; [right; eauto|]. destruct (list_eq_dec _ _ _) as [->|_]; [right; exists []; rewrite app_nil_r; auto|auto]. }
  destruct (create_logfile P); [|exists D3; rewrite running_stays; auto].
  rewrite (write_new D3); [|exact S3|].
  - cbn [after fst snd]. rewrite running_stays. eexists. split; [reflexivity|]. split; [rewrite update_other; [exact S3|intro E; symmetry in E; apply NE in E; auto]|].
    intros p. unfold update, path_eqb. destruct (list_eq_dec _ _ _) as [->|_]; [right; eauto|apply O3].
  - unfold D3, D2, update, path_eqb. destruct (list_eq_dec _ _ _) as [_|_]; [discriminate|]. destruct (list_eq_dec _ _ _) as [E|_]; [apply NE in E; tauto|]. rewrite F2. discriminate.
Qed.
Lemma construct_new P D : tree D -> (forall c, D root <> Some (File c)) -> D (results_path P) = None ->
  exists D', construct P D = (D', Running) /\ D' root = Some Dir /\ D' (results_path P) = Some Dir
    /\ forall p, D' p = D p \/ p = root /\ D root = None \/ exists rest, p = results_path P ++ rest.
Proof.
  intros T R F. pose proof T as [T1 T2]. unfold construct. go. destruct (D root) as [[|c]|] eqn:E; [|exfalso; apply (R c); auto|].
  - rewrite (proj2 (isdir_true D root) E). go. rewrite (isdir_false D (results_path P)) by congruence.
    destruct (finish 2 P D T F D) as [D' [A [B C]]]; auto. exists D'. split; [|split; [|split]].
    + exact A. 
    + destruct (C root) as [X|[rest X]]; [congruence|unfold results_path, root in X; simpl in X; discriminate].
    + exact B.
    + intros p. destruct (C p) as [X|X]; auto.
  - rewrite (isdir_false D root) by congruence. go. unfold mkdir. rewrite (proj2 (exists_false D root) E). change (parent root) with (@nil string). rewrite (proj2 (isdir_true D []) T1). cbn [after fst snd]; go.
    rewrite (isdir_false (update D root Dir) (results_path P)) by (rewrite update_other; [congruence|unfold results_path, root; simpl; discriminate]).
    destruct (finish 1 P D T F (update D root Dir)) as [D' [A [B C]]]; auto.
    { intros p. unfold update, path_eqb. destruct (list_eq_dec _ _ _); auto. }
    exists D'. split; [|split; [|split]].
    + exact A.
    + destruct (C root) as [X|[rest X]]; [rewrite X; apply update_same|unfold results_path, root in X; simpl in X; discriminate].
    + exact B.
    + intros p. destruct (C p) as [X|X]; [|auto]. unfold update, path_eqb in X. destruct (list_eq_dec _ p root); auto.
Qed.
