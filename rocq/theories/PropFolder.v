(** * C47 The results folder. *)
From Coq Require Import String List Bool Arith Lia.
From Verif Require Import ModelFolder SpecFolder ProofFolder.
Import ListNotations.
Open Scope string_scope.
Open Scope list_scope.

(** whatever any number of optimisers do in whatever order, also stopped half way, everything on the disk before stays as it was *)
Theorem C47_preserved P D schedule : tree D -> preserves D (disk (run P schedule (start D))).
Proof. intros T. destruct (run_good P D T schedule _ (start_good P D)) as [H _]. exact H. Qed.
(** an optimiser that got its folder: it did not exist before *)
Theorem C47_new_folder P D schedule i : tree D -> let S := run P schedule (start D) in has_folder (phases S i) ->
  D (results_path (P i)) = None /\ disk S (results_path (P i)) = Some Dir.
Proof. intros T S F. destruct (run_good P D T schedule _ (start_good P D)) as [_ [H _]]. exact (H i F). Qed.
(** two optimisers never share a folder *)
Theorem C47_one_owner P D schedule i j : tree D -> let S := run P schedule (start D) in i <> j -> has_folder (phases S i) -> has_folder (phases S j) ->
  results_path (P i) <> results_path (P j).
Proof. intros T S N Fi Fj. destruct (run_good P D T schedule _ (start_good P D)) as [_ [_ H]]. exact (H i j N Fi Fj). Qed.
(** only its owner changes what lies in a folder *)
Theorem C47_untouched P D schedule later j rest : tree D -> let S := run P schedule (start D) in has_folder (phases S j) ->
  (forall m, In m later -> fst m <> j) -> disk (run P later S) (results_path (P j) ++ rest) = disk S (results_path (P j) ++ rest).
Proof.
  intros T S F N. assert (G : good P D S) by (apply run_good; auto; apply start_good). clearbody S. clear schedule. revert S F G. induction later as [|[i o] l IH]; intros S F G; simpl; auto.
  assert (IJ : i <> j) by (apply (N (i, o)); simpl; auto). rewrite IH.
  - apply (move_other P D); auto.
  - intros m M. apply N. simpl. auto.
  - unfold move. destruct (step (P i) o (disk S) (phases S i)) as [D1 ph]. cbn. destruct (Nat.eqb_spec j i); [congruence|exact F].
  - apply move_good; auto.
Qed.
(** one optimiser alone: refused without a trace exactly if its folder (or a file in place of QuOCS_Results) is there, else it gets a new folder
    and nothing outside changes except that QuOCS_Results is made if missing *)
Theorem C47_refused P D : tree D -> (exists c, D root = Some (File c)) \/ D (results_path P) <> None -> construct P D = (D, Failed EExists).
Proof. exact (construct_refused P D). Qed.
Theorem C47_accepted P D : tree D -> (forall c, D root <> Some (File c)) -> D (results_path P) = None ->
  exists D', construct P D = (D', Running) /\ D' root = Some Dir /\ D' (results_path P) = Some Dir
    /\ forall p, D' p = D p \/ p = root /\ D root = None \/ exists rest, p = results_path P ++ rest.
Proof. exact (construct_new P D). Qed.

Definition empty : fs := fun p => match p with [] => Some Dir | _ => None end.
Definition two (i : nat) : process := match i with 0 => Process "20230101_120000" "a" true | _ => Process "20230101_120000" "b" false end.
Lemma empty_tree : tree empty.
Proof. split; [reflexivity|]. intros p x H. destruct p; simpl in H; congruence. Qed.
(** two optimisers with different names started in a directory without QuOCS_Results: one can be refused *)
Theorem C47_race_refuted : results_path (two 0) <> results_path (two 1) /\ tree empty
  /\ phases (run two [(0, None); (1, None); (0, None); (1, None)] (start empty)) 1 = Failed EExists.
Proof. split; [discriminate|]. split; [exact empty_tree|reflexivity]. Qed.
(** a case: the second optimiser has the name of the first and comes between its check and its mkdir; the first one's folder is its own *)
Definition same (i : nat) : process := Process "20230101_120000" "a" true.
Example C47_case : let S := run same (repeat (0, None) 4 ++ repeat (1, None) 6 ++ [(0, None); (1, Some ("best_controls.npz", "record"))]) (start empty) in
  phases S 0 = Failed EExists /\ has_folder (phases S 1) /\ disk S (results_path (same 1) ++ ["quocs_version.txt"]) = Some (File "QuOCS library version").
Proof. vm_compute. split; [reflexivity|]. split; [auto|reflexivity]. Qed.
Print Assumptions C47_preserved.
Print Assumptions C47_new_folder.
Print Assumptions C47_one_owner.
Print Assumptions C47_untouched.
Print Assumptions C47_refused.
Print Assumptions C47_accepted.
Print Assumptions C47_race_refuted.
