(** * C63 Who writes to which log. *)
From Coq Require Import String List Bool ZArith Lia.
From Verif Require Import ModelLogger SpecLogger.
Import ListNotations.
Open Scope string_scope.
Open Scope list_scope.

Lemma path_eqb_eq p q : path_eqb p q = true <-> p = q.
Proof. unfold path_eqb. destruct p, q. simpl. rewrite andb_true_iff, !String.eqb_eq. split; [intros [-> ->]; reflexivity|intros [= -> ->]; auto]. Qed.
Lemma path_eqb_refl p : path_eqb p p = true.
Proof. now apply path_eqb_eq. Qed.
Lemma path_eqb_neq p q : p <> q -> path_eqb p q = false.
Proof. intros H. destruct (path_eqb p q) eqn:E; auto. apply path_eqb_eq in E. contradiction. Qed.
Lemma names_differ c : log_filename c <> log_debug_filename c.
Proof. unfold log_filename, log_debug_filename. intros [= H]. revert H. induction (date_time c) as [|a s IH]; simpl; [discriminate|intros [= H]; auto]. Qed.

(** handlers installed by a creation *)
Definition handlers_of (c : creation) : list handler :=
  (if create_logfile c then [Handler (ToFile (log_filename c)) INFO] else []) ++ [Handler ToConsole (if console_info c then INFO else ERROR)] ++
  (if is_debug c then [Handler (ToFile (log_debug_filename c)) DEBUG] else []).
Record belongs (c : creation) (W : world) : Prop := { be_level : l_level W = INFO; be_handlers : l_handlers W = handlers_of c }.
Lemma create_belongs c W : belongs c (create_logger c W).
Proof. constructor; unfold create_logger, handlers_of; destruct (create_logfile c), (is_debug c); reflexivity. Qed.

Definition severity (level : Z) : Z := if (level <=? 10)%Z then DEBUG else if (level <=? 20)%Z then INFO else if (level <=? 30)%Z then WARNING else ERROR.
Lemma print_logger_log level text W : print_logger level text W = log (severity level) text W.
Proof.
  unfold print_logger, severity. destruct (Z.leb_spec level 10); [reflexivity|]. destruct (Z.ltb_spec 10 level); [|lia]. cbn [andb]. destruct (Z.leb_spec level 20); [reflexivity|].
  destruct (Z.ltb_spec 20 level); [|lia]. cbn [andb]. destruct (level <=? 30)%Z; reflexivity.
Qed.
Lemma log_keeps level text W : l_level (log level text W) = l_level W /\ l_handlers (log level text W) = l_handlers W.
Proof.
  unfold log. destruct (l_level W <=? level)%Z; [|auto]. assert (H : forall hs V, l_level (fold_left (emit level text) hs V) = l_level V /\ l_handlers (fold_left (emit level text) hs V) = l_handlers V).
  { induction hs as [|h hs IH]; intros V; [auto|]. simpl. destruct (IH (emit level text V h)) as [-> ->]. unfold emit. destruct (h_level h <=? level)%Z; [destruct (h_target h)|]; auto. }
  apply H.
Qed.
Lemma message_belongs c W who level text : belongs c W -> belongs c (act W (Message who level text)).
Proof. intros [A B]. cbn [act]. rewrite print_logger_log. destruct (log_keeps (severity level) text W) as [E F]. constructor; congruence. Qed.
(** one message *)
Lemma message_file c W who level text p : belongs c W -> files (act W (Message who level text)) p =
  if (10 <? level)%Z && ((create_logfile c && path_eqb p (log_filename c)) || (is_debug c && path_eqb p (log_debug_filename c)))
  then option_map (fun l => l ++ [text]) (files W p) else files W p.
Proof.
  intros [A B]. cbn [act]. rewrite print_logger_log. unfold log. rewrite A, B. unfold severity, handlers_of.
  assert (ND : path_eqb p (log_filename c) = true -> path_eqb p (log_debug_filename c) = false) by (intros E; apply path_eqb_eq in E; subst; apply path_eqb_neq, names_differ).
  destruct (Z.leb_spec level 10) as [L|L].
  - destruct (Z.ltb_spec 10 level); [lia|]. reflexivity.
  - destruct (Z.ltb_spec 10 level); [|lia]. destruct (level <=? 20)%Z, (level <=? 30)%Z, (create_logfile c), (is_debug c), (console_info c);
      cbn -[path_eqb log_filename log_debug_filename]; destruct (path_eqb p (log_filename c)); try rewrite ND by reflexivity; try destruct (path_eqb p (log_debug_filename c)); reflexivity.
Qed.
Lemma message_console c W who level text : belongs c W -> console (act W (Message who level text)) =
  if ((if console_info c then 10 else 30) <? level)%Z then console W ++ [text] else console W.
Proof.
  intros [A B]. cbn [act]. rewrite print_logger_log. unfold log. rewrite A, B. unfold severity, handlers_of.
  destruct (Z.leb_spec level 10), (Z.leb_spec level 20), (Z.leb_spec level 30); try lia; destruct (create_logfile c), (is_debug c), (console_info c); cbn;
    destruct (Z.ltb_spec 10 level), (Z.ltb_spec 30 level); try lia; reflexivity.
Qed.
Lemma messages c ms : only_messages ms -> forall W, belongs c W -> belongs c (run ms W) /\
  (forall p l, files W p = Some l -> ((create_logfile c && path_eqb p (log_filename c)) || (is_debug c && path_eqb p (log_debug_filename c))) = true ->
     files (run ms W) p = Some (l ++ lines 10 ms)) /\
  (forall p, ((create_logfile c && path_eqb p (log_filename c)) || (is_debug c && path_eqb p (log_debug_filename c))) = false -> files (run ms W) p = files W p) /\
  console (run ms W) = console W ++ lines (if console_info c then 10 else 30) ms.
Proof.
  induction ms as [|a ms IH]; intros O W B.
  - cbn. split; [exact B|]. split; [intros p l E _; now rewrite app_nil_r|]. split; [auto|]. now rewrite app_nil_r.
  - destruct a as [c'|who level text]; [exfalso; apply (O c'); now left|]. assert (O' : only_messages ms) by (intros c' I; apply (O c'); now right).
    change (run (Message who level text :: ms) W) with (run ms (act W (Message who level text))).
    destruct (IH O' _ (message_belongs c W who level text B)) as (I1 & I2 & I3 & I4). split; [exact I1|]. split; [|split].
    + intros p l E H. unfold lines. cbn [flat_map]. fold (lines 10 ms). rewrite app_assoc. apply I2; [|exact H]. rewrite (message_file c W who level text p B), E, H, andb_true_r.
      destruct (10 <? level)%Z; [reflexivity|now rewrite app_nil_r].
    + intros p H. rewrite I3 by exact H. rewrite (message_file c W who level text p B), H, andb_false_r. reflexivity.
    + rewrite I4, (message_console c W who level text B). unfold lines. cbn [flat_map]. destruct (_ <? level)%Z; [rewrite <- app_assoc|]; reflexivity.
Qed.
(** creations and messages elsewhere do not touch a folder *)
Lemma create_file c W p : files (create_logger c W) p =
  if (create_logfile c && path_eqb p (log_filename c)) || (is_debug c && path_eqb p (log_debug_filename c)) then match files W p with None => Some [] | f => f end else files W p.
Proof.
  unfold create_logger. destruct (create_logfile c), (is_debug c); cbn -[path_eqb log_filename log_debug_filename];
    destruct (path_eqb p (log_filename c)), (path_eqb p (log_debug_filename c)); try reflexivity; destruct (files W p); reflexivity.
Qed.
Lemma far_message folder W who level text name : ~ aims folder W -> files (act W (Message who level text)) (folder, name) = files W (folder, name).
Proof.
  intros H. cbn [act]. rewrite print_logger_log. unfold log. destruct (_ <=? _)%Z; [|reflexivity].
  assert (G : forall hs V, (forall h p, In h hs -> h_target h = ToFile p -> fst p <> folder) -> files (fold_left (emit (severity level) text) hs V) (folder, name) = files V (folder, name)).
  { induction hs as [|h hs IH]; intros V K; [reflexivity|]. cbn [fold_left]. rewrite IH by (intros h' p I; apply K; now right). unfold emit. destruct (_ <=? _)%Z; [|reflexivity].
    destruct (h_target h) as [p|] eqn:T; [|reflexivity]. cbn [files]. rewrite path_eqb_neq; [reflexivity|]. intros E. apply (K h p); [now left|exact T|now subst]. }
  apply G. intros h p I T F. apply H. exists h, p. auto.
Qed.
Lemma far folder name h : elsewhere folder h -> forall W, ~ aims folder W -> files (run h W) (folder, name) = files W (folder, name) /\ ~ aims folder (run h W).
Proof.
  induction h as [|a h IH]; intros E W A; [auto|]. assert (E' : elsewhere folder h) by (intros c I; apply E; now right).
  change (run (a :: h) W) with (run h (act W a)).
  assert (K : files (act W a) (folder, name) = files W (folder, name) /\ ~ aims folder (act W a)).
  { destruct a as [c|who level text].
    - specialize (E c (or_introl eq_refl)). cbn [act]. split.
      + rewrite create_file. rewrite !path_eqb_neq; [rewrite !andb_false_r; reflexivity| |]; unfold log_filename, log_debug_filename; intros [= Q _]; congruence.
      + intros (h' & p & I & T & F). rewrite (be_handlers _ _ (create_belongs c W)) in I. unfold handlers_of in I. rewrite !in_app_iff in I.
        destruct I as [I|[I|I]]; [destruct (create_logfile c)| |destruct (is_debug c)]; simpl in I; repeat match type of I with _ \/ _ => destruct I as [I|I] | False => destruct I end; subst h'; cbn in T; try discriminate; injection T as <-; cbn in F; congruence.
    - split; [now apply far_message|]. intros (h' & p & I & T & F). apply A. exists h', p. cbn [act] in I. rewrite print_logger_log in I. destruct (log_keeps (severity level) text W) as [_ Q]. rewrite Q in I. auto. }
  destruct K as [K1 K2]. destruct (IH E' _ K2) as [I1 I2]. split; [congruence|exact I2].
Qed.
Lemma create_far c folder W : results_path c <> folder -> ~ aims folder (create_logger c W).
Proof.
  intros E (h' & p & I & T & F). rewrite (be_handlers _ _ (create_belongs c W)) in I. unfold handlers_of in I. rewrite !in_app_iff in I.
  destruct I as [I|[I|I]]; [destruct (create_logfile c)| |destruct (is_debug c)]; simpl in I; repeat match type of I with _ \/ _ => destruct I as [I|I] | False => destruct I end; subst h'; cbn in T; try discriminate; injection T as <-; cbn in F; congruence.
Qed.
Lemma far_rest folder name W rest : superseded_or_over rest -> elsewhere folder rest -> files (run rest W) (folder, name) = files W (folder, name).
Proof.
  intros [->|(c & r & ->)] E; [reflexivity|]. change (run (Create c :: r) W) with (run r (create_logger c W)).
  assert (Q : results_path c <> folder) by (apply E; now left). assert (E' : elsewhere folder r) by (intros c' I; apply E; now right).
  destruct (far folder name r E' (create_logger c W) (create_far c folder W Q)) as [-> _]. rewrite create_file.
  rewrite !path_eqb_neq; [rewrite !andb_false_r; reflexivity| |]; unfold log_filename, log_debug_filename; intros [= ? _]; congruence.
Qed.

(** The log file of an optimiser contains the messages above debug level which anybody logged from its creation until the next optimiser was created, and nothing else;
    the debug file, if asked for, contains the same. *)
Theorem C63_file h1 c ms rest W : only_messages ms -> superseded_or_over rest -> elsewhere (results_path c) (h1 ++ rest) ->
  (forall name, files W (results_path c, name) = None) -> ~ aims (results_path c) W ->
  let F := files (run (h1 ++ Create c :: ms ++ rest) W) in
  F (log_filename c) = (if create_logfile c then Some (lines 10 ms) else None) /\
  F (log_debug_filename c) = (if is_debug c then Some (lines 10 ms) else None) /\
  forall name, name <> snd (log_filename c) -> name <> snd (log_debug_filename c) -> F (results_path c, name) = None.
Proof.
  intros O SO E N A. assert (E1 : elsewhere (results_path c) h1) by (intros c' I; apply E, in_or_app; auto). assert (E2 : elsewhere (results_path c) rest) by (intros c' I; apply E, in_or_app; auto).
  cbv zeta. unfold run. rewrite fold_left_app. cbn [fold_left]. rewrite fold_left_app. cbn [act].
  change (fold_left act h1 W) with (run h1 W). set (V := create_logger c (run h1 W)). change (fold_left act ms V) with (run ms V). change (fold_left act rest (run ms V)) with (run rest (run ms V)).
  destruct (messages c ms O V (create_belongs c _)) as (_ & M1 & M2 & _).
  assert (Z : forall name, files (run h1 W) (results_path c, name) = None) by (intros name; destruct (far (results_path c) name h1 E1 W A) as [-> _]; apply N).
  split; [|split].
  - unfold log_filename at 1. rewrite (far_rest _ _ _ _ SO E2). fold (log_filename c). destruct (create_logfile c) eqn:CL.
    + rewrite (M1 (log_filename c) []); [reflexivity| |now rewrite path_eqb_refl]. unfold V. rewrite create_file, CL, path_eqb_refl. cbn [andb orb]. unfold log_filename. now rewrite Z.
    + rewrite M2; [unfold V; rewrite create_file, CL|]; rewrite (path_eqb_neq _ _ (names_differ c)), !andb_false_r; [apply Z|reflexivity].
  - unfold log_debug_filename at 1. rewrite (far_rest _ _ _ _ SO E2). fold (log_debug_filename c). assert (Q : path_eqb (log_debug_filename c) (log_filename c) = false) by (apply path_eqb_neq; intros X; symmetry in X; now apply names_differ in X).
    destruct (is_debug c) eqn:CL.
    + rewrite (M1 (log_debug_filename c) []); [reflexivity| |now rewrite path_eqb_refl, orb_true_r]. unfold V. rewrite create_file, CL, path_eqb_refl, orb_true_r. unfold log_debug_filename. now rewrite Z.
    + rewrite M2; [unfold V; rewrite create_file, CL|]; rewrite Q, andb_false_r; [apply Z|reflexivity].
  - intros name N1 N2. rewrite (far_rest _ _ _ _ SO E2). assert (Q : (create_logfile c && path_eqb (results_path c, name) (log_filename c)) || (is_debug c && path_eqb (results_path c, name) (log_debug_filename c)) = false).
    { rewrite !path_eqb_neq; [now rewrite !andb_false_r| |]; intros X; apply (f_equal snd) in X; cbn [snd] in X; congruence. }
    rewrite M2 by exact Q. unfold V. rewrite create_file, Q. apply Z.
Qed.
(** The console shows the messages above debug level, or only errors, as the optimiser created last asked. *)
Theorem C63_console h1 c ms W : only_messages ms ->
  console (run (h1 ++ Create c :: ms) W) = console (run h1 W) ++ lines (if console_info c then 10 else 30) ms.
Proof.
  intros O. assert (run (h1 ++ Create c :: ms) W = run ms (create_logger c (run h1 W))) as -> by (unfold run; rewrite fold_left_app; reflexivity).
  destruct (messages c ms O (create_logger c (run h1 W)) (create_belongs c _)) as (_ & _ & _ & H). rewrite H. f_equal.
  unfold create_logger. destruct (create_logfile c), (is_debug c); reflexivity.
Qed.
(** Two optimisers in one program: what the first logs after the second was created is in the log of the second and not in its own. *)
Definition first : creation := Creation "QuOCS_Results/1_a" "1" true true true.
Definition second : creation := Creation "QuOCS_Results/2_b" "2" true true false.
Definition two : list action := [Create first; Message 1 20 "one"; Create second; Message 1 20 "two"; Message 2 20 "three"; Message 1 10 "debug"].
Definition nothing : world := World 0 [] (fun _ => None) [].
Theorem C63_own_log_refuted : files (run two nothing) (log_filename first) = Some ["one"] /\ files (run two nothing) (log_filename second) = Some ["two"; "three"].
Proof. split; reflexivity. Qed.
(** A debug message reaches no file, not even the debug file. *)
Theorem C63_debug_refuted who text c h W : ~ aims (results_path c) W -> (forall name, files W (results_path c, name) = None) -> is_debug c = true -> only_messages h ->
  files (run (Create c :: Message who 10 text :: h) W) (log_debug_filename c) = files (run (Create c :: h) W) (log_debug_filename c).
Proof.
  intros A N D O. assert (O1 : only_messages (Message who 10 text :: h)) by (intros c' [I|I]; [discriminate|apply (O c' I)]).
  destruct (C63_file [] c (Message who 10 text :: h) [] W O1 (or_introl eq_refl)) as (_ & E1 & _); auto; [intros c' []|].
  destruct (C63_file [] c h [] W O (or_introl eq_refl)) as (_ & E2 & _); auto; [intros c' []|]. cbn [app] in E1, E2. rewrite app_nil_r in E1, E2. rewrite E1, E2. reflexivity.
Qed.
Example C63_case : only_messages [Message 1 20 "one"] /\ superseded_or_over (skipn 2 two) /\ elsewhere (results_path first) (skipn 2 two) /\ ~ aims (results_path first) nothing /\
  files (run two nothing) (log_debug_filename first) = Some ["one"] /\ console (run two nothing) = ["one"; "two"; "three"].
Proof.
  split; [intros c [I|[]]; discriminate|]. split; [right; eexists _, _; reflexivity|]. split; [intros c I; cbn in I; repeat (destruct I as [I|I]; [try discriminate; injection I as <-; discriminate|]); destruct I|].
  split; [intros (h & p & [] & _)|]. split; reflexivity.
Qed.
Print Assumptions C63_file.
Print Assumptions C63_console.
Print Assumptions C63_own_log_refuted.
Print Assumptions C63_debug_refuted.
