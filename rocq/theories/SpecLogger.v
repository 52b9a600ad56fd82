(** * Vocabulary for logging. *)
From Coq Require Import String List Bool ZArith.
From Verif Require Import ModelLogger.
Import ListNotations.
Open Scope list_scope.

(** no optimiser is created *)
Definition only_messages (h : list action) : Prop := forall c, ~ In (Create c) h.
(** nothing more happens, or an optimiser is created next *)
Definition superseded_or_over (h : list action) : Prop := h = [] \/ exists c r, h = Create c :: r.
(** messages above a level *)
Definition lines (above : Z) (h : list action) : list string :=
  flat_map (fun a => match a with Message _ level text => if (above <? level)%Z then [text] else [] | Create _ => [] end) h.
(** no optimiser created in these events has this results folder *)
Definition elsewhere (folder : string) (h : list action) : Prop := forall c, In (Create c) h -> results_path c <> folder.
(** some handler writes into this folder *)
Definition aims (folder : string) (W : world) : Prop := exists h p, In h (l_handlers W) /\ h_target h = ToFile p /\ fst p = folder.
