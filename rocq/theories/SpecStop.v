(** * Vocabulary for statements about the stopping criteria of a direct search. *)
From Coq Require Import String ZArith List Bool.
From RecordUpdate Require Import RecordSet.
From Verif Require Import Num Py ModelPulse ModelControls ModelLinalg ModelState ModelSearch.
Import ListNotations RecordSetNotations.
Open Scope list_scope.

Section SpecStop.
  Context {N : Num}.

  (** every coordinate of every vertex is within [xatol] of the first vertex *)
  Definition small_simplex (xatol : num) (sim : list vec) : Prop :=
    exists v0 vs, sim = v0 :: vs /\
      forall v k a b, In v vs -> nth_error v k = Some a -> nth_error v0 k = Some b -> (nabs (a - b) <=? xatol)%num = true.

  (** The criteria of Nelder-Mead, in the order in which they are tested, with their reasons; [t] is the time of the test
      and [t0] the start of the search, in microseconds. *)
  Definition nm_criteria (G : settings) (sim : list vec) (fsim : list num) (calls : nat) (t0 t : Z) : list (Prop * string) :=
    [((g_max_eval G <= Z.of_nat calls)%Z, "Exceeded number of allowed function evaluations per direct search."%string);
     (small_simplex (g_xatol G) sim, "Convergence of the simplex."%string);
     ((nstd fsim <=? g_fatol G)%num = true, "Convergence of the FoM (fatol)."%string);
     ((g_time_lim G <=? of_Z (t - t0) / of_Z 1000000 / of_Z 60)%num = true, "Optimization time for direct search exceeded limit."%string)].
  (** those of CMA-ES *)
  Definition cma_criteria (G : settings) (fsim : list num) (calls : nat) (t0 t : Z) : list (Prop * string) :=
    [((g_max_eval G <= Z.of_nat calls)%Z, "Exceeded number of allowed function evaluations per direct search."%string);
     ((nstd fsim <=? g_fatol G)%num = true, "Convergence of the FoM (fatol)."%string);
     ((g_time_lim G <=? of_Z (t - t0) / of_Z 1000000 / of_Z 60)%num = true, "Optimization time for direct search exceeded limit."%string)].

  Definition some_fulfilled (l : list (Prop * string)) : Prop := exists P reason, In (P, reason) l /\ P.
  (** [reason] belongs to the first fulfilled criterion *)
  Definition first_fulfilled (l : list (Prop * string)) (reason : string) : Prop :=
    exists before P after, l = before ++ (P, reason) :: after /\ P /\ forall Q r, In (Q, r) before -> ~ Q.

  (** flag and reason of the stopping criteria object, and the clock reading the next test of the time will get *)
  Definition converged (s : st) : bool := sc_conv (s_sc s).
  Definition reason (s : st) : string := sc_reason (s_sc s).
  Definition clock (W : world) (s : st) : Z := w_clock W (k_clock (s_cnt s)).

  (** the function does not touch the stopping criteria object *)
  Definition leaves_criteria (func : vec -> nat -> option num -> M num) : Prop :=
    forall x it v s r s', func x it v s = (r, s') -> s_sc s' = s_sc s.
End SpecStop.
