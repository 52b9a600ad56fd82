(** Model of whole CMA-ES searches in binary64 (gradientfreemethods/CMAES.py:47-227): the run of ModelSearch.v with the candidates of ModelCma64.v.
    Simplification: an exception of eigh shows at the next candidate instead of the end of the generation, as in [candidate64]. *)
From Coq Require Import List ZArith.
From RecordUpdate Require Import RecordSet.
From Verif Require Import Num Py ModelPulse ModelControls ModelState ModelSearch ModelCma64.
Import ListNotations RecordSetNotations.
Open Scope nat_scope.

(** CMAES.py:142, 165-198 in place of the sampling oracle; [population] as in [run_cma]; line 88: [mu] *)
Definition cma_oracle64 (K : rates) (eigh : fmat -> res (fvec * fmat)) (fexp : f64 -> f64) (population : option nat) (W : world (N := F64))
  (x0 sigma_v : list f64) (hist : list (list f64 * f64)) (z : list f64) : res (list f64) :=
  let n := length x0 in
  let l_pop := match population with Some p => p | None => w_pop W n end in
  candidate64 n (l_pop / 2) l_pop K eigh fexp (w_argsort W) x0 sigma_v hist z.
(** the same, inside the world of a run; the adaptation raises nothing apart from eigh *)
Definition code_world64 (K : rates) (eigh : fmat -> res (fvec * fmat)) (fexp : f64 -> f64) (population : option nat) (W : world (N := F64)) : world (N := F64) :=
  W <|w_cma := (cma_oracle64 K eigh fexp population W : ModelLinalg.vec (N := F64) -> ModelLinalg.vec (N := F64) -> list (ModelLinalg.vec (N := F64) * @num F64) ->
                 ModelLinalg.vec (N := F64) -> res (ModelLinalg.vec (N := F64)))|>
    <|w_cma_adapt := fun _ => Ok tt|>.
