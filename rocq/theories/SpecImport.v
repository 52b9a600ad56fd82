(** * Vocabulary for the dynamic import: what users know by name. *)
From Coq Require Import String List.
Import ListNotations.
Open Scope string_scope.
Open Scope list_scope.
(** [known t n m c]: for class type [t] the name [n] stands for class [c] of module [m] *)
Inductive known : string -> string -> string -> string -> Prop :=
| known_algorithm n : In n ["AD"; "dCRAB"; "DirectSearch"; "GRAPE"] ->
    known "algorithm" n ("quocslib.optimizationalgorithms." ++ n ++ "Algorithm") (n ++ "Algorithm")
| known_search n : In n ["NelderMead"; "CMAES"] -> known "dsm_settings" n ("quocslib.gradientfreemethods." ++ n) n
| known_basis n : In n ["Chebyshev"; "ChoppedBasis"; "Fourier"; "PiecewiseBasis"; "Sigmoid"; "SigmoidTimeDep"; "SigmoidSigmas"; "SigmoidAllParas"; "Sinc"; "Walsh"] ->
    known "basis" n ("quocslib.pulses.basis." ++ n) n
| known_distribution : known "superparameter_distribution" "Uniform" "quocslib.pulses.superparameter.Uniform" "Uniform".
(** module and class to be imported for a name, explicit module and class: the known name wins *)
Inductive chosen (t : string) : option string -> option string -> option string -> string -> string -> Prop :=
| chosen_name n m0 c0 m c : known t n m c -> chosen t (Some n) m0 c0 m c
| chosen_unknown n m c : (forall m' c', ~ known t n m' c') -> chosen t (Some n) (Some m) (Some c) m c
| chosen_explicit m c : chosen t None (Some m) (Some c) m c.
