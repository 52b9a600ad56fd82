(** * Dynamic import of classes (utils/dynamicimport.py, utils/map_dictionary.json). *)
From Coq Require Import String List Bool.
From Verif Require Import Num Py ModelDump.
Import ListNotations.
Open Scope string_scope.
Open Scope list_scope.

(** what [getattr(importlib.import_module(m), c)] does: a value, an exception derived from Exception, or one that is not
    (KeyboardInterrupt, SystemExit raised while the module is executed) *)
Inductive outcome (A : Type) := Found (a : A) | Fails | Escapes.
Arguments Found {A} a.
Arguments Fails {A}.
Arguments Escapes {A}.

Section Import.
  (** classes; Python's None is [None] below *)
  Context {A : Type}.
  (** the modules installed *)
  Variable getattr_import : string -> string -> outcome (option A).
  (** content of map_dictionary.json, [None] if readjson failed (dynamicimport.py:22-23) *)
  Variable total_dict : option (dict (dict (dict string))).

  (** [getattr(importlib.import_module(module_name), class_name)] with None for a string raises TypeError or AttributeError.
      Simplification: the import of the module with no class name has no effect of its own *)
  Definition import_class (module_name class_name : option string) : outcome (option A) :=
    match module_name, class_name with Some m, Some c => getattr_import m c | _, _ => Fails end.
  (** dynamicimport.py:48-57: key of the map, [None] if the type is unknown (the map is then empty) *)
  Definition map_key (class_type : string) : option string :=
    if String.eqb class_type "algorithm" then Some "opti_algorithm_map"
    else if String.eqb class_type "dsm_settings" then Some "dsm_settings_map"
    else if String.eqb class_type "basis" then Some "basis_map"
    else if String.eqb class_type "superparameter_distribution" then Some "superparameter_distribution_map"
    else None.
  (** [total_dict[key]]; [None] stands for the exception *)
  Definition map_dict (class_type : string) : option (dict (dict string)) :=
    match map_key class_type with
    | None => Some []
    | Some key => match total_dict with None => None | Some t => get t key end
    end.
  (** the try block of dynamicimport.py:47-67 *)
  Definition by_name (module_name class_name : option string) (name : string) (class_type : option string) : outcome (option A) :=
    match class_type with
    | None => Fails
    | Some t => match map_dict t with
        | None => Fails
        | Some d => match get d name with
            | None => import_class module_name class_name
            | Some e => match get e "module_name", get e "class_name" with
                | Some m, Some c => import_class (Some m) (Some c)
                | _, _ => Fails
                end
            end
        end
    end.
  (** [except Exception: return None]; the result is [None] only if an exception escapes *)
  Definition caught (o : outcome (option A)) : option (option A) := match o with Found a => Some a | Fails => Some None | Escapes => None end.
  (** dynamicimport.py:26-89 *)
  Definition dynamic_import (attribute : option A) (module_name class_name name class_type : option string) : option (option A) :=
    match attribute with
    | Some a => Some (Some a)
    | None => match name with
        | Some n => caught (by_name module_name class_name n class_type)
        | None => match module_name, class_name with
            | Some m, Some c => caught (import_class (Some m) (Some c))
            | _, _ => Some None
            end
        end
    end.

  (** ** The callers.  [construct] is the constructor of the class; calling None raises TypeError.  [None]: an exception of the second kind left *)
  Context {B : Type}.
  Variable construct : A -> res B.
  Definition call_class (o : option (option A)) : option (res B) :=
    match o with None => None | Some None => Some (Err TypeError) | Some (Some a) => Some (construct a) end.
  (** a settings dictionary: class itself, module, class name, name (Optimizer.py:76-84, Controls.py:57-63, ChoppedBasis.py:39-47) *)
  Definition create (class_type : string) (attribute : option A) (module_name class_name name : option string) : option (res B) :=
    call_class (dynamic_import attribute module_name class_name name (Some class_type)).
  (** search method of dCRAB (dCRABAlgorithm.py:60-67): no attribute *)
  Definition create_search_method (module_name class_name name : option string) : option (res B) :=
    call_class (dynamic_import None module_name class_name name (Some "dsm_settings")).
  (** the same of the direct search (DirectSearchAlgorithm.py:53-69): with the deprecated key dsm_name in the settings it is [nelder_mead], whatever the value *)
  Definition create_search_method_direct (nelder_mead : A) (dsm_name module_name class_name name : option string) : option (res B) :=
    match dsm_name with Some _ => Some (construct nelder_mead) | None => create_search_method module_name class_name name end.
End Import.

(** map_dictionary.json *)
Definition entry (module class_ : string) : dict string := [("module_name", module); ("class_name", class_)].
Definition shipped : dict (dict (dict string)) :=
  [("opti_algorithm_map",
     [("AD", entry "quocslib.optimizationalgorithms.ADAlgorithm" "ADAlgorithm");
      ("dCRAB", entry "quocslib.optimizationalgorithms.dCRABAlgorithm" "dCRABAlgorithm");
      ("DirectSearch", entry "quocslib.optimizationalgorithms.DirectSearchAlgorithm" "DirectSearchAlgorithm");
      ("GRAPE", entry "quocslib.optimizationalgorithms.GRAPEAlgorithm" "GRAPEAlgorithm")]);
   ("dsm_settings_map",
     [("NelderMead", entry "quocslib.gradientfreemethods.NelderMead" "NelderMead");
      ("CMAES", entry "quocslib.gradientfreemethods.CMAES" "CMAES")]);
   ("basis_map",
     [("Chebyshev", entry "quocslib.pulses.basis.Chebyshev" "Chebyshev");
      ("ChoppedBasis", entry "quocslib.pulses.basis.ChoppedBasis" "ChoppedBasis");
      ("Fourier", entry "quocslib.pulses.basis.Fourier" "Fourier");
      ("PiecewiseBasis", entry "quocslib.pulses.basis.PiecewiseBasis" "PiecewiseBasis");
      ("Sigmoid", entry "quocslib.pulses.basis.Sigmoid" "Sigmoid");
      ("SigmoidTimeDep", entry "quocslib.pulses.basis.SigmoidTimeDep" "SigmoidTimeDep");
      ("SigmoidSigmas", entry "quocslib.pulses.basis.SigmoidSigmas" "SigmoidSigmas");
      ("SigmoidAllParas", entry "quocslib.pulses.basis.SigmoidAllParas" "SigmoidAllParas");
      ("Sinc", entry "quocslib.pulses.basis.Sinc" "Sinc");
      ("Walsh", entry "quocslib.pulses.basis.Walsh" "Walsh")]);
   ("superparameter_distribution_map",
     [("Uniform", entry "quocslib.pulses.superparameter.Uniform" "Uniform")])].
