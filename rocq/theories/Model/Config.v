(** Model of the configuration by environment variables: classicML/__init__.py,
    framework/dtypes.py and the imports of backend/__init__.py.

    An exported name is bound to the source it was imported from: the package
    (Python or C++) and the name there.  The module inside the package and the
    font are left out, and so are the imports common to both engines (io and the
    look-ups of training.py) and the messages other than the two named here. *)
From Coq Require Import List String Bool.
From Verif.Model Require Import Base.
Import ListNotations.
Local Open Scope string_scope.

(** The environment: variables that are set, and their texts. ([os.environ],
    classicML/__init__.py 8-10). *)
Definition environment := list (string * string).
(** [os.environ[k]] (dtypes.py 36, backend/__init__.py 6). *)
Fixpoint env_get (env : environment) (k : string) : option string :=
  match env with [] => None | (k', v) :: t => if k =? k' then Some v else env_get t k end.
(** [os.environ.setdefault]. (classicML/__init__.py 8-10). *)
Definition setdefault (env : environment) (k v : string) : environment :=
  match env_get env k with Some _ => env | None => (env ++ [(k, v)])%list end.

(** classicML/__init__.py 8-10. *)
Definition with_defaults (env : environment) : environment :=
  setdefault (setdefault (setdefault env "CLASSICML_ENGINE" "Python")
    "CLASSICML_FONT" "Arial Unicode MS") "CLASSICML_PRECISION" "32-bit".

(** Number of bits of the global types and whether a warning was logged. (dtypes.py
    32-34, 43). *)
Record precision := { float_bits : nat; int_bits : nat; warned : bool }.
(** framework/dtypes.py 30-47 [set_precision]; a missing variable would be a
    KeyError. *)
Definition set_precision (env : environment) : result precision :=
  match env_get env "CLASSICML_PRECISION" with
  | None => Err KeyError
  | Some p =>
      Ok (if p =? "32-bit" then {| float_bits := 32; int_bits := 32; warned := false |}
          else if p =? "64-bit" then {| float_bits := 64; int_bits := 64; warned := false |}
          else {| float_bits := 32; int_bits := 32; warned := true |})
  end.

(** Where an exported name comes from. (backend/__init__.py 6-128). *)
Inductive origin := Py (source : string) | Cpp (source : string).

(** backend/__init__.py 7-22: modules with the C++ engine. *)
Definition cpp_modules : list (string * origin) :=
  [("activations", Cpp "activations");
   ("callbacks", Cpp "callbacks");
   ("data", Py "data");
   ("initializers", Cpp "initializers");
   ("kernels", Cpp "kernels");
   ("losses", Cpp "losses");
   ("metrics", Cpp "metrics");
   ("optimizers", Py "optimizers");
   ("tree", Py "tree");
   ("activations__version__", Cpp "__version__");
   ("callbacks__version__", Cpp "__version__");
   ("initializers__version__", Cpp "__version__");
   ("kernels__version__", Cpp "__version__");
   ("losses__version__", Cpp "__version__");
   ("metrics__version__", Cpp "__version__")].
(** backend/__init__.py 31-39: modules otherwise. *)
Definition python_modules : list (string * origin) :=
  [("activations", Py "activations");
   ("callbacks", Py "callbacks");
   ("data", Py "data");
   ("initializers", Py "initializers");
   ("kernels", Py "kernels");
   ("losses", Py "losses");
   ("metrics", Py "metrics");
   ("optimizers", Py "optimizers");
   ("tree", Py "tree")].
(** backend/__init__.py 43-99: functions with the C++ engine. *)
Definition cpp_ops : list (string * origin) :=
  [("cc_bootstrap_sampling", Cpp "cc_bootstrap_sampling");
   ("cc_calculate_centroids", Cpp "cc_calculate_centroids");
   ("cc_calculate_covariances", Py "calculate_covariances");
   ("cc_calculate_error", Cpp "cc_calculate_error");
   ("cc_calculate_euclidean_distance", Cpp "cc_calculate_euclidean_distance");
   ("cc_calculate_means", Cpp "cc_calculate_means");
   ("cc_calculate_mixture_coefficient", Py "calculate_mixture_coefficient");
   ("cc_clip_alpha", Cpp "cc_clip_alpha");
   ("cc_compare_differences", Cpp "cc_compare_differences");
   ("cc_get_cluster", Cpp "cc_get_cluster");
   ("cc_get_conditional_probability", Cpp "cc_get_conditional_probability");
   ("cc_get_dependent_prior_probability", Cpp "cc_get_dependent_prior_probability");
   ("cc_get_gaussian_mixture_distribution_posterior_probability", Py "get_gaussian_mixture_distribution_posterior_probability");
   ("cc_get_gaussian_mixture_distribution_probability_density", Py "get_gaussian_mixture_distribution_probability_density");
   ("cc_get_normal_distribution_probability_density", Py "get_normal_distribution_probability_density");
   ("cc_get_prior_probability", Cpp "cc_get_prior_probability");
   ("cc_get_probability_density", Cpp "cc_get_probability_density");
   ("cc_get_w_v1", Cpp "cc_get_w");
   ("cc_get_w_v2", Cpp "cc_get_w_v2");
   ("cc_get_w", Cpp "cc_get_w_v2");
   ("cc_get_within_class_scatter_matrix", Cpp "cc_get_within_class_scatter_matrix");
   ("cc_init_centroids", Cpp "cc_init_centroids");
   ("cc_init_covariances", Py "init_covariances");
   ("cc_init_mixture_coefficient", Py "init_mixture_coefficient");
   ("cc_select_second_alpha", Cpp "cc_select_second_alpha");
   ("cc_type_of_target_v1", Cpp "cc_type_of_target");
   ("cc_type_of_target_v2", Cpp "cc_type_of_target_v2");
   ("cc_type_of_target", Cpp "cc_type_of_target_v2");
   ("bootstrap_sampling", Cpp "cc_bootstrap_sampling");
   ("ConvexHull", Cpp "ConvexHull");
   ("calculate_centroids", Cpp "cc_calculate_centroids");
   ("calculate_covariances", Py "calculate_covariances");
   ("calculate_error", Cpp "cc_calculate_error");
   ("calculate_euclidean_distance", Cpp "cc_calculate_euclidean_distance");
   ("calculate_means", Cpp "cc_calculate_means");
   ("calculate_mixture_coefficient", Py "calculate_mixture_coefficient");
   ("clip_alpha", Cpp "cc_clip_alpha");
   ("compare_differences", Cpp "cc_compare_differences");
   ("get_cluster", Cpp "cc_get_cluster");
   ("get_conditional_probability", Cpp "cc_get_conditional_probability");
   ("get_dependent_prior_probability", Cpp "cc_get_dependent_prior_probability");
   ("get_gaussian_mixture_distribution_posterior_probability", Py "get_gaussian_mixture_distribution_posterior_probability");
   ("get_gaussian_mixture_distribution_probability_density", Py "get_gaussian_mixture_distribution_probability_density");
   ("get_normal_distribution_probability_density", Py "get_normal_distribution_probability_density");
   ("get_prior_probability", Cpp "cc_get_prior_probability");
   ("get_probability_density", Cpp "cc_get_probability_density");
   ("get_w", Cpp "cc_get_w_v2");
   ("get_within_class_scatter_matrix", Cpp "cc_get_within_class_scatter_matrix");
   ("init_centroids", Cpp "cc_init_centroids");
   ("init_covariances", Py "init_covariances");
   ("init_mixture_coefficient", Py "init_mixture_coefficient");
   ("select_second_alpha", Cpp "cc_select_second_alpha");
   ("type_of_target", Cpp "cc_type_of_target_v2");
   ("ops__version__", Cpp "__version__")].
(** backend/__init__.py 102-128: functions otherwise. *)
Definition python_ops : list (string * origin) :=
  [("bootstrap_sampling", Py "bootstrap_sampling");
   ("ConvexHull", Py "ConvexHull");
   ("calculate_centroids", Py "calculate_centroids");
   ("calculate_covariances", Py "calculate_covariances");
   ("calculate_error", Py "calculate_error");
   ("calculate_euclidean_distance", Py "calculate_euclidean_distance");
   ("calculate_means", Py "calculate_means");
   ("calculate_mixture_coefficient", Py "calculate_mixture_coefficient");
   ("clip_alpha", Py "clip_alpha");
   ("compare_differences", Py "compare_differences");
   ("get_cluster", Py "get_cluster");
   ("get_conditional_probability", Py "get_conditional_probability");
   ("get_dependent_prior_probability", Py "get_dependent_prior_probability");
   ("get_gaussian_mixture_distribution_posterior_probability", Py "get_gaussian_mixture_distribution_posterior_probability");
   ("get_gaussian_mixture_distribution_probability_density", Py "get_gaussian_mixture_distribution_probability_density");
   ("get_normal_distribution_probability_density", Py "get_normal_distribution_probability_density");
   ("get_prior_probability", Py "get_prior_probability");
   ("get_probability_density", Py "get_probability_density");
   ("get_w_v1", Py "get_w");
   ("get_w_v2", Py "get_w_v2");
   ("get_w", Py "get_w_v2");
   ("get_within_class_scatter_matrix", Py "get_within_class_scatter_matrix");
   ("init_centroids", Py "init_centroids");
   ("init_covariances", Py "init_covariances");
   ("init_mixture_coefficient", Py "init_mixture_coefficient");
   ("select_second_alpha", Py "select_second_alpha");
   ("type_of_target", Py "type_of_target")].

(** backend/__init__.py 6 and 42: one comparison with the text CC. *)
Definition exports (engine : string) : list (string * origin) :=
  if engine =? "CC" then (cpp_modules ++ cpp_ops)%list else (python_modules ++ python_ops)%list.
(** A later import of the same name wins. (backend/__init__.py 6-128). *)
Fixpoint bound (l : list (string * origin)) (n : string) : option origin :=
  match l with
  | [] => None
  | (n', o) :: t => match bound t n with Some o' => Some o' | None => if n =? n' then Some o else None end
  end.

(** The result of [import classicML]: the engine named in the first message, the
    precision and what a name of the backend stands for. (classicML/__init__.py 14,
    22, backend/__init__.py 6-128). *)
Record library := { announced : string; prec : precision; backend : string -> option origin }.
(** classicML/__init__.py 8-22 and backend/__init__.py 6-128. *)
Definition import_classicML (env : environment) : result library :=
  let env := with_defaults env in
  match env_get env "CLASSICML_ENGINE" with
  | None => Err KeyError
  | Some e => p <- set_precision env ;;
      Ok {| announced := e; prec := p; backend := bound (exports e) |}
  end.
