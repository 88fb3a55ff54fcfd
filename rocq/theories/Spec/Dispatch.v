(** Vocabulary for the calls of compiled functions. *)
From Coq Require Import List ZArith Bool Arith.
From Verif.Model Require Import Base Dispatch.
Import ListNotations.

(** Something with one or two dimensions that holds numbers: what numpy can turn into
    a matrix. *)
Definition usable (v : value) : Prop :=
  match v with
  | Array t s => numeric_dtype t = true /\ (length s = 1 \/ length s = 2)
  | Sequence s n => n = true /\ (length s = 1 \/ length s = 2)
  | _ => False
  end.
(** An array of a dtype. *)
Definition array_of (t : dtype) (v : value) : Prop := exists s, v = Array t s.
(** A numpy number of a dtype. *)
Definition scalar_of (t : dtype) (v : value) : Prop := exists z, v = Scalar t z.
(** Something [float()] turns into a number: Python and numpy numbers and arrays with
    one element. *)
Definition number (v : value) : Prop :=
  match v with
  | PyFloat | PyInt _ | PyBool _ => True
  | Scalar t _ => numeric_dtype t = true
  | Array t s => numeric_dtype t = true /\ size s = 1
  | _ => False
  end.
(** A seed as the documentation describes it: none, or an integer below 2^32. *)
Definition plain_seed (v : value) : Prop :=
  v = Nothing \/ exists z, v = PyInt z /\ (0 <= z < 2 ^ 32)%Z.
(** The functions whose parameters are all matrices, and how many. *)
Definition matrix_functions : list (list overload * nat) :=
  [(activation, 1); (get_cluster, 1); (calculate_euclidean_distance, 2); (calculate_means, 2); (kernel, 2);
   (metric, 2); (get_w, 3); (get_within_class_scatter_matrix, 4)].
(** Something numpy can fill an array of numbers with, of any number of dimensions. *)
Definition fillable (v : value) : Prop :=
  match v with
  | Array t _ | Scalar t _ => numeric_dtype t = true
  | Sequence _ n | Text n => n = true
  | Object => False
  | _ => True
  end.
(** A Python integer between 0 and 2^32. *)
Definition small_int (v : value) : Prop := exists z, v = PyInt z /\ (0 <= z < 2 ^ 32)%Z.
(** [True] or [False], of Python or numpy. *)
Definition boolean (v : value) : Prop := (exists b, v = PyBool b) \/ scalar_of Boolean v.
(** Arrays are taken for integers only if they have one element, and without a
    conversion only if they have no dimension. *)
Definition arrays_as_ints (take : bool -> dtype -> list nat -> bool) : Prop :=
  forall convert t s, take convert t s = true -> size s = 1 /\ (convert = false -> s = []).
