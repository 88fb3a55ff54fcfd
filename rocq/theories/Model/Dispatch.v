(** Model of the calls of the compiled functions from Python: the overloads that
    classicML/backend/cc/*/*_wrapper.cc register with pybind11, in their order, and
    the choice among them.

    Of a Python value only what the choice depends on is kept: kind, dtype, shape and
    the integer it converts to. pybind11 (pybind11.h, cast.h, eigen.h, numpy.h; not
    part of the repository) tries the overloads in order without conversions and then
    in order with conversions; this is its documented behaviour and is modelled
    here. Keyword arguments are taken in the order of the parameters and defaults
    are filled in. Integers too large for a C++ double are left out. *)
From Coq Require Import List ZArith Bool Arith.
From Verif.Model Require Import Base.
Import ListNotations.

(** The dtypes named in dtypes.h 19-27, bool, and any other; [numeric]: whether its
    elements convert to numbers. *)
Inductive dtype := Float32 | Float64 | Int32 | Int64 | UInt32 | UInt64 | Boolean | OtherDtype (numeric : bool).
(** Equality of dtypes, numpy's [PyArray_EquivTypes] (numpy_patch.h 108, used for
    [typedef]s dtypes.h 37-59). Two dtypes without a name here are never asked
    for. *)
Definition same_dtype (a b : dtype) : bool :=
  match a, b with
  | Float32, Float32 | Float64, Float64 | Int32, Int32 | Int64, Int64 | UInt32, UInt32 | UInt64, UInt64 | Boolean, Boolean => true
  | _, _ => false
  end.
(** Whether elements of the dtype convert to numbers. (dtypes.h 37-59). *)
Definition numeric_dtype (t : dtype) : bool := match t with OtherDtype n => n | _ => true end.
(** The integer dtypes; the elements have [__index__]. (dtypes.h 22-27). *)
Definition integer_dtype (t : dtype) : bool :=
  match t with Int32 | Int64 | UInt32 | UInt64 => true | _ => false end.

(** A Python value as an argument (e.g. ops_wrapper.cc 17-31): an array; a list that
    numpy turns into an array of a shape; a numpy scalar (subclasses such as those of
    framework/dtypes.py included) with the integer [int()] gives, if any; the Python
    numbers; text; None; any other object. *)
Inductive value :=
| Array (t : dtype) (shape : list nat)
| Sequence (shape : list nat) (numeric : bool)
| Scalar (t : dtype) (whole : option Z)
| PyInt (z : Z)
| PyFloat
| PyBool (b : bool)
| Text (number : bool)
| Nothing
| Object.

(** Orientation of an Eigen type (dtypes.h 37-56): both dimensions free, one row or
    one column. *)
Inductive orientation := AnyShape | OneRow | OneColumn.
(** The parameter types of the compiled functions: an Eigen type, [array_t], a numpy
    scalar, C++ numbers, text, an optional number, any object and any array. (dtypes.h
    19-59, ops.h 24-122). *)
Inductive param :=
| Dense (t : dtype) (o : orientation)
| Tensor (t : dtype)
| NpScalar (t : dtype)
| CFloat
| CUInt (bits : Z)
| CInt (bits : Z)
| CBool
| CString
| COptUInt
| CObject
| CArray.

(** Number of elements. (e.g. [x.rows()], ops.cc 18). *)
Definition size (shape : list nat) : nat := fold_right Nat.mul 1 shape.
(** The shape numpy gives a value (e.g. for the [matrix32] of ops_wrapper.cc 17). *)
Definition shape_of (v : value) : list nat :=
  match v with Array _ s => s | Sequence s _ => s | _ => [] end.
(** Whether numpy can fill an array of numbers with a value (ops_wrapper.cc 17). None
    becomes NaN. *)
Definition numbers (v : value) : bool :=
  match v with
  | Array t _ => numeric_dtype t
  | Sequence _ n => n
  | Scalar t _ => numeric_dtype t
  | Text n => n
  | Object => false
  | _ => true
  end.
(** A shape that fits an Eigen type: one or two dimensions; a vector with one
    dimension fits everything. (dtypes.h 37-56). *)
Definition fits (o : orientation) (shape : list nat) : bool :=
  match shape with
  | [_] => true
  | [r; c] => match o with AnyShape => true | OneRow => r =? 1 | OneColumn => c =? 1 end
  | _ => false
  end.
(** An array of exactly this dtype. (dtypes.h 37-59). *)
Definition exactly (t : dtype) (v : value) : bool :=
  match v with Array t' _ => same_dtype t t' | _ => false end.
(** Python floats; numpy's 64 bit floats are among them. (framework/dtypes.py 15-17). *)
Definition is_float (v : value) : bool :=
  match v with PyFloat => true | Scalar Float64 _ => true | _ => false end.
(** Integers that fit an unsigned or signed C++ type. (dtypes.h 22-27). *)
Definition in_range (low high z : Z) : bool := ((low <=? z) && (z <? high))%Z.

Section Load.
(** Whether the installed pybind11 and Python take numpy integers for C++ integers
    without conversion, and what they do with arrays for C++ integers. *)
Variable takes_index : bool.
Variable array_as_int : bool -> dtype -> list nat -> bool.

(** A C++ integer between two bounds (pybind11's conversion for [uint32] and [int32],
    e.g. ops.h 56, initializers_wrapper.cc 82): floats never, Python integers in the
    range, other numbers with [convert]. *)
Definition load_int (convert : bool) (low high : Z) (v : value) : bool :=
  match v with
  | PyInt z => in_range low high z
  | PyBool b => in_range low high (if b then 1 else 0)
  | Scalar Float64 _ => false
  | Scalar t (Some z) => (convert || (takes_index && integer_dtype t)) && in_range low high z
  | Array t s => array_as_int convert t s
  | _ => false
  end.
(** Whether a value is taken for a parameter, without or with conversions:
    numpy_patch.h 312-318 for numpy scalars, otherwise pybind11 (e.g.
    ops_wrapper.cc 17-32). *)
Definition load (convert : bool) (p : param) (v : value) : bool :=
  match p with
  | Dense t o => (convert || exactly t v) && numbers v && fits o (shape_of v)
  | Tensor t => (convert || exactly t v) && numbers v
  | NpScalar t => match v with Scalar t' _ => same_dtype t t' | _ => false end
  | CFloat =>
      is_float v ||
      (convert && match v with
                  | PyInt _ | PyBool _ => true
                  | Scalar t _ => numeric_dtype t
                  | Array t s => numeric_dtype t && (size s =? 1)
                  | _ => false
                  end)
  | CUInt bits => load_int convert 0 (2 ^ bits) v
  | CInt bits => load_int convert (- 2 ^ (bits - 1)) (2 ^ (bits - 1)) v
  | CBool =>
      match v with PyBool _ | Scalar Boolean _ => true | _ => false end ||
      (convert && match v with
                  | Nothing | PyInt _ | PyFloat | Scalar _ _ => true
                  | Array _ s => size s <=? 1
                  | _ => false
                  end)
  | CString => match v with Text _ => true | _ => false end
  | COptUInt => match v with Nothing => true | _ => load_int convert 0 (2 ^ 32) v end
  | CObject => true
  | CArray => match v with Array _ _ => true | _ => false end
  end.

(** The precision of a compiled variant (e.g. ops_wrapper.cc 196 and 204). *)
Inductive width := Single | Double.
(** One registered overload ([m.def], e.g. ops_wrapper.cc 17): which C++ function, its
    precision, its parameters, and whether it takes further arguments
    ([pybind11::args], losses.h 28). *)
Record overload := { variant : nat; wide : width; params : list param; variadic : bool }.

(** Whether all arguments are taken (pybind11's dispatcher, e.g. ops_wrapper.cc 17). *)
Fixpoint accepts (convert : bool) (more : bool) (ps : list param) (vs : list value) : bool :=
  match ps, vs with
  | [], [] => true
  | [], _ => more
  | p :: ps, v :: vs => load convert p v && accepts convert more ps vs
  | _, _ => false
  end.
(** The first overload that takes the arguments. (e.g. ops_wrapper.cc 17-106, in this
    order). *)
Definition first_match (convert : bool) (os : list overload) (vs : list value) : option overload :=
  find (fun o => accepts convert (variadic o) (params o) vs) os.
(** The overload that is called: without conversions if one fits, otherwise with
    conversions; otherwise pybind11 raises a TypeError. (e.g. ops_wrapper.cc 17-106). *)
Definition dispatch (os : list overload) (vs : list value) : result (nat * width) :=
  match first_match false os vs with
  | Some o => Ok (variant o, wide o)
  | None => match first_match true os vs with Some o => Ok (variant o, wide o) | None => Err TypeError end
  end.
End Load.

(** The types of the two precisions: dtypes.h 19-20, 37-40, 42-43, 46-50 and 58-59. *)
Definition real_dtype (w : width) : dtype := match w with Single => Float32 | Double => Float64 end.
(** (dtypes.h 22-23, 39-40, 48-49). *)
Definition int_dtype (w : width) : dtype := match w with Single => Int32 | Double => Int64 end.
(** [matrix32] and [matrix64] (dtypes.h 38-39). *)
Definition matrix (w : width) : param := Dense (real_dtype w) AnyShape.
(** [vector32] and [vector64] (dtypes.h 43-44). *)
Definition vector (w : width) : param := Dense (real_dtype w) OneColumn.
(** [row_vector32i] and [row_vector64i] (dtypes.h 49-50). *)
Definition int_row (w : width) : param := Dense (int_dtype w) OneRow.

(** An overload without further arguments, of the first C++ function of a name.
    (ops_wrapper.cc 132, 141). *)
Definition plain (w : width) (ps : list param) : overload := {| variant := 1; wide := w; params := ps; variadic := false |}.
(** The same two overloads in both precisions, the single one first: the pattern of
    most registrations (e.g. ops_wrapper.cc 132-149). *)
Definition both (ps : width -> list param) : list overload := [plain Single (ps Single); plain Double (ps Double)].

(** ops_wrapper.cc 17-106 [cc_bootstrap_sampling]; the second C++ function ignores
    what it gets for the labels (ops.cc 43-57). *)
Definition bootstrap_sampling : list overload :=
  [{| variant := 1; wide := Single; params := [matrix Single; matrix Single; COptUInt]; variadic := false |};
   {| variant := 1; wide := Double; params := [matrix Double; matrix Double; COptUInt]; variadic := false |};
   {| variant := 1; wide := Single; params := [matrix Single; Dense Int32 AnyShape; COptUInt]; variadic := false |};
   {| variant := 1; wide := Double; params := [matrix Double; Dense Int64 AnyShape; COptUInt]; variadic := false |};
   {| variant := 2; wide := Single; params := [matrix Single; CObject; COptUInt]; variadic := false |};
   {| variant := 2; wide := Double; params := [matrix Double; CObject; COptUInt]; variadic := false |}].
(** ops_wrapper.cc 118-121 [ConvexHull]. *)
Definition convex_hull : list overload := [plain Single [matrix Single]].
(** ops_wrapper.cc 132-149 [cc_calculate_centroids] (ops.h 51). *)
Definition calculate_centroids : list overload := both (fun w => [matrix w; int_row Single]).
(** ops_wrapper.cc 152-193 [cc_calculate_error] (ops.h 52-59). *)
Definition calculate_error : list overload :=
  both (fun w => [matrix w; vector w; CUInt 32; CObject; vector w; vector w; matrix w]).
(** ops_wrapper.cc 196-211 [cc_calculate_euclidean_distance]. *)
Definition calculate_euclidean_distance : list overload := both (fun w => [matrix w; matrix w]).
(** ops_wrapper.cc 214-231 [cc_calculate_means]. *)
Definition calculate_means : list overload := both (fun w => [matrix w; matrix w]).
(** ops_wrapper.cc 234-266 [cc_clip_alpha]. *)
Definition clip_alpha : list overload :=
  both (fun w => [NpScalar (real_dtype w); NpScalar (real_dtype w); NpScalar (real_dtype w)]) ++
  [plain Single [CFloat; CFloat; CFloat]].
(** ops_wrapper.cc 269-328 [cc_compare_differences]: the first C++ function compares
    matrices and the second one arrays of any dimension. *)
Definition compare_differences : list overload :=
  both (fun w => [matrix w; matrix w; NpScalar (real_dtype w)]) ++
  [plain Single [matrix Single; matrix Single; CFloat];
   {| variant := 2; wide := Single; params := [Tensor Float32; Tensor Float32; NpScalar Float32]; variadic := false |};
   {| variant := 2; wide := Double; params := [Tensor Float64; Tensor Float64; NpScalar Float64]; variadic := false |};
   {| variant := 2; wide := Single; params := [Tensor Float32; Tensor Float32; CFloat]; variadic := false |}].
(** ops_wrapper.cc 331-348 [cc_get_cluster]. *)
Definition get_cluster : list overload := both (fun w => [matrix w]).
(** ops_wrapper.cc 351-395 [cc_get_conditional_probability] and 398-442
    [cc_get_dependent_prior_probability], registered alike. *)
Definition get_conditional_probability : list overload :=
  [plain Single [NpScalar UInt32; NpScalar UInt32; NpScalar UInt32; CBool];
   plain Double [NpScalar UInt64; NpScalar UInt64; NpScalar UInt64; CBool];
   plain Single [CUInt 32; CUInt 32; CUInt 32; CBool]].
(** ops_wrapper.cc 445-466 [cc_get_prior_probability] (ops.h 95). *)
Definition get_prior_probability : list overload := both (fun w => [CUInt 32; int_row w; CBool]).
(** ops_wrapper.cc 469-501 [cc_get_probability_density]. *)
Definition get_probability_density : list overload :=
  both (fun w => [NpScalar (real_dtype w); NpScalar (real_dtype w); NpScalar (real_dtype w)]) ++
  [plain Single [CFloat; CFloat; CFloat]].
(** ops_wrapper.cc 519-540 [cc_get_w_v2]. *)
Definition get_w : list overload := both (fun w => [matrix w; matrix w; matrix w]).
(** ops_wrapper.cc 543-566 [cc_get_within_class_scatter_matrix]. *)
Definition get_within_class_scatter_matrix : list overload := both (fun w => [matrix w; matrix w; matrix w; matrix w]).
(** ops_wrapper.cc 569-632 [cc_init_centroids]: the first C++ function takes a text,
    the second one vectors. *)
Definition init_centroids : list overload :=
  [plain Single [matrix Single; CUInt 32; CString];
   plain Double [matrix Double; CUInt 64; CString];
   {| variant := 2; wide := Single; params := [matrix Single; CUInt 32; matrix Single]; variadic := false |};
   {| variant := 2; wide := Double; params := [matrix Double; CUInt 64; matrix Double]; variadic := false |}].
(** ops_wrapper.cc 635-679 [cc_select_second_alpha]. *)
Definition select_second_alpha : list overload :=
  both (fun w => [NpScalar (real_dtype w); Dense (real_dtype w) OneRow; Dense (real_dtype w) OneRow]) ++
  [plain Single [CFloat; Dense Float32 OneRow; Dense Float32 OneRow]].
(** kernels_wrapper.cc 57-58, 92-93, 120-121, 143-144, 189-190: the kernels. *)
Definition kernel : list overload := both (fun w => [matrix w; matrix w]).
(** metrics_wrapper.cc 58-73, 89-104, 120-135: the metrics. *)
Definition metric : list overload := both (fun w => [matrix w; matrix w]).
(** losses_wrapper.cc 57-60, 76-79, 96-99, 115-118, 134-137: the losses, which take
    further arguments (losses.h 26-29). *)
Definition loss : list overload :=
  map (fun w => {| variant := 1; wide := w; params := [matrix w; matrix w]; variadic := true |}) [Single; Double].
(** activations_wrapper.cc 59-72, 112-125, 173-186: the activations. *)
Definition activation : list overload := both (fun w => [matrix w]).
(** initializers_wrapper.cc 68-102, 118-157, 174-218, 231-275: the initializers of
    logistic regression and networks; the second C++ function builds layers. *)
Definition initializer : list overload :=
  [plain Single [NpScalar Int32]; plain Double [NpScalar Int64]; plain Single [CInt 32];
   {| variant := 2; wide := Single; params := [int_row Single]; variadic := false |};
   {| variant := 2; wide := Double; params := [int_row Double]; variadic := false |}].
(** initializers_wrapper.cc 287-313: the initializer of radial basis networks. *)
Definition rbf_initializer : list overload :=
  [plain Single [NpScalar Int32]; plain Double [NpScalar Int64]; plain Single [CInt 32]].

(** ** The arguments with which classicML itself calls these functions *)
(** The global types of a precision, framework/dtypes.py 30-47: arrays and scalars of
    [_cml_precision.float] and [_cml_precision.int]. *)
Definition reals (w : width) (shape : list nat) : value := Array (real_dtype w) shape.
(** framework/dtypes.py 30-47. *)
Definition ints (w : width) (shape : list nat) : value := Array (int_dtype w) shape.
(** framework/dtypes.py 30-47: a number of the global float type, with what [int()]
    makes of it. *)
Definition real_number (w : width) (whole : option Z) : value := Scalar (real_dtype w) whole.
(** framework/dtypes.py 30-47: a number of the global integer type. *)
Definition int_number (w : width) (z : Z) : value := Scalar (int_dtype w) (Some z).

(** optimizers.py 1001, 1014 and 1098: the violation of a sample, with the arrays made
    at support_vector_classifier.py 105-108 and optimizers.py 939-944; [i] is a Python
    integer from [range] or a numpy one. [bias] is the shape of the bias, which
    changes at 1078. *)
Definition svc_error (w : width) (n d : nat) (i : value) (bias : list nat) : list value :=
  [reals w [n; d]; ints w [n; 1]; i; Object; reals w [n]; Array Boolean [n]; reals w bias].
(** optimizers.py 1065-1066: [np.squeeze] leaves an array without dimensions, of dtype
    [t]. *)
Definition svc_clip (w : width) (t : dtype) (low high : option Z) : list value :=
  [Array t []; real_number w low; real_number w high].
(** optimizers.py 1008 with a cached violation (999). *)
Definition svc_second_cached (w : width) (n : nat) (whole : option Z) : list value :=
  [real_number w whole; reals w [n]; reals w [n]].
(** optimizers.py 1008 with a violation just computed (1001), a matrix of one row and
    column. *)
Definition svc_second_computed (w t : width) (n : nat) : list value :=
  [reals t [1; 1]; reals w [n]; reals w [n]].
(** optimizers.py 185-186, 418-419, 543-544, 655-656 and 786-787: the loss and the
    metric of a round; predictions of dtype [t], labels made by
    back_propagation_neural_network.py 96, radial_basis_function_network.py 93 and
    logistic_regression.py 85. *)
Definition round_values (w : width) (t : dtype) (predicted labels : list nat) : list value :=
  [Array t predicted; ints w labels].
(** optimizers.py 541 and 653: the log likelihood of logistic regression. *)
Definition round_likelihood (w : width) (t : dtype) (labels beta data : list nat) : list value :=
  [ints w labels; Array t beta; reals w data].
(** k_means.py 84 with the three kinds of [init] (k_means.py 51-66). *)
Definition kmeans_init (w : width) (n d : nat) (clusters : Z) (init : value) : list value :=
  [reals w [n; d]; PyInt clusters; init].
(** k_means.py 88; the means are of dtype [t]. *)
Definition kmeans_distances (w : width) (t : dtype) (n d k : nat) : list value := [reals w [n; d]; Array t [k; d]].
(** k_means.py 92: the clusters are 32 bit integers (ops.h 80, ops_wrapper.cc 331). *)
Definition kmeans_means (w : width) (n d : nat) : list value := [reals w [n; d]; Array Int32 [1; n]].
(** k_means.py 94. *)
Definition kmeans_moved (w : width) (t : dtype) (k d : nat) (tol : value) : list value :=
  [Array t [k; d]; reals w [k; d]; tol].
(** naive_bayes_classifier.py 86. *)
Definition bayes_prior (w : width) (n : nat) (smoothing : value) : list value :=
  [PyInt (Z.of_nat n); ints w [n]; smoothing].
(** naive_bayes_classifier.py 219-224: the count is a number of the table of floats
    made at 116-131, the other two are made by [len] (82-83, 114). *)
Definition bayes_discrete (w : width) (count all values : nat) (smoothing : value) : list value :=
  [real_number w (Some (Z.of_nat count)); PyInt (Z.of_nat all); PyInt (Z.of_nat values); smoothing].
(** semi_naive_bayes_classifiers.py 394-397 and 410-413. *)
Definition super_parent_discrete (w : width) (count all values : nat) (smoothing : value) : list value :=
  [int_number w (Z.of_nat count); int_number w (Z.of_nat all); int_number w (Z.of_nat values); smoothing].
(** linear_discriminant_analysis.py 51. *)
Definition lda_scatter (w : width) (n0 n1 d : nat) : list value :=
  [reals w [n0; d]; reals w [n1; d]; reals w [1; d]; reals w [1; d]].
(** bagging.py 70 with the arrays of 65-66. *)
Definition bagging_sample (w : width) (n d : nat) (seed : value) : list value := [reals w [n; d]; ints w [n]; seed].
(** logistic_regression.py 88-92. *)
Definition logistic_start (w : width) (d : nat) : list value := [int_number w (Z.of_nat d)].
(** back_propagation_neural_network.py 100-105. *)
Definition network_start (w : width) (layers : nat) : list value := [ints w [layers]].
(** radial_basis_function_network.py 97. *)
Definition rbf_start (hidden : Z) : list value := [PyInt hidden].
