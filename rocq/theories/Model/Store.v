(** Model of the weight files: classicML/backend/io.py and the constructors,
    [load_weights] and [save_weights] of the model classes in
    classicML/api/models.

    Not modelled: the byte format of HDF5 and of pickle ([loads(dumps(v))] is
    [v]), file permissions, a file opened twice.  The single write operations of
    a save are atomic and reach the file in the order of the program. *)
From Coq Require Import List String Reals ZArith Bool Arith.
From Verif.Model Require Import Base Training KMeans Stump Tree Bayes.
Import ListNotations.
Local Open Scope string_scope.

(** packaging.version.Version: the release numbers, and whether the version is a
    pre-release (negative), the release itself (0) or a post-release (positive). Not
    modelled: epochs ("1!0.5") and the order among pre-releases, which no comparison
    of io.py needs. packaging.version.Version, used at io.py 15-16, 29-30: the
    release numbers, and whether the version is a pre-release (negative), the
    release itself (0) or a post-release (positive). Not modelled: epochs ("1!0.5")
    and the order among pre-releases, which no comparison of io.py needs. *)
Record version := { release : list nat; stage : Z }.
(** Release numbers are compared as if padded with zeros. (the comparisons of io.py
    32). *)
Fixpoint compare_release (a b : list nat) : comparison :=
  match a with
  | [] => if forallb (Nat.eqb 0) b then Eq else Lt
  | x :: a' =>
      match Nat.compare x (hd 0 b) with Eq => compare_release a' (tl b) | c => c end
  end%nat.
(** [v < m] for a released version [m]. (io.py 32). *)
Definition older (v : version) (m : list nat) : bool :=
  match compare_release (release v) m with Lt => true | Eq => (stage v <? 0)%Z | Gt => false end.

(** io.py 15. *)
Definition min_support_model_version : list nat := [0; 5]%nat.
(** io.py 16. *)
Definition min_support_io_version : list nat := [0; 7]%nat.
(** [__version__] of classicML/__init__.py 2 ('0.9.1a3'). *)
Definition cml_version : version := {| release := [0; 9; 1]%nat; stage := (-1)%Z |}.
(** io.py 13. *)
Definition io_version : version := {| release := [0; 7]%nat; stage := 0%Z |}.

(** One attribute of [pi_0] or [pi_1] of the naive Bayes classifier.
    (naive_bayes_classifier.py 96-144). *)
Inductive side (A : Type) := SideCont (s : option (R * R)) | SideDisc (d : dict A nat) (n k : nat).
Arguments SideCont {A} s.
Arguments SideDisc {A} d n k.

(** Python values that are kept in the fields of a model or in a file. [A] is the
    type of the attribute values of the Bayes classifiers. (the fields assigned by
    the constructors, see [blank]; written at, e.g., k_means.py 168-193). *)
Inductive value (A : Type) :=
| VNone
| VBool (b : bool)
| VInt (z : Z)
| VNum (r : R)
| VText (s : string)
(** a text with a version number in it *)
| VVersion (v : version)
| VVec (v : list R)
| VMat (m : list (list R))
| VTensor (t : list (list (list R)))
| VNats (l : list nat)
| VCentroids (c : list centroid)
(** Python objects *)
| VTree (t : tree)
| VStumps (l : list stump)
| VTwoLevel (l : list tltree)
| VSides (l : list (side A))
| VEntries (l : list (@sp_entry A))
| VLists (l : list (list (@sp_entry A)))
| VKernel (k : component kernel_kind)
| VOptimizer (o : component optimizer_kind)
| VLoss (l : component loss_kind)
| VMetric (m : component metric_kind)
| VPruner (p : component pruner_kind)
| VDict (d : list (string * value A))
(** [np.void(dumps(v))] *)
| VPickle (v : value A).
Arguments VNone {A}.
Arguments VBool {A} b.
Arguments VInt {A} z.
Arguments VNum {A} r.
Arguments VText {A} s.
Arguments VVersion {A} v.
Arguments VVec {A} v.
Arguments VMat {A} m.
Arguments VTensor {A} t.
Arguments VNats {A} l.
Arguments VCentroids {A} c.
Arguments VTree {A} t.
Arguments VStumps {A} l.
Arguments VTwoLevel {A} l.
Arguments VSides {A} l.
Arguments VEntries {A} l.
Arguments VLists {A} l.
Arguments VKernel {A} k.
Arguments VOptimizer {A} o.
Arguments VLoss {A} l.
Arguments VMetric {A} m.
Arguments VPruner {A} p.
Arguments VDict {A} d.
Arguments VPickle {A} v.

Section Store.
Context {A : Type}.
Notation value := (value A).

(** Dictionaries with text keys: the attributes of an HDF5 object, and the
    [parameters] of the networks. *)
Definition attrs := list (string * value).
(** [d[k]] (e.g. k_means.py 157-161). *)
Fixpoint lookup (d : attrs) (k : string) : option value :=
  match d with
  | [] => None
  | (k', v) :: t => if k =? k' then Some v else lookup t k
  end.
(** [d[k] = v] (e.g. k_means.py 186-190). *)
Fixpoint put (d : attrs) (k : string) (v : value) : attrs :=
  match d with
  | [] => [(k, v)]
  | (k', v') :: t => if k =? k' then (k', v) :: t else (k', v') :: put t k v
  end.

(** ** Files *)
(** The two data sets of io.py 88-89. *)
Inductive part := Compile | Weights.
(** The groups and data sets of io.py 51-60; each may be missing. *)
Record file := { description : option attrs; parameters : bool; compile_ds : option attrs; weights_ds : option attrs }.
(** A file just created, h5py.File(filepath, 'w') (io.py 76). *)
Definition empty_file : file := {| description := None; parameters := false; compile_ds := None; weights_ds := None |}.
(** [parameters_gp['compile']], [parameters_gp['weights']] (e.g. k_means.py 154-155). *)
Definition part_of (f : file) (p : part) : option attrs :=
  match p with Compile => compile_ds f | Weights => weights_ds f end.
(** Changing one of the data sets (io.py 88-89). *)
Definition set_part (f : file) (p : part) (a : option attrs) : file :=
  match p with
  | Compile => {| description := description f; parameters := parameters f; compile_ds := a; weights_ds := weights_ds f |}
  | Weights => {| description := description f; parameters := parameters f; compile_ds := compile_ds f; weights_ds := a |}
  end.

(** What is at a path: nothing, an HDF5 file, or something else. (h5py.File at io.py
    76). *)
Inductive content := Absent | Hdf5 (f : file) | Garbage.

(** io.py 19-37 [_parse]. A text without a version number in it is an
    InvalidVersion, which is a ValueError, for the library version, and an
    IndexError for the io version; something that is not a text is a TypeError. The
    regular expression of line 30 takes the release numbers only. *)
Definition parse (model_name : string) (f : file) : result unit :=
  match description f with
  | None => Err KeyError
  | Some d =>
      cml <- match lookup d "cml_version" with
             | None => Err KeyError
             | Some (VVersion v) => Ok v
             | Some (VText _) => Err ValueError
             | Some _ => Err TypeError
             end ;;
      io <- match lookup d "io_version" with
            | None => Err KeyError
            | Some (VVersion v) => Ok {| release := release v; stage := 0 |}
            | Some (VText _) => Err IndexError
            | Some _ => Err TypeError
            end ;;
      if older cml min_support_model_version || older io min_support_io_version then Err ValueError
      else match lookup d "model_name" with
           | None => Err KeyError
           | Some (VText n) => if n =? model_name then Ok tt else Err ValueError
           | Some _ => Err ValueError
           end
  end.

(** io.py 75-76, 90-99 [initialize_weights_file] in mode 'r'. *)
Definition open_weights (model_name : string) (c : content) : result file :=
  match c with
  | Hdf5 f => _ <- parse model_name f ;; if parameters f then Ok f else Err KeyError
  | Absent | Garbage => Err OSError
  end.

(** The write operations of a save. (io.py 76-89, and the assignments in, e.g.,
    k_means.py 186-190). *)
Inductive op :=
| Truncate
| MakeDescription
| Describe (key : string) (v : value)
| MakeParameters
| MakeDataset (p : part)
| Write (p : part) (key : string) (v : value).
(** Operations change an open file only (io.py 76). *)
Definition on_file (g : file -> file) (c : content) : content := match c with Hdf5 f => Hdf5 (g f) | _ => c end.
(** The effect of one operation (io.py 76-89). *)
Definition exec (c : content) (o : op) : content :=
  match o with
  | Truncate => Hdf5 empty_file
  | MakeDescription => on_file (fun f => {| description := Some []; parameters := parameters f; compile_ds := compile_ds f; weights_ds := weights_ds f |}) c
  | Describe k v => on_file (fun f => {| description := option_map (fun d => put d k v) (description f); parameters := parameters f;
                                         compile_ds := compile_ds f; weights_ds := weights_ds f |}) c
  | MakeParameters => on_file (fun f => {| description := description f; parameters := true; compile_ds := compile_ds f; weights_ds := weights_ds f |}) c
  | MakeDataset p => on_file (fun f => set_part f p (Some [])) c
  | Write p k v => on_file (fun f => set_part f p (option_map (fun d => put d k v) (part_of f p))) c
  end.
(** The effect of a sequence of operations (io.py 76-89). *)
Definition run_ops (ops : list op) (c : content) : content := fold_left exec ops c.

(** io.py 75-89 [initialize_weights_file] in mode 'w'; [author] and [now] come from
    the system. *)
Definition init_ops (model_name : string) (author now : value) : list op :=
  [Truncate; MakeDescription; Describe "cml_version" (VVersion cml_version); Describe "io_version" (VVersion io_version);
   Describe "author" author; Describe "model_name" (VText model_name); Describe "saved_time" now;
   MakeParameters; MakeDataset Compile; MakeDataset Weights].

(** [attrs[key] = v]: h5py stores numbers, texts and arrays; None and other objects
    have no HDF5 equivalent, a TypeError. (e.g. k_means.py 186-190). *)
Definition storable (v : value) : bool :=
  match v with
  | VBool _ | VInt _ | VNum _ | VText _ | VVersion _ | VVec _ | VMat _ | VTensor _ | VNats _ | VCentroids _ | VPickle _ => true
  | _ => false
  end.

(** ** Model objects *)
(** The fields of an object by name (is_trained and is_loaded apart). (base_model.py 11-17 and the constructors, see [blank]). *)
Record obj := { field : string -> value; is_trained : bool; is_loaded : bool }.
(** [self.k = v] (e.g. k_means.py 46-49). *)
Definition set_field (i : obj) (k : string) (v : value) : obj :=
  {| field := fun k' => if k' =? k then v else field i k'; is_trained := is_trained i; is_loaded := is_loaded i |}.
(** [self.is_loaded = True], the last statement of every [load_weights] (e.g.
    k_means.py 163). *)
Definition set_loaded (i : obj) : obj := {| field := field i; is_trained := is_trained i; is_loaded := true |}.

(** One statement of a [load_weights]. (e.g. k_means.py 157-161,
    back_propagation_neural_network.py 166-177). *)
Inductive read :=
(** [self.field = conv(attrs[key])]; [conv] may look at the object *)
| Get (p : part) (key fld : string) (conv : obj -> value -> result value)
(** the same under [if self.field is not None] *)
| GetIfSet (p : part) (key fld : string) (conv : obj -> value -> result value)
(** [for attr in attrs: self.field[attr] = attrs[attr]] *)
| Merge (p : part) (fld : string).

(** One statement of a [save_weights]. (e.g. k_means.py 186-190,
    back_propagation_neural_network.py 199-210). *)
Inductive write :=
(** [attrs[key] = e(self)] *)
| Put (p : part) (key : string) (e : obj -> result value)
| PutIfSet (p : part) (key fld : string) (e : obj -> result value)
(** [for k in self.field: attrs[k] = self.field[k]] *)
| PutAll (p : part) (fld : string).

(** A model class: the name in the file, the data sets that [load_weights] opens,
    and the statements of [load_weights] and [save_weights]. (api/models; see the
    definitions below, e.g. k_means.py 139-193). *)
Record cls := { model_name : string; opens : list part; reads : list read; writes : list write }.

(** Converters. The value as it is (e.g. k_means.py 157). *)
Definition raw (_ : obj) (v : value) : result value := Ok v.
(** [loads(v.tobytes())]; what is raised for a value that is not a pickle is not a
    KeyError, here a TypeError. (e.g. bagging.py 120-146). *)
Definition unpickle (_ : obj) (v : value) : result value := match v with VPickle w => Ok w | _ => Err TypeError end.
(** A stored value given to training.py 11-203. *)
Definition as_arg {K} (v : value) : arg K := match v with VText s => ByName s | VNone => NoArg | _ => OtherArg end.
(** [get_optimizer] on a stored value (logistic_regression.py 134-163). *)
Definition to_optimizer (_ : obj) (v : value) : result value := o <- get_optimizer (as_arg v) ;; Ok (VOptimizer o).
(** [get_loss] on a stored value (logistic_regression.py 134-163). *)
Definition to_loss (_ : obj) (v : value) : result value := Ok (VLoss (get_loss (as_arg v))).
(** [get_metric] on a stored value (logistic_regression.py 134-163). *)
Definition to_metric (_ : obj) (v : value) : result value :=
  m <- get_metric (as_arg v) ;; Ok (match m with Some c => VMetric c | None => VNone end).
(** [get_pruner] on a stored value (decision_tree_classifier.py 245-276). *)
Definition to_pruner (_ : obj) (v : value) : result value :=
  p <- get_pruner (as_arg v) ;; Ok (match p with Some c => VPruner c | None => VNone end).
(** A stored number (support_vector_classifier.py 168-203). *)
Definition number (v : value) : option R := match v with VNum r => Some r | _ => None end.
(** support_vector_classifier.py 188: the kernel is built with the gamma that has
    just been loaded. *)
Definition to_kernel (i : obj) (v : value) : result value :=
  k <- get_kernel (as_arg v) (number (field i "gamma")) ;; Ok (VKernel k).

(** Expressions of [save_weights]. [self.field] (e.g. k_means.py 186-190). *)
Definition self (fld : string) (i : obj) : result value := Ok (field i fld).
(** [np.void(dumps(self.field))] (e.g. bagging.py 148-175). *)
Definition pickled (fld : string) (i : obj) : result value := Ok (VPickle (field i fld)).
(** [self.field.name] (e.g. logistic_regression.py 165-192). *)
Definition self_name (fld : string) (i : obj) : result value :=
  match field i fld with
  | VKernel c => Ok (VText (cname c))
  | VOptimizer c => Ok (VText (cname c))
  | VLoss c => Ok (VText (cname c))
  | VMetric c => Ok (VText (cname c))
  | VPruner c => Ok (VText (cname c))
  | _ => Err AttributeError
  end.

(** ** Loading *)
(** Updating the dictionary [parameters] (back_propagation_neural_network.py
    150-181). *)
Definition merge_into (v : value) (a : attrs) : result value :=
  match v with
  | VDict d => Ok (VDict (fold_left (fun d kv => put d (fst kv) (snd kv)) a d))
  | _ => Err TypeError
  end.
(** [ds.attrs[key]], KeyError if missing (e.g. k_means.py 157-161). *)
Definition get_attr (f : file) (p : part) (key : string) : result value :=
  match part_of f p with
  | None => Err KeyError
  | Some a => match lookup a key with Some v => Ok v | None => Err KeyError end
  end.
(** One statement of [load_weights] (e.g. k_means.py 157-161). *)
Definition do_read (f : file) (i : obj) (r : read) : result obj :=
  match r with
  | Get p key fld conv => v <- get_attr f p key ;; w <- conv i v ;; Ok (set_field i fld w)
  | GetIfSet p key fld conv =>
      match field i fld with
      | VNone => Ok i
      | _ => v <- get_attr f p key ;; w <- conv i v ;; Ok (set_field i fld w)
      end
  | Merge p fld =>
      match part_of f p with
      | None => Err KeyError
      | Some a => w <- merge_into (field i fld) a ;; Ok (set_field i fld w)
      end
  end.
(** The statements run one after the other; an exception leaves the fields that have
    been assigned. (e.g. k_means.py 157-161). *)
Fixpoint do_reads (f : file) (i : obj) (rs : list read) : obj * option err :=
  match rs with
  | [] => (i, None)
  | r :: t => match do_read f i r with Ok i' => do_reads f i' t | Err e => (i, Some e) end
  end.
(** [load_weights] of class [c]: the object afterwards and the exception. (e.g.
    k_means.py 139-166). *)
Definition load (c : cls) (k : content) (i : obj) : obj * option err :=
  match open_weights (model_name c) k with
  | Err e => (i, Some e)
  | Ok f =>
      if forallb (fun p => match part_of f p with Some _ => true | None => false end) (opens c) then
        match do_reads f i (reads c) with
        | (i', None) => (set_loaded i', None)
        | (i', Some e) => (i', Some e)
        end
      else (i, Some KeyError)
  end.

(** ** Saving *)
(** One assignment to an attribute (e.g. k_means.py 186-190). *)
Definition write_one (p : part) (key : string) (r : result value) : result op :=
  v <- r ;; if storable v then Ok (Write p key v) else Err TypeError.
(** The operations of one statement, each with the exception it raises instead.
    (e.g. k_means.py 186-190). *)
Definition do_write (i : obj) (w : write) : list (result op) :=
  match w with
  | Put p key e => [write_one p key (e i)]
  | PutIfSet p key fld e => match field i fld with VNone => [] | _ => [write_one p key (e i)] end
  | PutAll p fld =>
      match field i fld with
      | VDict d => map (fun kv => write_one p (fst kv) (Ok (snd kv))) d
      | _ => [Err TypeError]
      end
  end.
(** The operations up to the first exception. (e.g. k_means.py 168-193). *)
Fixpoint until_error {B} (l : list (result B)) : list B * option err :=
  match l with
  | [] => ([], None)
  | Ok b :: t => let '(bs, e) := until_error t in (b :: bs, e)
  | Err e :: _ => ([], Some e)
  end.
(** All operations of [save_weights] (e.g. k_means.py 168-193). *)
Definition save_ops (c : cls) (author now : value) (i : obj) : list op * option err :=
  let '(ops, e) := until_error (flat_map (do_write i) (writes c)) in
  ((init_ops (model_name c) author now ++ ops)%list, e).
(** [save_weights]: what is at the path afterwards and the exception. (e.g.
    k_means.py 168-193). *)
Definition save (c : cls) (author now : value) (i : obj) (k : content) : content * option err :=
  let '(ops, e) := save_ops c author now i in (run_ops ops k, e).
(** The same, interrupted before operation number [n]. (e.g. k_means.py 168-193). *)
Definition save_interrupted (c : cls) (author now : value) (i : obj) (n : nat) (k : content) : content :=
  run_ops (firstn n (fst (save_ops c author now i))) k.

(** ** The classes *)
(** Reading a field stored under its own name (e.g. k_means.py 157). *)
Definition keep (p : part) (k : string) : read := Get p k k raw.
(** Writing a field under its own name (e.g. k_means.py 187). *)
Definition write_field (p : part) (k : string) : write := Put p k (self k).

(** linear_model/logistic_regression.py 134-163, 165-192. *)
Definition LogisticRegression : cls :=
  {| model_name := "LogisticRegression"; opens := [Compile; Weights];
     reads := [Get Compile "optimizer" "optimizer" to_optimizer; Get Compile "loss" "loss" to_loss;
               Get Compile "metric" "metric" to_metric; keep Weights "beta"];
     writes := [Put Compile "optimizer" (self_name "optimizer"); Put Compile "loss" (self_name "loss");
                Put Compile "metric" (self_name "metric"); write_field Weights "beta"] |}.
(** linear_model/linear_discriminant_analysis.py 98-121, 123-144. *)
Definition LinearDiscriminantAnalysis : cls :=
  {| model_name := "LinearDiscriminantAnalysis"; opens := [Weights];
     reads := [keep Weights "w"; keep Weights "mu_0"; keep Weights "mu_1"];
     writes := [write_field Weights "w"; write_field Weights "mu_0"; write_field Weights "mu_1"] |}.
(** bayes/naive_bayes_classifier.py 246-277, 279-307. *)
Definition NaiveBayesClassifier : cls :=
  {| model_name := "NaiveBayesClassifier"; opens := [Compile; Weights];
     reads := [keep Compile "smoothing"; keep Weights "p_0"; keep Weights "p_1";
               Get Weights "pi_0" "pi_0" unpickle; Get Weights "pi_1" "pi_1" unpickle];
     writes := [write_field Compile "smoothing"; write_field Weights "p_0"; write_field Weights "p_1";
                Put Weights "pi_0" (pickled "pi_0"); Put Weights "pi_1" (pickled "pi_1")] |}.
(** bayes/semi_naive_bayes_classifiers.py 281-310, 312-338. *)
Definition SuperParentOneDependentEstimator : cls :=
  {| model_name := "SuperParentOneDependentEstimator"; opens := [Compile; Weights];
     reads := [keep Compile "super_parent_name"; keep Compile "smoothing";
               Get Weights "_list_of_p_c" "_list_of_p_c" unpickle];
     writes := [write_field Compile "super_parent_name"; write_field Compile "smoothing";
                Put Weights "_list_of_p_c" (pickled "_list_of_p_c")] |}.
(** semi_naive_bayes_classifiers.py 541-570, 572-598. *)
Definition AveragedOneDependentEstimator : cls :=
  {| model_name := "AveragedOneDependentEstimator"; opens := [Compile; Weights];
     reads := [keep Compile "smoothing"; keep Compile "m"; Get Weights "_attribute_list" "_attribute_list" unpickle];
     writes := [write_field Compile "smoothing"; write_field Compile "m";
                Put Weights "_attribute_list" (pickled "_attribute_list")] |}.
(** tree/decision_tree_classifier.py 245-276, 278-308. *)
Definition DecisionTreeClassifier : cls :=
  {| model_name := "DecisionTreeClassifier"; opens := [Compile; Weights];
     reads := [keep Compile "criterion"; GetIfSet Compile "pruning" "pruner" to_pruner;
               Get Weights "tree" "tree" unpickle];
     writes := [write_field Compile "criterion"; PutIfSet Compile "pruning" "pruner" (self_name "pruner");
                Put Weights "tree" (pickled "tree")] |}.
(** support_vector_machine/support_vector_classifier.py 168-203, 205-238.  The
    conversions to float64 do not change the numbers. *)
Definition SupportVectorClassifier : cls :=
  {| model_name := "SupportVectorClassifier"; opens := [Compile; Weights];
     reads := [keep Compile "C"; keep Compile "gamma"; Get Compile "kernel" "kernel" to_kernel; keep Compile "tol";
               keep Weights "support"; keep Weights "support_vector"; keep Weights "support_alpha";
               keep Weights "support_y"; keep Weights "b"];
     writes := [write_field Compile "C"; Put Compile "kernel" (self_name "kernel"); write_field Compile "gamma";
                write_field Compile "tol"; write_field Weights "support"; write_field Weights "support_vector";
                write_field Weights "support_alpha"; write_field Weights "support_y"; write_field Weights "b"] |}.
(** cluster/k_means.py 139-166, 168-193. *)
Definition KMeansModel : cls :=
  {| model_name := "KMeans"; opens := [Compile; Weights];
     reads := [keep Compile "init"; keep Compile "tol"; keep Weights "centroids"; keep Weights "clusters"];
     writes := [write_field Compile "init"; write_field Compile "tol"; write_field Weights "centroids";
                write_field Weights "clusters"] |}.
(** cluster/gaussian_mixture.py 182-213, 215-244. *)
Definition GaussianMixture : cls :=
  {| model_name := "GaussianMixture"; opens := [Compile; Weights];
     reads := [keep Compile "init"; Get Compile "covariances_init" "covariances_init" unpickle;
               Get Compile "mixture_coefficient_init" "mixture_coefficient_init" unpickle; keep Compile "tol";
               keep Weights "mu"; keep Weights "sigma"; keep Weights "alpha"; keep Weights "clusters"];
     writes := [write_field Compile "init"; Put Compile "covariances_init" (pickled "covariances_init");
                Put Compile "mixture_coefficient_init" (pickled "mixture_coefficient_init"); write_field Compile "tol";
                write_field Weights "mu"; write_field Weights "sigma"; write_field Weights "alpha";
                write_field Weights "clusters"] |}.
(** ensemble/bagging.py 120-146, 148-175. *)
Definition BaggingClassifier : cls :=
  {| model_name := "BaggingClassifier"; opens := [Compile; Weights];
     reads := [Get Compile "base_algorithm" "BaseLearner" unpickle; Get Weights "estimators" "estimators" unpickle;
               keep Weights "seed"];
     writes := [Put Compile "base_algorithm" (pickled "BaseLearner"); Put Weights "estimators" (pickled "estimators");
                write_field Weights "seed"] |}.
(** ensemble/boosting.py 139-165, 167-194. *)
Definition AdaBoostClassifier : cls :=
  {| model_name := "AdaBoostClassifier"; opens := [Compile; Weights];
     reads := [Get Compile "base_algorithm" "BaseLearner" unpickle; Get Weights "estimators" "estimators" unpickle;
               keep Weights "alpha_list"];
     writes := [Put Compile "base_algorithm" (pickled "BaseLearner"); Put Weights "estimators" (pickled "estimators");
                write_field Weights "alpha_list"] |}.
(** neural_network/back_propagation_neural_network.py 150-181, 183-212.  The
    attributes of the data set are visited in the order of writing; the order
    makes no difference to a dictionary. *)
Definition BackPropagationNeuralNetwork : cls :=
  {| model_name := "BackPropagationNeuralNetwork"; opens := [Compile; Weights];
     reads := [keep Compile "network_structure"; Get Compile "optimizer" "optimizer" to_optimizer;
               Get Compile "loss" "loss" to_loss; Get Compile "metric" "metric" to_metric; Merge Weights "parameters"];
     writes := [write_field Compile "network_structure"; Put Compile "optimizer" (self_name "optimizer");
                Put Compile "loss" (self_name "loss"); Put Compile "metric" (self_name "metric");
                PutAll Weights "parameters"] |}.
(** neural_network/radial_basis_function_network.py 138-169, 171-200. *)
Definition RadialBasisFunctionNetwork : cls :=
  {| model_name := "RadialBasisFunctionNetwork"; opens := [Compile; Weights];
     reads := [keep Compile "hidden_units"; Get Compile "optimizer" "optimizer" to_optimizer;
               Get Compile "loss" "loss" to_loss; Get Compile "metric" "metric" to_metric; Merge Weights "parameters"];
     writes := [write_field Compile "hidden_units"; Put Compile "optimizer" (self_name "optimizer");
                Put Compile "loss" (self_name "loss"); Put Compile "metric" (self_name "metric");
                PutAll Weights "parameters"] |}.

(** The thirteen classes of api/models with weight files (listed in
    classicML/api/models/__init__.py 1-31). *)
Definition classes : list cls :=
  [LogisticRegression; LinearDiscriminantAnalysis; NaiveBayesClassifier; SuperParentOneDependentEstimator;
   AveragedOneDependentEstimator; DecisionTreeClassifier; SupportVectorClassifier; KMeansModel; GaussianMixture;
   BaggingClassifier; AdaBoostClassifier; BackPropagationNeuralNetwork; RadialBasisFunctionNetwork].

(** The objects that the constructors build: logistic_regression.py 34-52,
    linear_discriminant_analysis.py 23-29, naive_bayes_classifier.py 33-49,
    semi_naive_bayes_classifiers.py 30-41, 109-122, 431-442,
    decision_tree_classifier.py 85-101, support_vector_classifier.py 48-71,
    k_means.py 34-49, gaussian_mixture.py 46-65, bagging.py 28-38,
    boosting.py 29-39, back_propagation_neural_network.py 38-57,
    radial_basis_function_network.py 33-50.  Fields that are not listed are None;
    the constructor arguments themselves are not modelled. *)
Definition blank (l : attrs) : obj :=
  {| field := fun k => match lookup l k with Some v => v | None => VNone end; is_trained := false; is_loaded := false |}.
(** naive_bayes_classifier.py 33-49. *)
Definition new_naive_bayes : obj := blank [("pi_0", VSides []); ("pi_1", VSides [])].
(** semi_naive_bayes_classifiers.py 30-41, 109-122. *)
Definition new_super_parent : obj := blank [("_list_of_p_c", VEntries [])].
(** semi_naive_bayes_classifiers.py 30-41, 431-442. *)
Definition new_averaged : obj := blank [("_list_of_p_c", VEntries []); ("m", VInt 0); ("_attribute_list", VLists [])].
(** support_vector_classifier.py 48-71. *)
Definition new_svc : obj :=
  blank [("b", VNum 0); ("optimizer", VOptimizer (comp Smo "SMO"))].
(** k_means.py 34-49. *)
Definition new_kmeans : obj := blank [("tol", VNum (-1))].
(** gaussian_mixture.py 46-65. *)
Definition new_gaussian_mixture : obj := blank [("tol", VNum (-1))].
(** bagging.py 28-38. *)
Definition new_bagging : obj := blank [("estimators", VStumps []); ("seed", VInt (-1))].
(** boosting.py 29-39. *)
Definition new_adaboost : obj := blank [("estimators", VTwoLevel []); ("alpha_list", VVec [])].
(** back_propagation_neural_network.py 38-57, radial_basis_function_network.py
    33-50. *)
Definition new_network : obj := blank [("parameters", VDict [])].
(** logistic_regression.py 34-52, linear_discriminant_analysis.py 23-29,
    decision_tree_classifier.py 85-101. *)
Definition new_plain : obj := blank [].
(** The object that the constructor of a class builds (see the definitions above;
    e.g. k_means.py 34-49). *)
Definition fresh (c : cls) : obj :=
  if model_name c =? "NaiveBayesClassifier" then new_naive_bayes
  else if model_name c =? "SuperParentOneDependentEstimator" then new_super_parent
  else if model_name c =? "AveragedOneDependentEstimator" then new_averaged
  else if model_name c =? "SupportVectorClassifier" then new_svc
  else if model_name c =? "KMeans" then new_kmeans
  else if model_name c =? "GaussianMixture" then new_gaussian_mixture
  else if model_name c =? "BaggingClassifier" then new_bagging
  else if model_name c =? "AdaBoostClassifier" then new_adaboost
  else if model_name c =? "BackPropagationNeuralNetwork" then new_network
  else if model_name c =? "RadialBasisFunctionNetwork" then new_network
  else new_plain.
End Store.
