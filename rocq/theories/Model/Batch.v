(** Model of [predict] and [score] on whole arrays: which shapes the models accept,
    how many samples they see in them and which shape the answer has
    (classicML/api/models/*/*.py [predict], base_model.py 43-59).  The Python engine
    and models that have been trained or loaded are meant; the guard against
    untrained models is in Life.v.  The answers for one row are those of
    the other files of the model.  Floats are exact reals. *)
From Coq Require Import List ZArith Reals Bool Arith String.
From Verif.Model Require Import Base Ops Metrics Network KMeans Kernels Smo Training Life Stump.
From Verif.Model Require Tree Logistic Lda Rbf Gmm Ensemble Bayes.
Import ListNotations.
Local Open Scope R_scope.
Local Notation length := List.length.

(** What [np.asarray(x)] can be (e.g. k_means.py 121-123): an array with one
    dimension, or one with two of which the second is [w]. *)
Inductive array (A : Type) := Flat (l : list A) | Rows (w : nat) (m : list (list A)).
Arguments Flat {A} l.
Arguments Rows {A} w m.
(** What [predict] returns: an array without dimensions (logistic_regression.py 118),
    with one, or with two of which the second is [w]. Labels are numbers. *)
Inductive output := Scalar (v : R) | Vector (l : list R) | Matrix (w : nat) (m : list (list R)).

(** [np.squeeze] of an array of shape (n, 1) (logistic_regression.py 118,
    linear_discriminant_analysis.py 82). *)
Definition squeeze (l : list R) : output := match l with [v] => Scalar v | _ => Vector l end.
(** [np.expand_dims(x, axis=0)] of an array with one dimension (k_means.py 122-123):
    the rows and their number of columns. *)
Definition as_rows {A} (a : array A) : nat * list (list A) :=
  match a with Flat l => (length l, [l]) | Rows w m => (w, m) end.
(** A single element counts as a row of [n] equal ones: numpy's broadcasting
    (ops.py 241, kernels.py 106, optimizers.py 833). *)
Definition stretch {A} (n : nat) (v : list A) : list A := match v with [u] => repeat u n | _ => v end.
(** May rows of [a] and [b] entries be subtracted? (ops.py 241, kernels.py 106,
    optimizers.py 833). *)
Definition compatible (a b : nat) : bool := (a =? b)%nat || (a =? 1)%nat || (b =? 1)%nat.

(** ** Models on numbers *)
(** logistic_regression.py 116-120 and optimizers.py 577-584, 692-699: [np.c_] makes
    a column of an array with one dimension. *)
Definition lr_array (beta : list R) (a : array R) : result output :=
  let '(w, m) := match a with Flat l => (1%nat, map (fun v => [v]) l) | Rows w m => (w, m) end in
  if (length beta =? S w)%nat then Ok (squeeze (Logistic.forward m beta)) else Err ValueError.

(** linear_discriminant_analysis.py 75-84: [np.dot] of an array with one dimension
    gives one number, which the subtraction of an array of shape (1, 1) turns into
    such an array. *)
Definition lda_array (p : Lda.lda) (a : array R) : result output :=
  let '(w, m) := as_rows a in
  if (w =? length (Lda.lda_w p))%nat then Ok (squeeze (map (fun r => IZR (Lda.lda_predict p r)) m)) else Err ValueError.

(** [x[sample]] (support_vector_classifier.py 149) or an element of the enumeration
    of [x] (decision_tree_classifier.py 359): a number or a row. *)
Inductive sample := Entry (v : R) | Row (r : list R).
(** The samples of a loop over the first dimension (support_vector_classifier.py
    148-149, decision_tree_classifier.py 358-360). *)
Definition samples (a : array R) : list sample :=
  match a with Flat l => map Entry l | Rows _ m => map Row m end.

(** Does the kernel subtract its arguments (kernels.py 106)? The others multiply them
    with [np.matmul] (45, 77, 149), which refuses numbers. *)
Definition subtracts (k : kernel_kind) : bool :=
  match k with KRbf _ | KGaussian _ => true | _ => false end.
(** support_vector_classifier.py 149: the values of the kernel for one sample and the
    support vectors, an array of [d] columns. *)
Definition kernel_values (k : kernel_kind) (d : nat) (sv : list (list R)) (s : sample) : result (list R) :=
  K <- kernel_fun k ;;
  if subtracts k then
    match s with
    | Entry v => Ok (map (fun c => K (repeat v d) c) sv)
    | Row r => if compatible (length r) d
               then Ok (map (fun c => K (stretch (length c) r) (stretch (length r) c)) sv) else Err ValueError
    end
  else
    match s with
    | Entry _ => Err ValueError
    | Row r => if (length r =? d)%nat then Ok (map (fun c => K r c) sv) else Err ValueError
    end.
(** support_vector_classifier.py 150-152: one label. *)
Definition svc_label (m : svc) (kappa : list R) : R :=
  if Rltb (rsum (map (fun p => fst (fst p) * snd (fst p) * snd p)
                     (combine (combine (support_alpha m) (support_y m)) kappa)) + svc_b m) 0 then -1 else 1.
(** support_vector_classifier.py 144-154. *)
Definition svc_array (k : kernel_kind) (d : nat) (m : svc) (a : array R) : result output :=
  kappas <- mapM (kernel_values k d (support_vector m)) (samples a) ;;
  Ok (Vector (map (svc_label m) kappas)).

(** k_means.py 121-129 and ops.py 241-242, with [d] the number of columns of the
    centroids. *)
Definition km_distance (r : list R) (c : centroid) : option R :=
  match c with None => None | Some v => Some (sqrt (sqnorm (vsub (stretch (length v) r) (stretch (length r) v)))) end.
(** k_means.py 121-129. *)
Definition km_array (d : nat) (c : list centroid) (a : array R) : result output :=
  let '(w, m) := as_rows a in
  if compatible w d then
    cl <- get_cluster (map (fun r => map (km_distance r) c) m) ;; Ok (Vector (map INR cl))
  else Err ValueError.

(** gaussian_mixture.py 159-172. Simplification: a row with a single entry is refused
    by the model when [d] is not 1; numpy would stretch it. *)
Definition gm_array (rnd : R -> R) (d : nat) (t : Gmm.params) (a : array R) : result output :=
  let '(w, m) := as_rows a in
  if (w =? d)%nat then cl <- Gmm.gm_predict rnd d t m ;; Ok (Vector (map INR cl)) else Err ValueError.

(** radial_basis_function_network.py 121-124 and optimizers.py 824-839: for an array
    with one dimension the number of samples is its length (824), and the one squared
    distance (833) is written into all of them. *)
Definition rbf_array (p : Rbf.rbf_params) (a : array R) : result output :=
  match a with
  | Flat l => t <- Rbf.forward_row p l ;; Ok (Matrix 1 (repeat [fst (fst t)] (length l)))
  | Rows w m =>
      if forallb (fun c => compatible w (length c)) (Rbf.rc p)
      then v <- Rbf.rbf_predict p m ;; Ok (Matrix 1 (map (fun y => [y]) v)) else Err ValueError
  end.

(** The shapes of the layers fit the [w] inputs and each other (optimizers.py 238,
    248): [np.matmul] also checks them without rows. *)
Fixpoint chain (w : nat) (ls : list layer) : bool :=
  match ls with
  | [] => true
  | l :: t => forallb (fun r => (length r =? w)%nat) (fst l) && chain (length (fst l)) t
  end.
(** The number of output neurons (optimizers.py 249). *)
Definition outputs (ls : list layer) : nat := length (fst (last ls ([], []))).
(** back_propagation_neural_network.py 133-136 and optimizers.py 215-257: an array
    with one dimension times a matrix has one dimension (238), and the addition of the
    bias of shape (1, h) makes it a row. *)
Definition bp_array (ls : list layer) (a : array R) : result output :=
  let '(w, m) := as_rows a in
  if chain w ls then r <- forward ls m ;; Ok (Matrix (outputs ls) (fst r)) else Err ValueError.

(** decision_tree_classifier.py 56-63: the answers of one stump; in the initial state
    the index is -1 and the dividing point None. *)
Definition stump_array (s : stump) (a : array R) : result (list Z) :=
  match a with
  | Flat _ => Err IndexError
  | Rows w m =>
      match s with
      | None => Err (if (w =? 0)%nat then IndexError else TypeError)
      | Some (j, t, mode) => if (j <? w)%nat then Ok (map (stump_label j t mode) m) else Err IndexError
      end
  end.
(** [x.shape[0]] (bagging.py 98, boosting.py 116). *)
Definition first_dimension {A} (a : array A) : nat := match a with Flat l => length l | Rows _ m => length m end.
(** bagging.py 98-106: the answers are added up learner by learner. *)
Definition bag_array (stumps : list stump) (a : array R) : result output :=
  answers <- mapM (fun s => stump_array s a) stumps ;;
  Ok (Vector (map (fun i => if Rleb 0 (rsum (map (fun l => IZR (nth i l 0%Z)) answers)) then 1 else -1)
                  (seq 0 (first_dimension a)))).

(** decision_tree_classifier.py 364-377, with the index errors. *)
Fixpoint tl_sample (t : tltree) (s : sample) : result Z :=
  match t with
  | TLeaf l => Ok l
  | TNode j p u l =>
      match s with
      | Entry _ => Err IndexError
      | Row r => v <- get_at r j ;; if Rleb p v then tl_sample u s else tl_sample l s
      end
  end.
(** boosting.py 116-125 with the default base learner: the weighted answers are added
    up learner by learner; without weight the quotient is NaN. *)
Definition ada_array (members : list (tltree * R)) (a : array R) : result output :=
  answers <- mapM (fun h => l <- mapM (tl_sample (fst h)) (samples a) ;; Ok (snd h, l)) members ;;
  let norm := rsum (map snd members) in
  if Reqb norm 0 && negb (first_dimension a =? 0)%nat then Err NotANumber else
  Ok (Vector (map (fun i => if Rleb 0 (rsum (map (fun h => fst h * IZR (nth i (snd h) 0%Z)) answers) / norm) then 1 else -1)
                  (seq 0 (first_dimension a)))).

(** The trained models on numbers, with the fields that [predict] reads
    (logistic_regression.py 116-120, linear_discriminant_analysis.py 75-84,
    support_vector_classifier.py 144-154, k_means.py 121-129, gaussian_mixture.py
    159-172, radial_basis_function_network.py 121-124,
    back_propagation_neural_network.py 133-136, bagging.py 98-106, boosting.py
    116-125). *)
Inductive numeric :=
| FLogistic (beta : list R)
| FLda (p : Lda.lda)
| FSvc (k : kernel_kind) (d : nat) (m : svc)
| FKMeans (d : nat) (c : list centroid)
| FMixture (rnd : R -> R) (d : nat) (t : Gmm.params)
| FRbf (p : Rbf.rbf_params)
| FBp (ls : list layer)
| FBagging (stumps : list stump)
| FAda (members : list (tltree * R)).
(** [predict] of an array (the same lines, e.g. k_means.py 121-129). *)
Definition predict_array (f : numeric) (a : array R) : result output :=
  match f with
  | FLogistic beta => lr_array beta a
  | FLda p => lda_array p a
  | FSvc k d m => svc_array k d m a
  | FKMeans d c => km_array d c a
  | FMixture rnd d t => gm_array rnd d t a
  | FRbf p => rbf_array p a
  | FBp ls => bp_array ls a
  | FBagging stumps => bag_array stumps a
  | FAda members => ada_array members a
  end.
(** [predict] of a Python list with the same contents: the network wants an array
    (back_propagation_neural_network.py 129-131), the ensembles read [x.shape]
    (bagging.py 98, boosting.py 116), the others call [np.asarray] (e.g. k_means.py
    121). *)
Definition predict_list (f : numeric) (a : array R) : result output :=
  match f with
  | FBp _ => Err TypeError
  | FBagging _ | FAda _ => Err AttributeError
  | _ => predict_array f a
  end.

(** base_model.py 53-59 after [predict]: only an answer with one dimension is made a
    column; [y_pred.shape[1]] (metrics.py 57) of an answer without dimensions is an
    IndexError. *)
Definition score_of (o : output) (y : targets) : result R :=
  match o with
  | Scalar _ => Err IndexError
  | Vector l => accuracy 1 (map (fun v => [v]) l) y
  | Matrix w m => accuracy w m y
  end.
(** [score] of an array (base_model.py 43-59; k_means.py 131-137, gaussian_mixture.py
    174-180 for the clusterings). *)
Definition score_array (f : numeric) (a : array R) (y : targets) : result R :=
  match f with
  | FKMeans _ _ | FMixture _ _ _ => Err NotImplementedError
  | _ => o <- predict_array f a ;; score_of o y
  end.

(** ** Models on tables *)
(** Is [x] a Python list or an array? (decision_tree_classifier.py 200-207). *)
Inductive given (A : Type) := Listed (a : array A) | Arrayed (a : array A).
Arguments Listed {A} a.
Arguments Arrayed {A} a.

Section Tables.
(** How numpy writes a number as text. *)
Variable text_of : R -> string.
(** The elements of an array made of a list (decision_tree_classifier.py 201,
    naive_bayes_classifier.py 167): texts, if one of them is a text. *)
Definition unified (all : list Tree.cell) (c : Tree.cell) : Tree.cell :=
  if forallb Tree.is_num all then c
  else match c with Tree.Num r => Tree.Txt (text_of r) | Tree.Txt s => Tree.Txt s end.

(** decision_tree_classifier.py 215-231 for a matrix in place of a sample: the value
    of a feature is a row. The truth of a comparison of several elements is a
    ValueError, that of none is false, and an array is no key of a dictionary. *)
Fixpoint tree_stack (t : Tree.tree) (m : list (list Tree.cell)) : result Z :=
  match t with
  | Tree.Leaf l => Ok l
  | Tree.Cont j _ p _ _ g l =>
      r <- get_at m j ;;
      if negb (forallb Tree.is_num r) then Err TypeError else
      match r with
      | [] => tree_stack l m
      | [c] => if Rleb p (Tree.num_of c) then tree_stack g m else tree_stack l m
      | _ => Err ValueError
      end
  | Tree.Disc j _ _ _ _ => r <- get_at m j ;; Err TypeError
  end.
(** decision_tree_classifier.py 199-213: a list is one sample, whatever it holds
    (200-201). *)
Definition tree_array (t : Tree.tree) (x : given Tree.cell) : result output :=
  match x with
  | Listed (Flat l) => z <- Tree.predict t (map (unified l) l) ;; Ok (Vector [IZR z])
  | Listed (Rows _ m) => z <- tree_stack t (map (map (unified (List.concat m))) m) ;; Ok (Vector [IZR z])
  | Arrayed a => z <- mapM (Tree.predict t) (snd (as_rows a)) ;; Ok (Vector (map IZR z))
  end.
End Tables.

Section Bayes.
Context {A : Type} (O : TotalOrder A).
Variable num : A -> R.
Variable rnd : R -> R.
(** What numpy makes of a list of values (naive_bayes_classifier.py 167). *)
Variable unify : list A -> list A.

(** naive_bayes_classifier.py 166-189: a list is one sample, so that a list of lists
    has three dimensions and pandas refuses it; the number of columns must be that of
    the attributes (174). *)
Definition nb_array (p : Bayes.nb_model (A := A)) (x : given A) : result output :=
  let over w m :=
    if (w =? length (Bayes.nb_pi p))%nat
    then z <- mapM (Bayes.nb_predict O num rnd p) m ;; Ok (Vector (map IZR z)) else Err ValueError in
  match x with
  | Listed (Flat l) => over (length l) [unify l]
  | Listed (Rows _ _) => Err ValueError
  | Arrayed a => over (fst (as_rows a)) (snd (as_rows a))
  end.
(** The rows that pandas makes of values with one dimension: one column
    (semi_naive_bayes_classifiers.py 241, 516). *)
Definition framed (a : array A) : nat * list (list A) :=
  match a with Flat l => (1%nat, map (fun v => [v]) l) | Rows w m => (w, m) end.
(** semi_naive_bayes_classifiers.py 241-267; [w] is the number of attributes. *)
Definition sp_array (w : nat) (state : list (Bayes.sp_entry (A := A))) (x : given A) : result output :=
  let '(w', m) := match x with Listed a | Arrayed a => framed a end in
  if (w' =? w)%nat then z <- mapM (Bayes.sp_predict O num rnd state) m ;; Ok (Vector (map IZR z)) else Err ValueError.
(** semi_naive_bayes_classifiers.py 516-527. *)
Definition ao_array (w : nat) (lists : list (list (Bayes.sp_entry (A := A)))) (x : given A) : result output :=
  let '(w', m) := match x with Listed a | Arrayed a => framed a end in
  if (w' =? w)%nat then z <- mapM (Bayes.ao_predict O num rnd lists) m ;; Ok (Vector (map IZR z)) else Err ValueError.
End Bayes.
