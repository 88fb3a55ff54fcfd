(** Model of the life of a model object: [predict] with its guard for every class
    in classicML/api/models, and histories of calls.

    [fit] is described by its effect on the object; what the training computes is
    modelled in the other files. *)
From Coq Require Import List String Reals ZArith Bool Arith DecimalString.
From Verif.Model Require Import Base Ops Stump Tree Bayes Ensemble Logistic Lda Network Rbf KMeans Gmm Kernels Smo Training Misfit Store.
Import ListNotations.
Local Open Scope string_scope.

(** A call of [predict]: the ValueError '你必须先进行训练' of the guard, or the computation
    behind it. (e.g. k_means.py 117-119). *)
Inductive outcome (B : Type) := NotTrained | Answer (r : result B).
Arguments NotTrained {B}.
Arguments Answer {B} r.

Section Life.
Context {A : Type}.
Notation value := (value A).
Notation obj := (@obj A).

(** The first statement of every [predict]: logistic_regression.py 112-114,
    linear_discriminant_analysis.py 71-73, naive_bayes_classifier.py 161-163,
    semi_naive_bayes_classifiers.py 236-238, 511-513, decision_tree_classifier.py
    195-197, support_vector_classifier.py 140-142, k_means.py 117-119,
    gaussian_mixture.py 155-157, bagging.py 94-96, boosting.py 112-114,
    back_propagation_neural_network.py 126-128, radial_basis_function_network.py
    117-119. *)
Definition guarded {B} (i : obj) (r : result B) : outcome B :=
  if negb (is_trained i) && negb (is_loaded i) then NotTrained else Answer r.

(** A field of another type than the code expects: some exception, here a TypeError.
    (the fields read in, e.g., linear_discriminant_analysis.py 75-84). *)
Definition vec (v : value) : result (list R) := match v with VVec l => Ok l | _ => Err TypeError end.
(** logistic_regression.py 116-120: [forward] of the optimizer. The gradient descent
    and the Newton method share it (optimizers.py 566-584, 681-699). *)
Definition predict_logistic (i : obj) (x : list (list R)) : outcome (list R) :=
  guarded i (
    match field i "optimizer" with
    | VOptimizer o =>
        match kind o with
        | GradientDescent _ | NewtonMethod => beta <- vec (field i "beta") ;; Ok (Logistic.forward x beta)
        | f => beta <- vec (field i "beta") ;; Err (misfit_forward f (HeldArray (List.length beta)))
        end
    | _ => Err AttributeError
    end).

(** linear_discriminant_analysis.py 75-84, one row. *)
Definition predict_lda (i : obj) (r : list R) : outcome Z :=
  guarded i (
    w <- vec (field i "w") ;; m0 <- vec (field i "mu_0") ;; m1 <- vec (field i "mu_1") ;;
    Ok (lda_predict {| lda_w := w; lda_mu0 := m0; lda_mu1 := m1 |} r)).

(** naive_bayes_classifier.py 165-232, one row: [pi_0] and [pi_1] are walked
    together. *)
Definition join_side (p : side A * side A) : result (@nb_info A) :=
  match p with
  | (SideCont s0, SideCont s1) => Ok (NBCont s0 s1)
  | (SideDisc d0 n0 k0, SideDisc d1 n1 k1) => if (k0 =? k1)%nat then Ok (NBDisc d0 d1 n0 n1 k0) else Err ValueError
  | _ => Err ValueError
  end.
(** [if smoothing:] (ops.py 352-406, 501-547): None is false. *)
Definition truth (v : value) : bool := match v with VBool b => b | _ => false end.
(** naive_bayes_classifier.py 146-232 [predict], one row. *)
Definition predict_naive_bayes (O : TotalOrder A) (num_of : A -> R) (rnd : R -> R) (i : obj) (q : list A) : outcome Z :=
  guarded i (
    match field i "p_0", field i "p_1", field i "pi_0", field i "pi_1" with
    | VNum p0, VNum p1, VSides s0, VSides s1 =>
        pi <- mapM join_side (combine s0 s1) ;;
        nb_predict O num_of rnd {| nb_p0 := p0; nb_p1 := p1; nb_pi := pi; nb_smoothing := truth (field i "smoothing") |} q
    | _, _, _, _ => Err TypeError
    end).

(** semi_naive_bayes_classifiers.py 240-267, 499-527, one row. *)
Definition predict_super_parent (O : TotalOrder A) (num_of : A -> R) (rnd : R -> R) (i : obj) (q : list A) : outcome Z :=
  guarded i (match field i "_list_of_p_c" with VEntries l => sp_predict O num_of rnd l q | _ => Err TypeError end).
(** semi_naive_bayes_classifiers.py 499-527 [predict], one row. *)
Definition predict_averaged (O : TotalOrder A) (num_of : A -> R) (rnd : R -> R) (i : obj) (q : list A) : outcome Z :=
  guarded i (match field i "_attribute_list" with VLists l => ao_predict O num_of rnd l q | _ => Err TypeError end).

(** decision_tree_classifier.py 199-231: a missing tree has no [leaf]. *)
Definition predict_tree (i : obj) (x : list row) : outcome (list Z) :=
  guarded i (mapM (fun r => match field i "tree" with VTree t => Tree.predict t r | _ => Err AttributeError end) x).

(** The function of a kernel object (kernels.py 35-151). *)
Definition kernel_fun (k : kernel_kind) : result (list R -> list R -> R) :=
  match k with
  | KLinear => Ok linear
  | KPoly (Some g) d => Ok (polynomial g d)
  | KRbf (Some g) | KGaussian (Some g) => Ok (rbf g)
  | KSigmoid (Some g) b t => Ok (sigmoid_kernel g b t)
  | _ => Err TypeError
  end.
(** support_vector_classifier.py 144-154. *)
Definition predict_svc (i : obj) (x : list (list R)) : outcome (list Z) :=
  guarded i (
    match field i "kernel", field i "support", field i "support_vector", field i "support_alpha", field i "support_y", field i "b" with
    | VKernel k, VNats s, VMat sv, VVec sa, VVec sy, VNum b =>
        K <- kernel_fun (kind k) ;;
        Ok (map (svc_predict K {| support := s; support_vector := sv; support_alpha := sa; support_y := sy; svc_b := b |}) x)
    | _, _, _, _, _, _ => Err TypeError
    end).

(** k_means.py 103-129. *)
Definition predict_kmeans (i : obj) (x : list (list R)) : outcome (list nat) :=
  guarded i (match field i "centroids" with VCentroids c => km_predict c x | _ => Err TypeError end).

(** gaussian_mixture.py 141-172. *)
Definition predict_mixture (rnd : R -> R) (d : nat) (i : obj) (x : list (list R)) : outcome (list nat) :=
  guarded i (
    match field i "mu", field i "sigma", field i "alpha" with
    | VMat m, VTensor s, VVec a => gm_predict rnd d {| mu := m; sigma := s; alpha := a |} x
    | _, _, _ => Err TypeError
    end).

(** bagging.py 98-106. *)
Definition predict_bagging (i : obj) (x : list (list R)) : outcome (list Z) :=
  guarded i (
    match field i "estimators" with
    | VStumps l => bag_predict {| bag_seed := 0%Z; bag_stumps := l |} x
    | _ => Err TypeError
    end).

(** boosting.py 116-125, one row. *)
Definition predict_adaboost (i : obj) (r : list R) : outcome Z :=
  guarded i (
    match field i "estimators", field i "alpha_list" with
    | VTwoLevel l, VVec a => ada_predict tltree tl_predict {| Ensemble.members := combine l a; alpha_is_array := true |} r
    | _, _ => Err TypeError
    end).

(** 'w' + str(k) and 'b' + str(k). (optimizers.py 233-234, 245-246). *)
Definition layer_key (c : string) (k : nat) : string := c ++ NilZero.string_of_uint (Nat.to_uint k).
(** The layers that optimizers.py 226-246 takes from the dictionary: their number
    is half the number of entries. *)
Definition layers_of (d : @attrs A) : result (list Network.layer) :=
  mapM (fun k => match lookup d (layer_key "w" k), lookup d (layer_key "b" k) with
                 | Some (VMat w), Some (VVec b) => Ok (w, b)
                 | Some _, Some _ => Err TypeError
                 | _, _ => Err KeyError
                 end) (seq 1 (List.length d / 2)).
(** back_propagation_neural_network.py 130-136.  Adam inherits [forward]. *)
Definition predict_network (i : obj) (x : list (list R)) : outcome (list (list R)) :=
  guarded i (
    match field i "optimizer" with
    | VOptimizer o =>
        match kind o, field i "parameters" with
        | Sgd _, VDict d | Adam _ _ _ _, VDict d =>
            ls <- layers_of d ;; r <- Network.forward ls x ;; Ok (fst r)
        | f, VDict _ => Err (misfit_forward f HeldDict)
        | _, _ => Err TypeError
        end
    | _ => Err AttributeError
    end).

(** radial_basis_function_network.py 121-124. *)
Definition rbf_params_of (d : @attrs A) : result rbf_params :=
  match lookup d "w", lookup d "b", lookup d "c", lookup d "beta" with
  | Some (VVec w), Some (VNum b), Some (VMat c), Some (VVec beta) =>
      Ok {| rw := w; rb := b; rc := c; rbeta := beta |}
  | Some _, Some _, Some _, Some _ => Err TypeError
  | _, _, _, _ => Err KeyError
  end.
(** radial_basis_function_network.py 105-124 [predict]. *)
Definition predict_rbf (i : obj) (x : list (list R)) : outcome (list R) :=
  guarded i (
    match field i "optimizer" with
    | VOptimizer o =>
        match kind o, field i "parameters" with
        | RbfOptimizer _, VDict d => p <- rbf_params_of d ;; rbf_predict p x
        | f, VDict _ => Err (misfit_forward f HeldDict)
        | _, _ => Err TypeError
        end
    | _ => Err AttributeError
    end).

(** ** Base learners *)
(** decision_tree_classifier.py 47-63: no guard; an object that has not been fitted
    has [None] in place of the stump. *)
Definition predict_stump (s : option stump) (x : list (list R)) : result (list Z) :=
  match s with None => Err AttributeError | Some st => stump_predict st x end.
(** decision_tree_classifier.py 349-362: no guard; the same for the tree. *)
Definition predict_two_level (t : option tltree) (x : list (list R)) : result (list Z) :=
  mapM (fun r => match t with None => Err AttributeError | Some u => Ok (tl_predict u r) end) x.

(** ** Histories *)
(** What a call of [fit] did: the fields it changed, whether it has set
    [is_trained], and the exception. (every [fit], e.g. k_means.py 67-101). *)
Record fit_effect := { changed : @attrs A; marked : bool; raised : option err }.
(** [fit] sets the flag as its last statement, except that gaussian_mixture.py
    134-137 predicts the training samples afterwards and that
    semi_naive_bayes_classifiers.py 490 calls the [fit] of the super-parent
    estimator, which sets the flag of the object, once per attribute. *)
Definition marks_early (c : @cls A) : bool :=
  (model_name c =? "GaussianMixture") || (model_name c =? "AveragedOneDependentEstimator").
(** What any [fit] can do to the flag [is_trained]: it is set when [fit] returns,
    and not set when [fit] raises unless the class marks early (see [marks_early];
    e.g. k_means.py 99, bagging.py 77). *)
Definition fit_possible (c : @cls A) (e : fit_effect) : Prop :=
  (raised e = None -> marked e = true) /\ (marks_early c = false -> raised e <> None -> marked e = false).
(** A sequence of assignments to fields (e.g. k_means.py 46-49). *)
Definition set_fields (i : obj) (l : @attrs A) : obj := fold_left (fun i kv => set_field i (fst kv) (snd kv)) l i.
(** The object after a call of [fit] (e.g. k_means.py 67-101). *)
Definition after_fit (e : fit_effect) (i : obj) : obj :=
  let i' := set_fields i (changed e) in
  {| field := field i'; is_trained := is_trained i || marked e; is_loaded := is_loaded i |}.

(** k_means.py 67-101.  Simplification: after an exception inside the rounds the
    fields that were already assigned are not listed. *)
Definition kmeans_fit_effect (randint : nat -> nat -> list nat) (d : nat) (x : list (list R)) (n : nat) (init : Ops.init_arg)
  (tol : R) (epochs : nat) : fit_effect :=
  match km_fit randint d x n init tol epochs with
  | Ok r =>
      {| changed := [("centroids", VCentroids (fst (fst r)));
                     ("clusters", match snd (fst r) with Some l => VNats l | None => VNone end)];
         marked := true; raised := None |}
  | Err e => {| changed := []; marked := false; raised := Some e |}
  end.
(** gaussian_mixture.py 92-139: the flag is set (line 134) before the training
    samples are predicted (line 137). *)
Definition mixture_fit_effect (rnd : R -> R) (d : nat) (randint : nat -> nat -> list nat) (x : list (list R)) (n : nat)
  (i_mu : Ops.init_arg) (i_cov i_mix : Ops.cov_arg) (tol : R) (epochs : nat) : fit_effect :=
  match (t0 <- gm_init d randint x n i_mu i_cov i_mix ;; gm_loop rnd d n x tol epochs t0) with
  | Err e => {| changed := []; marked := false; raised := Some e |}
  | Ok t =>
      let fields := [("mu", VMat (mu t)); ("sigma", VTensor (sigma t)); ("alpha", VVec (alpha t))] in
      match gm_predict rnd d t x with
      | Ok l => {| changed := (fields ++ [("clusters", VNats l)])%list; marked := true; raised := None |}
      | Err e => {| changed := fields; marked := true; raised := Some e |}
      end
  end.

(** The public calls of base_model.py 11-83. *)
Inductive call :=
| CompileCall (l : @attrs A)
| FitCall (e : fit_effect)
| LoadCall (path : string)
| SaveCall (path : string) (author now : value)
| PredictCall.
(** The files that [load_weights] and [save_weights] see (base_model.py 61-83). *)
Definition disk := string -> @content A.
(** Writing a file (io.py 76). *)
Definition store (d : disk) (path : string) (k : @content A) : disk := fun p => if p =? path then k else d p.
(** One call: the object and the disk afterwards, and the exception. (base_model.py 11-83). *)
Definition perform (c : @cls A) (s : obj * disk) (k : call) : obj * disk * option err :=
  match k with
  | CompileCall l => (set_fields (fst s) l, snd s, None)
  | FitCall e => (after_fit e (fst s), snd s, raised e)
  | LoadCall path => let '(i, e) := load c (snd s path) (fst s) in (i, snd s, e)
  | SaveCall path author now =>
      let '(k, e) := save c author now (fst s) (snd s path) in (fst s, store (snd s) path k, e)
  | PredictCall => (fst s, snd s, None)
  end.
(** A history of calls (base_model.py 11-83). *)
Fixpoint perform_all (c : @cls A) (s : obj * disk) (ks : list call) : obj * disk :=
  match ks with [] => s | k :: t => perform_all c (fst (perform c s k)) t end.
End Life.
