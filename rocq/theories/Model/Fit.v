(** Model of [compile] and [fit] of the classes in classicML/api/models as effects
    on the fields of an object (Store.v): which fields are assigned, in which
    order, and which of them are already assigned when an exception is raised.
    What the training computes is modelled in the other files. *)
From Coq Require Import List String Reals ZArith Bool Arith.
From Verif.Model Require Import Base Matrix Ops Stump Tree Pruner Bayes Ensemble Logistic Lda Network Rbf KMeans Gmm Kernels Smo Training Misfit Store Life Svc.
From Verif.Model Require Process.
Import ListNotations.
Local Open Scope string_scope.

Section Fit.
Context {A : Type}.
Notation value := (value A).
Notation obj := (@obj A).
Notation attrs := (@attrs A).

(** [fit] has returned: the fields it has assigned, and the mark, which is its last
    statement (e.g. linear_discriminant_analysis.py 55). *)
Definition finished (l : attrs) : fit_effect := {| changed := l; marked := true; raised := None |}.
(** An exception after the fields [l] have been assigned
    (e.g. linear_discriminant_analysis.py 47-53). *)
Definition stopped (l : attrs) (e : err) : fit_effect := {| changed := l; marked := false; raised := Some e |}.
(** One or the other (e.g. logistic_regression.py 91-96). *)
Definition ended (l : attrs) (e : option err) : fit_effect := match e with None => finished l | Some e => stopped l e end.

(** ** Linear discriminant analysis *)
(** linear_discriminant_analysis.py 31-57 [fit].  Simplification: a class without
    rows has a mean of NaN; the model stops there. *)
Definition lda_fit_effect (svd : list (list R) -> list (list R) * list R * list (list R)) (d : nat)
  (x : list (list R)) (y : list Z) : @fit_effect A :=
  if negb (List.length x =? List.length y)%nat then stopped [] IndexError else
  let x0 := with_label 0 x y in let x1 := with_label 1 x y in
  match mean_row d x0 with
  | Err e => stopped [] e
  | Ok m0 =>
      match mean_row d x1 with
      | Err e => stopped [("mu_0", VVec m0)] e
      | Ok m1 =>
          match get_w_v2 svd d (within_class_scatter d x0 x1 m0 m1) m0 m1 with
          | Err e => stopped [("mu_0", VVec m0); ("mu_1", VVec m1)] e
          | Ok w => finished [("mu_0", VVec m0); ("mu_1", VVec m1); ("w", VVec w)]
          end
      end
  end.

(** ** Models with an optimizer *)
(** [compile]: logistic_regression.py 54-68,
    back_propagation_neural_network.py 59-79, radial_basis_function_network.py
    52-75; the initializer is not a field of the weight files. *)
Definition compile_trainer (o : arg optimizer_kind) (l : arg loss_kind) (m : arg metric_kind) : result attrs :=
  o' <- get_optimizer o ;;
  m' <- get_metric m ;;
  Ok [("optimizer", VOptimizer o'); ("loss", VLoss (get_loss l));
      ("metric", match m' with Some c => VMetric c | None => VNone end)].
(** logistic_regression.py 70-98 [fit]; [init] is what the initializer returns.  The
    parameters are updated in place, so that an exception leaves those of the last
    epoch.  Simplification: before [compile] there is an initializer only if an object
    was given to the constructor; the field is listed as in that case. *)
Definition logistic_fit_effect (init : list R) (d : nat) (x : list (list R)) (y : list Z) (epochs : nat) (i : obj) : @fit_effect A :=
  match (if is_loaded i then vec (field i "beta") else Ok init) with
  | Err e => stopped [] e
  | Ok b =>
      match field i "optimizer" with
      | VOptimizer o => let '(b', e) := Process.train_regression (kind o) d x y epochs b in ended [("beta", VVec b')] e
      | _ => stopped [("beta", VVec b)] TypeError
      end
  end.

(** [self.parameters] as the initializers make it and the optimizers fill it: the
    layers, numbered from [k] (initializers.py 60-66, optimizers.py 209-211). *)
Fixpoint entries (k : nat) (ls : list layer) : attrs :=
  match ls with
  | [] => []
  | l :: t => (layer_key "w" k, VMat (fst l)) :: (layer_key "b" k, VVec (snd l)) :: entries (S k) t
  end.
(** Assignments to entries of the dictionary (optimizers.py 209-211, 450-465). *)
Definition put_all (d a : attrs) : attrs := fold_left (fun d kv => put d (fst kv) (snd kv)) a d.
(** The call of the optimizer (optimizers.py 142-195, 371-428); [draws] are the
    numbers of the rows. *)
Definition run_network (f : optimizer_kind) (x y : list (list R)) (ls : list layer) (draws : list nat) : result (list layer) :=
  match f with
  | Sgd rate => sgd_run rate x y ls draws
  | Adam rate b1 b2 eps => adam_run {| rate := rate; beta_1 := b1; beta_2 := b2; epsilon := eps |} x y ls draws
  | _ => match misfit_run f HeldDict (List.length x) (List.length draws) with None => Ok ls | Some e => Err e end
  end.
(** back_propagation_neural_network.py 81-113 [fit]; [init] is what the initializer
    returns.  Simplification: after an exception the updates of the epochs before it
    are not listed. *)
Definition network_fit_effect (init : list layer) (draws : list nat) (x y : list (list R)) (i : obj) : @fit_effect A :=
  let start := if is_loaded i then field i "parameters" else VDict (entries 1 init) in
  match field i "optimizer", start with
  | VOptimizer o, VDict d =>
      match (ls <- layers_of d ;; run_network (kind o) x y ls draws) with
      | Ok ls => finished [("parameters", VDict (put_all d (entries 1 ls)))]
      | Err e => stopped [("parameters", start)] e
      end
  | _, _ => stopped [("parameters", start)] TypeError
  end.

(** The dictionary of a radial basis function network (initializers.py 163-168,
    optimizers.py 806-808). *)
Definition rbf_entries (p : rbf_params) : attrs :=
  [("w", VVec (rw p)); ("b", VNum (rb p)); ("c", VMat (rc p)); ("beta", VVec (rbeta p))].
(** radial_basis_function_network.py 77-98 [fit]; the same simplification. *)
Definition rbf_fit_effect (init : rbf_params) (x : list (list R)) (y : labels) (epochs : nat) (i : obj) : @fit_effect A :=
  let start := if is_loaded i then field i "parameters" else VDict (rbf_entries init) in
  match field i "optimizer", start with
  | VOptimizer o, VDict d =>
      match (p <- rbf_params_of d ;; match kind o with RbfOptimizer rate => rbf_run rate x y epochs p
                                 | f => match misfit_run f HeldDict (List.length x) epochs with None => Ok (p, []) | Some e => Err e end end) with
      | Ok r => finished [("parameters", VDict (put_all d (rbf_entries (fst r))))]
      | Err e => stopped [("parameters", start)] e
      end
  | _, _ => stopped [("parameters", start)] TypeError
  end.

(** ** Bayes *)
(** naive_bayes_classifier.py 51-58 [compile]. *)
Definition compile_naive_bayes (smoothing : bool) : attrs := [("smoothing", VBool smoothing)].
(** What goes to [pi_0] and what to [pi_1] (naive_bayes_classifier.py 104-109,
    132-140). *)
Definition side_0 (n : @nb_info A) : side A := match n with NBCont s _ => SideCont s | NBDisc d _ n _ k => SideDisc d n k end.
(** naive_bayes_classifier.py 107-109, 137-140. *)
Definition side_1 (n : @nb_info A) : side A := match n with NBCont _ s => SideCont s | NBDisc _ d _ n k => SideDisc d n k end.
(** The entries a dictionary has (naive_bayes_classifier.py 46-47). *)
Definition sides (v : value) : list (side A) := match v with VSides l => l | _ => [] end.
(** [update] with the first entries of the same names: the others stay
    (naive_bayes_classifier.py 104-109). *)
Definition update_first (new old : list (side A)) : list (side A) := (new ++ skipn (List.length new) old)%list.
(** The attributes up to the first exception (naive_bayes_classifier.py 90-140). *)
Fixpoint nb_attributes (O : TotalOrder A) (num : A -> R) (continuous : list A -> bool) (vc : list A -> list A) (y : list Z)
  (cols : list (list A)) : list (@nb_info A) * option err :=
  match cols with
  | [] => ([], None)
  | c :: t => match nb_attribute O num continuous vc y c with
              | Ok n => let '(l, e) := nb_attributes O num continuous vc y t in (n :: l, e)
              | Err e => ([], Some e)
              end
  end.
(** naive_bayes_classifier.py 60-144 [fit].  Simplification: the columns have the same
    names in every call, so that an entry of an earlier [fit] is overwritten by the
    entry with the same position. *)
Definition nb_fit_effect (O : TotalOrder A) (num : A -> R) (continuous : list A -> bool) (vc : list A -> list A)
  (cols : list (list A)) (y : list Z) (i : obj) : @fit_effect A :=
  match get_prior_probability (List.length y) y (truth (field i "smoothing")) with
  | Err e => stopped [] e
  | Ok p =>
      let '(l, e) := nb_attributes O num continuous vc y cols in
      ended [("p_0", VNum (fst p)); ("p_1", VNum (snd p));
             ("pi_0", VSides (update_first (map side_0 l) (sides (field i "pi_0"))));
             ("pi_1", VSides (update_first (map side_1 l) (sides (field i "pi_1"))))] e
  end.

(** semi_naive_bayes_classifiers.py 124-134 [compile]. *)
Definition compile_super_parent (name : string) (smoothing : bool) : attrs :=
  [("super_parent_name", VText name); ("smoothing", VBool smoothing)].
(** The list [_list_of_p_c] (semi_naive_bayes_classifiers.py 122). *)
Definition entries_of (v : value) : list (@sp_entry A) := match v with VEntries l => l | _ => [] end.
(** semi_naive_bayes_classifiers.py 136-219 [fit]: the list of an earlier [fit] is
    kept.  Simplification: [index] is the position of the super parent.  No exception
    is raised after the first entry has been appended ([sp_table_ok] in
    Proof/Fit.v). *)
Definition sp_fit_effect (O : TotalOrder A) (num : A -> R) (continuous : list A -> bool) (index : nat)
  (cols : list (list A)) (y : list Z) (i : obj) : @fit_effect A :=
  match sp_fit O num continuous (entries_of (field i "_list_of_p_c")) cols y (truth (field i "smoothing")) index with
  | Ok l => finished [("_list_of_p_c", VEntries l)]
  | Err e => stopped [] e
  end.
(** semi_naive_bayes_classifiers.py 444-454 [compile]. *)
Definition compile_averaged (smoothing : bool) (m : nat) : attrs := [("smoothing", VBool smoothing); ("m", VInt (Z.of_nat m))].
(** The threshold [m] (semi_naive_bayes_classifiers.py 441). *)
Definition threshold (v : value) : nat := match v with VInt z => Z.to_nat z | _ => 0 end.
(** semi_naive_bayes_classifiers.py 456-497 [fit].  There is no exception
    ([ao_fit_ok] in Proof/Fit.v). *)
Definition ao_fit_effect (O : TotalOrder A) (num : A -> R) (continuous : list A -> bool)
  (cols : list (list A)) (y : list Z) (i : obj) : @fit_effect A :=
  match ao_fit O num continuous (entries_of (field i "_list_of_p_c")) cols y (truth (field i "smoothing")) (threshold (field i "m")) with
  | Ok r => finished [("_attribute_list", VLists (snd r)); ("_list_of_p_c", VEntries (fst r))]
  | Err e => stopped [("_attribute_list", VLists [])] e
  end.

(** ** Decision tree *)
(** decision_tree_classifier.py 103-124 [compile].  The field [generator] stands for the
    generator, which keeps the criterion it was made with (123); [load_weights]
    changes the field [criterion] only (266). *)
Definition compile_tree (criterion : string) (pruning : arg pruner_kind) : result attrs :=
  if negb ((criterion =? "gain") || (criterion =? "gini") || (criterion =? "entropy")) then Err AttributeError else
  p <- get_pruner pruning ;;
  Ok [("criterion", VText criterion); ("generator", VText criterion); ("pruner", match p with Some c => VPruner c | None => VNone end)].
(** The generator made by [compile] (decision_tree_classifier.py 123); without it the
    assignment to [self.generator._x] (156) fails, also on a loaded object. *)
Definition criterion_of (v : value) : result criterion :=
  match v with
  | VText s => if s =? "gain" then Ok Gain else if s =? "gini" then Ok Gini else if s =? "entropy" then Ok Entropy else Err AttributeError
  | _ => Err AttributeError
  end.
(** decision_tree_classifier.py 126-180 [fit]: the tree is generated unless weights
    were loaded (169-170), and pruned if there is a pruner (173-174); [w] is the number
    of columns. *)
Definition tree_fit_effect (top : list Z -> Z) (rnd : R -> R) (w : nat) (D : list (row * Z)) (val : option (list (row * Z)))
  (i : obj) : @fit_effect A :=
  match field i "pruner", val with
  | VPruner _, None => stopped [] AttributeError
  | pr, _ =>
      match criterion_of (field i "generator") with
      | Err e => stopped [] e
      | Ok c =>
          match (if is_loaded i then Ok (field i "tree") else t <- fit_tree top rnd c w D ;; Ok (VTree t)) with
          | Err e => stopped [] e
          | Ok tv =>
              match pr, tv, val with
              | VPruner p, VTree t, Some V =>
                  match (match kind p with PrePruner => pre_prune top t D V | PostPruner => post_prune top t D V end) with
                  | Ok t' => finished [("tree", VTree t')]
                  | Err e => stopped [("tree", VTree t)] e
                  end
              | VPruner _, _, _ => stopped [("tree", tv)] AttributeError
              | _, _, _ => finished [("tree", tv)]
              end
          end
      end
  end.

(** ** Support vector classifier *)
(** support_vector_classifier.py 73-90 [compile].  Simplification: an argument of
    another type is one value, another text one text. *)
Definition compile_svc (C : R) (kernel : arg kernel_kind) (gamma : gamma_value) (tol : R) : attrs :=
  [("C", VNum C);
   ("kernel", match kernel with ByName s => VText s | Instance c => VKernel c | NoArg => VNone | OtherArg => VInt 0 end);
   ("gamma", match gamma with
             | GammaNone => VNone | Auto => VText "auto" | Scale => VText "scale" | Coefficient g => VNum g
             | OtherText => VText "" end);
   ("tol", VNum tol)].
(** The fields of an object as Svc.v has them (support_vector_classifier.py 58-71). *)
Definition kernel_arg (v : value) : arg kernel_kind :=
  match v with VText s => ByName s | VKernel c => Instance c | VNone => NoArg | _ => OtherArg end.
(** The two texts with a meaning (support_vector_classifier.py 111, 113). *)
Definition gamma_arg (v : value) : gamma_value :=
  match v with
  | VNone => GammaNone
  | VNum g => Coefficient g
  | VText s => if s =? "auto" then Auto else if s =? "scale" then Scale else OtherText
  | _ => OtherText
  end.
(** The resolved [gamma] is a number; otherwise the field stays as it is
    (support_vector_classifier.py 111-114). *)
Definition gamma_field (g : gamma_value) (v : value) : value := match g with Coefficient r => VNum r | _ => v end.
(** A number of [compile] (support_vector_classifier.py 87, 90). *)
Definition num_or (r : R) (v : value) : R := match v with VNum q => q | _ => r end.
(** support_vector_classifier.py 92-126 [fit], by the model of Svc.v. *)
Definition svc_fit_effect (d : nat) (x : list (list R)) (y : list R) (perms : nat -> list nat) (fuel : nat) (epochs : Z)
  (i : obj) : @fit_effect A :=
  let o := {| the_C := num_or 0 (field i "C"); the_kernel := kernel_arg (field i "kernel"); the_gamma := gamma_arg (field i "gamma");
              the_tol := num_or 0 (field i "tol"); model := None; trained := false |} in
  let '(o', e) := Svc.fit d x y perms fuel epochs o in
  let gk := [("gamma", gamma_field (the_gamma o') (field i "gamma"));
             ("kernel", match the_kernel o' with Instance c => VKernel c | _ => field i "kernel" end)] in
  match model o' with
  | Some m => ended (gk ++ [("support", VNats (support m)); ("support_vector", VMat (support_vector m));
                            ("support_alpha", VVec (support_alpha m)); ("support_y", VVec (support_y m)); ("b", VNum (svc_b m))])%list e
  | None => ended gk e
  end.

(** ** Clustering *)
(** The field [init] as ops.py 652-673 takes it: a text, a list of row numbers, a list
    of numbers or a matrix.  Simplification: arrays of more dimensions are left out. *)
Definition init_of (v : value) : init_arg :=
  match v with
  | VText s => if s =? "random" then InitRandom else InitOther
  | VNats l => InitArray {| shape := [List.length l]; data := Ints (map Z.of_nat l) |}
  | VVec l => InitArray {| shape := [List.length l]; data := Floats l |}
  | VMat m => InitArray {| shape := [List.length m; List.length (hd [] m)]; data := Floats (List.concat m) |}
  | _ => InitOther
  end.
(** k_means.py 51-65 [compile]. *)
Definition compile_kmeans (init : value) (tol : R) : attrs := [("init", init); ("tol", VNum tol)].
(** k_means.py 86-97: the loop up to the first exception; the clusters are assigned
    before the centroids are compared (90, 94). *)
Fixpoint km_until (d : nat) (x : list (list R)) (tol : R) (epochs : nat) (c : list centroid) (cl : option (list nat))
  : list centroid * option (list nat) * option err :=
  match epochs with
  | O => (c, cl, None)
  | S epochs' =>
      match get_cluster (calculate_euclidean_distance x c) with
      | Err e => (c, cl, Some e)
      | Ok labels =>
          match compare_differences_any c (calculate_centroids d x labels) tol with
          | Err e => (c, Some labels, Some e)
          | Ok true => km_until d x tol epochs' (calculate_centroids d x labels) (Some labels)
          | Ok false => (c, Some labels, None)
          end
      end
  end.
(** k_means.py 67-101 [fit]. *)
Definition km_fit_effect (randint : nat -> nat -> list nat) (d : nat) (x : list (list R)) (n_clusters epochs : nat) (i : obj)
  : @fit_effect A :=
  match init_centroids randint d x n_clusters (init_of (field i "init")) with
  | Err e => stopped [] e
  | Ok c =>
      let '(c', cl, e) := km_until d x (num_or 0 (field i "tol")) epochs (map Some c) None in
      ended (("centroids", VCentroids c') :: match cl with Some l => [("clusters", VNats l)] | None => [] end) e
  end.

(** The fields [covariances_init] and [mixture_coefficient_init] as ops.py 702-714 and
    741-754 take them.  Simplification: other arrays are left out. *)
Definition cov_of (v : value) : cov_arg :=
  match v with
  | VNone => CovNone
  | VVec l => CovArray {| shape := [List.length l]; data := Floats l |}
  | VTensor t => CovArray {| shape := [List.length t; List.length (hd [] t); List.length (hd [] (hd [] t))];
                             data := Floats (List.concat (List.concat t)) |}
  | _ => CovOther
  end.
(** gaussian_mixture.py 67-90 [compile]. *)
Definition compile_mixture (init cov mix : value) (tol : R) : attrs :=
  [("init", init); ("covariances_init", cov); ("mixture_coefficient_init", mix); ("tol", VNum tol)].
(** gaussian_mixture.py 113-132: the loop up to the first exception. *)
Fixpoint gm_until (rnd : R -> R) (d n : nat) (x : list (list R)) (tol : R) (epochs : nat) (t : params) : params * option err :=
  match epochs with
  | O => (t, None)
  | S epochs' =>
      match em_round rnd d n x t with
      | Err e => (t, Some e)
      | Ok t' => if moved tol t t' then gm_until rnd d n x tol epochs' t' else (t, None)
      end
  end.
(** The three parameters in the fields (gaussian_mixture.py 109-111, 128-130). *)
Definition mixture_fields (t : params) : attrs := [("mu", VMat (mu t)); ("sigma", VTensor (sigma t)); ("alpha", VVec (alpha t))].
(** gaussian_mixture.py 92-139 [fit]; the mark is set before the last [predict] (134-137). *)
Definition gm_fit_effect (rnd : R -> R) (randint : nat -> nat -> list nat) (d : nat) (x : list (list R)) (n epochs : nat) (i : obj)
  : @fit_effect A :=
  match init_centroids randint d x n (init_of (field i "init")) with
  | Err e => stopped [] e
  | Ok m =>
      match init_covariances d n (cov_of (field i "covariances_init")) with
      | Err e => stopped [("mu", VMat m)] e
      | Ok s =>
          match init_mixture_coefficient n (cov_of (field i "mixture_coefficient_init")) with
          | Err e => stopped [("mu", VMat m); ("sigma", VTensor s)] e
          | Ok a =>
              let '(t, e) := gm_until rnd d n x (num_or 0 (field i "tol")) epochs {| mu := m; sigma := s; alpha := a |} in
              match e with
              | Some e => stopped (mixture_fields t) e
              | None =>
                  match gm_predict rnd d t x with
                  | Ok cl => finished (mixture_fields t ++ [("clusters", VNats cl)])%list
                  | Err e => {| changed := mixture_fields t; marked := true; raised := Some e |}
                  end
              end
          end
      end
  end.

(** ** Ensembles *)
(** The base learners of an object (bagging.py 35, boosting.py 36). *)
Definition stumps (v : value) : list stump := match v with VStumps l => l | _ => [] end.
(** bagging.py 40-51 [compile]. *)
Definition compile_bagging (learner : value) (seed : Z) : attrs := [("BaseLearner", learner); ("seed", VInt seed)].
(** bagging.py 68-74: the rounds up to the first exception, which comes from the
    sampling (70), before the seed is changed; the learners of the rounds before it
    are kept. *)
Fixpoint bag_until (choice : Z -> nat -> list nat) (n w : nat) (x : list (list R)) (y : list Z) (b : bagging) : bagging * option err :=
  match n with
  | O => (b, None)
  | S k => match bag_round choice w x y b with
           | Ok b' => bag_until choice k w x y b'
           | Err e => (b, Some e)
           end
  end.
(** bagging.py 53-79 [fit]; [BaseLearner] None cannot be called (73). *)
Definition bagging_fit_effect (choice : Z -> nat -> list nat) (n w : nat) (x : list (list R)) (y : list Z) (i : obj) : @fit_effect A :=
  match field i "seed", field i "BaseLearner" with
  | VInt s, VNone =>
      if (n =? 0)%nat then finished []
      else match bag_round choice w x y {| bag_seed := s; bag_stumps := [] |} with
           | Ok b => stopped [("seed", VInt (bag_seed b))] TypeError
           | Err e => stopped [] e
           end
  | VInt s, _ =>
      let '(b, e) := bag_until choice n w x y {| bag_seed := s; bag_stumps := stumps (field i "estimators") |} in
      ended [("seed", VInt (bag_seed b)); ("estimators", VStumps (bag_stumps b))] e
  | _, _ => if (n =? 0)%nat then finished [] else stopped [] TypeError
  end.

(** The base learners of an object (boosting.py 36). *)
Definition two_levels (v : value) : list tltree := match v with VTwoLevel l => l | _ => [] end.
(** The weights of the base learners (boosting.py 37). *)
Definition alphas_of (v : value) : list R := match v with VVec l => l | _ => [] end.
(** boosting.py 41-49 [compile]. *)
Definition compile_adaboost (learner : value) : attrs := [("BaseLearner", learner)].
(** boosting.py 69-90: the loop up to the first exception; the learner and its weight
    are appended in the middle of the round (78-79).  [w] is the number of columns. *)
Fixpoint ada_until (w n : nat) (D : list (list R * Z)) (dist : list R) : list (tltree * R) * option err :=
  match n with
  | O => ([], None)
  | S k =>
      match ada_round tltree (tl_learn w) tl_predict D dist with
      | Err e => ([], Some e)
      | Ok (h, a, dist') =>
          let e := weighted_error tltree tl_predict D dist h in
          let '(rest, r) := if Rltb (1/2) e || Rltb e EPSILON then ([], None) else ada_until w k D dist' in
          ((h, a) :: rest, r)
      end
  end.
(** boosting.py 51-97 [fit].  [alpha_list] is an array, to which nothing can be
    appended, after a [fit] or [load_weights] that returned, that is, when one of the
    marks is set. *)
Definition adaboost_fit_effect (w n : nat) (D : list (list R * Z)) (i : obj) : @fit_effect A :=
  let hs := two_levels (field i "estimators") in
  let al := alphas_of (field i "alpha_list") in
  if (n =? 0)%nat then finished [("alpha_list", VVec al)] else
  match field i "BaseLearner" with
  | VNone => stopped [] TypeError
  | _ =>
      if is_trained i || is_loaded i then
        match ada_round tltree (tl_learn w) tl_predict D (uniform (List.length D)) with
        | Ok _ => stopped [] AttributeError
        | Err e => stopped [] e
        end
      else
        let '(ms, e) := ada_until w n D (uniform (List.length D)) in
        ended [("alpha_list", VVec (al ++ map snd ms)%list); ("estimators", VTwoLevel (hs ++ map fst ms)%list)] e
  end.
End Fit.
