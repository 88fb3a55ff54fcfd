(** Vocabulary for the weight files (C54-C58). *)
From Coq Require Import List String Reals ZArith Bool.
From Verif.Model Require Import Base Rbf Training Store Life.
Import ListNotations.
Local Open Scope string_scope.

(** Release numbers as sequences that go on with zeros: the first difference
    decides. *)
Definition release_before (a b : list nat) : Prop :=
  exists p, (nth p a 0 < nth p b 0)%nat /\ forall q, (q < p)%nat -> nth q a 0%nat = nth q b 0%nat.
Definition same_release (a b : list nat) : Prop := forall q, nth q a 0%nat = nth q b 0%nat.
(** [v] is an earlier version than the release [m]. *)
Definition earlier (v : version) (m : list nat) : Prop :=
  release_before (release v) m \/ (same_release (release v) m /\ (stage v < 0)%Z).

Section Spec.
Context {A : Type}.

(** The file says: written by library version [v] and file format [w] for the
    model class [n]. *)
Definition says (f : @file A) (v w : version) (n : string) : Prop :=
  exists d, description f = Some d /\ lookup d "cml_version" = Some (VVersion v) /\
            lookup d "io_version" = Some (VVersion w) /\ lookup d "model_name" = Some (VText n).
(** A file that [load_weights] of the class called [n] should look into. *)
Definition acceptable (n : string) (f : @file A) : Prop :=
  exists v w, says f v w n /\ ~ earlier v [0; 5]%nat /\ ~ release_before (release w) [0; 7]%nat.

(** Everything found in the first file is found, with the same value, in the
    second. *)
Definition part_of_file (f g : @file A) : Prop :=
  (forall a k v, description f = Some a -> lookup a k = Some v -> exists b, description g = Some b /\ lookup b k = Some v) /\
  (forall p a k v, part_of f p = Some a -> lookup a k = Some v -> exists b, part_of g p = Some b /\ lookup b k = Some v).

(** The name that the look-up by name gives to an optimizer of this class. *)
Definition usual_optimizer_name (k : optimizer_kind) : string :=
  match k with
  | GradientDescent _ => "gradient_descent" | NewtonMethod => "newton_method" | Sgd _ => "stochastic_gradient_descent"
  | Adam _ _ _ _ => "adam" | RbfOptimizer _ => "rbf" | Smo => "SMO"
  end.
(** The kernels that can be named: built from name and gamma alone. *)
Definition usual_kernel (g : option R) (c : component kernel_kind) : Prop :=
  In c [comp KLinear "linear"; comp (KRbf g) "rbf"; comp (KGaussian g) "gaussian"; comp (KPoly g 3) "poly";
        comp (KSigmoid g 1 (-1)) "sigmoid"].
(** A trained or loaded object. *)
Definition ready (i : @obj A) : Prop := is_trained i = true \/ is_loaded i = true.

(** A condition on the outcome of [predict], for every class and every input. *)
Definition every_predict (P : forall B, outcome B -> Prop) (i : @obj A) : Prop :=
  (forall x, P _ (predict_logistic i x)) /\
  (forall r, P _ (predict_lda i r)) /\
  (forall O num_of rnd q, P _ (predict_naive_bayes O num_of rnd i q)) /\
  (forall O num_of rnd q, P _ (predict_super_parent O num_of rnd i q)) /\
  (forall O num_of rnd q, P _ (predict_averaged O num_of rnd i q)) /\
  (forall x, P _ (predict_tree i x)) /\
  (forall x, P _ (predict_svc i x)) /\
  (forall x, P _ (predict_kmeans i x)) /\
  (forall rnd d x, P _ (predict_mixture rnd d i x)) /\
  (forall x, P _ (predict_bagging i x)) /\
  (forall r, P _ (predict_adaboost i r)) /\
  (forall x, P _ (predict_network i x)) /\
  (forall x, P _ (predict_rbf i x)).
Definition all_refuse : @obj A -> Prop := every_predict (fun _ o => o = NotTrained).
Definition all_answer : @obj A -> Prop := every_predict (fun _ o => o <> NotTrained).

(** The calls of a history with the exception each of them raised. *)
Fixpoint transcript (c : @cls A) (s : @obj A * @disk A) (ks : list (@call A)) : list (@call A * option err) :=
  match ks with
  | [] => []
  | k :: t => (k, snd (perform c s k)) :: transcript c (fst (perform c s k)) t
  end.
(** Some [fit] or [load_weights] of the history returned normally. *)
Definition some_success (l : list (@call A * option err)) : Prop :=
  exists k, In (k, None) l /\ ((exists e, k = FitCall e) \/ (exists p, k = LoadCall p)).
(** Every [fit] of the history is one that the class can do. *)
Definition fits_possible (c : @cls A) (ks : list (@call A)) : Prop :=
  forall e, In (FitCall e) ks -> fit_possible c e.
End Spec.

(** The dictionary of a layered network with the layers [ls], numbered from [k]:
    w1, b1, w2, b2, ... *)
Fixpoint network_from {A} (k : nat) (ls : list (list (list R) * list R)) : @attrs A :=
  match ls with
  | [] => []
  | l :: t => (layer_key "w" k, VMat (fst l)) :: (layer_key "b" k, VVec (snd l)) :: network_from (S k) t
  end.
Definition network_dict {A} (ls : list (list (list R) * list R)) : @attrs A := network_from 1 ls.
(** The dictionary of a radial basis function network (initializers.py 165-170). *)
Definition rbf_dict {A} (p : Rbf.rbf_params) : @attrs A :=
  [("w", VVec (Rbf.rw p)); ("b", VNum (Rbf.rb p)); ("c", VMat (Rbf.rc p)); ("beta", VVec (Rbf.rbeta p))].

(** Small trained objects, for the examples. *)
Definition trained {A} (l : @attrs A) : @obj A :=
  {| field := fun k => match lookup l k with Some v => v | None => VNone end; is_trained := true; is_loaded := false |}.
Definition trained_svc A (c : component kernel_kind) (g b : R) : @obj A :=
  trained [("C", VNum 1); ("gamma", VNum g); ("kernel", VKernel c); ("tol", VNum (1 / 1000)); ("support", VNats [0%nat]);
           ("support_vector", VMat [[1]]%R); ("support_alpha", VVec [1]%R); ("support_y", VVec [1]%R); ("b", VNum b)].
Definition trained_kmeans A : @obj A :=
  trained [("init", VText "random"); ("tol", VNum (1 / 1000)); ("centroids", VCentroids [Some [0]; Some [5]]%R);
           ("clusters", VNats [0; 0; 1]%nat)].
Definition trained_network A (ls : list (list (list R) * list R)) : @obj A :=
  trained [("network_structure", VNats [1; 1]%nat); ("optimizer", VOptimizer (comp (Sgd (1 / 100)) "stochastic_gradient_descent"));
           ("loss", VLoss (comp Crossentropy "crossentropy")); ("metric", VMetric (comp Accuracy "accuracy"));
           ("parameters", VDict (network_dict ls))].
