(** Model of the component look-ups of classicML/backend/training.py.

    A component (kernel, loss, metric, optimizer, initializer, criterion, pruner)
    is its class with the hyper-parameters of the object, and its [name]
    attribute, which a user can choose freely when building the object. *)
From Coq Require Import List String Reals Bool.
From Verif.Model Require Import Base.
Import ListNotations.
Local Open Scope string_scope.

(** An object of kernels.py 7-151, losses.py 7-155, metrics.py 7-124, ... : its
    class with hyper-parameters, and its name. *)
Record component (K : Type) := { kind : K; cname : string }.
Arguments kind {K} _.
Arguments cname {K} _.
(** (e.g. losses.py 33). *)
Definition comp {K} (k : K) (n : string) : component K := {| kind := k; cname := n |}.

(** What a caller passes: a text, an object of the base class, None, or anything
    else. (training.py 11-203). *)
Inductive arg (K : Type) :=
| ByName (s : string)
| Instance (c : component K)
| NoArg
| OtherArg.
Arguments ByName {K} s.
Arguments Instance {K} c.
Arguments NoArg {K}.
Arguments OtherArg {K}.

(** The classes of tree/criteria.py 102-258. *)
Inductive criterion_kind := CGini | CGain | CEntropy | CWeightedGini.
(** training.py 11-33 [get_criterion]; default names: tree/criteria.py 104, 122, 176, 194. *)
Definition get_criterion (a : arg criterion_kind) : result (component criterion_kind) :=
  match a with
  | ByName s =>
      if s =? "gini" then Ok (comp CGini "gini")
      else if s =? "gain" then Ok (comp CGain "gain")
      else if s =? "entropy" then Ok (comp CEntropy "entropy")
      else if s =? "weighted_gini" then Ok (comp CWeightedGini "weighted_gini")
      else Err AttributeError
  | Instance c => Ok c
  | NoArg | OtherArg => Err AttributeError
  end.

(** The initializers carry the seed they were built with. (initializers.py 21-31,
    37-170). *)
Inductive initializer_kind (S : Type) := RandomNormal (s : S) | HeNormal (s : S) | XavierNormal (s : S) | GlorotNormal (s : S) | RBFNormal (s : S).
Arguments RandomNormal {S} s.
Arguments HeNormal {S} s.
Arguments XavierNormal {S} s.
Arguments GlorotNormal {S} s.
Arguments RBFNormal {S} s.
(** training.py 36-65 [get_initializer]; default names: initializers.py 40, 74, 110, 152.
    A missing initializer is the random one. *)
Definition get_initializer {S} (a : arg (initializer_kind S)) (seed : S) : result (component (initializer_kind S)) :=
  match a with
  | ByName s =>
      if s =? "random_normal" then Ok (comp (RandomNormal seed) "random_normal")
      else if s =? "he_normal" then Ok (comp (HeNormal seed) "he_normal")
      else if (s =? "xavier_normal") || (s =? "glorot_normal") then Ok (comp (XavierNormal seed) "xavier_normal")
      else if s =? "rbf_normal" then Ok (comp (RBFNormal seed) "rbf_normal")
      else Err AttributeError
  | Instance c => Ok c
  | NoArg => Ok (comp (RandomNormal seed) "random_normal")
  | OtherArg => Err AttributeError
  end.

(** Kernels with their hyper-parameters; [gamma] is [None] when it is not a number
    (a text such as 'auto'). (kernels.py 7-151). *)
Inductive kernel_kind :=
| KLinear
| KPoly (gamma : option R) (degree : nat)
| KRbf (gamma : option R)
| KGaussian (gamma : option R)
| KSigmoid (gamma : option R) (beta theta : R).
(** training.py 68-97 [get_kernel]; default names and hyper-parameters:
    kernels.py 32, 61, 91, 115, 132. *)
Definition get_kernel (a : arg kernel_kind) (gamma : option R) : result (component kernel_kind) :=
  match a with
  | ByName s =>
      if s =? "linear" then Ok (comp KLinear "linear")
      else if s =? "rbf" then Ok (comp (KRbf gamma) "rbf")
      else if s =? "gaussian" then Ok (comp (KGaussian gamma) "gaussian")
      else if s =? "poly" then Ok (comp (KPoly gamma 3) "poly")
      else if s =? "sigmoid" then Ok (comp (KSigmoid gamma 1 (-1)) "sigmoid")
      else Err AttributeError
  | Instance c => Ok c
  | NoArg | OtherArg => Err AttributeError
  end.

(** The classes of losses.py 30-155. *)
Inductive loss_kind := Mse | LogLikelihood | BinaryCrossentropy | CategoricalCrossentropy | Crossentropy.
(** training.py 100-125 [get_loss]; default names: losses.py 33, 58, 84, 109, 135.
    Everything unknown is the cross entropy. *)
Definition get_loss (a : arg loss_kind) : component loss_kind :=
  match a with
  | ByName s =>
      if (s =? "mse") || (s =? "mean_squared_error") then comp Mse "mean_squared_error"
      else if s =? "log_likelihood" then comp LogLikelihood "log_likelihood"
      else if s =? "binary_crossentropy" then comp BinaryCrossentropy "binary_crossentropy"
      else if s =? "categorical_crossentropy" then comp CategoricalCrossentropy "categorical_crossentropy"
      else if s =? "crossentropy" then comp Crossentropy "crossentropy"
      else comp Crossentropy "crossentropy"
  | Instance c => c
  | NoArg | OtherArg => comp Crossentropy "crossentropy"
  end.

(** The classes of metrics.py 35-124. *)
Inductive metric_kind := BinaryAccuracy | CategoricalAccuracy | Accuracy.
(** training.py 128-149 [get_metric]; default names: metrics.py 44, 74, 106.  An
    unknown text falls through all branches, so the function returns None. *)
Definition get_metric (a : arg metric_kind) : result (option (component metric_kind)) :=
  match a with
  | ByName s =>
      if s =? "binary_accuracy" then Ok (Some (comp BinaryAccuracy "binary_accuracy"))
      else if s =? "categorical_accuracy" then Ok (Some (comp CategoricalAccuracy "categorical_accuracy"))
      else if s =? "accuracy" then Ok (Some (comp Accuracy "accuracy"))
      else Ok None
  | Instance c => Ok (Some c)
  | NoArg | OtherArg => Err AttributeError
  end.

(** The classes of optimizers.py 123-1113 with their hyper-parameters. *)
Inductive optimizer_kind :=
| GradientDescent (rate : R)
| NewtonMethod
| Sgd (rate : R)
| Adam (rate beta_1 beta_2 epsilon : R)
| RbfOptimizer (rate : R)
| Smo.
(** training.py 152-182 [get_optimizer]; default names and hyper-parameters:
    optimizers.py 131, 346-351, 497, 609, 740, 898. *)
Definition get_optimizer (a : arg optimizer_kind) : result (component optimizer_kind) :=
  match a with
  | ByName s =>
      if (s =? "gd") || (s =? "gradient_descent") then Ok (comp (GradientDescent (1 / 100)) "gradient_descent")
      else if (s =? "newton") || (s =? "newton_method") then Ok (comp NewtonMethod "newton_method")
      else if (s =? "sgd") || (s =? "stochastic_gradient_descent") then Ok (comp (Sgd (1 / 100)) "stochastic_gradient_descent")
      else if s =? "adam" then Ok (comp (Adam (1 / 1000) (9 / 10) (999 / 1000) (1 / 10 ^ 7)) "adam")
      else if s =? "rbf" then Ok (comp (RbfOptimizer (1 / 100)) "rbf")
      else if s =? "SMO" then Ok (comp Smo "SMO")
      else Err AttributeError
  | Instance c => Ok c
  | NoArg | OtherArg => Err AttributeError
  end.

(** The classes of tree/pruners.py 35-288. *)
Inductive pruner_kind := PostPruner | PrePruner.
(** training.py 185-203 [get_pruner]; default names: tree/pruners.py 38, 164.  An
    object of class Pruner is not accepted. *)
Definition get_pruner (a : arg pruner_kind) : result (option (component pruner_kind)) :=
  match a with
  | ByName s =>
      if s =? "post" then Ok (Some (comp PostPruner "post"))
      else if s =? "pre" then Ok (Some (comp PrePruner "pre"))
      else Err AttributeError
  | NoArg => Ok None
  | Instance _ | OtherArg => Err AttributeError
  end.
