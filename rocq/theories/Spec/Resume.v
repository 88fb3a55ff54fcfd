(** Vocabulary for training that goes on after [load_weights] (C100). *)
From Coq Require Import List String Reals ZArith Bool.
From Verif.Model Require Import Base Training Store Life Fit.
Import ListNotations.
Local Open Scope string_scope.

(** The settings of an optimizer that was asked for by its name. *)
Definition default_settings (k : optimizer_kind) : optimizer_kind :=
  match k with
  | GradientDescent _ => GradientDescent (1 / 100)
  | NewtonMethod => NewtonMethod
  | Sgd _ => Sgd (1 / 100)
  | Adam _ _ _ _ => Adam (1 / 1000) (9 / 10) (999 / 1000) (1 / 10 ^ 7)
  | RbfOptimizer _ => RbfOptimizer (1 / 100)
  | Smo => Smo
  end.
(** The object [i] as if its values had been loaded from a file, with another
    optimizer. *)
Definition loaded_with {A} (i : @obj A) (k : optimizer_kind) (name : string) : @obj A :=
  {| field := fun f => if f =? "optimizer" then VOptimizer (comp k name) else field i f;
     is_trained := is_trained i; is_loaded := true |}.
