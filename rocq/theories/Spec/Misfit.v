(** Vocabulary for C117: which optimizers are meant for which models, and the exceptions
    with the others. *)
From Verif.Model Require Import Base Training.

Definition for_regression (f : optimizer_kind) : Prop := match f with GradientDescent _ | NewtonMethod => True | _ => False end.
Definition for_network (f : optimizer_kind) : Prop := match f with Sgd _ | Adam _ _ _ _ => True | _ => False end.
Definition for_radial (f : optimizer_kind) : Prop := match f with RbfOptimizer _ => True | _ => False end.

(** With an array of parameters, as in a logistic regression; [predicting] or training. *)
Definition array_error (predicting : bool) (f : optimizer_kind) : err :=
  match f with Smo => if predicting then AttributeError else TypeError | _ => IndexError end.
(** With a dictionary of parameters, as in the networks. *)
Definition dict_error (predicting : bool) (f : optimizer_kind) : err :=
  match f with
  | Smo => if predicting then AttributeError else TypeError
  | GradientDescent _ | NewtonMethod => AttributeError
  | _ => KeyError
  end.
