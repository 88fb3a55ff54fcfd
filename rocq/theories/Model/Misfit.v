(** Optimizers that are given the parameters of a model of another family
    (classicML/backend/python/optimizers.py).  [compile] accepts any optimizer for any
    model (training.py 152-182), so that the first computation that does not fit fails. *)
From Coq Require Import List Reals Bool Arith.
From Verif.Model Require Import Base Training.
Import ListNotations.

(** The parameters: the array of a logistic regression (initializers.py 52), whose
    length is [len], or the dictionary of one of the two kinds of networks (56-64, 165-168). *)
Inductive parameters_held := HeldArray (len : nat) | HeldDict.
(** A subscript with a string: on an array IndexError, on a dictionary without this key
    KeyError (optimizers.py 233-234, 245-246, 826). *)
Definition string_subscript (p : parameters_held) : err := match p with HeldArray _ => IndexError | HeldDict => KeyError end.
(** [forward] of an optimizer that is not meant for the parameters: [reshape] of a
    dictionary (optimizers.py 578, 693) and the missing method of
    [SequentialMinimalOptimization] (869-1113) are AttributeErrors; the other classes
    subscript first (226-246, 826). *)
Definition misfit_forward (f : optimizer_kind) (p : parameters_held) : err :=
  match f with
  | GradientDescent _ | NewtonMethod | Smo => AttributeError
  | Sgd _ | Adam _ _ _ _ | RbfOptimizer _ => string_subscript p
  end.
(** [run] of such an optimizer with [rows] samples; [None]: it returns the parameters as
    they are.  SMO takes the loss for the number of rounds and compares a number with it
    (optimizers.py 931, 946); Adam makes its moments before the first epoch (395,
    479-489); StochasticGradientDescent and Adam draw a row first (171, 404: ValueError
    without rows); without epochs the others do nothing (168, 530, 640, 776). *)
Definition misfit_run (f : optimizer_kind) (p : parameters_held) (rows epochs : nat) : option err :=
  let drawing := if (epochs =? 0)%nat then None else if (rows =? 0)%nat then Some ValueError else Some (string_subscript p) in
  match f with
  | Smo => Some TypeError
  | Sgd _ => drawing
  | Adam _ _ _ _ =>
      match p with
      | HeldArray len => if (2 <=? len)%nat then Some IndexError else drawing
      | HeldDict => Some KeyError
      end
  | GradientDescent _ | NewtonMethod | RbfOptimizer _ => if (epochs =? 0)%nat then None else Some (misfit_forward f p)
  end.
