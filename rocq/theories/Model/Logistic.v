(** Model of logistic regression: classicML/api/models/linear_model/logistic_regression.py
    70-120 and the GradientDescent and NewtonMethod optimizers,
    classicML/backend/python/optimizers.py 494-734.  The labels are integers;
    only the numbers computed are modelled, not the progress display. *)
From Coq Require Import List ZArith Reals Bool.
From Verif.Model Require Import Base Activations Matrix.
Import ListNotations.
Local Open Scope R_scope.

(** optimizers.py 580, 695: [np.c_[x, 1]], one row. *)
Definition with_one (r : list R) : list R := r ++ [1].

(** optimizers.py 566-584 and 681-699 [forward], one row. *)
Definition forward_row (beta : list R) (r : list R) : R := sigmoid (dot (with_one r) beta).
(** The same for all rows (optimizers.py 580-582, 695-697). *)
Definition forward (x : list (list R)) (beta : list R) : list R := map (forward_row beta) x.

(** optimizers.py 586-603 and 701-718 [backward]; [d] is the number of columns of
    [x_hat]. *)
Definition backward (d : nat) (y_pred y_true : list R) (x_hat : list (list R)) : list R :=
  map (fun j => rsum (map (fun p => - nth j (snd p) 0 * (snd (fst p) - fst (fst p)))
                          (combine (combine y_pred y_true) x_hat))) (seq 0 d).

(** optimizers.py 720-734 [_get_hessian_matrix]: x_hat.T diag(p (1 - p)) x_hat. *)
Definition hessian (d : nat) (y_pred : list R) (x_hat : list (list R)) : list (list R) :=
  map (fun j => map (fun k =>
    rsum (map (fun p => nth j (snd p) 0 * (fst p * (1 - fst p)) * nth k (snd p) 0) (combine y_pred x_hat)))
    (seq 0 d)) (seq 0 d).

(** The gradient and the Hessian at [beta]; [d] is the number of features.
    (optimizers.py 533-535, 643-645). *)
Definition gradient_at (d : nat) (x : list (list R)) (y : list Z) (beta : list R) : list R :=
  backward (S d) (forward x beta) (map IZR y) (map with_one x).
(** optimizers.py 643, 647. *)
Definition hessian_at (d : nat) (x : list (list R)) (beta : list R) : list (list R) :=
  hessian (S d) (forward x beta) (map with_one x).

(** optimizers.py 533-537, 555-564: one step of gradient descent. *)
Definition gd_step (rate : R) (d : nat) (x : list (list R)) (y : list Z) (beta : list R) : list R :=
  vsub beta (vscale rate (gradient_at d x y beta)).
(** optimizers.py 643-649, 667-679: one Newton step; a singular Hessian is a
    LinAlgError. *)
Definition newton_step (d : nat) (x : list (list R)) (y : list Z) (beta : list R) : result (list R) :=
  inv <- inverse (S d) (hessian_at d x beta) ;;
  Ok (vsub beta (map (fun r => dot r (gradient_at d x y beta)) inv)).

(** The two optimizers of optimizers.py 494-506 and 606-615. *)
Inductive optimizer := GradientDescent (rate : R) | NewtonMethod.
(** The update of one epoch (optimizers.py 533-537, 643-649). *)
Definition opt_step (o : optimizer) d x y beta : result (list R) :=
  match o with GradientDescent rate => Ok (gd_step rate d x y beta) | NewtonMethod => newton_step d x y beta end.
(** The training loops, optimizers.py 530-553 and 640-665; the reporting (539-551,
    651-663) is modelled in Callbacks.v. *)
Fixpoint opt_run (o : optimizer) (epochs : nat) d x y beta : result (list R) :=
  match epochs with O => Ok beta | S k => b <- opt_step o d x y beta ;; opt_run o k d x y b end.

(** logistic_regression.py 50-52: the fields of the model that [fit] and [predict]
    use. *)
Record logistic := { lr_beta : option (list R); lr_loaded : bool; lr_trained : bool }.
(** logistic_regression.py 70-98 [fit]: unless weights were loaded the parameters
    are drawn anew ([init]). *)
Definition lr_fit (o : optimizer) (init : list R) (epochs d : nat) (x : list (list R)) (y : list Z) (m : logistic) : result logistic :=
  start <- (if lr_loaded m then match lr_beta m with Some b => Ok b | None => Err AttributeError end else Ok init) ;;
  b <- opt_run o epochs d x y start ;;
  Ok {| lr_beta := Some b; lr_loaded := lr_loaded m; lr_trained := true |}.
(** logistic_regression.py 100-120 [predict]. Simplification: the result is always a
    list; [np.squeeze] (118) turns the prediction of a single row into a scalar. *)
Definition lr_predict (x : list (list R)) (m : logistic) : result (list R) :=
  if negb (lr_trained m) && negb (lr_loaded m) then Err ValueError
  else match lr_beta m with Some b => Ok (forward x b) | None => Err AttributeError end.
