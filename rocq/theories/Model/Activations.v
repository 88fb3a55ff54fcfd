(** Model of classicML/backend/python/activations.py and losses.py.  Floats are
    exact reals, so overflow of [np.exp] is not modelled. *)
From Coq Require Import List Reals Bool.
From Verif.Model Require Import Base.
Import ListNotations.
Local Open Scope R_scope.

(** A function applied to every element of a matrix, as numpy does (activations.py
    54, 90). *)
Definition mmap (f : R -> R) (m : list (list R)) : list (list R) := map (map f) m.
(** Element-wise combination of two rows (activations.py 56-71, 92-113, 135-147). *)
Definition zip2 (f : R -> R -> R) (a b : list R) : list R := map (fun p => f (fst p) (snd p)) (combine a b).
(** Element-wise combination of two matrices (activations.py 56-71, 92-113,
    135-147). *)
Definition mzip (f : R -> R -> R) (a b : list (list R)) : list (list R) := map (fun p => zip2 f (fst p) (snd p)) (combine a b).

(** activations.py 44-54 [Relu.__call__], one element. *)
Definition relu (z : R) : R := Rmax 0 z.
(** activations.py 56-71 [Relu.diff], one element. The code writes into [output]. *)
Definition relu_diff (output a : R) : R := if Rleb a 0 then 0 else output.
(** activations.py 80-90 [Sigmoid.__call__], one element. *)
Definition sigmoid (z : R) : R := 1 / (1 + exp (- z)).
(** activations.py 92-113 [Sigmoid.diff], one element. *)
Definition sigmoid_diff (y_true output a : R) : R := a * (1 - a) * (y_true - output).

(** [np.max] of a matrix; an empty array is a ValueError. (activations.py 130). *)
Definition matrix_max (z : list (list R)) : result R :=
  match List.concat z with [] => Err ValueError | v :: vs => Ok (fold_left Rmax vs v) end.
(** activations.py 122-133 [Softmax.__call__]: the maximum of the whole matrix is
    subtracted. The code also changes its argument. *)
Definition softmax (z : list (list R)) : result (list (list R)) :=
  c <- matrix_max z ;;
  Ok (map (fun row => map (fun v => exp (v - c) / rsum (map (fun v => exp (v - c)) row)) row) z).
(** activations.py 135-147 [Softmax.diff], one element. *)
Definition softmax_diff (output a : R) : R := a - output.

(** losses.py 36-52 [BinaryCrossentropy]: predictions (n, 1), labels (n) or
    (n, 1).  Outside (0, 1) the logarithms are not finite. *)
Definition binary_crossentropy (y_pred y_true : list R) : result R :=
  if negb (length y_pred =? length y_true)%nat then Err ValueError else
  if existsb (fun p => Rleb p 0 || Rleb 1 p) y_pred then Err NotANumber else
  match y_true with
  | [] => Err NotANumber
  | _ => Ok (- (dot y_true (map ln y_pred) + dot (map (fun y => 1 - y) y_true) (map (fun p => ln (1 - p)) y_pred))
             / INR (length y_true))
  end.

(** losses.py 61-77 [CategoricalCrossentropy]: predictions and labels (n, c). *)
Definition categorical_crossentropy (y_pred y_true : list (list R)) : result R :=
  if existsb (existsb (fun p => Rleb p 0)) y_pred then Err NotANumber else
  match y_true with
  | [] => Err NotANumber
  | _ => Ok (- rsum (List.concat (mzip (fun y p => y * ln p) y_true y_pred)) / INR (length y_true))
  end.

(** losses.py 87-103 [Crossentropy]: the number of prediction columns decides.
    [c] is that number. *)
Definition crossentropy (c : nat) (y_pred y_true : list (list R)) : result R :=
  if (c =? 1)%nat then binary_crossentropy (map (fun r => nth 0 r 0) y_pred) (map (fun r => nth 0 r 0) y_true)
  else categorical_crossentropy y_pred y_true.

(** losses.py 112-129 [LogLikelihood]; [x_hat] are the rows with the constant 1
    appended. *)
Definition log_likelihood (y_true beta : list R) (x_hat : list (list R)) : R :=
  rsum (map (fun p => - fst p * dot (snd p) beta + ln (1 + exp (dot (snd p) beta))) (combine y_true x_hat)).

(** losses.py 138-151 [MeanSquaredError], equal shapes, all elements in one
    list; [n] is the number of rows. *)
Definition mean_squared_error (n : nat) (y_pred y_true : list R) : result R :=
  if (n =? 0)%nat then Err NotANumber
  else Ok (rsum (zip2 Rminus y_pred y_true) ^ 2 / (2 * INR n)).
