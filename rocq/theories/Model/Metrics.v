(** Model of classicML/backend/python/metrics.py and of [BaseModel.score]
    (classicML/api/models/base_model.py 43-59).  Predictions are exact reals;
    labels of the binary metric are integers. *)
From Coq Require Import List ZArith Reals Bool Arith.
From Verif.Model Require Import Base.
Import ListNotations.
Local Open Scope R_scope.

(** metrics.py 92: the condition under which one sample is counted as wrong. *)
Definition counted_wrong (p : R) (l : Z) : bool :=
  (Rltb p (/2) && Z.eqb l 1) || (Rleb (/2) p && Z.eqb l 0) || (Rleb (/2) p && Z.eqb l (-1)).

(** metrics.py 77-95 [BinaryAccuracy.__call__] on a column of predictions. [zip]
    stops at the shorter list; the division of two Python integers fails for an
    empty array. *)
Definition binary_accuracy (y_pred : list R) (y_true : list Z) : result R :=
  match y_pred with
  | [] => Err ZeroDivisionError
  | _ => Ok ((INR (length y_pred) - INR (count (fun q => counted_wrong (fst q) (snd q)) (combine y_pred y_true)))
             / INR (length y_pred))
  end.

(** [np.argmax] of a row: the first maximum. (metrics.py 119-120). *)
Definition argmax (r : list R) : result nat := argmin (fun a b => Rltb b a) r.

(** metrics.py 109-124 [CategoricalAccuracy.__call__]. [np.mean] of an empty array
    is NaN and [np.equal] of arrays of different lengths fails (numpy would
    broadcast a list of length one); both are [Err ValueError]. *)
Definition categorical_accuracy (y_pred y_true : list (list R)) : result R :=
  p <- mapM argmax y_pred ;;
  t <- mapM argmax y_true ;;
  if Nat.eqb (length p) (length t) then
    match p with
    | [] => Err ValueError
    | _ => Ok (INR (count (fun q => Nat.eqb (fst q) (snd q)) (combine p t)) / INR (length p))
    end
  else Err ValueError.

(** The label arguments that [Accuracy] accepts: an array of integers with one
    dimension, or a matrix (one-hot rows). (metrics.py 87, 120). *)
Inductive targets := Labels (l : list Z) | OneHot (m : list (list R)).

(** metrics.py 47-63 [Accuracy.__call__]; [w] is [y_pred.shape[1]]. A matrix of
    labels compared with one column of predictions is only accepted by Python when
    its rows have one entry; [np.argmax] of a number is 0. *)
Definition accuracy (w : nat) (y_pred : list (list R)) (y_true : targets) : result R :=
  if Nat.eqb w 1 then
    match y_true with
    | Labels l => binary_accuracy (map (fun r => nth 0 r 0) y_pred) l
    | OneHot _ => Err ValueError
    end
  else
    categorical_accuracy y_pred
      (match y_true with Labels l => map (fun z => [IZR z]) l | OneHot m => m end).
