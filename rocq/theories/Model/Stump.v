(** Model of the decision stump and the two-level tree:
    classicML/backend/python/tree/generators.py 117-265,
    criteria.py 192-258 [WeightedGini] and
    classicML/api/models/tree/decision_tree_classifier.py 14-63, 311-377.
    Floats are exact reals; a sample is a row of features, a label and (for the
    two-level tree) a weight. *)
From Coq Require Import List ZArith Reals Bool Arith.
From Verif.Model Require Import Base Metrics.
Import ListNotations.
Local Open Scope R_scope.

(** [x[:, j]] of one row; rows have the width of the table. (generators.py 256-259,
    criteria.py 226). *)
Definition feat (j : nat) (r : list R) : R := nth j r 0.

(** [np.sort] (generators.py 225) and [np.lexsort] with one key (criteria.py 230):
    insertion before larger or equal keys from the right, so the order of equal keys
    is kept. *)
Fixpoint insert_by {A} (key : A -> R) (x : A) (l : list A) : list A :=
  match l with
  | [] => [x]
  | y :: t => if Rleb (key x) (key y) then x :: l else y :: insert_by key x t
  end.
(** The sort itself (generators.py 225, criteria.py 230-231). *)
Definition sort_by {A} (key : A -> R) (l : list A) : list A := fold_right (insert_by key) [] l.

(** generators.py 225-228, criteria.py 239-241: midpoints of all neighbours in
    sorted order, including equal neighbours. *)
Definition neighbour_midpoints (l : list R) : list R :=
  let s := sort_by (fun x => x) l in map (fun p => (fst p + snd p) / 2) (combine s (tl s)).

(** ** Decision stump *)
(** The two values of [division_mode], generators.py 16-30. *)
Inductive division_mode := Gte | Le.
(** generators.py 16-30 [_DecisionStump]; [None] is the initial state. *)
Definition stump := option (nat * R * division_mode).

(** generators.py 256-260 and decision_tree_classifier.py 56-61, one row. *)
Definition stump_label (j : nat) (t : R) (m : division_mode) (r : list R) : Z :=
  match m with
  | Gte => if Rleb t (feat j r) then (-1)%Z else 1%Z
  | Le => if Rltb (feat j r) t then (-1)%Z else 1%Z
  end.

(** generators.py 242-265 [evaluate]: one minus [BinaryAccuracy] of the labels -1/1;
    only called with at least one row. *)
Definition evaluate (D : list (list R * Z)) (j : nat) (t : R) (m : division_mode) : R :=
  match binary_accuracy (map (fun p => IZR (stump_label j t m (fst p))) D) (map snd D) with
  | Ok a => 1 - a
  | Err _ => 0
  end.

(** generators.py 223-231: the candidates in the order of the loops; [w] is
    [D.shape[1]]. *)
Definition candidates (w : nat) (D : list (list R * Z)) : list (nat * R * division_mode) :=
  flat_map (fun j =>
    flat_map (fun m => map (fun t => (j, t, m)) (neighbour_midpoints (map (fun p => feat j (fst p)) D)))
             [Gte; Le]) (seq 0 w).

(** generators.py 209-240 [tree_generate]: strict improvement, first candidate wins;
    the initial error is infinite. *)
Definition stump_fit (w : nat) (D : list (list R * Z)) : stump :=
  match fold_left (fun best c =>
    let e := match c with (j, t, m) => evaluate D j t m end in
    match best with
    | None => Some (e, c)
    | Some (e0, _) => if Rltb e e0 then Some (e, c) else best
    end) (candidates w D) None with
  | None => None
  | Some (_, c) => Some c
  end.

(** decision_tree_classifier.py 47-63 [predict]: in the initial state the
    comparison with [None] is a TypeError. *)
Definition stump_predict (s : stump) (x : list (list R)) : result (list Z) :=
  match s with
  | None => Err TypeError
  | Some (j, t, m) => Ok (map (stump_label j t m) x)
  end.

(** ** Two-level tree *)
(** One row of the arrays [D], [y] and [sample_distribution] of generators.py
    123-167. *)
Definition sample := (list R * Z * R)%type.
(** Its features (generators.py 123-167). *)
Definition s_row (s : sample) : list R := fst (fst s).
(** Its label (generators.py 123-167). *)
Definition s_lab (s : sample) : Z := snd (fst s).
(** Its weight (generators.py 123-167). *)
Definition s_w (s : sample) : R := snd s.
(** [np.sum(sample_distribution)] (criteria.py 206, 235, generators.py 141-152). *)
Definition weight (D : list sample) : R := rsum (map s_w D).

(** criteria.py 197-214 [WeightedGini.__call__]. A division of a non-empty array by
    a total weight of zero gives NaN ([None]); without rows the sum is empty and the
    value is 1. *)
Definition weighted_gini (D : list sample) : option R :=
  match D with
  | [] => Some 1
  | _ => if Reqb (weight D) 0 then None
         else Some (1 - rsum (map (fun l => (weight (filter (fun s => Z.eqb (s_lab s) l) D) / weight D) ^ 2)
                                (nodup Z.eq_dec (map s_lab D))))
  end.

(** criteria.py 245, 247: the rows at or above the threshold. *)
Definition up (j : nat) (t : R) (D : list sample) := filter (fun s => Rleb t (feat j (s_row s))) D.
(** criteria.py 246, 248: the rows below the threshold. *)
Definition low (j : nat) (t : R) (D : list sample) := filter (fun s => Rltb (feat j (s_row s)) t) D.

(** criteria.py 244-252: the value of one threshold; NaN propagates. *)
Definition threshold_value (j : nat) (D : list sample) (t : R) : option R :=
  match weighted_gini (up j t D), weighted_gini (low j t D) with
  | Some a, Some b => if Reqb (weight D) 0 then None
                      else Some ((weight (up j t D) * a + weight (low j t D) * b) / weight D)
  | _, _ => None
  end.

(** criteria.py 216-258 [WeightedGini.get_value]: [inf > NaN] is false, so NaN never
    wins; [None] is [[inf, None]]. *)
Definition gini_get_value (j : nat) (D : list sample) : option (R * R) :=
  let D := sort_by (fun s => feat j (s_row s)) D in
  fold_left (fun best t =>
    match threshold_value j D t with
    | None => best
    | Some v => match best with
                | None => Some (v, t)
                | Some (v0, _) => if Rltb v v0 then Some (v, t) else best
                end
    end) (neighbour_midpoints (map (fun s => feat j (s_row s)) D)) None.

(** generators.py 169-192 [choose_feature_to_divide]; [None] is [(-1, None)]. *)
Definition choose_feature (w : nat) (D : list sample) : option (nat * R) :=
  match fold_left (fun best j =>
    match gini_get_value j D with
    | None => best
    | Some (v, t) => match best with
                     | None => Some (v, (j, t))
                     | Some (v0, _) => if Rltb v v0 then Some (v, (j, t)) else best
                     end
    end) (seq 0 w) None with
  | None => None
  | Some (_, r) => Some r
  end.

(** The trees of generators.py 123-167: [subtree] has the keys 'upper_tree' and
    'lower_tree'. *)
Inductive tltree := TLeaf (l : Z) | TNode (j : nat) (t : R) (upper lower : tltree).

(** generators.py 141-152. *)
Definition leaf_label (D : list sample) : Z :=
  if Rltb (weight (filter (fun s => Z.eqb (s_lab s) (-1)) D)) (weight (filter (fun s => Z.eqb (s_lab s) 1) D))
  then 1%Z else (-1)%Z.

(** generators.py 123-167 [tree_generate]; [levels] is [2 - height].  Without a
    candidate the comparison with [None] is a TypeError, and with no columns the
    index -1 is an IndexError. *)
Fixpoint tl_generate (levels : nat) (w : nat) (D : list sample) : result tltree :=
  match levels with
  | O => Ok (TLeaf (leaf_label D))
  | S levels' =>
      if (length D <=? 2)%nat then Ok (TLeaf (leaf_label D)) else
      match choose_feature w D with
      | None => Err (if (w =? 0)%nat then IndexError else TypeError)
      | Some (j, t) =>
          u <- tl_generate levels' w (up j t D) ;;
          l <- tl_generate levels' w (low j t D) ;;
          Ok (TNode j t u l)
      end
  end.

(** decision_tree_classifier.py 326-347 [fit]. *)
Definition tl_fit (w : nat) (D : list sample) : result tltree := tl_generate 2 w D.

(** decision_tree_classifier.py 364-377 [_predict]. *)
Fixpoint tl_predict (t : tltree) (r : list R) : Z :=
  match t with
  | TLeaf l => l
  | TNode j p u l => if Rleb p (feat j r) then tl_predict u r else tl_predict l r
  end.
