(** Specifications for C90: the order of the training rows. *)
From Coq Require Import List ZArith Reals Permutation.
From Verif.Model Require Import Base KMeans Tree.
Import ListNotations.

(** The same rows with the same labels (or clusters), in some other order. *)
Definition same_rows {A B} (x : list A) (y : list B) (x' : list A) (y' : list B) : Prop :=
  length x = length y /\ length x' = length y' /\ Permutation (combine x y) (combine x' y').

(** Two computations end alike: both with an exception, or both with results that are
    related. *)
Definition ends_related {A B} (R : A -> B -> Prop) (r : result A) (s : result B) : Prop :=
  match r, s with Ok a, Ok b => R a b | Err _, Err _ => True | _, _ => False end.

(** ** Clusterings *)
(** The same centroids and the same reason to stop; every row is in the same
    cluster. *)
Definition same_clustering (x x' : list (list R)) (a b : result (list centroid * option (list nat) * bool)) : Prop :=
  match a, b with
  | Ok (c, cl, s), Ok (c', cl', s') =>
      c' = c /\ s' = s /\
      match cl, cl' with Some l, Some l' => same_rows x l x' l' | None, None => True | _, _ => False end
  | Err e, Err e' => e = e'
  | _, _ => False
  end.

(** ** Decision trees *)
(** Trees that differ only in the order of the branches of a node, and, unless
    [with_height], in the heights recorded in the nodes. *)
Inductive same_branches (with_height : Prop) : tree -> tree -> Prop :=
| sb_leaf l : same_branches with_height (Leaf l) (Leaf l)
| sb_cont j v p n h h' g g' l l' : (with_height -> h = h') ->
    same_branches with_height g g' -> same_branches with_height l l' ->
    same_branches with_height (Cont j v p n h g l) (Cont j v p n h' g' l')
| sb_disc j v n h h' kids kids' kids'' : (with_height -> h = h') -> NoDup (map fst kids) ->
    Permutation kids kids' ->
    Forall2 (fun k k' => fst k = fst k' /\ same_branches with_height (snd k) (snd k')) kids' kids'' ->
    same_branches with_height (Disc j v n h kids) (Disc j v n h' kids'').

(** Which label is taken among equally frequent ones does not depend on the order of
    the labels. *)
Definition order_blind (top : list Z -> Z) : Prop := forall y y', Permutation y y' -> top y = top y'.

(** ** Tables given by columns *)
(** [l'] is [l] with the elements in the order of the positions [p]. *)
Definition reordered {A} (p : list nat) (l l' : list A) : Prop := map Some l' = map (nth_error l) p.
(** The same table with the same labels, the rows in some other order. *)
Definition same_table {A} (cols : list (list A)) (y : list Z) (cols' : list (list A)) (y' : list Z) : Prop :=
  exists p, Permutation p (seq 0 (length y)) /\ reordered p y y' /\
            Forall2 (fun c c' => length c = length y /\ reordered p c c') cols cols'.
(** The kind of a column does not depend on the order of its values. *)
Definition kind_of_values {A} (continuous : list A -> bool) : Prop :=
  forall l l', Permutation l l' -> continuous l = continuous l'.
