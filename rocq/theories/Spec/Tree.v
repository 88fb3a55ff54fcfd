(** Specifications for C17-C22 and C65. *)
From Coq Require Import List ZArith Reals Arith Lia.
From Verif.Model Require Import Base Tree.
Import ListNotations.
Local Open Scope R_scope.
Local Notation length := List.length.

(** ** Splits *)
(** Average impurity of the parts of a split, weighted by size. *)
Definition weighted_impurity (imp : list Z -> R) (parts : list (list Z)) : R :=
  fold_right Rplus 0 (map (fun p => INR (length p) * imp p) parts) /
  fold_right Rplus 0 (map (fun p => INR (length p)) parts).

(** [labels_where P D part]: the labels of the rows that satisfy [P], in order. *)
Inductive labels_where {A} (P : A -> Prop) : list (A * Z) -> list Z -> Prop :=
| lw_nil : labels_where P [] []
| lw_in a l D part : P a -> labels_where P D part -> labels_where P ((a, l) :: D) (l :: part)
| lw_out a l D part : ~ P a -> labels_where P D part -> labels_where P ((a, l) :: D) part.

(** An attribute counts as continuous when its whole column is numeric and some
    row at the node has a fractional value. *)
Definition continuous_at (X : list row) (D : list (row * Z)) (j : nat) : Prop :=
  (forall r, In r X -> exists x, cell_at j r = Num x) /\
  (exists p x, In p D /\ cell_at j (fst p) = Num x /\ forall z : Z, x <> IZR z).

(** The ways to split [D] on attribute [j]: by value, or at a threshold that
    leaves both sides non-empty. *)
Inductive split_on (X : list row) (D : list (row * Z)) (j : nat) : option R -> list (list Z) -> Prop :=
| split_by_value vals parts :
    ~ continuous_at X D j -> NoDup vals ->
    (forall v, In v vals <-> exists p, In p D /\ cell_at j (fst p) = v) ->
    Forall2 (fun v part => labels_where (fun r => cell_at j r = v) D part) vals parts ->
    split_on X D j None parts
| split_at t up down :
    continuous_at X D j ->
    labels_where (fun r => t <= num_of (cell_at j r)) D up ->
    labels_where (fun r => num_of (cell_at j r) < t) D down ->
    up <> [] -> down <> [] -> split_on X D j (Some t) [up; down].

(** ** Trees *)
Fixpoint leaf_count (t : tree) : nat :=
  match t with
  | Leaf _ => 1
  | Cont _ _ _ _ _ g l => leaf_count g + leaf_count l
  | Disc _ _ _ _ kids => list_sum (map (fun k => leaf_count (snd k)) kids)
  end.

(** Number of splits on the longest path. *)
Fixpoint depth (t : tree) : nat :=
  match t with
  | Leaf _ => 0
  | Cont _ _ _ _ _ g l => S (Nat.max (depth g) (depth l))
  | Disc _ _ _ _ kids => S (list_max (map (fun k => depth (snd k)) kids))
  end.

(** [subtree s t]: [s] is [t] or below it. *)
Inductive subtree : tree -> tree -> Prop :=
| sub_refl t : subtree t t
| sub_ge s j v p n h g l : subtree s g -> subtree s (Cont j v p n h g l)
| sub_lt s j v p n h g l : subtree s l -> subtree s (Cont j v p n h g l)
| sub_kid s j v n h kids a k : In (a, k) kids -> subtree s k -> subtree s (Disc j v n h kids).

Definition is_cont (t : tree) : Prop := match t with Cont _ _ _ _ _ _ _ => True | _ => False end.

(** Trees that differ at most in the recorded purity. *)
Inductive same_shape : tree -> tree -> Prop :=
| same_leaf l : same_shape (Leaf l) (Leaf l)
| same_cont j v v' p n h g g' l l' : same_shape g g' -> same_shape l l' ->
    same_shape (Cont j v p n h g l) (Cont j v' p n h g' l')
| same_disc j v v' n h kids kids' :
    Forall2 (fun k k' => fst k = fst k' /\ same_shape (snd k) (snd k')) kids kids' ->
    same_shape (Disc j v n h kids) (Disc j v' n h kids').

(** ** Data *)
(** Equal rows have equal labels. *)
Definition consistent (D : list (row * Z)) : Prop :=
  forall r l l', In (r, l) D -> In (r, l') D -> l = l'.

Definition rectangular (w : nat) (D : list (row * Z)) : Prop :=
  forall r l, In (r, l) D -> length r = w.

(** Rounding a midpoint keeps the two values on different sides of it. *)
Definition keeps_sides (rnd : R -> R) (D : list (row * Z)) : Prop :=
  forall j r1 l1 r2 l2 a b, In (r1, l1) D -> In (r2, l2) D ->
    cell_at j r1 = Num a -> cell_at j r2 = Num b -> a < b -> a < rnd ((a + b) / 2) <= b.

(** A most frequent element. *)
Definition picks_most_common (top : list Z -> Z) : Prop :=
  forall y, y <> [] -> In (top y) y /\
    forall l, (count_occ Z.eq_dec y l <= count_occ Z.eq_dec y (top y))%nat.
