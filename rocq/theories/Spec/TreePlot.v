(** Specification of a tree drawing (C77). *)
From Coq Require Import List ZArith Reals Arith.
From Verif.Model Require Import Base Tree TreePlot.
From Verif.Spec Require Import Tree.
Import ListNotations.
Local Open Scope R_scope.

(** A node of the tree, with the leaves below it: [width] leaves from number [first]
    on, counted from the left; [level] is the number of splits above it. *)
Record spot := { what : content; first : nat; width : nat; level : nat }.

Definition content_of (t : tree) : content :=
  match t with Leaf l => Category l | Cont j _ _ _ _ _ _ => Feature j | Disc j _ _ _ _ => Feature j end.

(** All nodes, each before its children, children from left to right; with every
    node its parent and the branch that leads to it. *)
Fixpoint spots (t : tree) (a d : nat) (up : option (spot * branch)) : list (spot * option (spot * branch)) :=
  let me := {| what := content_of t; first := a; width := leaf_count t; level := d |} in
  (me, up) ::
  match t with
  | Leaf _ => []
  | Cont _ _ p _ _ g l => spots g a (S d) (Some (me, AtLeast p)) ++ spots l (a + leaf_count g) (S d) (Some (me, Below p))
  | Disc _ _ _ _ kids =>
      (fix go (ks : list (cell * tree)) (a : nat) : list (spot * option (spot * branch)) :=
         match ks with
         | [] => []
         | (v, k) :: ks' => spots k a (S d) (Some (me, Value v)) ++ go ks' (a + leaf_count k)%nat
         end) kids a
  end.

(** The leaves divide the width 1 into [n] equal parts.  A node is drawn above the
    middle of its leaves, a leaf in the middle of its part; levels are equally
    spaced from the top, [h] levels to the bottom. *)
Definition place (n : nat) (h : Z) (s : spot) : point :=
  ((INR (first s) + INR (width s) / 2) / INR n, 1 - INR (level s) / IZR h).

Definition middle (p q : point) : point := ((fst p + fst q) / 2, (snd p + snd q) / 2).

(** The box of a node with the arrow from its parent, and before it the name of the
    branch half-way.  The root has no parent; its arrow starts at itself. *)
Definition drawn (n : nat) (h : Z) (x : spot * option (spot * branch)) : list mark :=
  let here := place n h (fst x) in
  match snd x with
  | None => [Note here None; Node here here (what (fst x))]
  | Some (q, b) => [Note (middle (place n h q) here) (Some b); Node (place n h q) here (what (fst x))]
  end.

Definition inside (p : point) : Prop := 0 <= fst p <= 1 /\ 0 <= snd p <= 1.
Definition boxes_at (ms : list mark) : list point :=
  flat_map (fun m => match m with Node _ p _ => [p] | Note _ _ => [] end) ms.
Definition points_of (ms : list mark) : list point :=
  flat_map (fun m => match m with Node p q _ => [p; q] | Note p _ => [p] end) ms.

(** Number of nodes. *)
Fixpoint node_count (t : tree) : nat :=
  match t with
  | Leaf _ => 1
  | Cont _ _ _ _ _ g l => S (node_count g + node_count l)
  | Disc _ _ _ _ kids => S (list_sum (map (fun k => node_count (snd k)) kids))
  end.
(** The recorded numbers of leaves are right and every split has branches. *)
Definition counted (t : tree) : Prop :=
  forall s, subtree s t -> num_of_leaves s = leaf_count s /\ match s with Disc _ _ _ _ kids => kids <> [] | _ => True end.
(** The horizontal positions of the leaves, in drawing order. *)
Definition leaf_columns (ms : list mark) : list R :=
  flat_map (fun m => match m with Node _ p (Category _) => [fst p] | _ => [] end) ms.
