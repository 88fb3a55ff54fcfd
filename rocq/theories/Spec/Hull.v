(** Specification for C11: plane geometry. *)
From Coq Require Import List Reals Permutation Sorted.
Import ListNotations.
Local Open Scope R_scope.

(** Twice the signed area of the triangle a, b, c: positive iff c lies to the
    left of the line from a to b. *)
Definition turn (a b c : R * R) : R :=
  (fst b - fst a) * (snd c - snd a) - (snd b - snd a) * (fst c - fst a).

(** Consecutive elements of a list. *)
Definition edge (h : list (R * R)) (a b : R * R) : Prop :=
  exists h1 h2, h = h1 ++ a :: b :: h2.

Definition consecutive3 (h : list (R * R)) (a b c : R * R) : Prop :=
  exists h1 h2, h = h1 ++ a :: b :: c :: h2.

(** A sort by x, stable or not. *)
Definition sorts_by_x (by_x : list (R * R) -> list (R * R)) : Prop :=
  forall l, Permutation l (by_x l) /\ StronglySorted (fun p q => fst p <= fst q) (by_x l).

(** Exactly one input point has the least x coordinate. *)
Definition unique_leftmost (l : list (R * R)) : Prop :=
  exists s l1 l2, l = l1 ++ s :: l2 /\ forall p, In p (l1 ++ l2) -> fst s < fst p.

(** Ties on the least x in ascending y order, distinct points. *)
Definition ties_ok (sorted : list (R * R)) : Prop :=
  StronglySorted (fun p q => fst p <= fst q /\ p <> q) sorted /\
  forall s, hd_error sorted = Some s ->
    StronglySorted (fun p q => fst p = fst s -> fst q = fst s -> snd p < snd q) sorted.

(** The convex hull of a finite set of points: the smallest set that contains
    them and, with two points, the segment between them. *)
Inductive in_hull (S : list (R * R)) : R * R -> Prop :=
| hull_vertex p : In p S -> in_hull S p
| hull_segment p q r t : in_hull S p -> in_hull S q -> 0 <= t <= 1 ->
    fst r = t * fst p + (1 - t) * fst q -> snd r = t * snd p + (1 - t) * snd q -> in_hull S r.
