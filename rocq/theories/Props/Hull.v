(** Property theorems C11: ConvexHull (classicML/backend/python/ops.py 54-125). *)
From Coq Require Import List Reals Lra Permutation Sorted.
From Verif.Model Require Import Base Hull.
From Verif.Spec Require Import Hull.
From Verif.Proof Require Import Hull.
Import ListNotations.
Local Open Scope R_scope.

(** Closed, made of input points, and every input point is on the left of
    every edge.  The tie hypothesis says that the points are distinct and that
    the sort by x left the points with the least x in ascending y order. *)
Theorem C11_hull_encloses : forall by_x points h,
  sorts_by_x by_x -> ties_ok (by_x points) ->
  compute_convex_hull by_x points = Ok h ->
  (exists s m, h = s :: m ++ [s]) /\ (forall z, In z h -> In z points) /\
  (forall a b z, edge h a b -> In z points -> 0 <= turn a b z) /\
  (forall z, In z points -> in_hull h z).
Proof. exact hull_main. Qed.
Print Assumptions C11_hull_encloses.

(** The vertices span the same region as the points. *)
Theorem C11_hull_spans_the_points : forall by_x points h,
  sorts_by_x by_x -> ties_ok (by_x points) -> compute_convex_hull by_x points = Ok h ->
  forall z, in_hull points z <-> in_hull h z.
Proof. exact hull_same_span. Qed.
Print Assumptions C11_hull_spans_the_points.

(** A unique leftmost point is enough for that, whatever the sort does. *)
Theorem C11_unique_leftmost_suffices : forall by_x points,
  sorts_by_x by_x -> NoDup points -> unique_leftmost points -> ties_ok (by_x points).
Proof. exact unique_leftmost_ties. Qed.
Print Assumptions C11_unique_leftmost_suffices.

(** The hull never turns clockwise. *)
Theorem C11_hull_convex : forall (points h : list (R * R)),
  (forall z, In z h -> In z points) -> (forall a b z, edge h a b -> In z points -> 0 <= turn a b z) ->
  forall a b c, consecutive3 h a b c -> 0 <= turn a b c.
Proof. exact hull_left_turns. Qed.
Print Assumptions C11_hull_convex.

Theorem C11_hull_total : forall by_x points, sorts_by_x by_x ->
  ((2 <= length points)%nat -> exists h, compute_convex_hull by_x points = Ok h) /\
  ((length points < 2)%nat -> compute_convex_hull by_x points = Err IndexError).
Proof. exact hull_total. Qed.
Print Assumptions C11_hull_total.

(** An interior point that is given twice stays on the "hull". *)
Theorem C11_duplicates_refuted : exists by_x points h a b z,
  sorts_by_x by_x /\ unique_leftmost points /\ compute_convex_hull by_x points = Ok h /\
  edge h a b /\ In z points /\ turn a b z < 0.
Proof.
  exists sort_x, [(0, 0); (4, 0); (2, 1); (2, 1); (4, 4)], [(0, 0); (4, 0); (2, 1); (2, 1); (4, 4); (0, 0)].
  exists (2, 1), (4, 4), (4, 0).
  split; [exact sort_x_sorts|]. split.
  { exists (0, 0), [], [(4, 0); (2, 1); (2, 1); (4, 4)]. split; auto.
    intros p Hp. simpl in Hp. repeat (destruct Hp as [<-|Hp]; [simpl; lra|]). contradiction. }
  split; [exact hull_duplicate_bad|]. split; [exists [(0, 0); (4, 0); (2, 1)], [(0, 0)]; reflexivity|].
  split; [simpl; auto|]. unfold turn; simpl; lra.
Qed.
Print Assumptions C11_duplicates_refuted.

(** With two leftmost points a vertex of the true hull can be lost. *)
Theorem C11_leftmost_tie_refuted : exists by_x points h,
  sorts_by_x by_x /\ NoDup points /\ compute_convex_hull by_x points = Ok h /\
  (exists z, In z points /\ ~ In z h /\ forall a b, In a h -> In b h -> turn a b z <> 0 \/ a = b).
Proof.
  exists sort_x, [(0, 2); (0, 0); (4, 1)], [(0, 2); (0, 0); (0, 2)].
  split; [exact sort_x_sorts|]. split.
  { repeat constructor; simpl; intros H; repeat (destruct H as [H|H]; [injection H; lra|]); exact H. }
  split; [exact hull_tie_bad|]. exists (4, 1). split; [simpl; auto|]. split.
  - simpl. intros H; repeat (destruct H as [H|H]; [injection H; lra|]); exact H.
  - intros a b Ha Hb. simpl in Ha, Hb.
    repeat (destruct Ha as [<-|Ha]; [|]); try contradiction;
    repeat (destruct Hb as [<-|Hb]; [|]); try contradiction; auto; left; unfold turn; simpl; lra.
Qed.
Print Assumptions C11_leftmost_tie_refuted.

Example C11_witness : exists h,
  compute_convex_hull sort_x [(0, 1); (3, 0); (1, 1); (3, 3)] = Ok h /\
  NoDup [(0, 1); (3, 0); (1, 1); (3, 3)] /\ unique_leftmost [(0, 1); (3, 0); (1, 1); (3, 3)].
Proof.
  destruct (hull_total sort_x [(0, 1); (3, 0); (1, 1); (3, 3)] sort_x_sorts) as [H _].
  destruct H as (h & Hh); [simpl; auto|]. exists h. split; auto. split.
  - repeat constructor; simpl; intros H; repeat (destruct H as [H|H]; [injection H; lra|]); exact H.
  - exists (0, 1), [], [(3, 0); (1, 1); (3, 3)]. split; auto.
    intros p Hp. simpl in Hp. repeat (destruct Hp as [<-|Hp]; [simpl; lra|]). contradiction.
Qed.
