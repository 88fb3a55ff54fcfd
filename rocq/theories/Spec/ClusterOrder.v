(** Vocabulary for C116: clusters and components in another order. *)
From Coq Require Import List Reals.
From Verif.Spec Require Import Common KMeans Columns HiddenOrder.
Import ListNotations.
Local Open Scope R_scope.

(** The list [l] in the order [s]; [e] stands for a missing entry. *)
Definition in_that_order {A} (e : A) (s : list nat) (l : list A) : list A := map (fun i => nth i l e) s.
(** The labels [cl'] name the same clusters by their places in the order [s]. *)
Definition renumbered (s : list nat) (cl cl' : list nat) : Prop := Forall2 (fun k k' => (k' < length s)%nat /\ nth k' s 0%nat = k) cl cl'.

(** Point [k] of [c] is nearer to [r] than all others. *)
Definition only_nearest (c : list (list R)) (r : list R) (k : nat) : Prop :=
  exists v, nth_error c k = Some v /\ forall j w, nth_error c j = Some w -> j <> k -> sq_dist r v < sq_dist r w.
(** In each of the first rounds of K-means from the centroids [c] every row has a single
    nearest centroid and every centroid is the nearest of some row. *)
Fixpoint unambiguous (d : nat) (x : list (list R)) (rounds : nat) (c : list (list R)) : Prop :=
  match rounds with
  | O => True
  | S n => exists labels, Forall2 (only_nearest c) x labels /\ (forall k, (k < length c)%nat -> In k labels) /\
      forall c', length c' = length c -> (forall k, (k < length c)%nat -> is_mean_of d x labels k (nth k c' [])) -> unambiguous d x n c'
  end.
