(** Specifications for C111: features that depend on each other, and too few samples. *)
From Coq Require Import List ZArith Reals.
From Verif.Spec Require Import Common Smo Lda.
Import ListNotations.
Local Open Scope R_scope.

(** The first [d] features of [r], weighted with [v] and added. *)
Definition combination (d : nat) (v : nat -> R) (r : list R) : R := sum_below d (fun j => v j * nth j r 0).
(** Not all weights are zero. *)
Definition some_weight (d : nat) (v : nat -> R) : Prop := exists i, (i < d)%nat /\ v i <> 0.
(** One of the features is determined by the others in all rows, in a linear way: a
    constant feature, a feature given twice, features that add up to one. *)
Definition dependent (d : nat) (x : list (list R)) : Prop :=
  exists v c, some_weight d v /\ forall r, In r x -> combination d v r = c.
(** The same within each of the two classes. *)
Definition dependent_in_classes (d : nat) (x : list (list R)) (y : list Z) : Prop :=
  exists v, some_weight d v /\ forall l, l = 0%Z \/ l = 1%Z -> exists c, forall r, In r (class_rows l x y) -> combination d v r = c.
