(** Specifications for C48 and C52. *)
From Coq Require Import List Reals.
From Verif.Spec Require Import Common.
Import ListNotations.
Local Open Scope R_scope.

(** A row of probabilities without zeros. *)
Definition positive_distribution (p : list R) : Prop := Forall (fun v => 0 < v) p /\ total p = 1.
(** [p] assigns the scores [z] probabilities proportional to their exponentials. *)
Definition proportional_to_exp (z p : list R) : Prop :=
  length p = length z /\ exists c, 0 < c /\ forall i, (i < length z)%nat -> nth i p 0 = c * exp (nth i z 0).
Definition same_shape (a b : list (list R)) : Prop := Forall2 (fun r s => length r = length s) a b.
(** A row with a single 1. *)
Definition one_hot_row (r : list R) : Prop := exists k, (k < length r)%nat /\
  forall j, (j < length r)%nat -> nth j r 0 = (if Nat.eqb j k then 1 else 0).
