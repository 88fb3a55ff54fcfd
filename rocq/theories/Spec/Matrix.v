(** Inverse matrices. *)
From Coq Require Import List Reals Arith.
From Verif.Spec Require Import Common Smo Gmm.
Import ListNotations.
Local Open Scope R_scope.

(** The product of two [n] by [n] matrices is the identity. *)
Definition product_is_one (n : nat) (a b : list (list R)) : Prop :=
  forall i j, (i < n)%nat -> (j < n)%nat ->
    sum_below n (fun k => entry a i k * entry b k j) = if (i =? j)%nat then 1 else 0.
Definition inverse_of (n : nat) (a b : list (list R)) : Prop :=
  square n b /\ product_is_one n a b /\ product_is_one n b a.
