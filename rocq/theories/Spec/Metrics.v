(** Specifications for the metrics. *)
From Coq Require Import List ZArith Reals.
From Verif.Model Require Import Base.
Import ListNotations.
Local Open Scope R_scope.

(** The prediction is on the side of 1/2 that the label asks for. *)
Definition right_side (p : R) (l : Z) : Prop := l = 1%Z <-> 1 / 2 <= p.

(** Position of the first largest entry. *)
Definition first_max (r : list R) (k : nat) : Prop :=
  (k < length r)%nat /\ (forall j, (j < length r)%nat -> nth j r 0 <= nth k r 0) /\
  (forall j, (j < k)%nat -> nth j r 0 < nth k r 0).

Definition same_first_max (r s : list R) : Prop := exists k, first_max r k /\ first_max s k.
