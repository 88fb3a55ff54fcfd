(** Vocabulary for C107: linear models and mixtures in other units. *)
From Coq Require Import List ZArith Reals.
From Verif.Spec Require Import Common Smo.
Import ListNotations.
Local Open Scope R_scope.

(** A row in which feature [j] is measured with the factor [a_j], not 0, and the zero
    point [b_j]. *)
Definition row_units (a b r : list R) : list R :=
  map (fun j => nth j a 0 * nth j r 0 + nth j b 0) (seq 0 (length a)).
(** Factors and zero points for [d] features. *)
Definition units_for (d : nat) (a b : list R) : Prop :=
  length a = d /\ length b = d /\ Forall (fun v => v <> 0) a.
(** The weights that give every row in the new units the score it had: the constant is
    the last one. *)
Definition weights_units (a b beta : list R) : list R :=
  map (fun j => nth j beta 0 / nth j a 0) (seq 0 (length a)) ++
  [nth (length a) beta 0 - sum_below (length a) (fun j => nth j b 0 * nth j beta 0 / nth j a 0)].
