(** Specifications for C110: every training row given several times. *)
From Coq Require Import List Reals.
From Verif.Model Require Import Base.
Import ListNotations.
Local Open Scope R_scope.

(** The list [k] times in a row: with the rows of a table, every row is given [k]
    times. *)
Definition copies {A} (k : nat) (l : list A) : list A := concat (repeat l k).

(** Every entry of a matrix times a number. *)
Definition scaled (c : R) (m : list (list R)) : list (list R) := map (vscale c) m.

(** The singular values of [k] times a matrix are [k] times those of the matrix, and
    the same vectors belong to them. *)
Definition svd_of_multiples (svd : list (list R) -> list (list R) * list R * list (list R)) : Prop :=
  forall c s, 0 < c -> svd (scaled c s) = let '(u, v, w) := svd s in (u, vscale c v, w).
