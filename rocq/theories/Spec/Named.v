(** Tables with named columns (C95, C96, C97). *)
From Coq Require Import List ZArith String Permutation.
From Verif.Model Require Import Named.
Import ListNotations.

(** The value under a name in a row whose columns have the names [l]. *)
Fixpoint under {A} (l : list name) (r : list A) (n : name) : option A :=
  match l, r with
  | a :: l', v :: r' => if name_eq_dec n a then Some v else under l' r' n
  | _, _ => None
  end.
(** Distinct names, and every row as long as there are names. *)
Definition is_table {A} (f : frame A) : Prop :=
  NoDup (labels f) /\ Forall (fun r => List.length r = List.length (labels f)) (rows f).
(** The same rows with the same values under the same names, maybe with the columns in
    another order. *)
Definition same_table {A} (f g : frame A) : Prop :=
  is_table f /\ is_table g /\ Permutation (labels f) (labels g) /\
  Forall2 (fun r s => forall n, under (labels f) r n = under (labels g) s n) (rows f) (rows g).
(** Names that are all texts, or the numbers 0, 1, 2, ... in this order. *)
Definition usual_names (l : list name) : Prop :=
  Forall (fun n => exists s, n = Text s) l \/ l = map Number (seq 0 (List.length l)).
(** An array of [d] columns. *)
Definition is_array {A} (d : nat) (r : list (list A)) : Prop := Forall (fun q => List.length q = d) r.
(** At least one row. *)
Definition some_row {A} (x : input A) : Prop := match x with Array _ r => r <> [] | Frame f => rows f <> [] end.
(** The names of the columns of an array of [d] columns. *)
Definition names_of (names : option (list name)) (d : nat) : list name :=
  match names with Some l => l | None => map Number (seq 0 d) end.
