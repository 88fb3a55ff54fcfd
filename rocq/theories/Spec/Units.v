(** Other units of measurement (C98, C99). *)
From Coq Require Import List ZArith Reals.
From Verif.Model Require Import Tree Ops.
Import ListNotations.
Local Open Scope R_scope.

(** A change of units: a positive factor and an offset. *)
Definition unit_change (f : R -> R) : Prop := exists a b, 0 < a /\ forall x, f x = a * x + b.
(** A row of numbers in other units, every column with its own. *)
Definition in_units (fs : list (R -> R)) (r : list R) : list R := map (fun p => fst p (snd p)) (combine fs r).
(** A cell in other units; texts stay. *)
Definition cell_in (f : R -> R) (c : cell) : cell := match c with Num x => Num (f x) | Txt s => Txt s end.
(** A row of cells in other units. *)
Definition row_in (fs : list (R -> R)) (r : row) : row := map (fun p => cell_in (fst p) (snd p)) (combine fs r).
(** The same units for labelled rows. *)
Definition labelled_in {A} (fs : list (R -> R)) (D : list (list R * A)) : list (list R * A) :=
  map (fun p => (in_units fs (fst p), snd p)) D.
(** Labelled rows of cells. *)
Definition table_in {A} (fs : list (R -> R)) (D : list (row * A)) : list (row * A) :=
  map (fun p => (row_in fs (fst p), snd p)) D.
(** Every row has [w] columns. *)
Definition width {A} (w : nat) (x : list (list A)) : Prop := Forall (fun r => length r = w) x.
(** A whole number. *)
Definition whole (x : R) : Prop := exists n : Z, x = IZR n.
(** The new units keep whole numbers whole and others not, wherever a row has a
    number. *)
Definition keeps_whole (fs : list (R -> R)) (x : list row) : Prop :=
  forall r j f v, In r x -> nth_error fs j = Some f -> nth_error r j = Some (Num v) -> (whole (f v) <-> whole v).
(** The same factor for every column, and offsets. *)
Definition same_factor (a : R) (fs : list (R -> R)) : Prop := 0 < a /\ Forall (fun f => exists b, forall x, f x = a * x + b) fs.
(** Starting centroids that are rows: drawn, or given by their numbers. *)
Definition starts_at_rows (init : init_arg) : Prop :=
  init = InitRandom \/ exists l : list Z, length l <> 1%nat /\ init = InitArray {| shape := [length l]; data := Ints l |}.
(** Starting centroids given as an array with [d] columns. *)
Definition start_array (rows : list (list R)) (d : nat) : init_arg := InitArray {| shape := [length rows; d]; data := Floats (concat rows) |}.
(** A point in other units. *)
Definition point_units (fx fy : R -> R) (p : R * R) : R * R := (fx (fst p), fy (snd p)).
