(** Specifications for the plots (C78). *)
From Coq Require Import List ZArith Reals Arith.
From Verif.Model Require Import Base Hull.
Import ListNotations.
Local Open Scope R_scope.

(** [picked P x y part]: the samples whose label satisfies [P], in order. *)
Inductive picked {A B} (P : B -> Prop) : list A -> list B -> list A -> Prop :=
| pick_nil : picked P [] [] []
| pick_in a b x y part : P b -> picked P x y part -> picked P (a :: x) (b :: y) (a :: part)
| pick_out a b x y part : ~ P b -> picked P x y part -> picked P (a :: x) (b :: y) part.

(** Row [i], column [j] of [g] is what [f] says about the point with the [j]-th
    horizontal and the [i]-th vertical coordinate; there are no other entries. *)
Definition shows {A} (f : point -> result A) (x0 x1 : list R) (g : list (list A)) : Prop :=
  length g = length x1 /\ (forall row, In row g -> length row = length x0) /\
  forall i j u v, nth_error x0 j = Some u -> nth_error x1 i = Some v ->
  exists row y, nth_error g i = Some row /\ nth_error row j = Some y /\ f (u, v) = Ok y.
(** A prediction made row by row. *)
Definition row_by_row {A} (f : point -> result A) (predict : list point -> result (list A)) : Prop :=
  forall ps, predict ps = mapM f ps.

(** [c] is a sequence of [n] coordinates from [a] to [b] with equal steps. *)
Definition evenly (a b : R) (n : nat) (c : list R) : Prop :=
  length c = n /\ nth_error c 0 = Some a /\ nth_error c (n - 1) = Some b /\
  forall i u v, nth_error c i = Some u -> nth_error c (S i) = Some v -> v - u = (b - a) / INR (n - 1).

Definition times (k : R) (p : point) : point := (k * fst p, k * snd p).
Definition scalar (p q : point) : R := fst p * fst q + snd p * snd q.
Definition square_distance (p q : point) : R := (fst p - fst q) * (fst p - fst q) + (snd p - snd q) * (snd p - snd q).
(** The foot of the perpendicular from [p] on the line through the origin and [w]. *)
Definition foot (w p q : point) : Prop :=
  (exists k, q = times k w) /\ scalar (fst p - fst q, snd p - snd q) w = 0.
