(** Vocabulary for C106: other names and other units for the values of a table. *)
From Coq Require Import List ZArith Reals.
From Verif.Model Require Import Base.
Import ListNotations.
Local Open Scope R_scope.

(** Different values have different new names. *)
Definition one_to_one {A B} (f : A -> B) : Prop := forall u v, f u = f v -> u = v.

(** The column [col] is written with other values: the kind of the column and the
    order of its values by frequency are the same; in a column of measurements only
    the zero point of the scale has moved. *)
Definition rewritten {A B} (num : A -> R) (cont : list A -> bool) (vc : list A -> list A)
    (num' : B -> R) (cont' : list B -> bool) (vc' : list B -> list B) (f : A -> B) (col : list A) : Prop :=
  one_to_one f /\ cont' (map f col) = cont col /\
  (cont col = false -> vc' (map f col) = map f (vc col)) /\
  (cont col = true -> exists t, forall v, num' (f v) = num v + t).

(** The table and a sample, written with the new values of each column. *)
Definition table_in {A B} (fs : list (A -> B)) (cols : list (list A)) : list (list B) :=
  map (fun p => map (fst p) (snd p)) (combine fs cols).
Definition sample_in {A B} (fs : list (A -> B)) (q : list A) : list B :=
  map (fun p => fst p (snd p)) (combine fs q).

(** Both computations succeed with related results, or both raise the same exception. *)
Definition both {X Y} (P : X -> Y -> Prop) (a : result X) (b : result Y) : Prop :=
  match a, b with Ok x, Ok y => P x y | Err e, Err e' => e = e' | _, _ => False end.
