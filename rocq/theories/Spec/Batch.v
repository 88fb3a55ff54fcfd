(** Vocabulary for [predict] and [score] on arrays. *)
From Coq Require Import List ZArith Reals Arith.
From Verif.Model Require Import Base Batch.
Import ListNotations.

(** What an answer says about each sample, in order. *)
Definition values (o : output) : list (list R) :=
  match o with Scalar v => [[v]] | Vector l => map (fun v => [v]) l | Matrix _ m => m end.
(** The attribute [shape] of the answer. *)
Definition shape (o : output) : list nat :=
  match o with Scalar _ => [] | Vector l => [List.length l] | Matrix w m => [List.length m; w] end.
(** Rows of [w] entries each. *)
Definition rectangular {A} (w : nat) (m : list (list A)) : Prop := Forall (fun r => List.length r = w) m.
(** The shape of the answer for [n] rows, model by model. *)
Definition expected_shape (f : numeric) (n : nat) : list nat :=
  match f with
  | FLogistic _ | FLda _ => if Nat.eqb n 1 then [] else [n]
  | FRbf _ => [n; 1]
  | FBp ls => [n; List.length (fst (last ls ([], [])))]
  | _ => [n]
  end.
(** How many numbers the answer has for each sample. *)
Definition answer_width (f : numeric) : nat :=
  match f with FBp ls => List.length (fst (last ls ([], []))) | _ => 1 end.
(** The models without labels. *)
Definition clustering (f : numeric) : bool :=
  match f with FKMeans _ _ | FMixture _ _ _ => true | _ => false end.
(** The models whose answer for a single row has no dimension. *)
Definition squeezed (f : numeric) : bool :=
  match f with FLogistic _ | FLda _ => true | _ => false end.
