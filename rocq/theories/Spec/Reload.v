(** Specifications for loading into an object that was used before (C113). *)
From Coq Require Import List ZArith.
From Verif.Model Require Import Base Dataset Reload.
From Verif.Spec Require Import Common.
Import ListNotations.

(** Storing the numbers 0, 1, 2, ... in place of the sorted labels, one label after the
    other, never meets a label that is still to be replaced, and every number is read
    back as itself. *)
Definition replaceable {A} (O : TotalOrder A) (put : nat -> A) (int_of : A -> option Z) (labels : list A) : Prop :=
  (forall i, int_of (put i) = Some (Z.of_nat i)) /\
  (forall i j l, i < j -> is_rank O labels l j -> In l labels -> put i <> l).

(** An old code is the number of one of [n] classes. *)
Definition class_number (n : nat) (c : code) : Prop := exists k, k < n /\ c = CodeInt (Z.of_nat k).

(** Every published label that is not among [labels] has a code that is the number of
    one of the [n] classes. *)
Definition old_codes_fit {A} (O : TotalOrder A) (ci : dict A code) (labels : list A) (n : nat) : Prop :=
  forall k c, dict_get O ci k = Some c -> ~ In k labels -> class_number n c.

(** The outcome [q] of loading features [v] into a new object is what one load of the
    labels gives: [r] is the model of the labels' part of Dataset.v. *)
Definition new_outcome {X A} (v : X) (r : result (ydata * dict A code)) (q : list A * (object X A * option err)) : Prop :=
  match r with
  | Ok (y, ci) => snd q = ({| ob_x := Some v; ob_y := Some y; ob_ci := ci |}, None)
  | Err e => snd (snd q) = Some e
  end.

(** Every published code is a vector. *)
Definition all_vectors {A} (O : TotalOrder A) (ci : dict A code) : Prop :=
  forall k c, dict_get O ci k = Some c -> exists v, c = CodeVec v.
(** Every published code is a number. *)
Definition all_numbers {A} (O : TotalOrder A) (ci : dict A code) : Prop :=
  forall k c, dict_get O ci k = Some c -> exists z, c = CodeInt z.
