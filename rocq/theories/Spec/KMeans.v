(** Specifications for C29-C32. *)
From Coq Require Import List ZArith Reals.
From Verif.Model Require Import Ops.
From Verif.Spec Require Import Common.
Import ListNotations.
Local Open Scope R_scope.

Definition sq_dist (a b : list R) : R := total (map (fun p => (fst p - snd p) ^ 2) (combine a b)).

(** [k] is the first of the nearest points of [c] to [r]. *)
Definition first_nearest (c : list (list R)) (r : list R) (k : nat) : Prop :=
  exists v, nth_error c k = Some v /\ forall j w, nth_error c j = Some w ->
    sq_dist r v <= sq_dist r w /\ ((j < k)%nat -> sq_dist r v < sq_dist r w).

Definition rect (d : nat) (x : list (list R)) : Prop := Forall (fun r => length r = d) x.

(** Within-cluster sum of squares of an assignment. *)
Definition wcss (x : list (list R)) (cl : list nat) (c : list (list R)) : R :=
  total (map (fun p => sq_dist (fst p) (nth (snd p) c [])) (combine x cl)).
Definition assignment (x : list (list R)) (k : nat) (cl : list nat) : Prop :=
  length cl = length x /\ Forall (fun l => (l < k)%nat) cl.
(** [J] is the smallest sum of squares over all assignments to the points [c]. *)
Definition objective (x c : list (list R)) (J : R) : Prop :=
  (exists cl, assignment x (length c) cl /\ wcss x cl c = J) /\
  forall cl, assignment x (length c) cl -> J <= wcss x cl c.

(** [v] is the mean of the rows labelled [k]. *)
Definition is_mean_of (d : nat) (x : list (list R)) (cl : list nat) (k : nat) (v : list R) : Prop :=
  length v = d /\ forall j, (j < d)%nat ->
    mean_of (map (fun p => nth j (fst p) 0) (filter (fun p => Nat.eqb (snd p) k) (combine x cl))) (nth j v 0).

(** Coordinates differ by at most [tol]. *)
Definition close (tol : R) (a b : list R) : Prop := Forall2 (fun u v => Rabs (u - v) <= tol) a b.

(** The array has as many entries as its shape says. *)
Definition entries (l : list nat) : nat := fold_right Nat.mul 1%nat l.
Definition flat_length (f : flat) : nat := match f with Ints l => length l | Floats l => length l end.
Definition consistent (i : init_arg) : Prop :=
  match i with InitArray a => flat_length (data a) = entries (shape a) | _ => True end.

