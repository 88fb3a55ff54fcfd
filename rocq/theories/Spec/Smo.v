(** Specifications for C24-C28. *)
From Coq Require Import List ZArith Reals Permutation Sorted.
From Verif.Model Require Import Base Smo.
From Verif.Spec Require Import Common.
Import ListNotations.
Local Open Scope R_scope.

(** Sum of [f m] for [m < n]. *)
Definition sum_below (n : nat) (f : nat -> R) : R := total (map f (seq 0 n)).

(** Feasible multipliers for the labels [y]. *)
Definition feasible (C : R) (y al : list R) : Prop :=
  length al = length y /\
  (forall m, (m < length y)%nat -> 0 <= nth m al 0 <= C) /\
  sum_below (length y) (fun m => nth m al 0 * nth m y 0) = 0.

Definition pm_labels (y : list R) : Prop := forall m, (m < length y)%nat -> nth m y 0 = 1 \/ nth m y 0 = -1.

(** Decision value with all training samples. *)
Definition decision (K : list R -> list R -> R) (x : list (list R)) (y al : list R) (b : R) (q : list R) : R :=
  sum_below (length x) (fun m => nth m al 0 * nth m y 0 * K (nth m x []) q) + b.

(** The prediction error of training sample [i]. *)
Definition exact_error K x y al b (i : nat) : R := decision K x y al b (nth i x []) - nth i y 0.

(** The dual objective that SVM training maximises. *)
Definition dual (K : list R -> list R -> R) (x : list (list R)) (y al : list R) : R :=
  sum_below (length x) (fun m => nth m al 0) -
  1 / 2 * sum_below (length x) (fun m => sum_below (length x) (fun k =>
            nth m al 0 * nth k al 0 * (nth m y 0 * nth k y 0 * K (nth m x []) (nth k x [])))).

(** [al'] differs from [al] at most at [i] and [j]. *)
Definition differ_at (i j : nat) (al al' : list R) : Prop :=
  length al' = length al /\ forall m, m <> i -> m <> j -> nth m al' 0 = nth m al 0.

Definition symmetric (K : list R -> list R -> R) : Prop := forall a b, K a b = K b a.

(** Inner product and squared distance of vectors of equal length. *)
Fixpoint inner (a b : list R) : R :=
  match a, b with u :: a', v :: b' => u * v + inner a' b' | _, _ => 0 end.

(** The Gram quadratic form of vectors [xs] with coefficients [cs]. *)
Definition gram_form (K : list R -> list R -> R) (cs : list R) (xs : list (list R)) : R :=
  sum_below (length xs) (fun i => sum_below (length xs) (fun j =>
    nth i cs 0 * nth j cs 0 * K (nth i xs []) (nth j xs []))).
Definition positive_semidefinite (K : list R -> list R -> R) : Prop :=
  forall d cs xs, Forall (fun v => length v = d) xs -> 0 <= gram_form K cs xs.
Definition curvature (K : list R -> list R -> R) (a b : list R) : R := K a a + K b b - 2 * K a b.

(** The states a training run can be in: pair updates of any two samples, in
    any order, with any (possibly wrong) error values. *)
Inductive reached (K : list R -> list R -> R) (x : list (list R)) (y : list R) (C : R) : smo -> Prop :=
| reached_start : reached K x y C (smo_init x)
| reached_update s i j error_i error_j s' : reached K x y C s -> (i < length x)%nat -> (j < length x)%nat ->
    update_alpha K x y C s i j error_i error_j = Some s' -> reached K x y C s'.

(** What [np.random.permutation(n)] may return. *)
Definition permutations_of (n : nat) (perms : nat -> list nat) : Prop :=
  forall d, Permutation.Permutation (perms d) (seq 0 n).

(** The optimality conditions of one sample, up to [tol], for an error value [e]. *)
Definition kkt (C tol label alpha e : R) : Prop :=
  (alpha < C -> - tol <= label * e) /\ (0 < alpha -> label * e <= tol).

(** Platt's schedule.  [sweep idx s s' k]: going through the samples [idx] once
    leads from [s] to [s'] with [k] changes; [all] are all samples, [some s] the
    ones strictly between the bounds.  A full sweep that changes something is
    followed by partial ones; a partial sweep that changes nothing is followed by
    a full one; a full sweep that changes nothing is the end.  [full]: the next
    sweep is full; [sweeps]: their number; [settled]: the end was reached. *)
Inductive schedule {T : Type} (sweep : list nat -> T -> T -> nat -> Prop) (all : list nat) (some : T -> list nat -> Prop) :
  bool -> nat -> bool -> T -> T -> Prop :=
| schedule_cut full s : schedule sweep all some full 0 false s s
| schedule_settled s s' : sweep all s s' 0%nat -> schedule sweep all some true 1 true s s'
| schedule_full s s1 s' k sweeps settled : sweep all s s1 (S k) ->
    schedule sweep all some false sweeps settled s1 s' -> schedule sweep all some true (S sweeps) settled s s'
| schedule_again idx s s1 s' k sweeps settled : some s idx -> sweep idx s s1 (S k) ->
    schedule sweep all some false sweeps settled s1 s' -> schedule sweep all some false (S sweeps) settled s s'
| schedule_back idx s s1 s' sweeps settled : some s idx -> sweep idx s s1 0%nat ->
    schedule sweep all some true sweeps settled s1 s' -> schedule sweep all some false (S sweeps) settled s s'.
(** The samples whose multiplier lies strictly between the bounds, in order. *)
Definition between_bounds (C : R) (n : nat) (al : list R) (idx : list nat) : Prop :=
  Sorted.StronglySorted lt idx /\ forall m, In m idx <-> (m < n)%nat /\ 0 < nth m al 0 < C.
