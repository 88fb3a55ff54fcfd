(** Specifications for C40 to C43. *)
From Coq Require Import List ZArith Reals.
From Verif.Model Require Import Base Stump.
From Verif.Spec Require Import Common Stump.
Import ListNotations.
Local Open Scope R_scope.

(** The drawn rows with their labels. *)
Definition drawn (x : list (list R)) (y : list Z) (idx : list nat) : list (list R * Z) :=
  map (fun i => (nth i x [], nth i y 0%Z)) idx.

(** A probability distribution without zeros on [n] samples. *)
Definition distribution (n : nat) (w : list R) : Prop :=
  length w = n /\ (forall v, In v w -> 0 < v) /\ total w = 1.

Section AdaBoost.
Variable H : Type.
Variable answer : H -> list R -> Z.
Variable D : list (list R * Z).

(** [e] is the weight of the samples that [h] gets wrong. *)
Definition error_of (w : list R) (h : H) (e : R) : Prop :=
  mass (fun p => answer h (fst p) <> snd p) (combine D w) e.

(** [w'] is [w] with the wrong samples multiplied by exp a, the right ones by
    exp (- a), and everything divided by a constant so that the sum is 1. *)
Definition boosted (h : H) (a : R) (w w' : list R) : Prop :=
  length w' = length D /\ total w' = 1 /\
  exists z, 0 < z /\ forall i r l, nth_error D i = Some (r, l) ->
    (answer h r = l -> nth i w' 0 * z = nth i w 0 * exp (- a)) /\
    (answer h r <> l -> nth i w' 0 * z = nth i w 0 * exp a).

(** A run of AdaBoost from the weights [w] with at most [k] rounds: [ms] are the
    learners with their weights, [es] their errors.  [learns w h] says that the
    base learner yields [h] on the weights [w].  The run ends after a learner
    with error above 1/2 or below [eps]. *)
Variable learns : list R -> H -> Prop.
Variable eps : R.
Inductive run : nat -> list R -> list (H * R) -> list R -> Prop :=
| run_done w : run 0 w [] []
| run_stop k w h a e : learns w h -> error_of w h e -> a = ln ((1 - e) / Rmax e eps) / 2 ->
    (1/2 < e < 1 \/ e < eps) -> run (S k) w [(h, a)] [e]
| run_more k w h a e w' ms es : learns w h -> error_of w h e -> a = ln ((1 - e) / Rmax e eps) / 2 ->
    eps <= e <= 1/2 -> boosted h a w w' -> run k w' ms es -> run (S k) w ((h, a) :: ms) (e :: es).
End AdaBoost.

Definition product_of (l : list R) : R := fold_right Rmult 1 l.
(** The factor by which a learner with error [e] shrinks the bound. *)
Definition shrink (eps e : R) : R := 2 * sqrt (Rmax e eps * (1 - e)).
(** The weighted vote. *)
Definition vote {H} (answer : H -> list R -> Z) (ms : list (H * R)) (r : list R) : R :=
  total (map (fun m => snd m * IZR (answer (fst m) r)) ms).
