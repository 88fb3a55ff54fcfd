(** Vocabulary for C108: other names for the classes. *)
From Coq Require Import List ZArith Reals.
From Verif.Model Require Import Base Tree Bayes Logistic Lda.
From Verif.Spec Require Import BayesUnits.
Import ListNotations.

(** The two classes 0 and 1 exchanged. *)
Definition exchanged (l : Z) : Z := (1 - l)%Z.
Definition negated (v : list R) : list R := map Ropp v.

(** Rows whose labels have other names. *)
Definition relabelled (f : Z -> Z) (D : list (row * Z)) : list (row * Z) := map (fun p => (fst p, f (snd p))) D.
(** The most common label is found without looking at the names. *)
Definition blind_to_names (f : Z -> Z) (top top' : list Z -> Z) : Prop := forall l, l <> [] -> top' (map f l) = f (top l).
(** A tree with other names at its leaves. *)
Fixpoint tree_named (f : Z -> Z) (t : tree) : tree :=
  match t with
  | Leaf l => Leaf (f l)
  | Cont j v p n h g l => Cont j v p n h (tree_named f g) (tree_named f l)
  | Disc j v n h kids => Disc j v n h (map (fun k => (fst k, tree_named f (snd k))) kids)
  end.

(** Each score in the place of the other. *)
Definition crossed {X} (p : X * X) : X * X := (snd p, fst p).

(** Labels 0 and 1; with smoothing both of them occur. *)
Definition two_classes (y : list Z) (smoothing : bool) : Prop :=
  Forall (fun l => l = 0%Z \/ l = 1%Z) y /\ (smoothing = true -> In 0%Z y /\ In 1%Z y).
(** The scores cannot be told apart. *)
Definition tied (s : ext * ext) : Prop := fst s = snd s \/ fst s = Nan \/ snd s = Nan.
(** The answers [l] and [l'] to the scores [s] and to the exchanged scores. *)
Definition answers_exchanged (s : ext * ext) (l l' : Z) : Prop :=
  (tied s -> l = 1%Z /\ l' = 1%Z) /\ (~ tied s -> l' = exchanged l).

(** Logistic regression with the opposite weights. *)
Definition opposite (m : logistic) : logistic :=
  {| lr_beta := option_map negated (lr_beta m); lr_loaded := lr_loaded m; lr_trained := lr_trained m |}.
(** The discriminant puts the row as far from one mean as from the other. *)
Definition equally_far (m : lda) (r : list R) : Prop :=
  Rabs (dot r (lda_w m) - dot (lda_w m) (lda_mu0 m)) = Rabs (dot r (lda_w m) - dot (lda_w m) (lda_mu1 m)).
