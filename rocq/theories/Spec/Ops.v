(** Specifications for C12-C15. *)
From Coq Require Import List.
From Verif.Model Require Import Base Ops.
Import ListNotations.

(** Number of dimensions; [None] means more than two. *)
Definition array_ndim {A} (y : ndarray A) : option nat :=
  match y with A0 _ => Some 0 | A1 _ => Some 1 | A2 _ _ => Some 2 | AN _ => None end.

(** Same number of dimensions and columns. *)
Definition same_layout {A} (y y' : ndarray A) : Prop :=
  match y, y' with
  | A0 _, A0 _ | A1 _, A1 _ | AN _, AN _ => True
  | A2 c _, A2 c' _ => c = c'
  | _, _ => False
  end.

(** What numpy guarantees about [np.random.choice(np.arange(n), size=n)]. *)
Definition valid_choice (choice : nat -> list nat) : Prop :=
  forall n, length (choice n) = n /\ Forall (fun i => i < n) (choice n).
(** ... and about [np.random.randint(0, a, size=b)]. *)
Definition valid_randint (randint : nat -> nat -> list nat) : Prop :=
  forall a b, 0 < a -> length (randint a b) = b /\ Forall (fun i => i < a) (randint a b).
