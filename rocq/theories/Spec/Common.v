(** Small specifications that do not mention the model's helper functions. *)
From Coq Require Import List Reals ZArith.
From Verif.Model Require Import Base.
Import ListNotations.

(** [n] is the rank of [v] in [y]: the number of distinct elements of [y]
    strictly below [v]. *)
Definition is_rank {A} (O : TotalOrder A) (y : list A) (v : A) (n : nat) : Prop :=
  exists smaller, NoDup smaller /\ length smaller = n /\
    forall w, In w smaller <-> (In w y /\ leb O w v = true /\ w <> v).

(** [k] is the number of distinct elements of [y]. *)
Definition num_distinct {A} (y : list A) (k : nat) : Prop :=
  exists d, NoDup d /\ length d = k /\ forall w, In w d <-> In w y.

(** [row] has length [n], 1 at position [k] and 0 everywhere else. *)
Definition unit_vector (n k : nat) (row : list Z) : Prop :=
  length row = n /\ (k < n)%nat /\
  forall j, (j < n)%nat -> nth j row 0%Z = if Nat.eqb j k then 1%Z else 0%Z.

Definition is_min (x : R) (l : list R) : Prop := In x l /\ forall z, In z l -> (x <= z)%R.
Definition is_max (x : R) (l : list R) : Prop := In x l /\ forall z, In z l -> (z <= x)%R.

(** Population mean and variance written out with [fold_right]. *)
Definition total (l : list R) : R := fold_right Rplus 0%R l.
Definition mean_of (l : list R) (m : R) : Prop := (m * INR (length l) = total l)%R.
Definition variance_of (l : list R) (v : R) : Prop :=
  exists m, mean_of l m /\
    (v * INR (length l) = total (map (fun x => (x - m) ^ 2) l))%R.

(** [how_many P l n]: exactly [n] elements of [l] satisfy [P]. *)
Inductive how_many {A} (P : A -> Prop) : list A -> nat -> Prop :=
| hm_nil : how_many P [] 0
| hm_yes a l n : P a -> how_many P l n -> how_many P (a :: l) (S n)
| hm_no a l n : ~ P a -> how_many P l n -> how_many P (a :: l) n.
