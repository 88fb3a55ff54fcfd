(** Specifications for C21 and C22. *)
From Coq Require Import List ZArith Reals.
From Verif.Model Require Import Base Tree.
From Verif.Spec Require Import Tree.
Import ListNotations.
Local Open Scope R_scope.

(** Number of rows whose label the tree predicts. *)
Fixpoint correct (t : tree) (V : list (row * Z)) : nat :=
  match V with
  | [] => 0
  | (r, l) :: V' =>
      (match predict t r with Ok l' => if Z.eqb l' l then 1 else 0 | Err _ => 0 end) + correct t V'
  end.

(** [collapsed t t']: [t'] is [t] with some subtrees replaced by leaves; recorded
    leaf counts and heights may differ. *)
Inductive collapsed : tree -> tree -> Prop :=
| col_leaf t l : collapsed t (Leaf l)
| col_cont j v p n h n' h' g g' l l' : collapsed g g' -> collapsed l l' ->
    collapsed (Cont j v p n h g l) (Cont j v p n' h' g' l')
| col_disc j v n h n' h' kids kids' :
    Forall2 (fun k k' => fst k = fst k' /\ collapsed (snd k) (snd k')) kids kids' ->
    collapsed (Disc j v n h kids) (Disc j v n' h' kids').

(** Trees as the generator builds them: features are columns, the branches of a
    discrete node have different values and there is at least one. *)
Definition well_formed (w : nat) (t : tree) : Prop :=
  forall s, subtree s t ->
  match s with
  | Leaf _ => True
  | Cont j _ _ _ _ _ _ => (j < w)%nat
  | Disc j _ _ _ kids => (j < w)%nat /\ NoDup (map fst kids) /\ kids <> []
  end.

(** Every value of a row occurs in the same column of the training data. *)
Definition known_values (w : nat) (D V : list (row * Z)) : Prop :=
  forall r l j, In (r, l) V -> (j < w)%nat -> exists r' l', In (r', l') D /\ cell_at j r' = cell_at j r.

(** The label a branch would get: the most common label of the training rows
    with that value. *)
Definition branch_label (top : list Z -> Z) (j : nat) (D : list (row * Z)) (a : cell) (l : Z) : Prop :=
  exists part, labels_where (fun r => cell_at j r = a) D part /\ part <> [] /\ l = top part.

(** The same tree up to recorded leaf counts and heights. *)
Inductive same_shape : tree -> tree -> Prop :=
| ss_leaf l : same_shape (Leaf l) (Leaf l)
| ss_cont j v p n h n' h' g g' l l' : same_shape g g' -> same_shape l l' ->
    same_shape (Cont j v p n h g l) (Cont j v p n' h' g' l')
| ss_disc j v n h n' h' kids kids' :
    Forall2 (fun k k' => fst k = fst k' /\ same_shape (snd k) (snd k')) kids kids' ->
    same_shape (Disc j v n h kids) (Disc j v n' h' kids').

(** [arrives t D V s D' V']: the node [s] of [t] is reached by the training rows
    [D'] and the validation rows [V']. *)
Inductive arrives : tree -> list (row * Z) -> list (row * Z) -> tree -> list (row * Z) -> list (row * Z) -> Prop :=
| arr_here t D V : arrives t D V t D V
| arr_ge j v p n h g l D V s D' V' :
    arrives g (filter (fun q => cell_ge p (cell_at j (fst q))) D) (filter (fun q => cell_ge p (cell_at j (fst q))) V) s D' V' ->
    arrives (Cont j v p n h g l) D V s D' V'
| arr_lt j v p n h g l D V s D' V' :
    arrives l (filter (fun q => cell_lt p (cell_at j (fst q))) D) (filter (fun q => cell_lt p (cell_at j (fst q))) V) s D' V' ->
    arrives (Cont j v p n h g l) D V s D' V'
| arr_kid j v n h kids a k D V s D' V' : In (a, k) kids ->
    arrives k (filter (fun q => if cell_eq_dec (cell_at j (fst q)) a then true else false) D)
              (filter (fun q => if cell_eq_dec (cell_at j (fst q)) a then true else false) V) s D' V' ->
    arrives (Disc j v n h kids) D V s D' V'.

(** A split all of whose branches are leaves. *)
Definition bottom_split (t : tree) : Prop :=
  match t with
  | Leaf _ => False
  | Cont _ _ _ _ _ g l => (exists a, g = Leaf a) /\ (exists b, l = Leaf b)
  | Disc _ _ _ _ kids => forall a k, In (a, k) kids -> exists b, k = Leaf b
  end.
