(** Specifications for C23 and C63. *)
From Coq Require Import List ZArith Reals.
From Verif.Model Require Import Base Stump.
From Verif.Spec Require Import Common.
Import ListNotations.
Local Open Scope R_scope.

(** A one-feature rule: the rows on one side of [t] are negative. *)
Inductive rule := NegativeFrom (j : nat) (t : R) | NegativeBelow (j : nat) (t : R).
Definition says (u : rule) (r : list R) (l : Z) : Prop :=
  match u with
  | NegativeFrom j t => t <= nth j r 0 /\ l = (-1)%Z \/ nth j r 0 < t /\ l = 1%Z
  | NegativeBelow j t => nth j r 0 < t /\ l = (-1)%Z \/ t <= nth j r 0 /\ l = 1%Z
  end.
(** The number of training rows a rule gets wrong. *)
Definition mistakes (u : rule) (D : list (list R * Z)) (n : nat) : Prop :=
  how_many (fun p => ~ says u (fst p) (snd p)) D n.
(** The threshold separates the training rows. *)
Definition separates (u : rule) (D : list (list R * Z)) : Prop :=
  let '(j, t) := match u with NegativeFrom j t => (j, t) | NegativeBelow j t => (j, t) end in
  (exists p, In p D /\ nth j (fst p) 0 < t) /\ (exists p, In p D /\ t <= nth j (fst p) 0).
Definition feature_of (u : rule) : nat := match u with NegativeFrom j _ | NegativeBelow j _ => j end.

Definition plus_minus (D : list (list R * Z)) : Prop := forall p, In p D -> (snd p = 1 \/ snd p = -1)%Z.

(** Weighted samples with labels -1 and 1: [mass P D m] means that the samples
    satisfying [P] weigh [m] together. *)
Inductive mass (P : list R * Z -> Prop) : list sample -> R -> Prop :=
| mass_nil : mass P [] 0
| mass_in s w D m : P s -> mass P D m -> mass P ((s, w) :: D) (w + m)
| mass_out s w D m : ~ P s -> mass P D m -> mass P ((s, w) :: D) m.

(** The Gini impurity of a group with positive mass [p] and negative mass [n],
    times its mass: (p+n) * 2 (p/(p+n)) (n/(p+n)). *)
Definition impure_mass (p n : R) : R := if Req_EM_T (p + n) 0 then 0 else 2 * p * n / (p + n).

(** Total impure mass when the samples of the region [G] are split by feature
    [j] at [t]. *)
Definition split_cost (D : list sample) (G : list R -> Prop) (j : nat) (t : R) (c : R) : Prop :=
  exists p1 n1 p0 n0,
    mass (fun s => snd s = 1%Z /\ G (fst s) /\ t <= nth j (fst s) 0) D p1 /\
    mass (fun s => snd s = (-1)%Z /\ G (fst s) /\ t <= nth j (fst s) 0) D n1 /\
    mass (fun s => snd s = 1%Z /\ G (fst s) /\ nth j (fst s) 0 < t) D p0 /\
    mass (fun s => snd s = (-1)%Z /\ G (fst s) /\ nth j (fst s) 0 < t) D n0 /\
    c = impure_mass p1 n1 + impure_mass p0 n0.

(** The threshold separates the samples of the region. *)
Definition separates_region (D : list sample) (G : list R -> Prop) (j : nat) (t : R) : Prop :=
  (exists s, In s D /\ G (s_row s) /\ nth j (s_row s) 0 < t) /\
  (exists s, In s D /\ G (s_row s) /\ t <= nth j (s_row s) 0).

Definition weighted_plus_minus (D : list sample) : Prop :=
  forall s, In s D -> (s_lab s = 1 \/ s_lab s = -1)%Z /\ 0 < s_w s.

(** Levels of splits and number of leaves. *)
Fixpoint tl_depth (t : tltree) : nat :=
  match t with TLeaf _ => 0 | TNode _ _ u l => S (Nat.max (tl_depth u) (tl_depth l)) end.
Fixpoint tl_leaves (t : tltree) : nat :=
  match t with TLeaf _ => 1 | TNode _ _ u l => tl_leaves u + tl_leaves l end.

(** [tl_at t d G s]: [s] is a node of [t] below [d] splits, and [G] is the region
    of rows that reach it. *)
Inductive tl_at : tltree -> nat -> (list R -> Prop) -> tltree -> Prop :=
| at_here t : tl_at t 0 (fun _ => True) t
| at_up j p u l d G s : tl_at u d G s -> tl_at (TNode j p u l) (S d) (fun r => p <= nth j r 0 /\ G r) s
| at_low j p u l d G s : tl_at l d G s -> tl_at (TNode j p u l) (S d) (fun r => nth j r 0 < p /\ G r) s.
