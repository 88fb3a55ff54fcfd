(** Specifications for C88 and C89. *)
From Coq Require Import List Reals ZArith String Permutation.
From Verif.Model Require Import Base Kernels Svc.
From Verif.Spec Require Import Common Smo.
Import ListNotations.
Local Open Scope R_scope.

(** The kernel a name stands for, with the coefficient [c]. *)
Inductive named_kernel (c : R) : string -> (list R -> list R -> R) -> Prop :=
| named_linear : named_kernel c "linear" linear
| named_rbf : named_kernel c "rbf" (rbf c)
| named_gaussian : named_kernel c "gaussian" (rbf c)
| named_poly : named_kernel c "poly" (polynomial c 3)
| named_sigmoid : named_kernel c "sigmoid" (sigmoid_kernel c 1 (-1)).

(** The coefficient that a setting means for the samples [x] with [d] features. *)
Inductive coefficient_for (d : nat) (x : list (list R)) : gamma_value -> R -> Prop :=
| for_auto : (0 < d)%nat -> coefficient_for d x Auto (/ INR d)
| for_scale v : (0 < d)%nat -> List.concat x <> [] -> variance_of (List.concat x) v -> v <> 0 ->
    coefficient_for d x Scale (/ (INR d * v))
| for_number c : coefficient_for d x (Coefficient c) c.

(** [refitted o o']: [fit] was called on [o] any number of times, with any data and
    without [compile], and left [o']. *)
Inductive refitted (o : classifier) : classifier -> Prop :=
| refitted_not : refitted o o
| refitted_again o' d x y perms fuel epochs : refitted o o' -> refitted o (fst (fit d x y perms fuel epochs o')).

(** Samples with [d] features each. *)
Definition features (d : nat) (x : list (list R)) : Prop := Forall (fun r => List.length r = d) x.

(** The squared distance of two samples. *)
Fixpoint distance2 (a b : list R) : R :=
  match a, b with u :: a', v :: b' => (u - v) ^ 2 + distance2 a' b' | _, _ => 0 end.

(** [f] keeps the inner products of vectors with [d] entries, or their distances. *)
Definition keeps_inner (d : nat) (f : list R -> list R) : Prop :=
  forall a b, List.length a = d -> List.length b = d -> inner (f a) (f b) = inner a b.
Definition keeps_distance (d : nat) (f : list R -> list R) : Prop :=
  forall a b, List.length a = d -> List.length b = d -> distance2 (f a) (f b) = distance2 a b.

(** The columns in another order. *)
Definition reorder (p : list nat) (r : list R) : list R := map (fun j => nth j r 0) p.
(** Every entry moved by the entry of [t]. *)
Definition shift (t r : list R) : list R := map (fun ab => fst ab + snd ab) (combine r t).
