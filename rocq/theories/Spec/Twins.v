(** Specifications for C112: hidden neurons that are alike, and silent ones. *)
From Coq Require Import List Reals.
From Verif.Spec Require Import Common Smo Network.
Import ListNotations.
Local Open Scope R_scope.

(** Neurons [i] and [j] of the hidden layer [k] have the same weights and the same bias,
    and every neuron of the next layer gives both the same weight. *)
Definition alike (k i j : nat) (ls : list neurons) : Prop :=
  exists w b w' b', nth_error ls k = Some (w, b) /\ nth_error ls (S k) = Some (w', b') /\
    (i < length w)%nat /\ (j < length w)%nat /\ (i < length b)%nat /\ (j < length b)%nat /\
    nth i w [] = nth j w [] /\ nth i b 0 = nth j b 0 /\
    Forall (fun r => (i < length r)%nat /\ (j < length r)%nat /\ nth i r 0 = nth j r 0) w'.

(** The weights of neuron [i] of the first layer, its bias, and the weights the second
    layer gives to it. *)
Definition neuron (i : nat) (ls : list neurons) : option (list R * R * list R) :=
  match ls with
  | l :: l' :: _ =>
      match nth_error (fst l) i, nth_error (snd l) i with
      | Some u, Some b => Some (u, b, map (fun r => nth i r 0) (fst l'))
      | _, _ => None
      end
  | _ => None
  end.
(** Neuron [i] of the first layer, which is a hidden one, has no positive score on the
    rows [x]. *)
Definition silent (i : nat) (x : list (list R)) (ls : list neurons) : Prop :=
  exists u b v, neuron i ls = Some (u, b, v) /\ forall r, In r x -> inner r u + b <= 0.
