(** Vocabulary for C115: the classes of a network in another order. *)
From Coq Require Import List Reals.
From Verif.Spec Require Import Common Network Units Columns HiddenOrder.
Import ListNotations.
Local Open Scope R_scope.

(** The last layer has [c] neurons, one for each class. *)
Fixpoint output_layer (c : nat) (ls : list neurons) : Prop :=
  match ls with
  | [] => False
  | [(w, b)] => length w = c /\ length b = c
  | _ :: t => output_layer c t
  end.
(** The same network with the neurons of the last layer in the order [s]. *)
Fixpoint outputs_moved (s : list nat) (ls : list neurons) : list neurons :=
  match ls with
  | [] => []
  | [(w, b)] => [(rows_in_order s w, reordered s b)]
  | l :: t => l :: outputs_moved s t
  end.
(** One entry of the row is greater than all others. *)
Definition one_greatest (r : list R) : Prop :=
  exists k, (k < length r)%nat /\ forall j, (j < length r)%nat -> j <> k -> nth j r 0 < nth k r 0.
