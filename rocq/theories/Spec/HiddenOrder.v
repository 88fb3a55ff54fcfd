(** Vocabulary for C114: the neurons of a hidden layer in another order. *)
From Coq Require Import List Reals.
From Verif.Spec Require Import Common Network Units Columns.
Import ListNotations.
Local Open Scope R_scope.

(** The rows of a matrix in the order [s]. *)
Definition rows_in_order (s : list nat) (w : list (list R)) : list (list R) := map (fun i => nth i w []) s.

(** Layer [k] has [h] neurons, and there is a next layer, which is not empty and whose
    neurons have one weight for each of them. *)
Fixpoint hidden_layer (k h : nat) (ls : list neurons) : Prop :=
  match k, ls with
  | O, (w, b) :: (w', _) :: _ => length w = h /\ length b = h /\ w' <> [] /\ width h w'
  | S k', _ :: t => hidden_layer k' h t
  | _, _ => False
  end.

(** The same network with the neurons of layer [k] in the order [s]: their weights and
    biases, and the weights the next layer gives to them, are moved. *)
Fixpoint neurons_moved (k : nat) (s : list nat) (ls : list neurons) : list neurons :=
  match k, ls with
  | O, (w, b) :: (w', b') :: t => (rows_in_order s w, reordered s b) :: (map (reordered s) w', b') :: t
  | S k', l :: t => l :: neurons_moved k' s t
  | _, _ => ls
  end.

(** Several moves, one after the other: the number of a layer and the new order of its
    neurons. Each layer must be a hidden layer of the network, and its order complete. *)
Definition all_moved (moves : list (nat * list nat)) (ls : list neurons) : list neurons :=
  fold_left (fun l m => neurons_moved (fst m) (snd m) l) moves ls.
Definition movable (moves : list (nat * list nat)) (ls : list neurons) : Prop :=
  Forall (fun m => exists h, hidden_layer (fst m) h ls /\ new_order h (snd m)) moves.
