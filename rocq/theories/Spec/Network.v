(** Specifications for C49 and C50. *)
From Coq Require Import List Reals.
From Verif.Spec Require Import Common Smo.
Import ListNotations.
Local Open Scope R_scope.

(** A layer is a list of weight rows, one for each neuron, and their biases. *)
Definition neurons := (list (list R) * list R)%type.
(** The scores of a layer for the inputs [a]. *)
Definition scores (l : neurons) (a : list R) : list R :=
  map (fun n => inner a (fst n) + snd n) (combine (fst l) (snd l)).
(** The scores of the last layer; every other layer passes on its positive scores. *)
Fixpoint output_scores (ls : list neurons) (a : list R) : list R :=
  match ls with
  | [] => a
  | [l] => scores l a
  | l :: ls' => output_scores ls' (map (Rmax 0) (scores l a))
  end.
(** [d] inputs, [c] outputs, every neuron has one weight for each of its inputs. *)
Fixpoint wired (d : nat) (ls : list neurons) (c : nat) : Prop :=
  match ls with
  | [] => False
  | l :: ls' => fst l <> [] /\ Forall (fun r => length r = d) (fst l) /\ length (snd l) = length (fst l) /\
      match ls' with [] => length (fst l) = c | _ => wired (length (fst l)) ls' c end
  end.
(** No hidden neuron has the score 0, where Rmax 0 has no derivative. *)
Fixpoint away_from_kinks (ls : list neurons) (a : list R) : Prop :=
  match ls with
  | [] => True
  | [l] => True
  | l :: ls' => Forall (fun z => z <> 0) (scores l a) /\ away_from_kinks ls' (map (Rmax 0) (scores l a))
  end.

(** The probabilities of a row of scores. *)
Definition logistic (z : R) : R := 1 / (1 + exp (- z)).
Definition softmax_prob (z : list R) (k : nat) : R := exp (nth k z 0) / total (map exp z).
(** Cross-entropy of one sample: scores [z], label row [y]. *)
Definition class_loss (z y : list R) : R :=
  - sum_below (length z) (fun k => nth k y 0 * ln (softmax_prob z k)).
Definition two_class_loss (z y : list R) : R :=
  let p := logistic (nth 0 z 0) in - (nth 0 y 0 * ln p + (1 - nth 0 y 0) * ln (1 - p)).
Definition half_square (z y : list R) : R := logistic (nth 0 z 0) ^ 2 / 2.
(** The mean over the samples. *)
Definition mean_loss (loss : list R -> list R -> R) (ls : list neurons) (x y : list (list R)) : R :=
  total (map (fun p => loss (output_scores ls (fst p)) (snd p)) (combine x y)) / INR (length x).

(** The same numbers of layers, neurons and weights. *)
Definition same_network (a b : list neurons) : Prop :=
  Forall2 (fun l e => Forall2 (fun r s => length r = length s) (fst l) (fst e) /\ length (snd l) = length (snd e)) a b.
(** Every parameter moved by [t] times the entry of the direction [d]. *)
Definition shifted (t : R) (a b : list R) : list R := map (fun p => fst p + t * snd p) (combine a b).
Definition moved (t : R) (ls d : list neurons) : list neurons :=
  map (fun p => (map (fun q => shifted t (fst q) (snd q)) (combine (fst (fst p)) (fst (snd p))),
                 shifted t (snd (fst p)) (snd (snd p)))) (combine ls d).
(** The sum over all parameters of the entry of [g] times the entry of [d]. *)
Definition pairing (g d : list neurons) : R :=
  total (map (fun p => total (map (fun q => inner (fst q) (snd q)) (combine (fst (fst p)) (fst (snd p))))
                       + inner (snd (fst p)) (snd (snd p))) (combine g d)).
(** [g] is the gradient at [ls] of the function [f] of the parameters: its product
    with any direction is the derivative in that direction. *)
Definition gradient_of (f : list neurons -> R) (ls g : list neurons) : Prop :=
  same_network ls g /\ forall d, same_network ls d -> derivable_pt_lim (fun t => f (moved t ls d)) 0 (pairing g d).

(** A label row of [c] entries that sum to 1, as one-hot rows do. *)
Definition label_row (c : nat) (r : list R) : Prop := length r = c /\ total r = 1.

(** One parameter of a network. *)
Inductive place := Weight (layer neuron input : nat) | Bias (layer neuron : nat).
Definition at_place (q : place) (ls : list neurons) : R :=
  match q with
  | Weight k i j => nth j (nth i (fst (nth k ls ([], []))) []) 0
  | Bias k i => nth i (snd (nth k ls ([], []))) 0
  end.
Definition inside (q : place) (ls : list neurons) : Prop :=
  match q with
  | Weight k i j => (k < length ls)%nat /\ (i < length (fst (nth k ls ([], []))))%nat /\
                    (j < length (nth i (fst (nth k ls ([], []))) []))%nat
  | Bias k i => (k < length ls)%nat /\ (i < length (snd (nth k ls ([], []))))%nat
  end.
(** The exponentially decayed average of a history, the latest value last. *)
Definition decayed (b : R) (gs : list R) : R :=
  (1 - b) * sum_below (length gs) (fun k => b ^ (length gs - 1 - k) * nth k gs 0).
