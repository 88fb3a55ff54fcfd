(** Specifications for C73 to C75. *)
From Coq Require Import List Arith Reals.
Import ListNotations.

(** Value number [k] of the sequence that a generator in state [g] produces, and
    the state after [k] values. *)
Fixpoint state_after {G A} (draw : G -> A * G) (g : G) (k : nat) : G :=
  match k with O => g | S k' => state_after draw (snd (draw g)) k' end.
Definition value_number {G A} (draw : G -> A * G) (g : G) (k : nat) : A := fst (draw (state_after draw g k)).

(** The number of weights in the layers before layer [k] of a structure. *)
Fixpoint weights_before (structure : list nat) (k : nat) : nat :=
  match structure, k with
  | i :: ((o :: _) as rest), S k' => o * i + weights_before rest k'
  | _, _ => 0
  end.

(** The sequence of values of a method that makes two at a time. *)
Definition paired_value {E} (two : E -> R * R * E) (e : E) (m : nat) : R :=
  let '(a, b, _) := two (state_after (fun e => two e) e (m / 2)) in if Nat.even m then a else b.
