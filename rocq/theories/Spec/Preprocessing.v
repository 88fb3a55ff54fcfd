(** Specifications for the preprocessing properties (C01-C07). *)
From Coq Require Import List Reals ZArith String.
From Verif.Model Require Import Base Preprocessing.
Import ListNotations.

Definition nonconstant (l : list R) : Prop := exists a b, In a l /\ In b l /\ a <> b.

(** [occurs c n l]: [c] occurs exactly [n] times in [l]. *)
Inductive occurs {A} (c : A) : nat -> list A -> Prop :=
| occ_nil : occurs c 0 []
| occ_yes n l : occurs c n l -> occurs c (S n) (c :: l)
| occ_no n d l : d <> c -> occurs c n l -> occurs c n (d :: l).

Definition most_frequent {A} (c : A) (l : list A) : Prop :=
  In c l /\ forall c' n n', occurs c n l -> occurs c' n' l -> (n' <= n)%nat.

(** Observed values of a column that converts to numbers. *)
Inductive observed_numbers (parse : string -> option R) : list (option cell) -> list R -> Prop :=
| on_nil : observed_numbers parse [] []
| on_none t rs : observed_numbers parse t rs -> observed_numbers parse (None :: t) rs
| on_some c r t rs : to_float parse c = Some r -> observed_numbers parse t rs ->
    observed_numbers parse (Some c :: t) (r :: rs).


(** The observed cells of a column. *)
Definition observed_cells (col : list (option cell)) (cs : list cell) : Prop :=
  map Some cs = filter (fun o => match o with Some _ => true | None => false end) col.

(** What imputing one column must do: a numeric column keeps its numbers and
    gets their mean in the gaps, any other column keeps its cells and gets one
    most frequent cell in all gaps. *)
Definition imputed (parse : string -> option R) (col out : list (option cell)) : Prop :=
  (exists rs m, observed_numbers parse col rs /\ (m * INR (List.length rs) = fold_right Rplus 0%R rs)%R /\
     Forall2 (fun o o' => match o with
       | Some c => exists r, to_float parse c = Some r /\ o' = Some (CNum r)
       | None => o' = Some (CNum m) end) col out)
  \/
  (exists c cs w, In (Some c) col /\ to_float parse c = None /\ observed_cells col cs /\
     most_frequent w cs /\
     Forall2 (fun o o' => match o with Some c => o' = Some c | None => o' = Some w end) col out).
