(** Specifications for the data set properties (C08-C10). *)
From Coq Require Import List ZArith Reals String.
From Verif.Model Require Import Base Preprocessing Dataset.
Import ListNotations.

(** The code stored for sample [i]. *)
Definition stored_code (y : ydata) (i : nat) : option code :=
  match y with
  | YSparse l => option_map CodeInt (nth_error l i)
  | YOneHot l => option_map CodeVec (nth_error l i)
  | YMargin l => option_map CodeInt (nth_error l i)
  end.

(** The published map describes the stored codes. *)
Definition indices_agree {A} (O : TotalOrder A) (labels : list A) (y : ydata) (ci : dict A code) : Prop :=
  forall i l, nth_error labels i = Some l -> dict_get O ci l = stored_code y i /\ stored_code y i <> None.

(** Numbers in a feature cell, texts converted. *)
Definition as_number (parse : string -> option R) (c : fcell) : fcell :=
  match c with FTxt s => match parse s with Some r => FNum (Some r) | None => c end | _ => c end.

(** Every cell of the column is a number or a text that converts to one. *)
Definition numeric_column (parse : string -> option R) (c : list fcell) : bool :=
  forallb (fun x => match x with
    | FNum _ => true
    | FTxt s => match parse s with Some _ => true | None => false end end) c.
