(** Specifications for the loading methods (C76). *)
From Coq Require Import List ZArith Reals String.
From Verif.Model Require Import Base Dataset Loader.
Import ListNotations.

(** What a published table says about a raw label. *)
Inductive says : list (key * code) -> key -> code -> Prop :=
| says_here k c t : says ((k, c) :: t) k c
| says_later k c k' c' t : k <> k' -> says t k c -> says ((k', c') :: t) k c.

(** The raw labels of a column without missing values. *)
Definition raw_labels (c : fcolumn) (ks : list key) : Prop :=
  match c with
  | IntCol l => ks = map KInt l
  | FloatCol l => exists rs, l = map Some rs /\ ks = map KFloat rs
  | TextCol l => exists ss, l = map Some ss /\ ks = map KText ss
  end.

(** The code stored for sample [i]: in a table with one column, the number. *)
Definition code_at (y : yvalue) (i : nat) (c : code) : Prop :=
  match y with
  | Encoded (YSparse l) | Encoded (YMargin l) => exists z, nth_error l i = Some z /\ c = CodeInt z
  | Encoded (YOneHot l) => exists v, nth_error l i = Some v /\ c = CodeVec v
  | Table rows => exists z, nth_error rows i = Some [z] /\ c = CodeInt z
  end.

(** The data set describes its labels: one stored code for each, and the published
    table says that code. *)
Definition describes (d : dataset) (ks : list key) : Prop :=
  exists y, ds_y d = Some y /\ forall i k, nth_error ks i = Some k -> exists c, code_at y i c /\ says (ds_indices d) k c.

Definition unlabelled (c : config) : config :=
  {| is_test := is_test c; the_mode := Unsupervised; fill_missing := fill_missing c; the_flags := the_flags c |}.
Definition no_flags : flags := {| standardization := false; normalization := false; digitization := false |}.

(** The same column with its integers read as floats. *)
Definition as_floats (c : fcolumn) : fcolumn :=
  match c with IntCol l => FloatCol (map (fun z => Some (IZR z)) l) | c => c end.
