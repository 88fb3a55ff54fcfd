(** Property theorems C08-C10: Dataset
    (classicML/backend/python/data/dataset.py). *)
From Coq Require Import List ZArith Reals String Lra Lia Bool Decimal DecimalNat DecimalString.
From Verif.Model Require Import Base Preprocessing Dataset.
From Verif.Spec Require Import Common Preprocessing Dataset.
From Verif.Proof Require Import BaseLemmas Preprocessing Dataset Features.
Import ListNotations.

(** Python's [str] on naturals and [int] on numerals, for the witnesses. *)
Definition py_str (n : nat) : string := NilZero.string_of_uint (Nat.to_uint n).
Definition py_int (s : string) : option Z :=
  option_map (fun u => Z.of_nat (Nat.of_uint u)) (NilZero.uint_of_string s).
Example py_int_str : forall n, py_int (py_str n) = Some (Z.of_nat n).
Proof.
  intros n. unfold py_int, py_str. rewrite NilZero.usu.
  - simpl. now rewrite DecimalNat.Unsigned.of_to.
  - destruct n; [discriminate|]. intros E. apply (f_equal Nat.of_uint) in E.
    rewrite DecimalNat.Unsigned.of_to in E. discriminate.
Qed.

(** ** C08 *)
Theorem C08_keyword_codes : forall (O : TotalOrder string) int_of,
  int_of "1"%string = Some 1%Z -> int_of "0"%string = Some 0%Z ->
  forall labels, num_distinct labels 2 ->
  (forall l, In l labels -> In l positive_key_words \/ In l negative_key_words) ->
  exists y a b, binary_text O int_of labels = Ok (y, [(a, 0%Z); (b, 1%Z)]) /\
    In a labels /\ In b labels /\ ltb O a b = true /\
    Forall2 (fun l c => (In l positive_key_words -> c = 1%Z) /\ (In l negative_key_words -> c = 0%Z)) labels y.
Proof. exact binary_text_codes. Qed.
Print Assumptions C08_keyword_codes.

Theorem C08_class_indices_agree_iff : forall (O : TotalOrder string) int_of,
  int_of "1"%string = Some 1%Z -> int_of "0"%string = Some 0%Z ->
  forall OZ put mode labels p n,
  In p labels -> In n labels -> (forall x, In x labels -> x = p \/ x = n) ->
  In p positive_key_words -> In n negative_key_words ->
  exists y ci, dataframe_text_labels O OZ put int_of mode labels = Ok (y, ci) /\
    (indices_agree O labels y ci <-> leb O n p = true).
Proof. exact keyword_agree_iff. Qed.
Print Assumptions C08_class_indices_agree_iff.

Theorem C08_other_text_rejected : forall (O : TotalOrder string) int_of labels l,
  In l labels -> ~ In l positive_key_words -> ~ In l negative_key_words -> int_of l = None ->
  binary_text O int_of labels = Err ValueError.
Proof. exact binary_text_rejects. Qed.
Print Assumptions C08_other_text_rejected.

Theorem C08_numeric_labels : forall labels a b mode,
  In a labels -> In b labels -> (forall x, In x labels -> x = a \/ x = b) -> (a < b)%Z ->
  (mode = Sparse -> dataframe_int_labels ZOrder mode labels =
      Ok (YSparse labels, [(a, CodeInt 0); (b, CodeInt 1)])) /\
  (mode <> Sparse -> (a, b) <> (0, 1)%Z -> dataframe_int_labels ZOrder mode labels = Err KeyError) /\
  (mode <> Sparse -> (a, b) = (0, 1)%Z -> exists y ci, dataframe_int_labels ZOrder mode labels = Ok (y, ci) /\
       indices_agree ZOrder labels y ci).
Proof. exact binary_ints_modes. Qed.
Print Assumptions C08_numeric_labels.

(** The pairs in one style agree, the mixed pair ('Y','n') is published reversed. *)
Example C08_same_style :
  forallb (fun np => leb stringOrder (fst np) (snd np)) (combine negative_key_words positive_key_words) = true.
Proof. vm_compute. reflexivity. Qed.
Theorem C08_class_indices_refuted : exists labels y ci i l,
  num_distinct labels 2 /\
  dataframe_text_labels stringOrder ZOrder py_str py_int Sparse labels = Ok (y, ci) /\
  nth_error labels i = Some l /\ stored_code y i = Some (CodeInt 1) /\ dict_get stringOrder ci l = Some (CodeInt 0).
Proof.
  exists ["Y"; "n"; "Y"]%string, (YSparse [1; 0; 1]%Z), [("Y", CodeInt 0); ("n", CodeInt 1)]%string, 0, "Y"%string.
  split; [|split; [vm_compute; reflexivity|split; [|split]; vm_compute; reflexivity]].
  exists ["Y"; "n"]%string. split; [repeat constructor; simpl; intuition discriminate|].
  split; [reflexivity|]. simpl; intuition.
Qed.
Print Assumptions C08_class_indices_refuted.
Example C08_witness : exists y ci,
  dataframe_text_labels stringOrder ZOrder py_str py_int OneHot ["yes"; "no"; "yes"]%string = Ok (y, ci) /\
  indices_agree stringOrder ["yes"; "no"; "yes"]%string y ci.
Proof.
  eexists _, _. split; [vm_compute; reflexivity|].
  intros [|[|[|i]]] l H; try (injection H as <-; split; [vm_compute; reflexivity|discriminate]).
  destruct i; discriminate.
Qed.

(** ** C09 *)
Theorem C09_integer_labels : forall labels,
  labels <> [] -> (forall z, In z labels -> (0 <= z)%Z) ->
  exists y ci, categorical ZOrder Z.of_nat Some [] labels = Ok (y, ci) /\
    Forall2 (fun l c => exists k, is_rank ZOrder labels l k /\ c = Z.of_nat k /\ dict_get ZOrder ci l = Some c) labels y.
Proof. exact categorical_ints. Qed.
Print Assumptions C09_integer_labels.

Theorem C09_text_labels : forall (O : TotalOrder string) put int_of labels,
  labels <> [] -> (forall i, int_of (put i) = Some (Z.of_nat i)) ->
  (forall i l, In l labels -> put i <> l) ->
  exists y ci, categorical O put int_of [] labels = Ok (y, ci) /\
    Forall2 (fun l c => exists k, is_rank O labels l k /\ c = Z.of_nat k /\ dict_get O ci l = Some c) labels y.
Proof. exact categorical_texts. Qed.
Print Assumptions C09_text_labels.

Theorem C09_integer_class_indices : forall mode labels n,
  num_distinct labels n -> n <> 0 -> n <> 2 -> (forall z, In z labels -> (0 <= z)%Z) ->
  exists y ci, dataframe_int_labels ZOrder mode labels = Ok (y, ci) /\ indices_agree ZOrder labels y ci.
Proof. exact dataframe_ints_agree. Qed.
Print Assumptions C09_integer_class_indices.

Theorem C09_text_class_indices : forall (O : TotalOrder string) OZ put int_of mode labels n,
  num_distinct labels n -> n <> 0 -> n <> 2 -> (forall i, int_of (put i) = Some (Z.of_nat i)) ->
  (forall i l, In l labels -> put i <> l) ->
  exists y ci, dataframe_text_labels O OZ put int_of mode labels = Ok (y, ci) /\ indices_agree O labels y ci.
Proof. exact dataframe_texts_agree. Qed.
Print Assumptions C09_text_class_indices.

(** With a negative label three classes are stored as one, while the
    published map still has three codes. *)
Theorem C09_merges_classes_refuted : exists labels y ci,
  num_distinct labels 3 /\ dataframe_int_labels ZOrder Sparse labels = Ok (YSparse y, ci) /\
  num_distinct y 1 /\ ~ indices_agree ZOrder labels (YSparse y) ci.
Proof.
  exists [-1; 0; 1]%Z. eexists _, _. split; [|split; [vm_compute; reflexivity|split]].
  - exists [-1; 0; 1]%Z. split; [repeat constructor; simpl; intuition discriminate|]. split; [reflexivity|tauto].
  - exists [2]%Z. split; [repeat constructor; simpl; tauto|]. split; [reflexivity|]. simpl; intuition.
  - intros H. destruct (H 0 (-1)%Z eq_refl) as [E _]. vm_compute in E. discriminate.
Qed.
Print Assumptions C09_merges_classes_refuted.

Theorem C09_merges_numeral_texts_refuted : exists labels y ci,
  num_distinct labels 3 /\
  dataframe_text_labels stringOrder ZOrder py_str py_int Sparse labels = Ok (YSparse y, ci) /\
  num_distinct y 1.
Proof.
  exists ["!"; "0"; "1"]%string. eexists _, _. split; [|split; [vm_compute; reflexivity|]].
  - exists ["!"; "0"; "1"]%string. split; [repeat constructor; simpl; intuition discriminate|]. split; [reflexivity|tauto].
  - exists [2]%Z. split; [repeat constructor; simpl; tauto|]. split; [reflexivity|]. simpl; intuition.
Qed.
Print Assumptions C09_merges_numeral_texts_refuted.

(** Labels that are Python integers (a column of objects) are stored as they are and
    published nowhere: the map is left empty, so no label has a published code. *)
Theorem C09_python_integers_refuted : forall labels, labels <> [] ->
  exists ci, categorical_pyint [] labels = Ok (labels, ci) /\ (forall l, dict_get ZOrder ci l = None) /\
  ~ indices_agree ZOrder labels (YSparse labels) (map (fun p => (fst p, CodeInt (snd p))) ci).
Proof.
  intros [|a labels] H; [congruence|]. exists []. split; [reflexivity|]. split; [reflexivity|].
  intros K. destruct (K 0 a eq_refl) as [E N]. cbn in E, N. congruence.
Qed.
Print Assumptions C09_python_integers_refuted.

Example C09_witness : exists y ci,
  dataframe_text_labels stringOrder ZOrder py_str py_int Sparse ["dog"; "cat"; "owl"; "cat"]%string = Ok (YSparse y, ci)
  /\ y = [1; 0; 2; 0]%Z.
Proof. eexists _, _; split; vm_compute; reflexivity. Qed.

(** ** C10 *)
Theorem C10_normalisation_wins : forall parse OS fl dt alias cols,
  (alias = true -> dt = DFloat) -> normalization fl = true ->
  preprocess_features parse OS (with_std true fl) dt alias cols =
  preprocess_features parse OS (with_std false fl) dt alias cols.
Proof. exact norm_wins. Qed.
Print Assumptions C10_normalisation_wins.

Theorem C10_columns_independent : forall parse OS fl dt alias cols fs,
  digitization fl = false -> preprocess_features parse OS fl dt alias cols = Ok fs ->
  Forall2 (fun c c' => preprocess_features parse OS fl dt alias [c] = Ok [c']) cols fs.
Proof. exact prep_local. Qed.
Print Assumptions C10_columns_independent.

(** With digitization: the numeric columns come first, in order, each as if
    alone; then the dummy columns of each text column, in order, as if alone. *)
Theorem C10_columns_independent_digitised : forall parse OS fl dt alias cols fs,
  digitization fl = true -> (forall c, In c cols -> c <> []) ->
  preprocess_features parse OS fl dt alias cols = Ok fs ->
  exists parts, Forall2 (fun c p => preprocess_features parse OS fl dt alias [c] = Ok p) cols parts /\
    map (map (as_number parse)) fs =
    map (map (as_number parse))
      (List.concat (map snd (filter (fun cp => numeric_column parse (fst cp)) (combine cols parts)))
       ++ List.concat (map snd (filter (fun cp => negb (numeric_column parse (fst cp))) (combine cols parts)))).
Proof. exact prep_digitised_numeric. Qed.
Print Assumptions C10_columns_independent_digitised.

Theorem C10_numeric_total : forall parse OS fl dt alias cols,
  (forall c, In c cols -> c <> [] /\ forall x, In x c -> exists o, x = FNum o) ->
  exists fs, preprocess_features parse OS fl dt alias cols = Ok fs /\ List.length fs = List.length cols.
Proof. exact prep_total_numeric. Qed.
Print Assumptions C10_numeric_total.

Theorem C10_normalised_column : forall parse OS dt alias xs out st,
  dt <> DInt -> minmax_call xs = Ok (out, st) ->
  preprocess_features parse OS norm_only dt alias [map (fun x => FNum (Some x)) xs] = Ok [map FNum out].
Proof. exact normalised_column. Qed.
Print Assumptions C10_normalised_column.

(** In an integer array the scaled values are truncated when stored. *)
Theorem C10_integer_array_truncated : forall parse OS alias xs, nonconstant xs ->
  exists ys, preprocess_features parse OS norm_only DInt alias [map (fun x => FNum (Some x)) xs] =
      Ok [map (fun y => FNum (Some y)) ys] /\
    Forall2 (fun x y => (is_max x xs -> y = 1%R) /\ (~ is_max x xs -> y = 0%R)) xs ys.
Proof. exact normalised_int_column. Qed.
Print Assumptions C10_integer_array_truncated.

Example C10_witness : exists fs,
  preprocess_features (fun _ => None) stringOrder
    {| standardization := false; normalization := false; digitization := true |} DObject false
    [[FTxt "b"; FTxt "a"]; [FNum (Some 3%R); FNum (Some 4%R)]]%string = Ok fs /\ List.length fs = 3.
Proof. eexists; split; [cbv -[IZR]; reflexivity|reflexivity]. Qed.
