(** Property theorems C01-C07: encoders, scalers and imputer
    (classicML/backend/python/data/preprocessing.py). *)
From Coq Require Import List ZArith Reals String Lra Lia.
From Verif.Model Require Import Base Preprocessing.
From Verif.Spec Require Import Common Preprocessing.
From Verif.Proof Require Import BaseLemmas Preprocessing.
Import ListNotations.

(** ** C01 *)
Theorem C01_minmax_range_and_order : forall data out st,
  minmax_call data = Ok (out, st) -> nonconstant data ->
  exists zs, out = map Some zs /\ List.length zs = List.length data /\
    (forall z, In z zs -> 0 <= z <= 1)%R /\
    (forall i x z, nth_error data i = Some x -> nth_error zs i = Some z ->
        (is_min x data -> z = 0%R) /\ (is_max x data -> z = 1%R)) /\
    (forall i j x x' z z', nth_error data i = Some x -> nth_error data j = Some x' ->
        nth_error zs i = Some z -> nth_error zs j = Some z' -> (x < x' <-> z < z')%R).
Proof. exact minmax_props. Qed.
Print Assumptions C01_minmax_range_and_order.

(** A matrix with [axis=0] is scaled column by column. *)
Theorem C01_minmax_matrix_columns : forall n data, data <> [] ->
  exists out stats, minmax_call2 Axis0 n data = Ok (out, stats) /\
    List.length out = List.length data /\ List.length stats = n /\
    (forall row, In row out -> List.length row = n) /\
    forall j, (j < n)%nat -> exists o st, minmax_call (column 0%R data j) = Ok (o, st) /\
       column None out j = o /\ nth_error stats j = Some st.
Proof. exact minmax2_axis0. Qed.
Print Assumptions C01_minmax_matrix_columns.

(** Constant columns give NaN everywhere. *)
Theorem C01_minmax_constant_is_nan : forall data out st,
  minmax_call data = Ok (out, st) -> (forall a b, In a data -> In b data -> a = b) ->
  out = map (fun _ => None) data.
Proof. exact minmax_constant_nan. Qed.
Print Assumptions C01_minmax_constant_is_nan.

(** With the default axis a non-square matrix is rejected, and a square one is
    scaled with the extremes of the wrong rows. *)
Theorem C01_minmax_default_axis_rejects : forall n data,
  (forall row, In row data -> List.length row = n) -> (2 <= n)%nat ->
  (2 <= List.length data)%nat -> List.length data <> n ->
  minmax_call2 AxisLast n data = Err ValueError.
Proof. exact minmax2_axis_last_rejects. Qed.
Print Assumptions C01_minmax_default_axis_rejects.

Theorem C01_minmax_default_axis_square : forall n data,
  (forall row, In row data -> List.length row = n) -> (1 <= n)%nat -> List.length data = n ->
  exists stats, minmax_call2 AxisLast n data =
    Ok (map (fun row => map (fun j => let st := nth j stats (0,0)%R in
            npdiv (nth j row 0%R - fst st) (snd st - fst st)) (seq 0 n)) data, stats) /\
    forall j row, nth_error data j = Some row ->
      is_min (fst (nth j stats (0,0)%R)) row /\ is_max (snd (nth j stats (0,0)%R)) row.
Proof. exact minmax2_axis_last_square. Qed.
Print Assumptions C01_minmax_default_axis_square.

(** A table with a single column becomes a square table without a single finite number,
    a table with a single row is scaled as a list. *)
Theorem C01_minmax_default_axis_one_column : forall data, data <> [] -> Forall (fun row => List.length row = 1%nat) data ->
  exists stats, minmax_call2 AxisLast 1 data = Ok (map (fun _ => map (fun _ => None) data) data, stats).
Proof. exact minmax2_one_column. Qed.
Print Assumptions C01_minmax_default_axis_one_column.
Theorem C01_minmax_default_axis_one_row : forall r, r <> [] ->
  exists o st, minmax_call r = Ok (o, st) /\ minmax_call2 AxisLast (List.length r) [r] = Ok ([o], [st]).
Proof. exact minmax2_one_row. Qed.
Print Assumptions C01_minmax_default_axis_one_row.

Example C01_witness : exists out st, minmax_call [2; 5; 3]%R = Ok (out, st) /\ nonconstant [2; 5; 3]%R.
Proof.
  destruct (minmax_ok [2; 5; 3]%R) as (o & s & H); [discriminate|].
  exists o, s; split; auto. exists 2%R, 5%R; simpl; repeat split; auto; lra.
Qed.

(** ** C02 *)
Theorem C02_minmax_inverse : forall data out st,
  minmax_call data = Ok (out, st) -> nonconstant data -> minmax_inverse st out = map Some data.
Proof. exact minmax_inverse_roundtrip. Qed.
Print Assumptions C02_minmax_inverse.

Theorem C02_minmax_inverse_matrix : forall n data out stats,
  data <> [] -> (forall row, In row data -> List.length row = n) ->
  (forall j, (j < n)%nat -> nonconstant (column 0%R data j)) ->
  minmax_call2 Axis0 n data = Ok (out, stats) ->
  minmax_inverse2 n stats out = Ok (map (map Some) data).
Proof. exact minmax2_roundtrip. Qed.
Print Assumptions C02_minmax_inverse_matrix.

Theorem C02_standard_inverse : forall data, rvar data <> 0%R ->
  standard_inverse (snd (standard_call data)) (fst (standard_call data)) = map Some data.
Proof. exact standard_roundtrip. Qed.
Print Assumptions C02_standard_inverse.

Theorem C02_standard_inverse_matrix : forall n data out stats,
  data <> [] -> (forall row, In row data -> List.length row = n) ->
  (forall j, (j < n)%nat -> nonconstant (column 0%R data j)) ->
  standard_call2 Axis0 n data = Ok (out, stats) ->
  standard_inverse2 n stats out = Ok (map (map Some) data).
Proof. exact standard2_roundtrip. Qed.
Print Assumptions C02_standard_inverse_matrix.

Example C02_witness : exists out st, minmax_call2 Axis0 2 [[1; 5]; [2; 3]]%R = Ok (out, st) /\
  forall j, (j < 2)%nat -> nonconstant (column 0%R [[1; 5]; [2; 3]]%R j).
Proof.
  destruct (minmax2_axis0 2 [[1; 5]; [2; 3]]%R) as (o & s & H & _); [discriminate|].
  exists o, s; split; auto. intros [|[|j]] Hj; try lia.
  - exists 1%R, 2%R; simpl; repeat split; auto; lra.
  - exists 5%R, 3%R; simpl; repeat split; auto; lra.
Qed.

(** ** C03 *)
Theorem C03_standard_mean_zero_variance_inverse : forall data, data <> [] -> rvar data <> 0%R ->
  exists zs, fst (standard_call data) = map Some zs /\ List.length zs = List.length data /\
     mean_of zs 0 /\ variance_of zs (/ rvar data).
Proof. exact standard_mean_var. Qed.
Print Assumptions C03_standard_mean_zero_variance_inverse.

(** The fitted statistic is the population variance and vanishes exactly on
    constant columns, where the result is NaN. *)
Theorem C03_fitted_variance : forall data, data <> [] ->
  mean_of data (fst (snd (standard_call data))) /\ variance_of data (snd (snd (standard_call data))).
Proof. exact standard_fitted. Qed.
Print Assumptions C03_fitted_variance.

Theorem C03_variance_zero_iff_constant : forall data, data <> [] ->
  (rvar data = 0%R <-> forall a b, In a data -> In b data -> a = b).
Proof. exact rvar_zero_constant. Qed.
Print Assumptions C03_variance_zero_iff_constant.

Theorem C03_constant_is_nan : forall data,
  rvar data = 0%R -> fst (standard_call data) = map (fun _ => None) data.
Proof. exact standard_constant_nan. Qed.
Print Assumptions C03_constant_is_nan.

Theorem C03_standard_matrix_columns : forall n data,
  exists out stats, standard_call2 Axis0 n data = Ok (out, stats) /\
    List.length out = List.length data /\ List.length stats = n /\
    forall j, (j < n)%nat ->
       column None out j = fst (standard_call (column 0%R data j)) /\
       nth_error stats j = Some (snd (standard_call (column 0%R data j))).
Proof. exact standard2_axis0. Qed.
Print Assumptions C03_standard_matrix_columns.

(** The default axis: tables with at least two rows and columns that are not square are
    rejected, a single column becomes a square table without a finite number, a single
    row is scaled as a list. *)
Theorem C03_standard_default_axis_rejects : forall n data, (2 <= n)%nat -> (2 <= List.length data)%nat -> List.length data <> n ->
  standard_call2 AxisLast n data = Err ValueError.
Proof. exact standard2_rejects. Qed.
Print Assumptions C03_standard_default_axis_rejects.
Theorem C03_standard_default_axis_one_column : forall data, Forall (fun row => List.length row = 1%nat) data ->
  exists stats, standard_call2 AxisLast 1 data = Ok (map (fun _ => map (fun _ => None) data) data, stats).
Proof. exact standard2_one_column. Qed.
Print Assumptions C03_standard_default_axis_one_column.
Theorem C03_standard_default_axis_one_row : forall r,
  standard_call2 AxisLast (List.length r) [r] = Ok ([fst (standard_call r)], [snd (standard_call r)]).
Proof. exact standard2_one_row. Qed.
Print Assumptions C03_standard_default_axis_one_row.

(** The documented unit variance fails: column (0, 4) has variance 4 and is
    mapped to variance 1/4. *)
Theorem C03_unit_variance_refuted : exists data zs,
  fst (standard_call data) = map Some zs /\ nonconstant data /\ ~ variance_of zs 1.
Proof. exact standard_unit_variance_refuted. Qed.
Print Assumptions C03_unit_variance_refuted.

Example C03_witness : rvar [0; 4]%R <> 0%R /\ rvar [3; 3]%R = 0%R.
Proof. split; unfold rvar, rmean, rsum; cbn; lra. Qed.

(** ** C04 *)
Theorem C04_onehot_rows : forall A (O : TotalOrder A) ci labels,
  exists rows ci' n, onehot_call O ci labels = Ok (rows, ci') /\
    num_distinct labels n /\
    Forall2 (fun l row => exists k, is_rank O labels l k /\ k < n /\ unit_vector n k row /\
                          dict_get O ci' l = Some row) labels rows.
Proof. exact @onehot_spec. Qed.
Print Assumptions C04_onehot_rows.

Theorem C04_onehot_injective : forall A (O : TotalOrder A) ci labels rows ci' i j li lj ri rj,
  onehot_call O ci labels = Ok (rows, ci') ->
  nth_error labels i = Some li -> nth_error labels j = Some lj ->
  nth_error rows i = Some ri -> nth_error rows j = Some rj ->
  (ri = rj <-> li = lj).
Proof. exact @onehot_rows_eq. Qed.
Print Assumptions C04_onehot_injective.

(** On a fresh encoder the published dictionary has exactly the labels of the
    data as keys and decodes: a row stands for one label only. *)
Theorem C04_onehot_decodable : forall A (O : TotalOrder A) labels rows ci',
  onehot_call O [] labels = Ok (rows, ci') ->
  (forall l, In l labels <-> exists row, dict_get O ci' l = Some row) /\
  (forall l l' row, dict_get O ci' l = Some row -> dict_get O ci' l' = Some row -> l = l').
Proof. exact @onehot_decodable. Qed.
Print Assumptions C04_onehot_decodable.

Example C04_witness : onehot_call ZOrder [] [7; -2; 7; 3]%Z
  = Ok ([[0;0;1];[1;0;0];[0;0;1];[0;1;0]]%Z,
        [(-2,[1;0;0]);(3,[0;1;0]);(7,[0;0;1])]%Z).
Proof. vm_compute. reflexivity. Qed.

(** ** C05 *)
Theorem C05_dummy_rows : forall A (O : TotalOrder A) ci labels,
  exists rows ci' n, dummy_call O ci labels = Ok (rows, ci') /\
    num_distinct labels n /\
    Forall2 (fun l row => exists k, is_rank O labels l k /\ k < n /\ unit_vector n k row /\
                          dict_get O ci' l = Some k) labels rows.
Proof. exact @dummy_spec. Qed.
Print Assumptions C05_dummy_rows.

(** The published codes are strictly monotone in the labels and are exactly
    0..n-1 on a fresh encoder. *)
Theorem C05_dummy_order_isomorphism : forall A (O : TotalOrder A) labels rows ci',
  dummy_call O [] labels = Ok (rows, ci') ->
  exists n, num_distinct labels n /\
  (forall l k, dict_get O ci' l = Some k -> In l labels /\ k < n) /\
  (forall l, In l labels -> exists k, dict_get O ci' l = Some k) /\
  (forall k, k < n -> exists l, dict_get O ci' l = Some k) /\
  (forall l l' k k', dict_get O ci' l = Some k -> dict_get O ci' l' = Some k' ->
      (k <= k' <-> leb O l l' = true)).
Proof. exact @dummy_order_iso. Qed.
Print Assumptions C05_dummy_order_isomorphism.

Example C05_witness : dummy_call ZOrder [] [7; -2; 7; 3]%Z
  = Ok ([[0;0;1];[1;0;0];[0;0;1];[0;1;0]]%Z, [((-2)%Z,0);(3%Z,1);(7%Z,2)]).
Proof. vm_compute. reflexivity. Qed.

(** ** C06 *)
Theorem C06_maxmargin_codes : forall A (O : TotalOrder A) ci labels,
  exists codes ci', maxmargin_call O ci labels = Ok (codes, ci') /\
    Forall2 (fun l c => ((forall w, In w labels -> leb O l w = true) -> c = (-1)%Z) /\
                        ((exists w, In w labels /\ leb O l w = false) -> c = 1%Z) /\
                        dict_get O ci' l = Some c) labels codes.
Proof. exact @maxmargin_spec. Qed.
Print Assumptions C06_maxmargin_codes.

Theorem C06_maxmargin_two_classes_injective : forall A (O : TotalOrder A) ci labels codes ci',
  num_distinct labels 2 -> maxmargin_call O ci labels = Ok (codes, ci') ->
  forall i j li lj ri rj,
  nth_error labels i = Some li -> nth_error labels j = Some lj ->
  nth_error codes i = Some ri -> nth_error codes j = Some rj ->
  (ri = rj <-> li = lj).
Proof. exact @maxmargin_two_classes. Qed.
Print Assumptions C06_maxmargin_two_classes_injective.

Theorem C06_maxmargin_merges : forall A (O : TotalOrder A) ci labels codes ci' i j li lj ri rj,
  maxmargin_call O ci labels = Ok (codes, ci') ->
  nth_error labels i = Some li -> nth_error labels j = Some lj ->
  nth_error codes i = Some ri -> nth_error codes j = Some rj ->
  (ri = rj <-> (is_rank O labels li 0 <-> is_rank O labels lj 0)).
Proof. exact @maxmargin_codes. Qed.
Print Assumptions C06_maxmargin_merges.

Example C06_witness : maxmargin_call ZOrder [] [7; -2; 3]%Z
  = Ok ([1; -1; 1]%Z, [(-2,-1);(3,1);(7,1)]%Z).
Proof. vm_compute. reflexivity. Qed.

(** ** C07 *)
Theorem C07_imputer : forall parse mode cols,
  (forall l, l <> [] -> most_frequent (mode l) l) ->
  (forall col, In col cols -> exists c, In (Some c) col) ->
  Forall2 (fun col out => imputed parse col out /\ forall o, In o out -> o <> None)
    cols (imputer_call parse mode cols) /\
  imputer_call parse mode (imputer_call parse mode cols) = imputer_call parse mode cols.
Proof. exact imputer_spec. Qed.
Print Assumptions C07_imputer.

(** A column without any observed value stays as it is. *)
Theorem C07_all_missing_unchanged : forall parse mode col,
  (forall c, ~ In (Some c) col) -> fillna_col parse mode col = col.
Proof. exact fillna_all_missing. Qed.
Print Assumptions C07_all_missing_unchanged.

(** Oracles with the required property exist, and a mixed table meets the hypotheses. *)
Example C07_witness : exists mode, (forall l : list cell, l <> [] -> most_frequent (mode l) l) /\
  (forall col, In col [[Some (CNum 1); None; Some (CNum 3)]; [None; Some (CStr "a"); None]] ->
     exists c, In (Some c) col).
Proof.
  destruct mode_exists as (mode & Hm). exists mode. split; auto.
  simpl. intros col [<-|[<-|[]]]; [exists (CNum 1)|exists (CStr "a")]; simpl; auto.
Qed.
