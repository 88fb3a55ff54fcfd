(** Model of the loading methods of classicML/backend/python/data/dataset.py 80-158:
    [from_dataframe] and [from_tensor_slices]. Not modelled: [from_csv] (106-124:
    pandas' reading of a text file, after which it calls [from_dataframe]) and
    [_convert_dtype] (160-177). The methods run on a fresh object; what [y] holds
    after the label part raised is modelled in Reload.v. *)
From Coq Require Import List ZArith Reals Bool Arith String.
From Verif.Model Require Import Base Preprocessing Dataset.
Import ListNotations.
Local Notation length := List.length.

(** A column of a DataFrame by its element type; None is a missing value. (the
    argument of dataset.py 80). *)
Inductive fcolumn := IntCol (l : list Z) | FloatCol (l : list (option R)) | TextCol (l : list (option string)).
(** The cells of a column (dataset.py 90-93). *)
Definition cells_of (c : fcolumn) : list (option cell) :=
  match c with
  | IntCol l => map (fun z => Some (CNum (IZR z))) l
  | FloatCol l => map (option_map CNum) l
  | TextCol l => map (option_map CStr) l
  end.
(** Element type of [dataframe.values]. (dataset.py 90-93). *)
Definition values_dtype (cols : list fcolumn) : fdtype :=
  if existsb (fun c => match c with TextCol _ => true | _ => false end) cols then DObject
  else if existsb (fun c => match c with FloatCol _ => true | _ => false end) cols then DFloat else DInt.
(** A cell of the array [features] (dataset.py 179-187). *)
Definition fcell_of (c : option cell) : fcell :=
  match c with None => FNum None | Some (CNum r) => FNum (Some r) | Some (CStr s) => FTxt s end.

(** The labels' mode: None (or an unknown name) is [Labels Sparse]. (dataset.py 54,
    69). *)
Inductive mode := Unsupervised | Labels (m : label_mode).
(** The constructor arguments (dataset.py 41-74). [dataset_type] matters only
    through the comparison with 'test' (96, 151). *)
Record config := { is_test : bool; the_mode : mode; fill_missing : bool; the_flags : flags }.

(** A raw label, as key of [class_indices]. (dataset.py 230, 243). *)
Inductive key := KText (s : string) | KInt (z : Z) | KFloat (r : R).
(** [y]: encoded, or a two-dimensional table. (dataset.py 77). *)
Inductive yvalue := Encoded (y : ydata) | Table (rows : list (list Z)).
(** The attributes [x], [y] and [class_indices] (dataset.py 76-78). *)
Record dataset := { ds_x : option (list (list fcell)); ds_y : option yvalue; ds_indices : dict key code }.
(** dataset.py 76-78: a new object. *)
Definition fresh : dataset := {| ds_x := None; ds_y := None; ds_indices := [] |}.

Section Loader.
Variable parse : string -> option R.
Variable frequent : list cell -> cell.
Variable OS : TotalOrder string.
Variable OZ : TotalOrder Z.
Variable OR : TotalOrder R.
Variable put : nat -> string.
Variable int_of : string -> option Z.

(** dataset.py 179-210 [_preprocessing_features]. *)
Definition features (c : config) (dt : fdtype) (alias : bool) (cols : list (list (option cell))) : result (list (list fcell)) :=
  let cols' := if fill_missing c then imputer_call parse frequent cols else cols in
  preprocess_features parse OS (the_flags c) dt alias (map (map fcell_of) cols').

(** Truncation towards zero, [astype(int)] on a float. (dataset.py 229, 245). *)
Definition ztrunc (r : R) : Z := if Rle_dec 0 r then Int_part r else (- Int_part (- r))%Z.
(** dataset.py 96-102 for float labels: no label equals a key word, and storing
    [str(i)] into a float array stores the number [i]. *)
Definition dataframe_float_labels (m : label_mode) (labels : list R) : result (ydata * dict R code) :=
  r <- (if length (np_unique OR labels) =? 2
        then (_ <- get_at labels 0 ;; ci <- two_indices (np_unique OR labels) ;; Ok (map ztrunc labels, ci))
        else categorical OR INR (fun r => Some (ztrunc r)) [] labels) ;;
  encoder_label OR OZ m (fst r) (snd r).

(** dataset.py 96-102: the last column decides. Missing texts cannot be sorted; a
    missing number has no integer value. *)
Definition frame_labels (m : label_mode) (c : fcolumn) : result (ydata * dict key code) :=
  match c with
  | IntCol l => r <- dataframe_int_labels OZ m l ;; Ok (fst r, map (fun kv => (KInt (fst kv), snd kv)) (snd r))
  | TextCol l =>
      match all_some l with
      | None => Err TypeError
      | Some l => r <- dataframe_text_labels OS OZ put int_of m l ;; Ok (fst r, map (fun kv => (KText (fst kv), snd kv)) (snd r))
      end
  | FloatCol l =>
      match all_some l with
      | None => Err NotANumber
      | Some l => r <- dataframe_float_labels m l ;; Ok (fst r, map (fun kv => (KFloat (fst kv), snd kv)) (snd r))
      end
  end.

(** dataset.py 80-104 [from_dataframe]: the object afterwards and the exception, if
    any.  [alias] tells whether the element type of the values is the configured
    float type. *)
Definition from_dataframe (c : config) (alias : bool) (frame : list fcolumn) : dataset * option err :=
  let cols := match the_mode c with Unsupervised => frame | Labels _ => removelast frame end in
  match features c (values_dtype cols) alias (map cells_of cols) with
  | Err e => (fresh, Some e)
  | Ok x =>
      let d := {| ds_x := Some x; ds_y := None; ds_indices := [] |} in
      match the_mode c with
      | Unsupervised => (d, None)
      | Labels m =>
          if is_test c then (d, None)
          else match rev frame with
               | [] => (d, Some IndexError)
               | l :: _ =>
                   match frame_labels m l with
                   | Err e => (d, Some e)
                   | Ok (y, ci) => ({| ds_x := Some x; ds_y := Some (Encoded y); ds_indices := ci |}, None)
                   end
               end
      end
  end.

(** The labels given to [from_tensor_slices]: a vector, or a table of [w] columns.
    (dataset.py 126, 142-145). *)
Inductive tensor := TVector (y : list Z) | TTable (w : nat) (rows : list (list Z)).
(** dataset.py 142-145: a vector becomes a column. *)
Definition tensor_rows (t : tensor) : nat * list (list Z) :=
  match t with TVector y => (1, map (fun z => [z]) y) | TTable w rows => (w, rows) end.
(** dataset.py 212-230 on a table: the first element is an array, nothing is
    replaced. *)
Definition binary_rows (rows : list (list Z)) : result (list (list Z) * dict Z Z) :=
  _ <- get_at rows 0 ;;
  ci <- two_indices (np_unique OZ (List.concat rows)) ;;
  Ok (rows, ci).
(** dataset.py 232-245 on a table: every element is replaced. *)
Definition categorical_rows (rows : list (list Z)) : result (list (list Z) * dict Z Z) :=
  _ <- get_at rows 0 ;;
  let '(l, ci) :=
    fold_left (fun st p =>
        (map (replace_all OZ (snd p) (Z.of_nat (fst p))) (fst st), dict_set OZ (snd st) (snd p) (Z.of_nat (fst p))))
      (enumerate (np_unique OZ (List.concat rows))) (rows, []) in
  Ok (l, ci).
(** dataset.py 247-254 on a table: the encoders look up [labels[i]], an array, in a
    dictionary; arrays are not hashable. *)
Definition encode_rows (m : label_mode) (rows : list (list Z)) : result unit :=
  match m, rows with Sparse, _ => Ok tt | _, [] => Ok tt | _, _ :: _ => Err TypeError end.

(** dataset.py 126-158 [from_tensor_slices]: [x] by columns, already of the
    configured float type. *)
Definition from_tensor_slices (c : config) (x : list (list (option R))) (y : option tensor) : dataset * option err :=
  match features c DFloat true (map (map (option_map CNum)) x) with
  | Err e => (fresh, Some e)
  | Ok fs =>
      let d := {| ds_x := Some fs; ds_y := None; ds_indices := [] |} in
      if is_test c then (d, None)
      else match y with
           | None => (d, Some AttributeError)
           | Some t =>
               let '(w, rows) := tensor_rows t in
               let m := match the_mode c with Unsupervised => Sparse | Labels m => m end in
               match (r <- (if 2 <? w then categorical_rows rows else binary_rows rows) ;; _ <- encode_rows m (fst r) ;; Ok r) with
               | Err e => (d, Some e)
               | Ok (rows', ci) =>
                   ({| ds_x := Some fs; ds_y := Some (Table rows'); ds_indices := map (fun kv => (KInt (fst kv), CodeInt (snd kv))) ci |}, None)
               end
           end
  end.
End Loader.
