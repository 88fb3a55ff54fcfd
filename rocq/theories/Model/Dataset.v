(** Model of classicML/backend/python/data/dataset.py 160-267: conversion of the
    labels and of the features. The loading methods are in Loader.v. *)
From Coq Require Import List ZArith Reals Bool Arith String.
From Verif.Model Require Import Base Preprocessing.
Import ListNotations.
Local Notation length := List.length.

(** ** Labels *)

(** The values of [label_mode] (dataset.py 41-78). *)
Inductive label_mode := Sparse | OneHot | MaxMargin.

(** What [Dataset.y] can hold after encoding. (dataset.py 247-254). *)
Inductive ydata :=
| YSparse (y : list Z)
| YOneHot (y : list (list Z))
| YMargin (y : list Z).

(** A value of [Dataset.class_indices]. (dataset.py 212-267). *)
Inductive code := CodeInt (z : Z) | CodeVec (v : list Z).

(** dataset.py 220. *)
Definition positive_key_words : list string := ["是"; "y"; "yes"; "Yes"; "YES"; "Y"]%string.
(** dataset.py 221. *)
Definition negative_key_words : list string := ["否"; "n"; "no"; "No"; "NO"; "N"]%string.

(** dataset.py 229-230: [{raw[0]: 0, raw[1]: 1}]. *)
Definition two_indices {A} (raw : list A) : result (dict A Z) :=
  r0 <- get_at raw 0 ;; r1 <- get_at raw 1 ;; Ok [(r0, 0%Z); (r1, 1%Z)].

(** dataset.py 212-230 [_preprocessing_binary_labels] on text labels.
    [int_of] is Python's conversion of a text to an integer ([None] = ValueError). *)
Definition binary_text (O : TotalOrder string) (int_of : string -> option Z)
  (labels : list string) : result (list Z * dict string Z) :=
  let raw := np_unique O labels in
  _ <- get_at labels 0 ;;
  let l1 := fold_left (fun l w => replace_all O w "1"%string l) positive_key_words labels in
  let l2 := fold_left (fun l w => replace_all O w "0"%string l) negative_key_words l1 in
  y <- mapM (fun s => match int_of s with Some z => Ok z | None => Err ValueError end) l2 ;;
  ci <- two_indices raw ;;
  Ok (y, ci).

(** dataset.py 212-230 on integer labels: no element equals a key word. *)
Definition binary_ints (O : TotalOrder Z) (labels : list Z) : result (list Z * dict Z Z) :=
  let raw := np_unique O labels in
  _ <- get_at labels 0 ;;
  ci <- two_indices raw ;;
  Ok (labels, ci).

(** dataset.py 232-245 [_preprocessing_categorical_labels] for labels whose
    Python type is not [int].  [put i] is what storing [str(i)] into the label
    array yields (the text itself, or the integer [i] in an integer array);
    [int_of] is the final [astype(int)].  [ci0] is [class_indices] before. *)
Definition categorical {A} (O : TotalOrder A) (put : nat -> A) (int_of : A -> option Z)
  (ci0 : dict A Z) (labels : list A) : result (list Z * dict A Z) :=
  let raw := np_unique O labels in
  _ <- get_at labels 0 ;;
  let '(l, ci) :=
    fold_left (fun st p =>
        (replace_all O (snd p) (put (fst p)) (fst st),
         dict_set O (snd st) (snd p) (Z.of_nat (fst p))))
      (enumerate raw) (labels, ci0) in
  y <- mapM (fun s => match int_of s with Some z => Ok z | None => Err ValueError end) l ;;
  Ok (y, ci).

(** dataset.py 240, the labels are Python [int] objects: nothing is replaced
    and [class_indices] is not filled. *)
Definition categorical_pyint (ci0 : dict Z Z) (labels : list Z) : result (list Z * dict Z Z) :=
  _ <- get_at labels 0 ;; Ok (labels, ci0).

(** dataset.py 256-267 [_set_real_class_indices]. *)
Definition set_real {A B} (OA : TotalOrder A) (OZ : TotalOrder Z)
  (pre : dict A Z) (enc : dict Z B) : result (dict A B) :=
  foldM (fun d kv => v <- dict_lookup OZ enc (snd kv) ;; Ok (dict_set OA d (fst kv) v)) pre [].

(** dataset.py 247-254 [_encoder_label]; the encoders are fresh instances. *)
Definition encoder_label {A} (OA : TotalOrder A) (OZ : TotalOrder Z) (mode : label_mode)
  (y : list Z) (ci : dict A Z) : result (ydata * dict A code) :=
  match mode with
  | Sparse => Ok (YSparse y, map (fun kv => (fst kv, CodeInt (snd kv))) ci)
  | OneHot =>
      r <- onehot_call OZ [] y ;;
      ci' <- set_real OA OZ ci (snd r) ;;
      Ok (YOneHot (fst r), map (fun kv => (fst kv, CodeVec (snd kv))) ci')
  | MaxMargin =>
      r <- maxmargin_call OZ [] y ;;
      ci' <- set_real OA OZ ci (snd r) ;;
      Ok (YMargin (fst r), map (fun kv => (fst kv, CodeInt (snd kv))) ci')
  end.

(** dataset.py 96-102 [from_dataframe], label part, for a supervised
    training set with text labels. *)
Definition dataframe_text_labels (O : TotalOrder string) (OZ : TotalOrder Z)
  (put : nat -> string) (int_of : string -> option Z) (mode : label_mode) (labels : list string)
  : result (ydata * dict string code) :=
  r <- (if length (np_unique O labels) =? 2 then binary_text O int_of labels
        else categorical O put int_of [] labels) ;;
  encoder_label O OZ mode (fst r) (snd r).

(** The same for integer labels held in a numpy integer array. (dataset.py 96-102).
    *)
Definition dataframe_int_labels (OZ : TotalOrder Z) (mode : label_mode) (labels : list Z)
  : result (ydata * dict Z code) :=
  r <- (if length (np_unique OZ labels) =? 2 then binary_ints OZ labels
        else categorical OZ Z.of_nat Some [] labels) ;;
  encoder_label OZ OZ mode (fst r) (snd r).

(** ** Features *)

(** A cell of the feature matrix: a number (NaN = [None]) or a text. (dataset.py
    179-210). *)
Inductive fcell := FNum (o : option R) | FTxt (s : string).

(** Element type of the feature array. (dataset.py 160-177). *)
Inductive fdtype := DInt | DFloat | DObject.

(** The options [standardization] and [normalization] (dataset.py 41-78, 194-197).
    *)
Record flags := { standardization : bool; normalization : bool; digitization : bool }.

Section Features.
Variable parse : string -> option R.
Variable OS : TotalOrder string.

(** The conversion of one cell to a float (dataset.py 193). *)
Definition fcell_float (c : fcell) : option (option R) :=
  match c with FNum o => Some o | FTxt s => match parse s with Some r => Some (Some r) | None => None end end.

(** [np.asarray(column, dtype=float)]: ValueError if a text does not convert.
    (dataset.py 193). *)
Fixpoint col_floats (c : list fcell) : option (list (option R)) :=
  match c with
  | [] => Some []
  | x :: t => match fcell_float x, col_floats t with
              | Some o, Some os => Some (o :: os)
              | _, _ => None
              end
  end.

(** The numbers of a column without NaN (dataset.py 193-197). *)
Fixpoint all_some {B} (l : list (option B)) : option (list B) :=
  match l with
  | [] => Some []
  | Some b :: t => match all_some t with Some bs => Some (b :: bs) | None => None end
  | None :: t => None
  end.

(** The scalers of preprocessing.py on a vector that may contain NaN: one NaN makes
    every statistic NaN. (preprocessing.py 346-361, called at dataset.py 194-197).
    *)
Definition nan_standard (v : list (option R)) : list (option R) :=
  match all_some v with Some xs => fst (standard_call xs) | None => map (fun _ => None) v end.
(** The same for [MinMaxScaler] (preprocessing.py 226-241, called at dataset.py
    194-197). *)
Definition nan_minmax (v : list (option R)) : result (list (option R)) :=
  match all_some v with
  | Some xs => r <- minmax_call xs ;; Ok (fst r)
  | None => Ok (map (fun _ => None) v)
  end.

(** Truncation towards zero, as numpy does when it stores a float into an integer
    array (dataset.py 194-197). *)
Definition trunc (r : R) : R :=
  if Rle_dec 0 r then IZR (Int_part r) else (- IZR (Int_part (- r)))%R.
(** Storing floats into a column of an array (dataset.py 194-197): truncation
    towards zero in an integer array (a stored NaN is an unspecified integer: kept
    as [None]). *)
Definition store (dt : fdtype) (v : list (option R)) : list fcell :=
  map (fun o => FNum (match dt, o with DInt, Some r => Some (trunc r) | _, _ => o end)) v.

(** What the name [_current_feature] denotes after the column was overwritten
    (dataset.py 194-197): if the array already has the target float type,
    [np.asarray] made no copy and the name sees the new values. *)
Definition reread (alias : bool) (old : list (option R)) (stored : list fcell) : list (option R) :=
  if alias then map (fun c => match c with FNum o => o | FTxt _ => None end) stored else old.

(** dataset.py 193-197, the body of [try] for one column; the first component
    is the column as left in the array when the block ends or raises. *)
Definition scale_col (fl : flags) (dt : fdtype) (alias : bool) (c : list fcell)
  : list fcell * result unit :=
  match col_floats c with
  | None => (c, Err ValueError)
  | Some v =>
      let c1 := if standardization fl then store dt (nan_standard v) else c in
      let v1 := if standardization fl then reread alias v c1 else v in
      if normalization fl then
        match nan_minmax v1 with
        | Ok z => (store dt z, Ok tt)
        | Err e => (c1, Err e)
        end
      else (c1, Ok tt)
  end.

(** [DummyEncoder] needs sortable labels: mixing numbers and texts is a TypeError.
    (preprocessing.py 66-89, called at dataset.py 198-202). *)
Definition text_of (c : fcell) : result string :=
  match c with FTxt s => Ok s | FNum _ => Err TypeError end.

(** dataset.py 198-202: columns of the dummy matrix of column [c]. *)
Definition dummy_cols (c : list fcell) : result (list (list fcell)) :=
  labels <- mapM text_of c ;;
  r <- dummy_call OS [] labels ;;
  Ok (map (fun j => map (fun row => FNum (Some (IZR (nth j row 0%Z)))) (fst r))
          (seq 0 (length (np_unique OS labels)))).

(** dataset.py 190-202: one iteration of the loop over the original columns.
    State: the array (by columns) and [_del_list]. *)
Definition feature_step (fl : flags) (dt : fdtype) (alias : bool)
  (st : list (list fcell) * list nat) (j : nat) : result (list (list fcell) * list nat) :=
  let '(fs, dels) := st in
  c <- get_at fs j ;;
  let '(c', r) := scale_col fl dt alias c in
  fs' <- set_at fs j c' ;;
  match r with
  | Ok _ => Ok (fs', dels)
  | Err ValueError =>
      if digitization fl then
        c'' <- get_at fs' j ;;
        extra <- dummy_cols c'' ;;
        Ok (fs' ++ extra, dels ++ [j])
      else Ok (fs', dels)
  | Err e => Err e
  end.

(** [np.delete(features, dels, axis=1)]. *)
Definition delete_cols {B} (dels : list nat) (fs : list B) : list B :=
  map snd (filter (fun p => negb (existsb (Nat.eqb (fst p)) dels)) (enumerate fs)).

(** dataset.py 179-210 [_preprocessing_features] (without the Imputer, which
    runs before and is modelled in Preprocessing.v). *)
Definition preprocess_features (fl : flags) (dt : fdtype) (alias : bool) (cols : list (list fcell))
  : result (list (list fcell)) :=
  st <- foldM (feature_step fl dt alias) (seq 0 (length cols)) (cols, []) ;;
  let '(fs, dels) := st in
  match dels with
  | [] => Ok fs
  | _ =>
      mapM (fun c => match col_floats c with
                     | Some v => Ok (map FNum v)
                     | None => Err ValueError end)
           (delete_cols dels fs)
  end.
End Features.
