(** Model of classicML/backend/python/data/preprocessing.py *)
From Coq Require Import List ZArith Reals Bool Arith String.
From Verif.Model Require Import Base.
Import ListNotations.

(** ** Encoders *)
Section Encoders.
Context {A : Type} (O : TotalOrder A).

(** preprocessing.py 82-83 and 298-299: [{value: index}] over the sorted
    distinct labels. *)
Definition index_pairs (cls : list A) : list (A * nat) :=
  map (fun p => (snd p, fst p)) (enumerate cls).

(** preprocessing.py 301-302: a zero vector of length [n] with 1 at [k]
    (IndexError outside). *)
Definition unit_row (n k : nat) : result (list Z) := set_at (repeat 0%Z n) k 1%Z.

(** preprocessing.py 66-89 [DummyEncoder.__call__].  [ci] is the instance's
    [class_indices] before the call (it is only ever updated, never cleared). *)
Definition dummy_call (ci : dict A nat) (labels : list A)
  : result (list (list Z) * dict A nat) :=
  let cls := np_unique O labels in
  let ci' := dict_update O ci (index_pairs cls) in
  rows <- mapM (fun l => k <- dict_lookup O ci' l ;; unit_row (List.length cls) k) labels ;;
  Ok (rows, ci').

(** preprocessing.py 282-311 [OneHotEncoder.__call__].  The local dictionary
    [_class_indices] is fresh, the attribute [class_indices] accumulates. *)
Definition onehot_call (ci : dict A (list Z)) (labels : list A)
  : result (list (list Z) * dict A (list Z)) :=
  let cls := np_unique O labels in
  let n := List.length cls in
  let local := dict_update O [] (index_pairs cls) in
  kvs <- mapM (fun p => r <- unit_row n (snd p) ;; Ok (fst p, r)) (index_pairs cls) ;;
  let ci' := dict_update O ci kvs in
  rows <- mapM (fun l => k <- dict_lookup O local l ;; unit_row n k) labels ;;
  Ok (rows, ci').

(** preprocessing.py 169-191 [MaxMarginEncoder.__call__]. *)
Definition maxmargin_call (ci : dict A Z) (labels : list A)
  : result (list Z * dict A Z) :=
  let cls := np_unique O labels in
  let ci' := dict_update O ci
               (map (fun p => (snd p, if fst p =? 0 then (-1)%Z else 1%Z)) (enumerate cls)) in
  codes <- mapM (fun l => dict_lookup O ci' l) labels ;;
  Ok (codes, ci').
End Encoders.

(** ** Imputer *)
Section Imputer.
(** A cell of a table: missing ([None]), a number, or a text. (preprocessing.py
    108-142). *)
Inductive cell : Type := CNum (r : R) | CStr (s : string).

(** [parse] is pandas' conversion of a text to a float ([None] = ValueError). *)
Variable parse : string -> option R.
(** [mode] is [value_counts().keys()[0][0]]: the most frequent cell; pandas
    does not fix which one on ties, so this is an argument. *)
Variable mode : list cell -> cell.

(** The conversion of a cell (preprocessing.py 134). *)
Definition to_float (c : cell) : option R :=
  match c with CNum r => Some r | CStr s => parse s end.

(** [pd.DataFrame(column, dtype=float)]: every observed cell must convert.
    (preprocessing.py 134). *)
Fixpoint to_floats (col : list (option cell)) : option (list (option R)) :=
  match col with
  | [] => Some []
  | None :: t => match to_floats t with Some r => Some (None :: r) | None => None end
  | Some c :: t => match to_float c, to_floats t with
                   | Some r, Some rs => Some (Some r :: rs)
                   | _, _ => None
                   end
  end.

(** [dropna()] (preprocessing.py 135). *)
Definition dropna {B} (col : list (option B)) : list B :=
  flat_map (fun o => match o with Some b => [b] | None => [] end) col.

(** [fillna(v)] (preprocessing.py 135, 139). *)
Definition fill {B} (v : B) (col : list (option B)) : list (option B) :=
  map (fun o => match o with Some b => Some b | None => Some v end) col.

(** preprocessing.py 123-142 [Imputer._fillna].  The mean of an empty slice is
    NaN (pandas' missing value), so an all-missing column stays missing. *)
Definition fillna_col (col : list (option cell)) : list (option cell) :=
  match to_floats col with
  | Some rs =>
      match dropna rs with
      | [] => map (fun o => match o with Some r => Some (CNum r) | None => None end) rs
      | obs => map (fun o => match o with Some r => Some (CNum r) | None => None end)
                   (fill (rmean obs) rs)
      end
  | None => fill (mode (dropna col)) col
  end.

(** preprocessing.py 108-121 [Imputer.__call__]; a table is given by columns. *)
Definition imputer_call (cols : list (list (option cell))) : list (list (option cell)) :=
  map fillna_col cols.
End Imputer.

(** ** Scalers.  [None] is a result that is not a finite number. *)

(** Division of arrays (preprocessing.py 239, 359): numpy evaluates 0/0 to NaN and
    the quotient of another number and 0 to an infinity; the model does not tell them
    apart. On a single list, and on a matrix with axis 0, it can only be 0/0. With
    the default axis and a matrix infinities are possible. *)
Definition npdiv (x y : R) : option R := if Req_EM_T y 0 then None else Some (x / y)%R.

(** preprocessing.py 226-241 [MinMaxScaler.__call__] on a one-dimensional
    array; returns the data and the stored (min, max). *)
Definition minmax_call (data : list R) : result (list (option R) * (R * R)) :=
  mn <- np_min data ;; mx <- np_max data ;;
  Ok (map (fun x => npdiv (x - mn) (mx - mn)) data, (mn, mx)).

(** preprocessing.py 243-255 [MinMaxScaler.inverse]. *)
Definition minmax_inverse (st : R * R) (data : list (option R)) : list (option R) :=
  map (fun o => match o with
                | Some z => Some (z * (snd st - fst st) + fst st)%R
                | None => None end) data.

(** preprocessing.py 346-361 [StandardScaler.__call__], one-dimensional; the
    mean of an empty array is NaN with a warning: every result is then an
    empty array, modelled by the empty list. *)
Definition standard_call (data : list R) : list (option R) * (R * R) :=
  let m := rmean data in
  let v := rvar data in
  (map (fun x => npdiv (x - m) v) data, (m, v)).

(** preprocessing.py 363-375 [StandardScaler.inverse]. *)
Definition standard_inverse (st : R * R) (data : list (option R)) : list (option R) :=
  map (fun o => match o with
                | Some z => Some (z * snd st + fst st)%R
                | None => None end) data.

(** Two-dimensional data, an [m] x [n] matrix given by rows. The attribute [axis]
    (preprocessing.py 221, 341): 0, or the last axis. *)
Inductive axis := Axis0 | AxisLast.

(** numpy broadcasting of an [m] x [n] matrix against a vector of length [k]: the
    resulting number of columns, or a ValueError. (preprocessing.py 239, 253, 359,
    373). *)
Definition bcast_cols (n k : nat) : result nat :=
  if n =? k then Ok n
  else if k =? 1 then Ok n
  else if n =? 1 then Ok k
  else Err ValueError.
(** Index into an operand of size [n] along a broadcast dimension. (preprocessing.py
    239, 253, 359, 373). *)
Definition bidx (n j : nat) : nat := if n =? 1 then 0 else j.

(** numpy: [f(data, stats)] elementwise with the matrix [data] ([n] columns)
    broadcast against a vector of per-slice statistics. (preprocessing.py 239, 253,
    359, 373). *)
Definition bcast_map {B C} (d : B) (f : B -> R * R -> C) (n : nat) (data : list (list B))
  (stats : list (R * R)) : result (list (list C)) :=
  w <- bcast_cols n (List.length stats) ;;
  Ok (map (fun row =>
        map (fun j => f (nth (bidx n j) row d)
                        (nth (bidx (List.length stats) j) stats (0, 0)%R)) (seq 0 w)) data).

(** Slices of the matrix along the axis: columns or rows. (preprocessing.py 236-237,
    356-357). *)
Definition slices (ax : axis) (n : nat) (data : list (list R)) : list (list R) :=
  match ax with
  | Axis0 => map (column 0%R data) (seq 0 n)
  | AxisLast => data
  end.

(** preprocessing.py 226-241 [MinMaxScaler.__call__] with a matrix and either
    axis; also returns the stored statistics. *)
Definition minmax_call2 (ax : axis) (n : nat) (data : list (list R))
  : result (list (list (option R)) * list (R * R)) :=
  stats <- mapM (fun v => mn <- np_min v ;; mx <- np_max v ;; Ok (mn, mx)) (slices ax n data) ;;
  out <- bcast_map 0%R (fun x st => npdiv (x - fst st) (snd st - fst st)) n data stats ;;
  Ok (out, stats).

(** preprocessing.py 243-255 [MinMaxScaler.inverse] on a matrix. *)
Definition minmax_inverse2 (n : nat) (stats : list (R * R)) (data : list (list (option R)))
  : result (list (list (option R))) :=
  bcast_map None (fun o st => match o with
                              | Some z => Some (z * (snd st - fst st) + fst st)%R
                              | None => None end) n data stats.

(** preprocessing.py 346-361 [StandardScaler.__call__] on a matrix. *)
Definition standard_call2 (ax : axis) (n : nat) (data : list (list R))
  : result (list (list (option R)) * list (R * R)) :=
  let stats := map (fun v => (rmean v, rvar v)) (slices ax n data) in
  out <- bcast_map 0%R (fun x st => npdiv (x - fst st) (snd st)) n data stats ;;
  Ok (out, stats).

(** preprocessing.py 363-375 [StandardScaler.inverse] on a matrix. *)
Definition standard_inverse2 (n : nat) (stats : list (R * R)) (data : list (list (option R)))
  : result (list (list (option R))) :=
  bcast_map None (fun o st => match o with
                              | Some z => Some (z * snd st + fst st)%R
                              | None => None end) n data stats.
