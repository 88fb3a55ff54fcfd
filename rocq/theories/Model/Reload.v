(** Model of classicML/backend/python/data/dataset.py 80-104 and 212-267 on an object
    that may have been used before: what [from_dataframe] leaves in the object and in
    the array of labels, also when it raises. Loader.v models the methods on a new
    object. All frames given to one object have labels of the same type here (texts,
    or integers of numpy); the features are those of Loader.v and enter as the result
    of [_preprocessing_features]. *)
From Coq Require Import List ZArith Bool Arith String.
From Verif.Model Require Import Base Preprocessing Dataset.
Import ListNotations.
Local Notation length := List.length.

(** The attributes [x], [y] and [class_indices] (dataset.py 76-78). *)
Record object (X A : Type) := { ob_x : option X; ob_y : option ydata; ob_ci : dict A code }.
Arguments ob_x {X A}. Arguments ob_y {X A}. Arguments ob_ci {X A}.
(** dataset.py 76-78: a new object. *)
Definition new_object {X A} : object X A := {| ob_x := None; ob_y := None; ob_ci := [] |}.
(** Assignment to [self.y] and [self.class_indices] (dataset.py 229-230, 243-245,
    250-253, 267). *)
Definition with_labels {X A} (o : object X A) (y : option ydata) (ci : dict A code) : object X A :=
  {| ob_x := ob_x o; ob_y := y; ob_ci := ci |}.

Section Reload.
Context {X A : Type} (O : TotalOrder A) (OZ : TotalOrder Z).
(** [key_words] replaces the key words in the array of labels (dataset.py 223-227),
    [put i] is what storing [str(i)] into the array yields (242), [int_of] is
    [astype(int)] on one label (229, 245; [None] = ValueError). *)
Variable key_words : list A -> list A.
Variable put : nat -> A.
Variable int_of : A -> option Z.

(** [labels.astype(int)] (dataset.py 229, 245). *)
Definition as_ints (l : list A) : result (list Z) :=
  mapM (fun s => match int_of s with Some z => Ok z | None => Err ValueError end) l.

(** dataset.py 256-267 [_set_real_class_indices]: the values of [class_indices] are
    looked up in the dictionary of the encoder; a vector (left by an earlier one-hot
    encoding) is not hashable. *)
Definition set_real_codes {B} (f : B -> code) (pre : dict A code) (enc : dict Z B) : result (dict A code) :=
  foldM (fun d kv => match snd kv with
                     | CodeVec _ => Err TypeError
                     | CodeInt z => v <- dict_lookup OZ enc z ;; Ok (dict_set O d (fst kv) (f v))
                     end) pre [].

(** dataset.py 247-254 [_encoder_label] after [self.y] was set to [y] and
    [self.class_indices] to [ci]. *)
Definition encode_object (m : label_mode) (o : object X A) (y : list Z) (ci : dict A code) : object X A * option err :=
  match m with
  | Sparse => (with_labels o (Some (YSparse y)) ci, None)
  | OneHot =>
      match onehot_call OZ [] y with
      | Err e => (with_labels o (Some (YSparse y)) ci, Some e)
      | Ok (rows, enc) =>
          match set_real_codes CodeVec ci enc with
          | Err e => (with_labels o (Some (YOneHot rows)) ci, Some e)
          | Ok ci' => (with_labels o (Some (YOneHot rows)) ci', None)
          end
      end
  | MaxMargin =>
      match maxmargin_call OZ [] y with
      | Err e => (with_labels o (Some (YSparse y)) ci, Some e)
      | Ok (codes, enc) =>
          match set_real_codes CodeInt ci enc with
          | Err e => (with_labels o (Some (YMargin codes)) ci, Some e)
          | Ok ci' => (with_labels o (Some (YMargin codes)) ci', None)
          end
      end
  end.

(** dataset.py 96-102 with 212-245: the array of labels afterwards, the object and the
    exception. Two distinct labels replace [class_indices], any other number of them
    updates it. *)
Definition load_labels (m : label_mode) (o : object X A) (labels : list A) : list A * (object X A * option err) :=
  let raw := np_unique O labels in
  match get_at labels 0 with
  | Err e => (labels, (o, Some e))
  | Ok _ =>
      if length raw =? 2 then
        let l := key_words labels in
        match as_ints l with
        | Err e => (l, (o, Some e))
        | Ok y =>
            match two_indices raw with
            | Err e => (l, (with_labels o (Some (YSparse y)) (ob_ci o), Some e))
            | Ok ci => (l, encode_object m o y (map (fun kv => (fst kv, CodeInt (snd kv))) ci))
            end
        end
      else
        let '(l, ci) :=
          fold_left (fun st p =>
              (replace_all O (snd p) (put (fst p)) (fst st),
               dict_set O (snd st) (snd p) (CodeInt (Z.of_nat (fst p)))))
            (enumerate raw) (labels, ob_ci o) in
        match as_ints l with
        | Err e => (l, (with_labels o (ob_y o) ci, Some e))
        | Ok y => (l, encode_object m o y ci)
        end
  end.

(** dataset.py 80-104 [from_dataframe] for a supervised training set. [x] is the
    result of the preprocessing of the features (89-93, 179-210). *)
Definition load_frame (m : label_mode) (o : object X A) (x : result X) (labels : list A)
  : list A * (object X A * option err) :=
  match x with
  | Err e => (labels, (o, Some e))
  | Ok v => load_labels m {| ob_x := Some v; ob_y := ob_y o; ob_ci := ob_ci o |} labels
  end.
End Reload.

(** dataset.py 223-227 on texts. *)
Definition text_key_words (O : TotalOrder string) (labels : list string) : list string :=
  fold_left (fun l w => replace_all O w "0"%string l) negative_key_words
    (fold_left (fun l w => replace_all O w "1"%string l) positive_key_words labels).
(** [from_dataframe] with a column of texts. (dataset.py 80-104). *)
Definition load_texts {X} (O : TotalOrder string) (OZ : TotalOrder Z) put int_of m (o : object X string) x labels :=
  load_frame O OZ (text_key_words O) put int_of m o x labels.
(** [from_dataframe] with a column of integers: no label equals a key word, and storing
    [str(i)] into an integer array stores the number [i]. (dataset.py 80-104). *)
Definition load_ints {X} (OZ : TotalOrder Z) m (o : object X Z) x labels :=
  load_frame OZ OZ (fun l => l) Z.of_nat Some m o x labels.
