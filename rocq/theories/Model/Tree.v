(** Model of the decision tree criteria (classicML/backend/python/tree/criteria.py
    9-189), the generator (classicML/backend/python/tree/generators.py 33-85,
    268-367) and the classifier
    (classicML/api/models/tree/decision_tree_classifier.py 66-231). Simplifications:
    floats are exact reals (the rounding of the candidate thresholds to the
    configured precision is the function [rnd]); the cells of a table are exact
    numbers or texts. The labels are integers. *)
From Coq Require Import List ZArith Reals Bool Arith String Lra.
From Verif.Model Require Import Base.
Import ListNotations.
Local Open Scope R_scope.
Local Notation length := List.length.

(** ** Impurity *)
(** criteria.py 114, 186 [pd.value_counts(D) / D.shape[0]]. The order of the counts
    does not matter because they are summed. *)
Definition frequencies (y : list Z) : list R :=
  map (fun c => INR (count (Z.eqb c) y) / INR (length y)) (nodup Z.eq_dec y).

(** [np.log2] (criteria.py 115). *)
Definition log2 (x : R) : R := ln x / ln 2.

(** criteria.py 179-189 [Gini.__call__]. *)
Definition gini (y : list Z) : R := 1 - rsum (map (fun p => p * p) (frequencies y)).
(** criteria.py 107-117 [Entropy.__call__]. *)
Definition entropy (y : list Z) : R := rsum (map (fun p => - p * log2 p) (frequencies y)).

(** The three criteria of criteria.py 102, 120, 174. *)
Inductive criterion := Gini | Entropy | Gain.
(** [Gain] inherits [__call__] from [Entropy] (criteria.py 120). *)
Definition impurity (c : criterion) : list Z -> R :=
  match c with Gini => gini | Entropy | Gain => entropy end.

(** ** Data *)
(** The content of one cell of the table, decision_tree_classifier.py 140-152: a
    number or a text. *)
Inductive cell := Num (r : R) | Txt (s : string).
(** Equality of cells, used by [==] in criteria.py 70 and generators.py 348. *)
Definition cell_eq_dec (a b : cell) : {a = b} + {a <> b}.
Proof.
  destruct a as [r|s], b as [r'|s'].
  - destruct (Req_EM_T r r'); [left|right]; congruence.
  - right; discriminate.
  - right; discriminate.
  - destruct (string_dec s s'); [left|right]; congruence.
Defined.
(** One row of the table (decision_tree_classifier.py 140-152). *)
Definition row := list cell.

(** Cell of a row; rows have the width of the table, so the default is never used
    inside a table. [x[attribute]] of one row (criteria.py 91, generators.py 324).
    *)
Definition cell_at (j : nat) (r : row) : cell := nth j r (Txt EmptyString).
(** Does the cell hold a number, as [y.dtype == object] asks for the column (ops.py
    810)? *)
Definition is_num (c : cell) : bool := match c with Num _ => true | Txt _ => false end.
(** The number of a numeric cell, as used in criteria.py 43-65. *)
Definition num_of (c : cell) : R := match c with Num r => r | Txt _ => 0 end.

(** The order of [np.sort] on floats. (criteria.py 48). *)
Definition ROrder : TotalOrder R.
Proof.
  refine {| leb := Rleb |}; unfold Rleb; intros; repeat (destruct (Rle_dec _ _)); auto; try discriminate; lra.
Defined.

(** ops.py 813 [np.any(y != y.astype(int))], one element. *)
Definition has_frac (r : R) : bool := negb (Reqb (IZR (Int_part r)) r).

(** [pd.unique]: first occurrences, in order. (criteria.py 45, generators.py 344).
    *)
Definition pd_unique {A} (dec : forall x y : A, {x = y} + {x <> y}) (l : list A) : list A :=
  rev (nodup dec (rev l)).

(** criteria.py 92, 164 [type_of_target(np.asarray(x[attribute])) == 'continuous'].
    [X] is the whole table: it decides whether the column has a float dtype; [D] is
    the part that reached the node. *)
Definition is_continuous (X D : list row) (j : nat) : bool :=
  forallb is_num (map (cell_at j) X) && existsb (fun r => has_frac (num_of (cell_at j r))) D.

(** ** Scores *)
(** criteria.py 58-61: the weighted impurity of the split at [t]. *)
Definition split_value (imp : list Z -> R) (D : list (R * Z)) (t : R) : R :=
  let up := map snd (filter (fun p => Rleb t (fst p)) D) in
  let down := map snd (filter (fun p => Rltb (fst p) t) D) in
  INR (length up) / INR (length D) * imp up + INR (length down) / INR (length D) * imp down.

(** criteria.py 53-55: candidate thresholds. *)
Definition midpoints (u : list R) : list R := map (fun p => (fst p + snd p) / 2) (combine u (tl u)).

(** criteria.py 57-65: strict improvement, first candidate wins ties; [None] is
    [[inf, None]]. *)
Definition best_threshold (score : R -> R) (ts : list R) : option (R * R) :=
  fold_left (fun best t =>
    match best with
    | None => Some (score t, t)
    | Some (v, _) => if Rltb (score t) v then Some (score t, t) else best
    end) ts None.

(** criteria.py 33-67 [Criterion.get_value], continuous case. *)
Definition get_value_continuous (imp : list Z -> R) (D : list (R * Z)) : option (R * R) :=
  best_threshold (split_value imp D) (midpoints (np_unique ROrder (map fst D))).

(** criteria.py 68-74 [Criterion.get_value], discrete case. *)
Definition get_value_discrete (imp : list Z -> R) (D : list (cell * Z)) : R :=
  rsum (map (fun v =>
    let Dv := map snd (filter (fun p => if cell_eq_dec v (fst p) then true else false) D) in
    INR (length Dv) / INR (length D) * imp Dv) (pd_unique cell_eq_dec (map fst D))).

(** The value of one attribute: the score and, for a continuous attribute, the
    dividing point. [None] is an infinite score. criteria.py 90-94 and, for Gain,
    125-144, 162-166. *)
Definition attribute_value (c : criterion) (X : list row) (D : list (row * Z)) (j : nat)
  : option (R * option R) :=
  let orient v := match c with Gain => entropy (map snd D) - v | _ => v end in
  if is_continuous X (map fst D) j then
    match get_value_continuous (impurity c) (map (fun p => (num_of (cell_at j (fst p)), snd p)) D) with
    | None => None
    | Some (v, t) => Some (orient v, Some t)
    end
  else Some (orient (get_value_discrete (impurity c) (map (fun p => (cell_at j (fst p), snd p)) D)), None).

(** criteria.py 95, 167: Gain is maximised, the others minimised. *)
Definition better (c : criterion) (new old : R) : bool :=
  match c with Gain => Rltb old new | _ => Rltb new old end.

(** criteria.py 76-99, 146-171 [optimal_division]. *)
Definition optimal_division (c : criterion) (X : list row) (D : list (row * Z)) (cols : list nat)
  : option (nat * (R * option R)) :=
  fold_left (fun best j =>
    match attribute_value c X D j with
    | None => best
    | Some (v, t) =>
        match best with
        | None => Some (j, (v, t))
        | Some (_, (v0, _)) => if better c v v0 then Some (j, (v, t)) else best
        end
    end) cols None.

(** ** Trees *)
(** generators.py 33-85 [_TreeNode]: leaves report one leaf and height 0 (lines
    296-313 and [reset]); inner nodes carry the reported counts. *)
Inductive tree :=
| Leaf (category : Z)
| Cont (feature : nat) (purity : R) (point : R) (leaves : nat) (height : Z) (ge lt : tree)
| Disc (feature : nat) (purity : R) (leaves : nat) (height : Z) (kids : list (cell * tree)).

(** The attribute [num_of_leaves] of a node (generators.py 33-85, 296-313). *)
Definition num_of_leaves (t : tree) : nat :=
  match t with Leaf _ => 1 | Cont _ _ _ n _ _ _ => n | Disc _ _ n _ _ => n end.
(** The attribute [height] of a node (generators.py 33-85, 296-313). *)
Definition height (t : tree) : Z :=
  match t with Leaf _ => 0 | Cont _ _ _ _ h _ _ => h | Disc _ _ _ h _ => h end.

(** The rows at or above the dividing point (generators.py 331-335), one cell. *)
Definition cell_ge (t : R) (c : cell) : bool := match c with Num r => Rleb t r | Txt _ => false end.
(** The rows below the dividing point (generators.py 331-335), one cell. *)
Definition cell_lt (t : R) (c : cell) : bool := match c with Num r => Rltb r t | Txt _ => false end.

(** [pd.value_counts(y).index[0]]: some most frequent label; which one among ties is
    left to [top]. (generators.py 311, decision on empty leaves 350-353). *)
Definition most_common (top : list Z -> Z) (y : list Z) : result Z :=
  match y with [] => Err IndexError | _ => Ok (top y) end.

Section Generate.
Variable top : list Z -> Z.
Variable rnd : R -> R.
Variable c : criterion.
Variable X : list row.

(** generators.py 282-367 [DecisionTreeGenerator.tree_generate]. The frame [x] has
    the rows of [D] and the columns [cols]; [xempty] is the call of lines 350-353,
    which passes no rows together with the labels of the parent. Running out of
    [fuel] is excluded by a lemma; the missing best attribute is [list.index(None)]
    at line 319, a ValueError. *)
Fixpoint generate (fuel : nat) (xempty : bool) (cols : list nat) (D : list (row * Z)) : result tree :=
  match fuel with
  | O => Err StopFuel
  | S f =>
    let y := map snd D in
    if (length (nodup Z.eq_dec y) =? 1)%nat then
      match y with [] => Err IndexError | l :: _ => Ok (Leaf l) end
    else if xempty || (length cols =? 0)%nat || (length D =? 0)%nat then
      l <- most_common top y ;; Ok (Leaf l)
    else
      match optimal_division c X D cols with
      | None => Err ValueError                       (* list.index(None), line 310 *)
      | Some (j, (v, Some t0)) =>
          let t := rnd t0 in
          g <- generate f false cols (filter (fun p => cell_ge t (cell_at j (fst p))) D) ;;
          l <- generate f false cols (filter (fun p => cell_lt t (cell_at j (fst p))) D) ;;
          Ok (Cont j v t (num_of_leaves g + num_of_leaves l) (height g + height l + 1)%Z g l)
      | Some (j, (v, None)) =>
          let cols' := remove Nat.eq_dec j cols in
          kids <- mapM (fun a =>
              let Da := filter (fun p => if cell_eq_dec (cell_at j (fst p)) a then true else false) D in
              k <- (if (length Da =? 0)%nat then generate f true cols' D else generate f false cols' Da) ;;
              Ok (a, k)) (pd_unique cell_eq_dec (map (cell_at j) X)) ;;
          Ok (Disc j v (fold_left (fun n k => n + num_of_leaves (snd k))%nat kids 0%nat)
                (fold_left (fun m k => if (m <? height (snd k))%Z then height (snd k) else m) kids (-1) + 1)%Z kids)
      end
  end.
End Generate.

(** decision_tree_classifier.py 126-180 [fit] without pruning on a fresh model: the
    table has [w] columns. *)
Definition fit_tree (top : list Z -> Z) (rnd : R -> R) (c : criterion) (w : nat) (D : list (row * Z))
  : result tree :=
  generate top rnd c (map fst D) (S (length D + w)) false (seq 0 w) D.

(** Subtree lookup [subtree[x[feature_index]]]. (decision_tree_classifier.py 231).
    *)
Fixpoint kid {A} (kids : list (cell * A)) (a : cell) : option A :=
  match kids with
  | [] => None
  | (b, k) :: t => if cell_eq_dec a b then Some k else kid t a
  end.

(** decision_tree_classifier.py 215-231 [_predict]. Comparing text with the dividing
    point is a TypeError. *)
Fixpoint predict (t : tree) (r : row) : result Z :=
  match t with
  | Leaf l => Ok l
  | Cont j _ p _ _ g l =>
      a <- get_at r j ;;
      match a with
      | Num x => if Rleb p x then predict g r else predict l r
      | Txt _ => Err TypeError
      end
  | Disc j _ _ _ kids =>
      a <- get_at r j ;;
      (fix find (ks : list (cell * tree)) : result Z :=
         match ks with
         | [] => Err KeyError
         | (b, k) :: ks' => if cell_eq_dec a b then predict k r else find ks'
         end) kids
  end.
