(** Model of classicML/backend/python/tree/pruners.py and of fitting with a pruner
    (classicML/api/models/tree/decision_tree_classifier.py 126-180). [D] holds the
    training rows that reach the node and [V] the validation rows. Accuracies of one
    node share their denominator, so they are compared as numbers of correct rows.
    Every frame has all columns of the training table. *)
From Coq Require Import List ZArith Reals Bool Arith.
From Verif.Model Require Import Base Tree.
Import ListNotations.
Local Open Scope R_scope.
Local Notation length := List.length.

(** The attribute [leaf] of a node (pruners.py 52, 87, 111). *)
Definition is_leaf (t : tree) : bool := match t with Leaf _ => true | _ => false end.

(** [x.loc[:, name] >= point]: comparing text with a number is a TypeError.
    (pruners.py 65-68, 200-203). *)
Definition numeric_column (j : nat) (D : list (row * Z)) : bool :=
  forallb (fun p => is_num (cell_at j (fst p))) D.

(** pruners.py 65, 67, 200, 202: the rows at or above the dividing point. *)
Definition rows_ge (p : R) (j : nat) (D : list (row * Z)) := filter (fun q => cell_ge p (cell_at j (fst q))) D.
(** pruners.py 66, 68, 201, 203: the rows below the dividing point. *)
Definition rows_lt (p : R) (j : nat) (D : list (row * Z)) := filter (fun q => cell_lt p (cell_at j (fst q))) D.
(** pruners.py 97-98, 235-236: the rows with the value of the branch. *)
Definition rows_eq (a : cell) (j : nat) (D : list (row * Z)) :=
  filter (fun q => if cell_eq_dec (cell_at j (fst q)) a then true else false) D.

(** pruners.py 61, 187 [np.mean(y_validation == current_category)], as a count. *)
Definition correct_as_leaf (l : Z) (V : list (row * Z)) : nat := count (fun q => Z.eqb (snd q) l) V.

(** pruners.py 124-154 [PostPruner.calculation_accuracy] on a node whose children
    are leaves, as a count: a value without a branch is a KeyError. *)
Definition correct_of_node (t : tree) (V : list (row * Z)) : result nat :=
  oks <- mapM (fun q => l <- predict t (fst q) ;; Ok (Z.eqb (snd q) l)) V ;;
  Ok (count (fun b => b) oks).

Section Prune.
Variable top : list Z -> Z.

(** pruners.py 41-122 [PostPruner.__call__]. Lines 108-109 keep [h + 1] as the
    running maximum. *)
Fixpoint post_prune (t : tree) (D V : list (row * Z)) {struct t} : result tree :=
  match t with
  | Leaf l => Ok (Leaf l)
  | Cont j v p n h g l =>
      if (length V =? 0)%nat then Ok t else
      cur <- most_common top (map snd D) ;;
      if negb (numeric_column j D && numeric_column j V) then Err TypeError else
      g' <- post_prune g (rows_ge p j D) (rows_ge p j V) ;;
      l' <- post_prune l (rows_lt p j D) (rows_lt p j V) ;;
      let t' := Cont j v p (num_of_leaves g' + num_of_leaves l') (Z.max (height g') (height l') + 1)%Z g' l' in
      if is_leaf g' && is_leaf l' then
        c <- correct_of_node t' V ;;
        Ok (if (c <? correct_as_leaf cur V)%nat then Leaf cur else t')
      else Ok t'
  | Disc j v n h kids =>
      if (length V =? 0)%nat then Ok t else
      cur <- most_common top (map snd D) ;;
      kids' <- (fix go (ks : list (cell * tree)) : result (list (cell * tree)) :=
                  match ks with
                  | [] => Ok []
                  | (a, k) :: ks' =>
                      k' <- post_prune k (rows_eq a j D) (rows_eq a j V) ;;
                      r <- go ks' ;; Ok ((a, k') :: r)
                  end) kids ;;
      let t' := Disc j v (fold_left (fun n k => n + num_of_leaves (snd k))%nat kids' 0%nat)
                  (fold_left (fun m k => if (m <? height (snd k))%Z then (height (snd k) + 1)%Z else m) kids' (-1)%Z) kids' in
      if forallb (fun k => is_leaf (snd k)) kids' then
        c <- correct_of_node t' V ;;
        Ok (if (c <? correct_as_leaf cur V)%nat then Leaf cur else t')
      else Ok t'
  end.

(** pruners.py 253-288 [PrePruner.calculation_accuracy], as a count, when the values
    themselves are the groups: the branch of a value is labelled with the most
    common training label of that value; an unknown value is a KeyError. *)
Definition correct_after_split (j : nat) (D V : list (row * Z)) : result nat :=
  oks <- mapM (fun q =>
      match rows_eq (cell_at j (fst q)) j D with
      | [] => Err KeyError
      | Dq => Ok (Z.eqb (snd q) (top (map snd Dq)))
      end) V ;;
  Ok (count (fun b => b) oks).

(** The same, as called (pruners.py 190-194, 222-226) with the column instead of the
    frame: for a dividing point other than 0.0, [Series.loc[:, name]] (273) fails.
    *)
Definition pre_accuracy (point : option R) (j : nat) (D V : list (row * Z)) : result nat :=
  match point with
  | Some p => if Reqb p 0 then correct_after_split j D V else Err IndexingError
  | None => correct_after_split j D V
  end.

(** pruners.py 167-251 [PrePruner.__call__]. *)
Fixpoint pre_prune (t : tree) (D V : list (row * Z)) {struct t} : result tree :=
  match t with
  | Leaf l => Ok (Leaf l)
  | Cont j v p n h g l =>
      if (length V =? 0)%nat then Ok t else
      cur <- most_common top (map snd D) ;;
      after <- pre_accuracy (Some p) j D V ;;
      if (after <=? correct_as_leaf cur V)%nat then Ok (Leaf cur) else
      if negb (numeric_column j D && numeric_column j V) then Err TypeError else
      l' <- pre_prune l (rows_lt p j D) (rows_lt p j V) ;;
      g' <- pre_prune g (rows_ge p j D) (rows_ge p j V) ;;
      Ok (Cont j v p (num_of_leaves g' + num_of_leaves l') (Z.max (height g') (height l') + 1)%Z g' l')
  | Disc j v n h kids =>
      if (length V =? 0)%nat then Ok t else
      cur <- most_common top (map snd D) ;;
      after <- pre_accuracy None j D V ;;
      if (after <=? correct_as_leaf cur V)%nat then Ok (Leaf cur) else
      kids' <- (fix go (ks : list (cell * tree)) : result (list (cell * tree)) :=
                  match ks with
                  | [] => Ok []
                  | (a, k) :: ks' =>
                      k' <- pre_prune k (rows_eq a j D) (rows_eq a j V) ;;
                      r <- go ks' ;; Ok ((a, k') :: r)
                  end) kids ;;
      Ok (Disc j v (fold_left (fun n k => n + num_of_leaves (snd k))%nat kids' 0%nat)
            (fold_left (fun m k => if (m <? height (snd k))%Z then (height (snd k) + 1)%Z else m) kids' (-1) + 1)%Z kids')
  end.
End Prune.

(** The pruners that training.py 185-203 [get_pruner] knows. *)
Inductive pruning := NoPruning | Pre | Post.
(** decision_tree_classifier.py 126-180 [fit] on a fresh model: pruning without a
    validation set is an AttributeError. *)
Definition fit_pruned (top : list Z -> Z) (rnd : R -> R) (c : criterion) (how : pruning) (w : nat)
  (D : list (row * Z)) (val : option (list (row * Z))) : result tree :=
  match how, val with
  | NoPruning, _ => fit_tree top rnd c w D
  | _, None => Err AttributeError
  | Pre, Some V => t <- fit_tree top rnd c w D ;; pre_prune top t D V
  | Post, Some V => t <- fit_tree top rnd c w D ;; post_prune top t D V
  end.
