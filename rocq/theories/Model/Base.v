(** Shared vocabulary of the model: exceptions as values, dictionaries, numpy-style
    list operations, comparisons on reals. These definitions model Python and numpy
    primitives; each comment names places of classicML that use the primitive. *)
From Coq Require Import List ZArith Reals Bool Arith Lia.
Import ListNotations.

(** Python exceptions that the modelled code can raise. Raised, for example, at
    base_model.py 70, k_means.py 119, dataset.py 102. *)
Inductive err : Type :=
| ValueError | TypeError | KeyError | IndexError | AttributeError
| NotImplementedError | UnboundLocalError | LinAlgError | IndexingError
| ZeroDivisionError | OSError | StopFuel
(** Not an exception: the computation continues with NaN, outside the model. *)
| NotANumber.

(** A computation that returns or raises. (every function of classicML that can
    raise; e.g. ops.py 36, 671). *)
Inductive result (A : Type) : Type :=
| Ok (a : A)
| Err (e : err).
Arguments Ok {A} a.
Arguments Err {A} e.

(** Sequencing: the second computation runs if the first has not raised (e.g.
    k_means.py 84-99). *)
Definition bind {A B} (r : result A) (f : A -> result B) : result B :=
  match r with Ok a => f a | Err e => Err e end.

Notation "x <- r ;; k" := (bind r (fun x => k))
  (at level 61, r at next level, right associativity).

(** A Python loop that stops at the first exception. (e.g. preprocessing.py 86-87).
    *)
Fixpoint mapM {A B} (f : A -> result B) (l : list A) : result (list B) :=
  match l with
  | [] => Ok []
  | a :: t => b <- f a ;; bs <- mapM f t ;; Ok (b :: bs)
  end.

(** The same with a state (e.g. k_means.py 86-97). *)
Fixpoint foldM {A S} (f : S -> A -> result S) (l : list A) (s : S) : result S :=
  match l with
  | [] => Ok s
  | a :: t => s' <- f s a ;; foldM f t s'
  end.

(** [a[i]] with an index error. (e.g. bayes/naive_bayes_classifier.py 213). *)
Definition get_at {A} (l : list A) (i : nat) : result A :=
  match nth_error l i with Some a => Ok a | None => Err IndexError end.

(** [a[i] = v] for an index in range (e.g. optimizers.py 1071). *)
Fixpoint set_nth {A} (l : list A) (i : nat) (v : A) : list A :=
  match l, i with
  | [], _ => []
  | _ :: t, O => v :: t
  | h :: t, S j => h :: set_nth t j v
  end.

(** [a[i] = v], in place; index error when out of range (e.g. preprocessing.py 302).
    *)
Definition set_at {A} (l : list A) (i : nat) (v : A) : result (list A) :=
  if i <? length l then Ok (set_nth l i v) else Err IndexError.

(** [enumerate(l)]. (e.g. preprocessing.py 82, bayes/naive_bayes_classifier.py 204).
    *)
Definition enumerate {A} (l : list A) : list (nat * A) :=
  combine (seq 0 (length l)) l.

(** A decidable total order on labels or values ([np.unique] sorts by it).
    (preprocessing.py 77, 293). *)
Record TotalOrder (A : Type) : Type := {
  leb : A -> A -> bool;
  leb_total : forall x y, leb x y = true \/ leb y x = true;
  leb_trans : forall x y z, leb x y = true -> leb y z = true -> leb x z = true;
  leb_antisym : forall x y, leb x y = true -> leb y x = true -> x = y
}.
Arguments leb {A} _ _ _.
Arguments leb_total {A} _ _ _.
Arguments leb_trans {A} _ _ _ _ _ _.
Arguments leb_antisym {A} _ _ _ _ _.

(** [==] on values of an ordered type (e.g. dataset.py 212-230). *)
Definition eqb {A} (O : TotalOrder A) (x y : A) : bool := leb O x y && leb O y x.
(** [<] on values of an ordered type (np.unique in preprocessing.py 77). *)
Definition ltb {A} (O : TotalOrder A) (x y : A) : bool := leb O x y && negb (leb O y x).

(** Python [dict]: insertion ordered association list. (e.g. [class_indices],
    preprocessing.py 64). *)
Definition dict (A B : Type) := list (A * B).

(** [d.get(k)] (e.g. preprocessing.py 87). *)
Fixpoint dict_get {A B} (O : TotalOrder A) (d : dict A B) (k : A) : option B :=
  match d with
  | [] => None
  | (k', v) :: t => if eqb O k k' then Some v else dict_get O t k
  end.

(** [d[k] = v] / [d.update({k: v})]: replaces in place or appends. (e.g.
    preprocessing.py 83). *)
Fixpoint dict_set {A B} (O : TotalOrder A) (d : dict A B) (k : A) (v : B) : dict A B :=
  match d with
  | [] => [(k, v)]
  | (k', v') :: t => if eqb O k k' then (k', v) :: t else (k', v') :: dict_set O t k v
  end.

(** [d.update(e)] (e.g. preprocessing.py 83). *)
Definition dict_update {A B} (O : TotalOrder A) (d : dict A B) (kvs : list (A * B)) : dict A B :=
  fold_left (fun d kv => dict_set O d (fst kv) (snd kv)) kvs d.

(** [d[k]] with a KeyError (e.g. preprocessing.py 87,
    bayes/naive_bayes_classifier.py 220). *)
Definition dict_lookup {A B} (O : TotalOrder A) (d : dict A B) (k : A) : result B :=
  match dict_get O d k with Some v => Ok v | None => Err KeyError end.

(** Insertion into a sorted list without duplicates, for [np.unique]
    (preprocessing.py 77). *)
Fixpoint insert_uniq {A} (O : TotalOrder A) (x : A) (l : list A) : list A :=
  match l with
  | [] => [x]
  | y :: t => if leb O x y then (if leb O y x then l else x :: l)
              else y :: insert_uniq O x t
  end.
(** [np.unique]: sorted, without duplicates (preprocessing.py 77, dataset.py 218).
    *)
Definition np_unique {A} (O : TotalOrder A) (l : list A) : list A :=
  fold_right (insert_uniq O) [] l.

(** [labels[labels == a] = b]. (dataset.py 212-245). *)
Definition replace_all {A} (O : TotalOrder A) (a b : A) (l : list A) : list A :=
  map (fun x => if eqb O x a then b else x) l.

(** Number of occurrences. (e.g. ops.py 518, metrics.py 92-93). *)
Definition count {A} (p : A -> bool) (l : list A) : nat := length (filter p l).

(** Comparisons on reals as booleans (numpy [<], [<=], [==] on exact reals). (e.g.
    ops.py 305-308). *)
Definition Rltb (x y : R) : bool := if Rlt_dec x y then true else false.
(** [<=] (e.g. metrics.py 92). *)
Definition Rleb (x y : R) : bool := if Rle_dec x y then true else false.
(** [==] (e.g. ops.py 113, 495, 544). *)
Definition Reqb (x y : R) : bool := if Req_EM_T x y then true else false.

(** [np.sum], [np.mean], [np.var] of a one-dimensional array. (e.g. losses.py
    36-52). *)
Definition rsum (l : list R) : R := fold_right Rplus 0%R l.
(** [np.mean] (e.g. ops.py 148, preprocessing.py 356). *)
Definition rmean (l : list R) : R := (rsum l / INR (length l))%R.
(** [np.var] (e.g. preprocessing.py 357). *)
Definition rvar (l : list R) : R :=
  rmean (map (fun x => (x - rmean l) * (x - rmean l))%R l).

(** [np.min] / [np.max] of a non-empty array; the empty case is a ValueError and is
    treated where the functions are used. (preprocessing.py 236). *)
Definition rmin1 (x : R) (l : list R) : R := fold_left Rmin l x.
(** The same for the maximum (preprocessing.py 237). *)
Definition rmax1 (x : R) (l : list R) : R := fold_left Rmax l x.
(** [np.min] (preprocessing.py 236). *)
Definition np_min (l : list R) : result R :=
  match l with [] => Err ValueError | x :: t => Ok (rmin1 x t) end.
(** [np.max] (preprocessing.py 237). *)
Definition np_max (l : list R) : result R :=
  match l with [] => Err ValueError | x :: t => Ok (rmax1 x t) end.

(** Columns of a matrix given by rows. (e.g. [x[:, j]], ops.py 179). *)
Definition column {A} (d : A) (m : list (list A)) (j : nat) : list A :=
  map (fun row => nth j row d) m.

(** Dot product, [np.matmul] of two vectors (e.g. kernels.py 45). *)
Fixpoint dot (a b : list R) : R :=
  match a, b with
  | x :: a', y :: b' => (x * y + dot a' b')%R
  | _, _ => 0%R
  end.
(** Addition of vectors (e.g. ops.py 265). *)
Definition vadd (a b : list R) : list R := map (fun p => (fst p + snd p)%R) (combine a b).
(** Subtraction of vectors (e.g. ops.py 177, 241). *)
Definition vsub (a b : list R) : list R := map (fun p => (fst p - snd p)%R) (combine a b).
(** A number times a vector (e.g. ops.py 265). *)
Definition vscale (c : R) (a : list R) : list R := map (Rmult c) a.
(** The squared norm (ops.py 242). *)
Definition sqnorm (a : list R) : R := dot a a.

(** First index of the minimum (numpy [argmin] returns the first one) with respect
    to a strict comparison [lt]. (ops.py 349). Helper: the best index so far is an
    argument. *)
Fixpoint argmin_from {A} (lt : A -> A -> bool) (best : A) (ib : nat) (i : nat) (l : list A) : nat :=
  match l with
  | [] => ib
  | x :: t => if lt x best then argmin_from lt x i (S i) t
              else argmin_from lt best ib (S i) t
  end.
(** [np.argmin] (ops.py 349); ValueError for an empty array. *)
Definition argmin {A} (lt : A -> A -> bool) (l : list A) : result nat :=
  match l with
  | [] => Err ValueError
  | x :: t => Ok (argmin_from lt x 0 1 t)
  end.
