(** Specifications for the Bayes classifiers. *)
From Coq Require Import List ZArith Reals Sorted.
From Verif.Model Require Import Base Bayes.
From Verif.Spec Require Import Common.
Import ListNotations.
Local Open Scope R_scope.

(** A row, seen as the pair of an attribute value and a label. *)
Definition row_is {A} (v : A) (c : Z) (p : A * Z) : Prop := fst p = v /\ snd p = c.

(** [m] consists of the elements of [l] with property [P], in order. *)
Inductive selection {A} (P : A -> Prop) : list A -> list A -> Prop :=
| sel_nil : selection P [] []
| sel_yes a l m : P a -> selection P l m -> selection P (a :: l) (a :: m)
| sel_no a l m : ~ P a -> selection P l m -> selection P (a :: l) m.
(** Mean and variance of [l]; nothing (NaN) without values. *)
Definition statistics (l : list R) (s : option (R * R)) : Prop :=
  match s with None => l = [] | Some (m, v) => l <> [] /\ mean_of l m /\ variance_of l v end.

Section Order.
Context {A : Type}.

(** [a] occurs in [l] before [b] does. *)
Definition appears_before (l : list A) (a b : A) : Prop :=
  exists i, nth_error l i = Some a /\ forall j, nth_error l j = Some b -> (i < j)%nat.
(** [u] lists the distinct values of [l] in order of first appearance. *)
Definition appearance_order (l u : list A) : Prop :=
  NoDup u /\ (forall v, In v u <-> In v l) /\ StronglySorted (appears_before l) u.
(** [a] is (strictly) more frequent in [l] than [b]. *)
Definition as_frequent (l : list A) (a b : A) : Prop :=
  forall na nb, how_many (fun v => v = a) l na -> how_many (fun v => v = b) l nb -> (nb <= na)%nat.
Definition more_frequent (l : list A) (a b : A) : Prop :=
  forall na nb, how_many (fun v => v = a) l na -> how_many (fun v => v = b) l nb -> (nb < na)%nat.
(** The documented key order of [value_counts]: decreasing frequency, ties in
    any order. *)
Definition frequency_order (l u : list A) : Prop :=
  NoDup u /\ (forall v, In v u <-> In v l) /\ StronglySorted (as_frequent l) u.

(** The product of the Laplace corrected frequencies of the query's values among
    the rows of class [c]. *)
Inductive likelihood (y : list Z) (c : Z) : list (list A) -> list A -> R -> Prop :=
| lk_nil : likelihood y c [] [] 1
| lk_cons col v cols q r nv nc k :
    how_many (row_is v c) (combine col y) nv -> how_many (fun z => z = c) y nc -> num_distinct col k ->
    likelihood y c cols q r ->
    likelihood y c (col :: cols) (v :: q) ((INR nv + 1) / (INR nc + INR k) * r).
End Order.

(** The normal density with the given mean and standard deviation. *)
Definition normal_density (mean sd x : R) : R :=
  exp (- (x - mean) ^ 2 / (2 * sd ^ 2)) / (sd * sqrt (2 * PI)).

Definition product (l : list R) : R := fold_right Rmult 1 l.

(** What the entry of a super-parent table for a class and a value must contain:
    the joint (Laplace corrected) frequency of class and value, and for every
    discrete column the number of such rows for each of its values; for every
    continuous column the statistics of those rows, or of all rows of the class
    if there are at most two. *)
Definition right_entry {A} (O : TotalOrder A) (num : A -> R) (continuous : list A -> bool)
  (cols : list (list A)) (y : list Z) (s : bool) (parent : list A) (e : sp_entry) : Prop :=
  (forall n k, how_many (row_is (sp_value e) (category e)) (combine parent y) n -> num_distinct parent k ->
     p_c_xi e = if s then (INR n + 1) / (INR (length y) + 2 * INR k) else INR n / INR (length y)) /\
  Forall2 (fun col i => continuous col = false ->
    exists d n k, i = SPDisc d n k s /\ how_many (row_is (sp_value e) (category e)) (combine parent y) n /\
      num_distinct col k /\
      forall w, In w col -> forall a,
        how_many (fun r => fst (fst r) = w /\ snd (fst r) = sp_value e /\ snd r = category e) (combine (combine col parent) y) a ->
        dict_lookup O d w = Ok a) cols (infos e) /\
  Forall2 (fun col i => continuous col = true ->
    exists st rows n, i = SPCont st /\ statistics (map (fun r => num (fst (fst r))) rows) st /\
      how_many (row_is (sp_value e) (category e)) (combine parent y) n /\
      selection (fun r => snd r = category e /\ ((2 < n)%nat -> snd (fst r) = sp_value e))
                (combine (combine col parent) y) rows) cols (infos e).

(** A call of [fit] of a super-parent estimator: columns, labels, smoothing and
    the index of the super parent. *)
Definition fit_call (A : Type) := (list (list A) * list Z * bool * nat)%type.
Definition do_fit {A} (O : TotalOrder A) (num : A -> R) (continuous : list A -> bool)
  (st : list sp_entry) (f : fit_call A) : result (list sp_entry) :=
  let '(cols, y, s, i) := f in sp_fit O num continuous st cols y s i.
