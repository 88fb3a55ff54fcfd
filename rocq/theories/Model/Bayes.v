(** Model of the Bayes classifiers:
    classicML/api/models/bayes/naive_bayes_classifier.py 60-232,
    semi_naive_bayes_classifiers.py 109-122, 136-267, 340-413, 431-527, 600-619 and
    classicML/backend/python/ops.py 352-406, 501-547. A DataFrame is a list of
    columns of equal length with values in [A]; [num] reads a value as a number,
    [continuous] stands for [type_of_target(column) == 'continuous'] (Model/Ops.v)
    and [vc] for the key order of [pd.value_counts] (decreasing frequency, ties in
    any order). Floats are exact reals, except that densities are rounded by [rnd].
    *)
From Coq Require Import List ZArith Reals Bool Arith.
From Verif.Model Require Import Base.
Import ListNotations.
Local Open Scope R_scope.

(** ** Numbers that numpy's logarithm can produce. *)
(** The numbers that numpy's logarithm can produce (naive_bayes_classifier.py
    178-179, 213-224). *)
Inductive ext := Fin (r : R) | NegInf | Nan.
(** [+=] on them (naive_bayes_classifier.py 213-224). *)
Definition eadd (a b : ext) : ext :=
  match a, b with
  | Nan, _ | _, Nan => Nan
  | NegInf, _ | _, NegInf => NegInf
  | Fin u, Fin v => Fin (u + v)
  end.
(** [np.log]; [None] is NaN. (naive_bayes_classifier.py 178-179, 213-224). *)
Definition elog (p : option R) : ext :=
  match p with
  | None => Nan
  | Some p => if Rltb 0 p then Fin (ln p) else if Reqb p 0 then NegInf else Nan
  end.
(** [a > b]; False when one side is NaN. (naive_bayes_classifier.py 229). *)
Definition egt (a b : ext) : bool :=
  match a, b with
  | Fin u, Fin v => Rltb v u
  | Fin _, NegInf => true
  | _, _ => false
  end.

(** ** ops.py *)
(** ops.py 501-522 [get_prior_probability]. *)
Definition get_prior_probability (number_of_sample : nat) (y : list Z) (smoothing : bool) : result (R * R) :=
  let zeros := count (fun c => (c =? 0)%Z) y in
  let classes := length (nodup Z.eq_dec y) in
  let '(a, b) := if smoothing then (zeros + 1, number_of_sample + classes)%nat else (zeros, number_of_sample) in
  if (b =? 0)%nat then Err ZeroDivisionError
  else let p_0 := INR a / INR b in Ok (p_0, 1 - p_0).

(** ops.py 352-378 [get_conditional_probability]; 0 / 0 on numpy numbers is NaN. *)
Definition get_conditional_probability (samples_on_attribute samples_in_category num_of_categories : nat)
  (smoothing : bool) : option R :=
  let '(a, b) := if smoothing then (samples_on_attribute + 1, samples_in_category + num_of_categories)%nat
                 else (samples_on_attribute, samples_in_category) in
  if (b =? 0)%nat then None else Some (INR a / INR b).

(** ops.py 381-406 [get_dependent_prior_probability]. *)
Definition get_dependent_prior_probability (on_attribute_in_category number_of_sample values_on_attribute : nat)
  (smoothing : bool) : result R :=
  let '(a, b) := if smoothing then (on_attribute_in_category + 1, number_of_sample + 2 * values_on_attribute)%nat
                 else (on_attribute_in_category, number_of_sample) in
  if (b =? 0)%nat then Err ZeroDivisionError else Ok (INR a / INR b).

(** ops.py 525-547 [get_probability_density]: NaN if the variance is 0 (the first
    factor is infinite and the exponential is 0 or NaN). *)
Definition get_probability_density (rnd : R -> R) (sample mean var : R) : option R :=
  if Reqb var 0 then None
  else
    let p := rnd (1 / (sqrt (2 * PI) * var) * exp (- (sample - mean) ^ 2 / (2 * var ^ 2))) in
    if Reqb p 0 then Some (1 / 10 ^ 36) else Some p.

(** Mean and variance of a column; NaN without rows. (naive_bayes_classifier.py
    98-102, semi_naive_bayes_classifiers.py 183-187). *)
Definition mean_var (l : list R) : option (R * R) :=
  match l with [] => None | _ => Some (rmean l, rvar l) end.

Section Bayes.
Context {A : Type} (O : TotalOrder A).
Variable num : A -> R.
Variable continuous : list A -> bool.
Variable vc : list A -> list A.
Variable rnd : R -> R.

(** Is the value in the list? Used by [Series.unique] below
    (naive_bayes_classifier.py 112). *)
Definition mem (v : A) (l : list A) : bool := existsb (eqb O v) l.
(** [Series.unique]: distinct values in order of first appearance, without those
    already seen (naive_bayes_classifier.py 112). *)
Fixpoint unique_from (seen l : list A) : list A :=
  match l with
  | [] => []
  | v :: t => if mem v seen then unique_from seen t else v :: unique_from (v :: seen) t
  end.
(** [Series.unique] (naive_bayes_classifier.py 112, semi_naive_bayes_classifiers.py
    160, 193). *)
Definition unique (l : list A) : list A := unique_from [] l.
(** The count of one value (naive_bayes_classifier.py 120-123,
    semi_naive_bayes_classifiers.py 197-198). *)
Definition occurrences (v : A) (l : list A) : nat := count (eqb O v) l.

(** The entries of a column in the rows of class [c]. (naive_bayes_classifier.py
    80-81, 94-95, semi_naive_bayes_classifiers.py 183). *)
Definition of_class (y : list Z) (c : Z) (col : list A) : list A :=
  map fst (filter (fun p => (snd p =? c)%Z) (combine col y)).

(** ** Naive Bayes *)
(** What is stored for one attribute; [pi_0] and [pi_1] side by side.
    (naive_bayes_classifier.py 104-109, 132-140). *)
Inductive nb_info :=
| NBCont (s0 s1 : option (R * R))
| NBDisc (d0 d1 : dict A nat) (n0 n1 k : nat).

(** naive_bayes_classifier.py 90-140. The keys of [value_counts] of the column are
    paired by position with the counts of the values in order of appearance
    (128-130). With a single value [np.squeeze] gives a zero-dimensional array,
    which cannot be indexed. *)
Definition nb_attribute (y : list Z) (col : list A) : result nb_info :=
  let c0 := of_class y 0 col in
  let c1 := of_class y 1 col in
  if continuous col then Ok (NBCont (mean_var (map num c0)) (mean_var (map num c1)))
  else
    let u := unique col in
    if (length u =? 1)%nat then Err IndexError
    else Ok (NBDisc (combine (vc col) (map (fun v => occurrences v c0) u))
                    (combine (vc col) (map (fun v => occurrences v c1) u))
                    (length c0) (length c1) (length u)).

(** The attributes that [fit] sets (naive_bayes_classifier.py 86, 104-109, 132-140).
    *)
Record nb_model := { nb_p0 : R; nb_p1 : R; nb_pi : list nb_info; nb_smoothing : bool }.

(** naive_bayes_classifier.py 60-144 [fit] of a fresh classifier. *)
Definition nb_fit (cols : list (list A)) (y : list Z) (smoothing : bool) : result nb_model :=
  p <- get_prior_probability (length y) y smoothing ;;
  pi <- mapM (nb_attribute y) cols ;;
  Ok {| nb_p0 := fst p; nb_p1 := snd p; nb_pi := pi; nb_smoothing := smoothing |}.

(** naive_bayes_classifier.py 210-214: the density of a continuous attribute. *)
Definition nb_density (s : option (R * R)) (v : A) : option R :=
  match s with None => None | Some (m, w) => get_probability_density rnd (num v) m w end.
(** naive_bayes_classifier.py 205-224: the logarithms added for one attribute. *)
Definition nb_term (smoothing : bool) (i : nb_info) (v : A) : result (ext * ext) :=
  match i with
  | NBCont s0 s1 => Ok (elog (nb_density s0 v), elog (nb_density s1 v))
  | NBDisc d0 d1 n0 n1 k =>
      a <- dict_lookup O d0 v ;;
      b <- dict_lookup O d1 v ;;
      Ok (elog (get_conditional_probability a n0 k smoothing), elog (get_conditional_probability b n1 k smoothing))
  end.
(** naive_bayes_classifier.py 178-179, 204-224: the two sums. *)
Definition nb_scores (m : nb_model) (q : list A) : result (ext * ext) :=
  foldM (fun s p =>
           v <- get_at q (fst p) ;;
           t <- nb_term (nb_smoothing m) (snd p) v ;;
           Ok (eadd (fst s) (fst t), eadd (snd s) (snd t)))
        (enumerate (nb_pi m)) (elog (Some (nb_p0 m)), elog (Some (nb_p1 m))).

(** naive_bayes_classifier.py 229-232: the label. *)
Definition nb_label (s : ext * ext) : Z := if egt (fst s) (snd s) then 0%Z else 1%Z.
(** naive_bayes_classifier.py 191-232 [_predict] with [probability=False]. *)
Definition nb_predict (m : nb_model) (q : list A) : result Z := s <- nb_scores m q ;; Ok (nb_label s).
(** naive_bayes_classifier.py 226-227: the normalised pair when both scores are
    numbers with a sum other than 0 ([None] otherwise: NaN or infinite). *)
Definition nb_pair (s : ext * ext) : option (R * R) :=
  match s with
  | (Fin a, Fin b) => if Reqb (a + b) 0 then None else Some (a / (a + b), b / (a + b))
  | _ => None
  end.

(** ** Super-parent one-dependence estimators *)
(** What is stored for one attribute (semi_naive_bayes_classifiers.py 188-190,
    205-213). *)
Inductive sp_info :=
| SPCont (s : option (R * R))
| SPDisc (d : dict A nat) (n k : nat) (smoothing : bool).
(** One element of [_list_of_p_c] (semi_naive_bayes_classifiers.py 163-215). *)
Record sp_entry := { category : Z; sp_value : A; p_c_xi : R; infos : list sp_info }.

(** semi_naive_bayes_classifiers.py 167: the entries of a column in the selected
    rows. *)
Definition pick (sel : list bool) (col : list A) : list A :=
  map fst (filter snd (combine col sel)).
(** semi_naive_bayes_classifiers.py 175-213: one attribute, for the rows [sel] of
    class [c] with the super-parent value. *)
Definition sp_attribute (y : list Z) (smoothing : bool) (c : Z) (sel : list bool) (col : list A) : sp_info :=
  let sub := pick sel col in
  if continuous col then
    SPCont (mean_var (map num (if (length sub <=? 2)%nat then of_class y c col else sub)))
  else
    let u := unique col in
    SPDisc (map (fun v => (v, occurrences v sub)) u) (length sub) (length u) smoothing.

(** [np.unique] of the labels, increasing (semi_naive_bayes_classifiers.py 159). *)
Definition zsort (l : list Z) : list Z :=
  np_unique {| leb := Z.leb;
               leb_total := fun x y => match Z.le_ge_cases x y with
                                       | or_introl h => or_introl (proj2 (Z.leb_le x y) h)
                                       | or_intror h => or_intror (proj2 (Z.leb_le y x) h) end;
               leb_trans := fun x y z h k => proj2 (Z.leb_le x z)
                              (Z.le_trans x y z (proj1 (Z.leb_le x y) h) (proj1 (Z.leb_le y z) k));
               leb_antisym := fun x y h k => Z.le_antisymm x y (proj1 (Z.leb_le x y) h) (proj1 (Z.leb_le y x) k) |} l.
(** semi_naive_bayes_classifiers.py 166: the rows of a class with a value of the
    super parent. *)
Definition selected (y : list Z) (c : Z) (v : A) (parent : list A) : list bool :=
  map (fun p => eqb O (fst p) v && (snd p =? c)%Z) (combine parent y).
(** semi_naive_bayes_classifiers.py 159-215: the entries for all classes and all
    values of the super-parent column. *)
Definition sp_table (cols : list (list A)) (y : list Z) (smoothing : bool) (parent : list A) : result (list sp_entry) :=
  mapM (fun cv =>
          let sel := selected y (fst cv) (snd cv) parent in
          p <- get_dependent_prior_probability (count (fun b => b) sel) (length y) (length (unique parent)) smoothing ;;
          Ok {| category := fst cv; sp_value := snd cv; p_c_xi := p;
                infos := map (sp_attribute y smoothing (fst cv) sel) cols |})
       (flat_map (fun c => map (fun v => (c, v)) (unique parent)) (zsort y)).

(** The state that survives between calls: [_list_of_p_c]. *)
(** semi_naive_bayes_classifiers.py 136-219 [fit] of the estimator with super parent
    [index]; [state] is the list [_list_of_p_c] (122), which survives between calls.
    Simplification: the lookup of the column by name (lines 155-157) has been done.
    *)
Definition sp_fit (state : list sp_entry) (cols : list (list A)) (y : list Z) (smoothing : bool) (index : nat)
  : result (list sp_entry) :=
  parent <- get_at cols index ;;
  t <- sp_table cols y smoothing parent ;;
  Ok (state ++ t).

(** semi_naive_bayes_classifiers.py 386-397, 403-413: the logarithm of one
    attribute. *)
Definition sp_info_log (i : sp_info) (v : A) : result ext :=
  match i with
  | SPCont None => Ok Nan
  | SPCont (Some (m, w)) => Ok (elog (get_probability_density rnd (num v) m w))
  | SPDisc d n k smoothing =>
      a <- dict_lookup O d v ;; Ok (elog (get_conditional_probability a n k smoothing))
  end.
(** semi_naive_bayes_classifiers.py 380-397, 399-413: the amount one entry adds to
    the score of its class. *)
Definition sp_entry_log (q : list A) (e : sp_entry) : result ext :=
  foldM (fun s p => v <- get_at q (fst p) ;; t <- sp_info_log (snd p) v ;; Ok (eadd s t))
        (enumerate (infos e)) (elog (Some (p_c_xi e))).
(** semi_naive_bayes_classifiers.py 367-413 [_calculate_posterior_probability]. *)
Definition sp_step (q : list A) (s : ext * ext) (e : sp_entry) : result (ext * ext) :=
  if (category e =? 0)%Z then t <- sp_entry_log q e ;; Ok (eadd (fst s) t, snd s)
  else if (category e =? 1)%Z then t <- sp_entry_log q e ;; Ok (fst s, eadd (snd s) t)
  else Ok s.

(** semi_naive_bayes_classifiers.py 354-358: the estimator itself uses every entry,
    whatever value the query has at the super parent. *)
Definition sp_scores (state : list sp_entry) (q : list A) : result (ext * ext) :=
  foldM (sp_step q) state (Fin 0, Fin 0).
(** semi_naive_bayes_classifiers.py 221-267 [predict] of one sample. *)
Definition sp_predict (state : list sp_entry) (q : list A) : result Z :=
  s <- sp_scores state q ;; Ok (nb_label s).

(** ** Averaged one-dependence estimator *)
(** semi_naive_bayes_classifiers.py 484: the columns that may be super parents. *)
Definition ao_eligible (m : nat) (col : list A) : bool :=
  negb (continuous col) && forallb (fun v => (m <? occurrences v col)%nat) (unique col).
(** semi_naive_bayes_classifiers.py 456-497 [fit]: every element of
    [_attribute_list] is the same list object (491-493), so after the loop all of
    them are its final contents. *)
Definition ao_fit (state : list sp_entry) (cols : list (list A)) (y : list Z) (smoothing : bool) (m : nat)
  : result (list sp_entry * list (list sp_entry)) :=
  let parents := filter (fun p => ao_eligible m (snd p)) (enumerate cols) in
  final <- foldM (fun st p => sp_fit st cols y smoothing (fst p)) parents state ;;
  Ok (final, map (fun _ => final) parents).

(** semi_naive_bayes_classifiers.py 359-363 and 610-614: list number [i] is filtered
    by the query's value in column [i]. *)
Definition ao_scores (lists : list (list sp_entry)) (q : list A) : result (ext * ext) :=
  foldM (fun s p =>
           v <- get_at q (fst p) ;;
           t <- foldM (fun s e => if eqb O (sp_value e) v then sp_step q s e else Ok s) (snd p) (Fin 0, Fin 0) ;;
           Ok (eadd (fst s) (fst t), eadd (snd s) (snd t)))
        (enumerate lists) (Fin 0, Fin 0).
(** semi_naive_bayes_classifiers.py 600-619 [_predict]. *)
Definition ao_predict (lists : list (list sp_entry)) (q : list A) : result Z :=
  s <- ao_scores lists q ;; Ok (nb_label s).
End Bayes.
