(** Column names: [attribute_name], the columns of a DataFrame, and the
    dictionaries by column name of the Bayes classifiers
    (classicML/api/models/bayes/naive_bayes_classifier.py 32-232,
    semi_naive_bayes_classifiers.py 109-267, 340-413, 431-527, 600-619,
    tree/decision_tree_classifier.py 85-87, 125-215).  What is computed for a column
    is that of Model/Bayes.v and Model/Tree.v. *)
From Coq Require Import List ZArith Reals Bool Arith String.
From Verif.Model Require Import Base Bayes Tree Pruner.
Import ListNotations.
Local Notation length := List.length.

(** ** Names and frames *)
(** A column name: a text, or a number as pandas gives it to a column without a name
    (naive_bayes_classifier.py 74). *)
Inductive name := Text (s : string) | Number (n : nat).
(** [==] on names (semi_naive_bayes_classifiers.py 156). *)
Definition name_eq_dec (a b : name) : {a = b} + {a <> b}.
Proof. decide equality; [apply string_dec|apply Nat.eq_dec]. Defined.
(** [==] on names as a boolean (semi_naive_bayes_classifiers.py 156). *)
Definition same_name (a b : name) : bool := if name_eq_dec a b then true else false.
(** Is it a number? (naive_bayes_classifier.py 213, [x[index]]). *)
Definition is_number (a : name) : bool := match a with Number _ => true | Text _ => false end.
(** [list.index]: the first place (naive_bayes_classifier.py 74, by pandas). *)
Fixpoint place (l : list name) (n : name) : option nat :=
  match l with
  | [] => None
  | a :: l' => if same_name n a then Some 0 else option_map S (place l' n)
  end.
(** The last place (semi_naive_bayes_classifiers.py 155-157). *)
Fixpoint last_place (l : list name) (n : name) : option nat :=
  match l with
  | [] => None
  | a :: l' => match last_place l' n with
               | Some k => Some (S k)
               | None => if same_name n a then Some 0 else None
               end
  end.
(** Are there equal names? (naive_bayes_classifier.py 74, by pandas). *)
Fixpoint has_duplicates (l : list name) : bool :=
  match l with [] => false | a :: l' => existsb (same_name a) l' || has_duplicates l' end.

(** A DataFrame: the names of the columns and the rows (naive_bayes_classifier.py
    74). *)
Record frame (A : Type) := { labels : list name; rows : list (list A) }.
Arguments labels {A} _.
Arguments rows {A} _.
Arguments Build_frame {A} _ _.
(** The argument [x] of [fit] and [predict]: an array of [d] columns or a DataFrame
    (naive_bayes_classifier.py 71-74).  Simplification: always with two
    dimensions. *)
Inductive input (A : Type) := Array (d : nat) (r : list (list A)) | Frame (f : frame A).
Arguments Array {A} _ _.
Arguments Frame {A} _.

(** The entries of a row at some places (naive_bayes_classifier.py 74, by pandas). *)
Definition entries {A} (places : list nat) (r : list A) : list A :=
  flat_map (fun i => match nth_error r i with Some v => [v] | None => [] end) places.
(** [x.iloc[:, j]] (naive_bayes_classifier.py 91). *)
Definition column {A} (j : nat) (r : list (list A)) : list A :=
  flat_map (fun q => match nth_error q j with Some v => [v] | None => [] end) r.
(** All columns (naive_bayes_classifier.py 90-91). *)
Definition columns {A} (d : nat) (r : list (list A)) : list (list A) := map (fun j => column j r) (seq 0 d).

(** [pd.DataFrame(x, columns=names)] (naive_bayes_classifier.py 74,
    semi_naive_bayes_classifiers.py 150, decision_tree_classifier.py 154): an array
    gets the names, in number as many as it has columns; a DataFrame is rearranged.
    Simplification: a name that the DataFrame does not have gives a column of NaN,
    here the end of the model. *)
Definition with_names {A} (names : option (list name)) (x : input A) : result (frame A) :=
  match x, names with
  | Array d r, None => Ok {| labels := map Number (seq 0 d); rows := r |}
  | Array d r, Some l => if (length l =? d)%nat then Ok {| labels := l; rows := r |} else Err ValueError
  | Frame f, None => Ok f
  | Frame f, Some l =>
      if list_eq_dec name_eq_dec l (labels f) then Ok f
      else if has_duplicates (labels f) then Err ValueError
      else p <- mapM (fun n => match place (labels f) n with Some k => Ok k | None => Err NotANumber end) l ;;
           Ok {| labels := l; rows := map (entries p) (rows f) |}
  end.

(** [x[k]] for a row of a DataFrame (naive_bayes_classifier.py 213,
    semi_naive_bayes_classifiers.py 362, 390): by name if some name is a number,
    otherwise by position.  Simplification: if a name occurs twice the first is
    taken. *)
Definition item {A} (l : list name) (r : list A) (k : nat) : result A :=
  if existsb is_number l then match place l (Number k) with Some p => get_at r p | None => Err KeyError end
  else get_at r k.

(** [d[n]] in a dictionary by column name (naive_bayes_classifier.py 205). *)
Fixpoint by_name {B} (d : list (name * B)) (n : name) : option B :=
  match d with [] => None | (a, b) :: d' => if same_name n a then Some b else by_name d' n end.
(** [d.update({n: b})] (naive_bayes_classifier.py 104, 132). *)
Fixpoint put {B} (d : list (name * B)) (n : name) (b : B) : list (name * B) :=
  match d with
  | [] => [(n, b)]
  | (a, c) :: d' => if same_name n a then (a, b) :: d' else (a, c) :: put d' n b
  end.

Section Named.
Context {A : Type} (O : TotalOrder A).
Variable num : A -> R.
Variable continuous : list A -> bool.
Variable vc : list A -> list A.
Variable rnd : R -> R.

(** ** Naive Bayes *)
(** The fields of the object (naive_bayes_classifier.py 41-50); [pi_0] and [pi_1] have
    the same keys and are kept side by side.  Simplification: before [compile]
    [smoothing] is None, which is taken for False. *)
Record naive_bayes := { n_names : option (list name); n_smoothing : bool; n_priors : option (R * R);
                        n_pi : list (name * nb_info (A := A)); n_ready : bool }.
(** naive_bayes_classifier.py 41-50. *)
Definition new_naive_bayes (names : option (list name)) : naive_bayes :=
  {| n_names := names; n_smoothing := false; n_priors := None; n_pi := []; n_ready := false |}.
(** naive_bayes_classifier.py 52-59 [compile]. *)
Definition compile_nb (smoothing : bool) (o : naive_bayes) : naive_bayes :=
  {| n_names := n_names o; n_smoothing := smoothing; n_priors := n_priors o; n_pi := n_pi o; n_ready := n_ready o |}.
(** naive_bayes_classifier.py 60-144 [fit], up to the exception if there is one. *)
Definition fit_nb (x : input A) (y : list Z) (o : naive_bayes) : result naive_bayes :=
  f <- with_names (n_names o) x ;;
  p <- get_prior_probability (length y) y (n_smoothing o) ;;
  pi <- foldM (fun d c => i <- nb_attribute O num continuous vc y (snd c) ;; Ok (put d (fst c) i))
              (combine (labels f) (columns (length (labels f)) (rows f))) (n_pi o) ;;
  Ok {| n_names := n_names o; n_smoothing := n_smoothing o; n_priors := Some p; n_pi := pi; n_ready := true |}.
(** naive_bayes_classifier.py 191-224 [_predict]: the two sums for one row. *)
Definition scores_nb (o : naive_bayes) (l : list name) (r : list A) : result (ext * ext) :=
  match n_names o, n_priors o with
  | Some names, Some p =>
      foldM (fun s n =>
               i <- match by_name (n_pi o) (snd n) with Some i => Ok i | None => Err KeyError end ;;
               v <- item l r (fst n) ;;
               t <- nb_term O num rnd (n_smoothing o) i v ;;
               Ok (eadd (fst s) (fst t), eadd (snd s) (snd t)))
            (enumerate names) (elog (Some (fst p)), elog (Some (snd p)))
  | _, _ => Err TypeError
  end.
(** naive_bayes_classifier.py 146-189 [predict]. *)
Definition predict_nb (o : naive_bayes) (x : input A) : result (list Z) :=
  if n_ready o then f <- with_names (n_names o) x ;; mapM (fun r => s <- scores_nb o (labels f) r ;; Ok (nb_label s)) (rows f)
  else Err ValueError.
(** naive_bayes_classifier.py 246-311: what [save_weights] writes and [load_weights]
    reads; the names are not in the file. *)
Definition load_nb (saved o : naive_bayes) : naive_bayes :=
  {| n_names := n_names o; n_smoothing := n_smoothing saved; n_priors := n_priors saved; n_pi := n_pi saved; n_ready := true |}.

(** ** One-dependent estimators *)
(** A value of the dictionary [p_c]: the prior, or what is known of a column
    (semi_naive_bayes_classifiers.py 172, 188, 206). *)
Inductive part := Prior (p : R) | Info (i : sp_info (A := A)).
(** An element of [_list_of_p_c] (semi_naive_bayes_classifiers.py 215). *)
Record group := { g_category : Z; g_value : A; g_parts : list (name * part) }.
(** The fields of the object (semi_naive_bayes_classifiers.py 116-122, 438-440). *)
Record estimator := { e_names : option (list name); e_parent : option name; e_index : option nat; e_smoothing : bool;
                      e_m : nat; e_groups : list group; e_lists : list (list group); e_ready : bool }.
(** semi_naive_bayes_classifiers.py 109-122, 431-440. *)
Definition new_estimator (names : option (list name)) : estimator :=
  {| e_names := names; e_parent := None; e_index := None; e_smoothing := false; e_m := 0; e_groups := []; e_lists := []; e_ready := false |}.
(** semi_naive_bayes_classifiers.py 124-134 [compile] of the super-parent estimator. *)
Definition compile_sp (parent : name) (smoothing : bool) (o : estimator) : estimator :=
  {| e_names := e_names o; e_parent := Some parent; e_index := e_index o; e_smoothing := smoothing;
     e_m := e_m o; e_groups := e_groups o; e_lists := e_lists o; e_ready := e_ready o |}.
(** semi_naive_bayes_classifiers.py 442-454 [compile] of the averaged estimator. *)
Definition compile_ao (smoothing : bool) (m : nat) (o : estimator) : estimator :=
  {| e_names := e_names o; e_parent := e_parent o; e_index := e_index o; e_smoothing := smoothing;
     e_m := m; e_groups := e_groups o; e_lists := e_lists o; e_ready := e_ready o |}.

(** semi_naive_bayes_classifiers.py 155-157: the place of the super parent; without a
    match the old one stays. *)
Definition parent_index (o : estimator) (f : frame A) : option nat :=
  match e_parent o with
  | Some n => match last_place (labels f) n with Some k => Some k | None => e_index o end
  | None => e_index o
  end.
(** semi_naive_bayes_classifiers.py 163-215: one element of the list. *)
Definition make_group (f : frame A) (y : list Z) (smoothing : bool) (parent : list A) (cv : Z * A) : result group :=
  let sel := selected O y (fst cv) (snd cv) parent in
  p <- get_dependent_prior_probability (count (fun b => b) sel) (length y) (length (unique O parent)) smoothing ;;
  Ok {| g_category := fst cv; g_value := snd cv;
        g_parts := fold_left (fun d c => put d (fst c) (Info (sp_attribute O num continuous y smoothing (fst cv) sel (snd c))))
                     (combine (labels f) (columns (length (labels f)) (rows f))) [(Text "p_c_xi", Prior p)] |}.
(** semi_naive_bayes_classifiers.py 136-219 [fit]; [x.iloc[:, None]] (160) raises. *)
Definition fit_sp (x : input A) (y : list Z) (o : estimator) : result estimator :=
  f <- with_names (e_names o) x ;;
  let index := parent_index o f in
  t <- match zsort y, index with
       | [], _ => Ok []
       | _, None => Err ValueError
       | _, Some k =>
           parent <- get_at (columns (length (labels f)) (rows f)) k ;;
           mapM (make_group f y (e_smoothing o) parent) (flat_map (fun c => map (fun v => (c, v)) (unique O parent)) (zsort y))
       end ;;
  Ok {| e_names := e_names o; e_parent := e_parent o; e_index := index; e_smoothing := e_smoothing o;
        e_m := e_m o; e_groups := e_groups o ++ t; e_lists := e_lists o; e_ready := true |}.

(** semi_naive_bayes_classifiers.py 380-397, 399-413: the logarithms of one element,
    in the order of the dictionary; [x[index - 1]]. *)
Definition group_log (l : list name) (r : list A) (g : group) : result ext :=
  foldM (fun s p =>
           t <- (if same_name (fst (snd p)) (Text "p_c_xi")
                 then match snd (snd p) with Prior q => Ok (elog (Some q)) | Info _ => Err TypeError end
                 else match snd (snd p) with
                      | Info i => v <- item l r (fst p - 1) ;; sp_info_log O num rnd i v
                      | Prior _ => Err TypeError
                      end) ;;
           Ok (eadd s t))
        (enumerate (g_parts g)) (Fin 0).
(** semi_naive_bayes_classifiers.py 367-413 [_calculate_posterior_probability]. *)
Definition group_step (l : list name) (r : list A) (s : ext * ext) (g : group) : result (ext * ext) :=
  if (g_category g =? 0)%Z then t <- group_log l r g ;; Ok (eadd (fst s) t, snd s)
  else if (g_category g =? 1)%Z then t <- group_log l r g ;; Ok (fst s, eadd (snd s) t)
  else Ok s.
(** semi_naive_bayes_classifiers.py 221-267 [predict]. *)
Definition predict_sp (o : estimator) (x : input A) : result (list Z) :=
  if e_ready o
  then f <- with_names (e_names o) x ;;
       mapM (fun r => s <- foldM (group_step (labels f) r) (e_groups o) (Fin 0, Fin 0) ;; Ok (nb_label s)) (rows f)
  else Err ValueError.

(** semi_naive_bayes_classifiers.py 280-338: what [save_weights] writes and
    [load_weights] reads of the super-parent estimator; neither the names of the
    columns nor the place of the super parent are in the file. *)
Definition load_sp (saved o : estimator) : estimator :=
  {| e_names := e_names o; e_parent := e_parent saved; e_index := e_index o; e_smoothing := e_smoothing saved;
     e_m := e_m o; e_groups := e_groups saved; e_lists := e_lists o; e_ready := true |}.

(** semi_naive_bayes_classifiers.py 481-485: the keys of [discrete_unique_values],
    each once. *)
Definition parents_ao (f : frame A) (m : nat) : list name :=
  map fst (fold_left (fun d c => if ao_eligible O continuous m (snd c) then put d (fst c) tt else d)
                     (combine (labels f) (columns (length (labels f)) (rows f))) []).
(** semi_naive_bayes_classifiers.py 456-497 [fit]: all elements of [_attribute_list]
    are the same list object. *)
Definition fit_ao (x : input A) (y : list Z) (o : estimator) : result estimator :=
  f <- with_names (e_names o) x ;;
  let parents := parents_ao f (e_m o) in
  o' <- foldM (fun o n => fit_sp (Frame f) y
                 {| e_names := e_names o; e_parent := Some n; e_index := e_index o; e_smoothing := e_smoothing o;
                    e_m := e_m o; e_groups := e_groups o; e_lists := e_lists o; e_ready := e_ready o |}) parents o ;;
  Ok {| e_names := e_names o; e_parent := e_parent o'; e_index := e_index o'; e_smoothing := e_smoothing o;
        e_m := e_m o; e_groups := e_groups o'; e_lists := map (fun _ => e_groups o') parents; e_ready := true |}.
(** semi_naive_bayes_classifiers.py 359-363, 600-619 [_predict]. *)
Definition scores_ao (lists : list (list group)) (l : list name) (r : list A) : result (ext * ext) :=
  foldM (fun s p =>
           t <- foldM (fun s g => v <- item l r (fst p) ;; if eqb O (g_value g) v then group_step l r s g else Ok s) (snd p) (Fin 0, Fin 0) ;;
           Ok (eadd (fst s) (fst t), eadd (snd s) (snd t)))
        (enumerate lists) (Fin 0, Fin 0).
(** semi_naive_bayes_classifiers.py 499-527 [predict]. *)
Definition predict_ao (o : estimator) (x : input A) : result (list Z) :=
  if e_ready o
  then f <- with_names (e_names o) x ;; mapM (fun r => s <- scores_ao (e_lists o) (labels f) r ;; Ok (nb_label s)) (rows f)
  else Err ValueError.
(** semi_naive_bayes_classifiers.py 541-598: the file of the averaged estimator; the
    list [_list_of_p_c] is not in it. *)
Definition load_ao (saved o : estimator) : estimator :=
  {| e_names := e_names o; e_parent := e_parent o; e_index := e_index o; e_smoothing := e_smoothing saved;
     e_m := e_m saved; e_groups := e_groups o; e_lists := e_lists saved; e_ready := true |}.
End Named.

(** ** Decision trees *)
(** decision_tree_classifier.py 125-176 [fit]: the training rows and those of the
    validation are arranged by name.  Simplification: the names are distinct. *)
Definition fit_named_tree (top : list Z -> Z) (rnd : R -> R) (c : criterion) (how : pruning) (names : option (list name))
  (x : input cell) (y : list Z) (val : option (input cell * list Z)) : result tree :=
  f <- with_names names x ;;
  v <- match val with
       | None => Ok None
       | Some (xv, yv) => g <- with_names names xv ;; Ok (Some (combine (rows g) yv))
       end ;;
  fit_pruned top rnd c how (length (labels f)) (combine (rows f) y) v.
(** decision_tree_classifier.py 178-215 [predict]: [x.values], the columns by
    position. *)
Definition predict_named_tree (t : tree) (x : input cell) : result (list Z) :=
  mapM (Tree.predict t) match x with Array _ r => r | Frame f => rows f end.
