(** Model of the two-dimensional plots: which points and lines are drawn
    (classicML/api/plots/linear_model.py, cluster.py, support_vector_machine.py,
    ensemble.py, bayes.py).

    Not modelled: what matplotlib does with them, colours, labels, the legend, the
    contour lines it derives from a grid of predictions, and plot_history. *)
From Coq Require Import List ZArith Reals Bool Arith.
From Verif.Model Require Import Base Hull Tree.
Import ListNotations.
Local Open Scope R_scope.
Local Notation length := List.length.

(** linear_model.py 45-47, 102-104; cluster.py 56-58, 87-89; support_vector_machine.py
    64-66; ensemble.py 78-80; bayes.py 74-76. *)
Definition guarded {A} (trained loaded : bool) (r : result A) : result A :=
  if negb trained && negb loaded then Err ValueError else r.

(** [x[mask]] for an array of booleans. (linear_model.py 22-23, cluster.py 33,
    ensemble.py 19-20). *)
Definition masked {A} (m : list bool) (x : list A) : result (list A) :=
  if (length m =? length x)%nat then Ok (map snd (filter fst (combine m x))) else Err IndexError.

(** [_plot_sample_scatter]: linear_model.py 20-27, ensemble.py 16-20,
    support_vector_machine.py 17-21, bayes.py 53-57.  [neg] is 0 or -1. *)
Definition scatter (neg : Z) (x : list point) (y : list Z) : result (list point * list point) :=
  a <- masked (map (Z.eqb neg) y) x ;;
  b <- masked (map (Z.eqb 1) y) x ;;
  Ok (a, b).

(** [np.linspace(a, b, n)], for n of at least 2. [np.linspace(a, b, n)], for n of at
    least 2 (linear_model.py 56, 116, bayes.py 22-23, support_vector_machine.py
    35-36, ensemble.py 36-37). *)
Definition linspace (a b : R) (n : nat) : list R :=
  map (fun i => a + INR i * ((b - a) / INR (n - 1))) (seq 0 n).

(** [np.meshgrid(x0, x1)] followed by [np.c_[m0.ravel(), m1.ravel()]].
    [np.meshgrid(x0, x1)] followed by [np.c_[m0.ravel(), m1.ravel()]] (bayes.py
    24-27, support_vector_machine.py 37-40, ensemble.py 38-51). *)
Definition grid (x0 x1 : list R) : list point := flat_map (fun v => map (fun u => (u, v)) x0) x1.

(** [a.reshape((r, c))]. (bayes.py 29, support_vector_machine.py 41, ensemble.py 44,
    52). *)
Fixpoint rows_of {A} (r c : nat) (l : list A) : list (list A) :=
  match r with O => [] | S r' => firstn c l :: rows_of r' c (skipn c l) end.
(** [a.reshape((r, c))] with its ValueError (bayes.py 29, support_vector_machine.py
    41, ensemble.py 44, 52). *)
Definition reshape {A} (r c : nat) (l : list A) : result (list (list A)) :=
  if (length l =? r * c)%nat then Ok (rows_of r c l) else Err ValueError.

(** support_vector_machine.py 37-41, ensemble.py 38-52, bayes.py 24-29: the
    predictions on the grid, in the shape of the coordinate matrices. *)
Definition background {A} (predict : list point -> result (list A)) (x0 x1 : list R) : result (list (list A)) :=
  ys <- predict (grid x0 x1) ;;
  reshape (length x1) (length x0) ys.

(** support_vector_machine.py 9-81: the samples, the circled
    support vectors and the grid. *)
Definition plot_svc (trained loaded : bool) (support : list nat) (predict : list point -> result (list Z))
  (x : list point) (y : list Z) : result (list point * list point * list point * list (list Z)) :=
  guarded trained loaded (
    ab <- scatter (-1) x y ;;
    s <- mapM (get_at x) support ;;
    g <- background predict (linspace 0 1 300) (linspace 0 (4/5) 300) ;;
    Ok (fst ab, snd ab, s, g)).

(** ensemble.py 23-92; [estimators] are the predictions of the base learners, drawn
    only on demand. *)
Definition plot_ensemble (trained loaded : bool) (estimators : list (list point -> result (list Z)))
  (predict : list point -> result (list Z)) (x : list point) (y : list Z) (plot_estimators : bool)
  : result (list point * list point * list (list (list Z)) * list (list Z)) :=
  guarded trained loaded (
    ab <- scatter (-1) x y ;;
    es <- (if plot_estimators then mapM (fun e => background e (linspace 0 1 300) (linspace 0 1 300)) estimators else Ok []) ;;
    g <- background predict (linspace 0 1 300) (linspace 0 1 300) ;;
    Ok (fst ab, snd ab, es, g)).

(** linear_model.py 118. None is a point that is not drawn because its height is
    infinite or NaN (division by a zero weight). *)
Definition logistic_height (beta : list R) (x : R) : option R :=
  if Reqb (nth 1 beta 0) 0 then None else Some (- (nth 0 beta 0 * x + nth 2 beta 0) / nth 1 beta 0).
(** linear_model.py 87-125 [plot_logistic_regression]; [d] is the number of columns.
    *)
Definition plot_logistic (trained loaded : bool) (beta : list R) (d : nat) (x : list point) (y : list Z)
  : result (list point * list point * list (R * option R)) :=
  guarded trained loaded (
    if negb (d =? 2)%nat then Err ValueError else
    ab <- scatter 0 x y ;;
    Ok (fst ab, snd ab, map (fun t => (t, logistic_height beta t)) (linspace 0 1 50))).

(** linear_model.py 60; None without a direction. *)
Definition unit_of (w : point) : option point :=
  let n := sqrt (fst w * fst w + snd w * snd w) in
  if Reqb n 0 then None else Some (fst w / n, snd w / n).
(** linear_model.py 63-64, 75-76. [unit_w.T @ unit_w] is the matrix (u_i u_j). *)
Definition projected (u p : point) : point :=
  (fst p * (fst u * fst u) + snd p * (snd u * fst u), fst p * (fst u * snd u) + snd p * (snd u * snd u)).
(** linear_model.py 57. *)
Definition lda_height (w : point) (x : R) : option R :=
  if Reqb (fst w) 0 then None else Some (snd w / fst w * x).
(** linear_model.py 30-84 [plot_linear_discriminant_analysis]: the drawn samples of
    the two classes with their projections (each joined by a dashed segment), the
    projected means, and the line; without a direction every projection is NaN. *)
Definition plot_lda (trained loaded : bool) (w mu0 mu1 : point) (x : list point) (y : list Z)
  : result (list (point * option point) * list (point * option point) * (option point * option point) * list (R * option R)) :=
  guarded trained loaded (
    ab <- scatter 0 x y ;;
    let pr p := match unit_of w with Some u => Some (projected u p) | None => None end in
    Ok (map (fun p => (p, pr p)) (fst ab), map (fun p => (p, pr p)) (snd ab), (pr mu0, pr mu1),
        map (fun t => (t, lda_height w t)) (linspace 0 1 50))).

(** cluster.py 30-36 and 39-67: one group of samples for each mean. *)
Definition plot_gaussian_mixture (trained loaded : bool) (mu : list point) (clusters : list nat) (x : list point)
  : result (list (list point) * list point) :=
  guarded trained loaded (
    gs <- mapM (fun k => masked (map (Nat.eqb k) clusters) x) (seq 0 (length mu)) ;;
    Ok (gs, mu)).

(** cluster.py 27-29 and 70-105: the samples, the centroids and the hull of every
    cluster. *)
Definition plot_k_means (by_x : list point -> list point) (trained loaded : bool) (n_clusters : nat)
  (centroids : list point) (clusters : list nat) (x : list point)
  : result (list point * list point * list (list point)) :=
  guarded trained loaded (
    hs <- mapM (fun k => c <- masked (map (Nat.eqb k) clusters) x ;; compute_convex_hull by_x c) (seq 0 n_clusters) ;;
    Ok (x, centroids, hs)).

(** bayes.py 20-21: the numbers of a column, None if it holds a text. *)
Definition numbers (c : list cell) : option (list R) :=
  fold_right (fun v r => match v, r with Num x, Some l => Some (x :: l) | _, _ => None end) (Some []) c.
(** bayes.py 20-21: the range of a column, 0.1 wider on both sides. Texts have a
    minimum, but subtracting from it fails; an empty column has none. *)
Definition axis_range (c : list cell) : result (R * R) :=
  match c with
  | [] => Err ValueError
  | _ => match numbers c with
         | Some (x :: l) => Ok (fold_left Rmin l x - 1/10, fold_left Rmax l x + 1/10)
         | _ => Err TypeError
         end
  end.
(** bayes.py 62-91 with 11-32 and 35-59. [cols] are the columns of x. The frame of
    grid points has two columns but is given all the names (line 27): ValueError
    unless there are two. Numeric columns are assumed to have a numeric type. *)
Definition plot_bayes (trained loaded : bool) (predict : list point -> result (list Z)) (cols : list (list cell)) (y : list Z)
  : result (list point * list point * list R * list R * list (list Z)) :=
  guarded trained loaded (
    c0 <- get_at cols 0 ;;
    r0 <- axis_range c0 ;;
    c1 <- get_at cols 1 ;;
    r1 <- axis_range c1 ;;
    if negb (length cols =? 2)%nat then Err ValueError else
    let x0 := linspace (fst r0) (snd r0) 300 in
    let x1 := linspace (fst r1) (snd r1) 300 in
    g <- background predict x0 x1 ;;
    match numbers c0, numbers c1 with
    | Some a, Some b => ab <- scatter 0 (combine a b) y ;; Ok (fst ab, snd ab, x0, x1, g)
    | _, _ => Err IndexError
    end).
