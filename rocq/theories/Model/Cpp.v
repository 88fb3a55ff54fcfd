(** Model of the C++ backend: classicML/backend/cc/ops/ops.cc, matrix_op.cc,
    metrics/metrics.cc, losses/losses.cc, activations/activations.cc and
    kernels/kernels.cc.  Written with loops over indices, as in the sources, and
    without the definitions of the Python models.  Floats are exact reals
    (32 bit arguments are rounded first by Python's conversion); the templates
    are modelled once. *)
From Coq Require Import List ZArith Reals Bool Arith.
From Verif.Model Require Import Base.
From Verif.Model Require Ops Hull.
Import ListNotations.
Local Open Scope R_scope.

(** What a call does: it returns, it throws (pybind11 turns [value_error] and
    [type_error] into ValueError and TypeError), or its behaviour is undefined (a
    read outside a matrix, or an Eigen assertion that stops the process). Every
    function of classicML/backend/cc, e.g. ops.cc 18-38, which throws at 20. *)
Inductive outcome (A : Type) := Value (a : A) | Throws (e : err) | Undefined.
Arguments Value {A} a.
Arguments Throws {A} e.
Arguments Undefined {A}.
(** Sequencing of two calls (e.g. ops.cc 377-386). *)
Definition andthen {A B} (o : outcome A) (k : A -> outcome B) : outcome B :=
  match o with Value a => k a | Throws e => Throws e | Undefined => Undefined end.

(** [for (i = 0; i < n; i ++) body]. (e.g. ops.cc 155-164). *)
Definition loop {S} (n : nat) (body : nat -> S -> S) (s : S) : S := fold_left (fun s i => body i s) (seq 0 n) s.
(** A sum computed by a loop or by Eigen (e.g. ops.cc 217-228). *)
Definition sum (n : nat) (f : nat -> R) : R := loop n (fun i s => s + f i) 0.

(** An Eigen matrix: dimensions and coefficients. ([matrix32], [matrix64] of the
    sources, e.g. ops.cc 217). *)
Record mat := { nrow : nat; ncol : nat; coef : nat -> nat -> R }.
(** pybind11's conversions at the calls of the functions (ops/ops.cc 18, 217): rows
    of [d] numbers to a matrix. *)
Definition to_mat (d : nat) (x : list (list R)) : mat :=
  {| nrow := length x; ncol := d; coef := fun i j => nth j (nth i x []) 0 |}.
(** A vector to a column (metrics.cc 61, losses.cc 42). *)
Definition to_column (v : list R) : mat := {| nrow := length v; ncol := 1; coef := fun i _ => nth i v 0 |}.
(** A vector to a row (ops.cc 303). *)
Definition to_row (v : list R) : mat := {| nrow := 1; ncol := length v; coef := fun _ j => nth j v 0 |}.
(** A matrix back to rows (ops.cc 148, 427). *)
Definition rows (m : mat) : list (list R) := map (fun i => map (coef m i) (seq 0 (ncol m))) (seq 0 (nrow m)).

(** Eigen's coefficientwise operations on one matrix (activations.cc 90-95). *)
Definition cwise (f : R -> R) (m : mat) : mat := {| nrow := nrow m; ncol := ncol m; coef := fun i j => f (coef m i j) |}.
(** Eigen's [sum()] (losses.cc 42-53). *)
Definition total (m : mat) : R := sum (ncol m) (fun j => sum (nrow m) (fun i => coef m i j)).
(** Eigen's [transpose()] (ops.cc 411-421). *)
Definition transpose (m : mat) : mat := {| nrow := ncol m; ncol := nrow m; coef := fun i j => coef m j i |}.
(** Eigen's product (ops.cc 411-421). A product of matrices that do not fit stops
    the process. *)
Definition product (a b : mat) : outcome mat :=
  if (ncol a =? nrow b)%nat
  then Value {| nrow := nrow a; ncol := ncol b; coef := fun i j => sum (ncol a) (fun k => coef a i k * coef b k j) |}
  else Undefined.
(** Eigen's coefficientwise operations on two matrices (losses.cc 42-53); different
    shapes stop the process. *)
Definition cwise2 (f : R -> R -> R) (a b : mat) : outcome mat :=
  if (nrow a =? nrow b)%nat && (ncol a =? ncol b)%nat
  then Value {| nrow := nrow a; ncol := ncol a; coef := fun i j => f (coef a i j) (coef b i j) |}
  else Undefined.

(** ** matrix_op.cc *)
(** matrix_op.cc 157-183 [Reshape] to one row: Eigen stores matrices by columns. *)
Definition reshape_row (m : mat) : mat :=
  {| nrow := 1; ncol := nrow m * ncol m; coef := fun _ k => coef m (k mod nrow m) (k / nrow m) |}.
(** matrix_op.cc 44-74 [BroadcastSub]. With a first matrix of no rows the last
    branch reads row 0 of it. *)
Definition broadcast_sub (a b : mat) : outcome mat :=
  if (nrow a =? nrow b)%nat && (ncol a =? ncol b)%nat
  then Value {| nrow := nrow a; ncol := ncol a; coef := fun i j => coef a i j - coef b i j |}
  else if negb (nrow a =? 1)%nat && negb (nrow b =? 1)%nat then Throws ValueError
  else if negb (ncol a =? ncol b)%nat then Throws ValueError
  else if (nrow b <? nrow a)%nat
  then if (nrow b =? 1)%nat
       then Value {| nrow := nrow a; ncol := ncol a; coef := fun i j => coef a i j - coef b 0 j |} else Undefined
  else if (nrow a =? 1)%nat
       then Value {| nrow := nrow b; ncol := ncol b; coef := fun i j => - (coef b i j - coef a 0 j) |} else Undefined.
(** matrix_op.cc 141-152 [NonZero]. *)
Definition non_zero (n : nat) (value : nat -> R) : list nat :=
  loop n (fun i buffer => if Reqb (value i) 0 then buffer else buffer ++ [i]) [].
(** matrix_op.cc 186-231 [Unique]: insertion into a [std::set]. *)
Definition set_insert {A} (same : A -> A -> bool) (a : A) (s : list A) : list A :=
  if existsb (same a) s then s else a :: s.
(** matrix_op.cc 186-231 [Unique]: inserting everything into a [std::set]. *)
Definition unique_set {A} (same : A -> A -> bool) (l : list A) : list A :=
  fold_left (fun s a => set_insert same a s) l [].
(** [minCoeff(&index)] and [maxCoeff] of a row of [n] numbers: the first index with
    the extreme value. Eigen stops the process for n = 0. (matrix_op.cc 29-40,
    metrics.cc 90-111). *)
Definition arg_extreme (before : R -> R -> bool) (n : nat) (f : nat -> R) : nat :=
  loop n (fun j best => if before (f j) (f best) then j else best) 0%nat.
(** matrix_op.cc 29-40 [ArgMin]. *)
Definition arg_min_rows (m : mat) : list nat :=
  map (fun i => arg_extreme Rltb (ncol m) (coef m i)) (seq 0 (nrow m)).
(** Eigen's [maxCoeff()] of a matrix (activations.cc 121-137). *)
Definition max_coeff (m : mat) : option R :=
  if (nrow m * ncol m =? 0)%nat then None
  else Some (loop (ncol m) (fun j s => loop (nrow m) (fun i s => if Rltb s (coef m i j) then coef m i j else s) s) (coef m 0 0)).

(** ** ops.cc *)
(** ops.cc 17-38 [BootstrapSampling1]; [draw n] stands for the [n] random numbers
    reduced modulo [n]. *)
Definition bootstrap1 {A B} (draw : nat -> list nat) (x : list A) (y : list B) (a : A) (b : B) : outcome (list A * list B) :=
  if negb (length x =? length y)%nat then Throws ValueError
  else Value (map (fun i => nth i x a) (draw (length x)), map (fun i => nth i y b) (draw (length x))).
(** ops.cc 43-57 [BootstrapSampling2]. *)
Definition bootstrap2 {A} (draw : nat -> list nat) (x : list A) (a : A) : list A := map (fun i => nth i x a) (draw (length x)).

(** ops.cc 132-137 [GetSlope]; [None] is the largest 32 bit number, which is above
    every slope. *)
Definition slope (p0 p1 : R * R) : option R :=
  if Reqb (fst p0) (fst p1) then None else Some ((snd p1 - snd p0) / (fst p1 - fst p0)).
(** The comparison of slopes by [std::sort] (ops.cc 65-88). *)
Definition slope_lt (a b : option R) : bool :=
  match a, b with Some u, Some v => Rltb u v | Some _, None => true | None, _ => false end.
(** ops.cc 140-142 [GetCrossProduct]. *)
Definition cross (p0 p1 p2 : R * R) : R :=
  (fst p1 - fst p0) * (snd p2 - snd p0) - (snd p1 - snd p0) * (fst p2 - fst p0).
(** ops.cc 90-98: a point is appended at the end of the vector and points before it
    are erased while the last three turn clockwise. *)
Fixpoint erase (fuel : nat) (hull : list (R * R)) : list (R * R) :=
  match fuel with
  | O => hull
  | S fuel' =>
      let n := length hull in
      if (2 <? n)%nat && Rltb (cross (nth (n - 3) hull (0, 0)) (nth (n - 2) hull (0, 0)) (nth (n - 1) hull (0, 0))) 0
      then erase fuel' (firstn (n - 2) hull ++ skipn (n - 1) hull) else hull
  end.
(** ops.cc 65-110 [ComputeConvexHull]; [by_x] and [by_slope s] stand for the two
    calls of [std::sort], which may order equal keys anyhow. *)
Definition convex_hull (by_x : list (R * R) -> list (R * R)) (by_slope : R * R -> list (R * R) -> list (R * R))
    (points : list (R * R)) : outcome (list (R * R)) :=
  match by_x points with
  | [] => Undefined
  | start :: others =>
      let hull := fold_left (fun hull p => erase (length hull) (hull ++ [p])) (by_slope start others) [start] in
      Value (hull ++ [nth 0 hull (0, 0)])
  end.

(** ops.cc 147-170 [CalculateCentroids]; [None] is a row of NaN (0 / 0). *)
Definition centroids (x : mat) (clusters : list nat) : list (option (list R)) :=
  let n_clusters := length (unique_set Nat.eqb clusters) in
  map (fun cluster =>
         let '(mean, count) :=
           loop (nrow x) (fun i s => if (nth i clusters 0 =? cluster)%nat
                                     then (map (fun j => nth j (fst s) 0 + coef x i j) (seq 0 (ncol x)), S (snd s)) else s)
                (map (fun _ => 0) (seq 0 (ncol x)), 0%nat) in
         if (count =? 0)%nat then None else Some (map (fun v => v / INR count) mean))
      (seq 0 n_clusters).

(** matrix_op.cc 118-137 [GetNonZeroSubMatrix]: the flags are 0 or 1. *)
Definition sub_rows {A} (default : A) (values : list A) (flags : list R) : list A :=
  loop (length flags) (fun i acc => if Reqb (nth i flags 0) 1 then acc ++ [nth i values default] else acc) [].
(** ops.cc 178-212 [CalculateError]. [kernel rows row] is the kernel object's
    answer, a row of numbers. The result is a matrix with one entry. *)
Definition calculate_error (kernel : list (list R) -> list R -> list R) (x : list (list R)) (y : list R) (i : nat)
    (alphas flags : list R) (b : R) : R :=
  let fx :=
    if existsb (fun f => negb (Reqb f 0)) flags then
      let valid_x := sub_rows [] x flags in
      let valid_y := sub_rows 0 y flags in
      let valid_alphas := sub_rows 0 alphas flags in
      let kappa := kernel valid_x (nth i x []) in
      sum (length kappa) (fun k => nth k valid_alphas 0 * nth k valid_y 0 * nth k kappa 0) + b
    else b in
  fx - nth i y 0.

(** ops.cc 216-228 [CalculateEuclideanDistance]. *)
Definition euclidean_distance (x0 x1 : mat) : mat :=
  {| nrow := nrow x0; ncol := nrow x1;
     coef := fun i j => sqrt (sum (ncol x0) (fun k => (coef x0 i k - coef x1 j k) ^ 2)) |}.

(** ops.cc 232-250 [CalculateMeans]; [None] if the division is by 0. *)
Definition means (sample gamma : mat) : list (option (list R)) :=
  map (fun i =>
         let row := loop (nrow sample) (fun j row => map (fun k => nth k row 0 + coef gamma j i * coef sample j k) (seq 0 (ncol sample)))
                         (map (fun _ => 0) (seq 0 (ncol sample))) in
         let s := sum (nrow gamma) (fun j => coef gamma j i) in
         if Reqb s 0 then None else Some (map (fun v => v / s) row))
      (seq 0 (ncol gamma)).

(** ops.cc 253-264 [ClipAlpha]. *)
Definition clip_alpha (alpha low high : R) : R :=
  let clipped := alpha in
  if Rltb high alpha then high else if Rltb alpha low then low else clipped.

(** ops.cc 268-272 [CompareDifferences1]: the largest difference of each row. *)
Definition compare_differences1 (x0 x1 : mat) (tol : R) : list bool :=
  map (fun i => Rltb tol (loop (ncol x0) (fun j s => let v := Rabs (coef x0 i j - coef x1 i j) in if Rltb s v then v else s)
                               (Rabs (coef x0 i 0 - coef x1 i 0)))) (seq 0 (nrow x0)).
(** ops.cc 278-298 [CompareDifferences2] on stacks of [d] by [d] matrices. *)
Definition compare_differences2 (n d : nat) (x0 x1 : nat -> nat -> nat -> R) (tol : R) : list (list bool) :=
  map (fun i => map (fun j => loop d (fun k found => if found : bool then found else Rltb tol (Rabs (x0 i j k - x1 i j k))) false)
                    (seq 0 d)) (seq 0 n).

(** ops.cc 308-318 [GetConditionalProbability]; [None] is a division by 0. *)
Definition conditional_probability (on_attribute in_category categories : nat) (smoothing : bool) : option R :=
  if smoothing then if (in_category + categories =? 0)%nat then None else Some ((INR on_attribute + 1) / INR (in_category + categories))
  else if (in_category =? 0)%nat then None else Some (INR on_attribute / INR in_category).
(** ops.cc 322-332 [GetDependentPriorProbability]. *)
Definition dependent_prior_probability (on_attribute number_of_sample values : nat) (smoothing : bool) : option R :=
  if smoothing then if (number_of_sample + 2 * values =? 0)%nat then None
                    else Some (INR (on_attribute + 1) / INR (number_of_sample + 2 * values))
  else if (number_of_sample =? 0)%nat then None else Some (INR on_attribute / INR number_of_sample).
(** ops.cc 336-353 [GetPriorProbability]. *)
Definition prior_probability (number_of_sample : nat) (y : list Z) (smoothing : bool) : option (R * R) :=
  let negative := (length y - length (non_zero (length y) (fun i => IZR (nth i y 0%Z))))%nat in
  if smoothing then let p_0 := (INR negative + 1) / INR (number_of_sample + 2) in Some (p_0, 1 - p_0)
  else if (number_of_sample =? 0)%nat then None
  else let p_0 := INR negative / INR number_of_sample in Some (p_0, 1 - p_0).
(** ops.cc 358-374 [GetProbabilityDensity]; [None] for a variance of 0. *)
Definition probability_density (rnd : R -> R) (sample mean var : R) : option R :=
  if Reqb var 0 then None
  else let p := rnd (1 / (sqrt (2 * PI) * var) * exp (- ((sample - mean) ^ 2 / (2 * var ^ 2)))) in
       Some (if Reqb p 0 then 1 / 10 ^ 36 else p).

(** ops.cc 377-386 [GetW]; [inv] stands for Eigen's [inverse()]. *)
Definition get_w (inv : mat -> mat) (s_w mu_0 mu_1 : mat) : outcome mat :=
  andthen (cwise2 Rminus mu_0 mu_1) (fun delta => andthen (product (inv s_w) (transpose delta)) (fun w => Value (reshape_row w))).
(** Eigen's [asDiagonal()] (ops.cc 390-406). *)
Definition diagonal (n : nat) (v : nat -> R) : mat :=
  {| nrow := n; ncol := n; coef := fun i j => if (i =? j)%nat then v i else 0 |}.
(** ops.cc 390-406 [GetW_V2]; [svd] gives U, the singular values and V. [matrixV()]
    is V and not its transpose; the singular values are not inverted. *)
Definition get_w_v2 (svd : mat -> mat * (nat -> R) * mat) (s_w mu_0 mu_1 : mat) : outcome mat :=
  let '(u, sigma, v) := svd s_w in
  andthen (product (transpose v) (diagonal (nrow s_w) sigma)) (fun a =>
  andthen (product a (transpose u)) (fun s_w_inv =>
  andthen (cwise2 Rminus mu_0 mu_1) (fun delta =>
  andthen (product s_w_inv (transpose delta)) (fun w => Value (reshape_row w))))).
(** ops.cc 410-421: the scatter matrix of one class. *)
Definition scatter (x mu : mat) : outcome mat :=
  andthen (broadcast_sub x mu) (fun c => product (transpose c) c).
(** ops.cc 410-421 [GetWithinClassScatterMatrix]. *)
Definition within_class_scatter (x_0 x_1 mu_0 mu_1 : mat) : outcome mat :=
  andthen (scatter x_0 mu_0) (fun s_0 => andthen (scatter x_1 mu_1) (fun s_1 => cwise2 Rplus s_0 s_1)).

(** pybind11's conversion of an array argument (ops.cc 450): it must have one or two
    dimensions. *)
Definition array_mat (a : Ops.nd) : option mat :=
  let l := Ops.flat_reals (Ops.data a) in
  match Ops.shape a with
  | [k] => Some {| nrow := k; ncol := 1; coef := fun i _ => nth i l 0 |}
  | [r; c] => Some {| nrow := r; ncol := c; coef := fun i j => nth (i * c + j) l 0 |}
  | _ => None
  end.
(** ops.cc 426-444 [InitCentroids1] and 449-471 [InitCentroids2]; [draw n k] are [k]
    random numbers modulo [n]. Indices are converted to integers by truncation and
    taken by columns. *)
Definition init_centroids (draw : nat -> nat -> list nat) (d : nat) (x : list (list R)) (n_clusters : nat) (init : Ops.init_arg)
    : outcome (list (list R)) :=
  match init with
  | Ops.InitRandom => if (length x =? 0)%nat then Undefined else Value (map (fun i => nth i x []) (draw (length x) n_clusters))
  | Ops.InitOther => Throws TypeError
  | Ops.InitArray a =>
      match array_mat a with
      | None => Throws TypeError
      | Some m =>
          if (nrow m =? n_clusters)%nat && (ncol m =? d)%nat then Value (rows m)
          else if (nrow m * ncol m =? n_clusters)%nat then
            if (n_clusters =? 0)%nat then Undefined
            else
              let indices := map (coef (reshape_row m) 0) (seq 0 n_clusters) in
              if existsb (fun v => Rleb (INR (length x)) v) indices || existsb (fun v => Rltb v 0) indices then Throws ValueError
              else Value (map (fun v => nth (Z.to_nat (Int_part v)) x []) indices)
          else Throws ValueError
      end
  end.

(** ops.cc 476-497 [SelectSecondAlpha]. *)
Definition select_second_alpha (error : R) (cache flags : list R) : outcome (nat * R) :=
  match non_zero (length flags) (fun i => nth i flags 0), cache with
  | [], _ | _, [] => Undefined
  | (first :: _) as non_bound, _ =>
      let '(_, index, e) :=
        fold_left (fun s i => let '(delta, index, e) := s in
                              let temp := Rabs (error - nth i cache 0) in
                              if Rltb delta temp then (temp, i, nth i cache 0) else s)
                  non_bound (Rabs (error - nth first cache 0), 0%nat, nth 0 cache 0) in
      Value (index, e)
  end.

(** ops.cc 575-605 [TypeOfTarget_V2]. [kept] is what [Unique] keeps of an element:
    the number rounded to 32 bits, or the first byte of a text. [whole] says that
    the rounded number is an integer. Only floats, signed integers and texts set the
    number of distinct elements ([counted]); with no dimension [shape[1]] does not
    exist. *)
Definition type_of_target {A B} (same : B -> B -> bool) (kept : A -> B) (whole : A -> bool) (counted : bool)
    (k : Ops.dtype_kind) (y : Ops.ndarray A) : outcome Ops.target_type :=
  match k, y with
  | Ops.KObject, _ => Value Ops.Unknown
  | _, Ops.AN _ => Value Ops.Unknown
  | _, Ops.A0 _ => Undefined
  | _, _ =>
      if (match k with Ops.KFloat => true | _ => false end) && negb (forallb whole (Ops.elements y)) then Value Ops.Continuous
      else if negb counted then Undefined
      else
        let num_unique := length (unique_set same (map kept (Ops.elements y))) in
        let one_column := match y with Ops.A2 c _ => (c =? 1)%nat | _ => true end in
        let two_dims := match y with Ops.A2 _ _ => true | _ => false end in
        Value (if one_column && (num_unique =? 2)%nat then Ops.Binary
               else if one_column && (2 <? num_unique)%nat then Ops.Multiclass
               else if two_dims && (2 <=? num_unique)%nat then Ops.Multilabel else Ops.Unknown)
  end.

(** ** metrics.cc *)
(** The tests at the beginning of metrics.cc 61-77 and 91-111. *)
Definition same_shape (a b : mat) : bool := (ncol a =? ncol b)%nat && (nrow a =? nrow b)%nat.
(** [a / b]; NaN is [None] (only 0 / 0 occurs). (metrics.cc 61-77, losses.cc 42-53).
    *)
Definition quotient (a b : R) : option R := if Reqb b 0 then None else Some (a / b).
(** metrics.cc 60-77 [BinaryAccuracy]; with more than one column the loop reads
    outside the first one. *)
Definition binary_accuracy (y_pred y_true : mat) : outcome (option R) :=
  if negb (same_shape y_pred y_true) then Throws ValueError
  else if (1 <? ncol y_pred)%nat && (0 <? nrow y_pred)%nat then Undefined
  else
    let size := (nrow y_pred * ncol y_pred)%nat in
    let accuracy := loop size (fun i a =>
         if (Rltb (coef y_pred i 0) (/ 2) && Reqb (coef y_true i 0) 1)
            || (Rleb (/ 2) (coef y_pred i 0) && Reqb (coef y_true i 0) 0)
            || (Rleb (/ 2) (coef y_pred i 0) && Reqb (coef y_true i 0) (-1)) then a - 1 else a) (INR size) in
    Value (quotient accuracy (INR size)).
(** metrics.cc 90-111 [CategoricalAccuracy]; the largest entry of no columns does
    not exist. *)
Definition categorical_accuracy (y_pred y_true : mat) : outcome (option R) :=
  if negb (same_shape y_pred y_true) then Throws ValueError
  else if (ncol y_pred =? 0)%nat && (0 <? nrow y_pred)%nat then Undefined
  else
    let best m i := arg_extreme (fun a b => Rltb b a) (ncol m) (coef m i) in
    Value (quotient (loop (nrow y_pred) (fun i a => if negb (best y_true i =? best y_pred i)%nat then a - 1 else a) (INR (nrow y_pred)))
                    (INR (nrow y_pred))).
(** metrics.cc 38-47 [Accuracy]. *)
Definition accuracy (y_pred y_true : mat) : outcome (option R) :=
  if (ncol y_pred =? 1)%nat then binary_accuracy y_pred y_true else categorical_accuracy y_pred y_true.

(** ** losses.cc; logarithms of numbers that are not positive are not finite:
    [None]. *)
(** losses.cc 41-76: are all arguments of the logarithms positive? *)
Definition log_ok (lo : bool) (m : mat) : bool :=
  forallb (fun i => forallb (fun j => Rltb 0 (coef m i j) && (negb lo || Rltb (coef m i j) 1)) (seq 0 (ncol m))) (seq 0 (nrow m)).
(** losses.cc 41-53 [BinaryCrossentropy]. *)
Definition binary_crossentropy (y_pred y_true : mat) : outcome (option R) :=
  andthen (cwise2 (fun y p => y * ln p) y_true y_pred) (fun loss_l =>
  andthen (cwise2 (fun y p => (1 - y) * ln (1 - p)) y_true y_pred) (fun loss_r =>
  Value (if log_ok true y_pred then quotient (- (total loss_l + total loss_r)) (INR (nrow y_true)) else None))).
(** losses.cc 66-76 [CategoricalCrossentropy]. *)
Definition categorical_crossentropy (y_pred y_true : mat) : outcome (option R) :=
  andthen (cwise2 (fun y p => y * ln p) y_true y_pred) (fun loss =>
  Value (if log_ok false y_pred then quotient (- total loss) (INR (nrow y_true)) else None)).
(** losses.cc 89-101 [Crossentropy]. *)
Definition crossentropy (y_pred y_true : mat) : outcome (option R) :=
  if (ncol y_pred =? 1)%nat then binary_crossentropy y_pred y_true else categorical_crossentropy y_pred y_true.
(** losses.cc 114-125 [LogLikelihood]. *)
Definition log_likelihood (y_true beta x_hat : mat) : outcome R :=
  andthen (product x_hat beta) (fun temp =>
  andthen (cwise2 (fun y t => - y * t + ln (1 + exp t)) y_true temp) (fun loss => Value (total loss))).
(** losses.cc 138-148 [MeanSquaredError]. *)
Definition mean_squared_error (y_pred y_true : mat) : outcome (option R) :=
  andthen (cwise2 Rminus y_pred y_true) (fun temp => Value (quotient (total temp ^ 2) (2 * INR (nrow y_true)))).

(** ** activations.cc *)
(** activations.cc 44-58 [Relu]. *)
Definition relu (z : mat) : mat := cwise (fun v => if Rleb v 0 then 0 else v) z.
(** activations.cc 62-78 [Relu::Diff], on a copy of [output]. *)
Definition relu_diff (output a : mat) : outcome mat :=
  if (nrow a <=? nrow output)%nat && (ncol a <=? ncol output)%nat
  then Value {| nrow := nrow output; ncol := ncol output;
                coef := fun i j => if (i <? nrow a)%nat && (j <? ncol a)%nat && Rleb (coef a i j) 0 then 0 else coef output i j |}
  else Undefined.
(** activations.cc 90-95 [Sigmoid]. *)
Definition sigmoid (z : mat) : mat := cwise (fun v => 1 / (1 + exp (- v))) z.
(** activations.cc 99-109 [Sigmoid::Diff]. *)
Definition sigmoid_diff (output a y_true : mat) : outcome mat :=
  andthen (cwise2 Rminus y_true output) (fun error => cwise2 (fun a e => a * (1 - a) * e) a error).
(** activations.cc 121-137 [Softmax]. *)
Definition softmax (z : mat) : outcome mat :=
  match max_coeff z with
  | None => Undefined
  | Some c =>
      let temp_z := cwise (fun v => exp (v - c)) z in
      Value {| nrow := nrow z; ncol := ncol z;
               coef := fun i j => coef temp_z i j / sum (ncol z) (fun k => coef temp_z i k) |}
  end.
(** activations.cc 141-149 [Softmax::Diff]. *)
Definition softmax_diff (output a : mat) : outcome mat := cwise2 Rminus a output.

(** ** kernels.cc: a matrix with one column is turned into a row first. *)
(** kernels.cc 36-142: a matrix with one column is turned into a row first. *)
Definition kernel_rows (x_i : mat) : mat := if (ncol x_i =? 1)%nat then reshape_row x_i else x_i.
(** kernels.cc 36-47 [Linear]. *)
Definition linear (x_i x_j : mat) : outcome mat :=
  andthen (product x_j (transpose (kernel_rows x_i))) (fun kappa => Value (reshape_row kappa)).
(** kernels.cc 63-76 [Polynomial]. *)
Definition polynomial (gamma : R) (degree : nat) (x_i x_j : mat) : outcome mat :=
  andthen (product x_j (transpose (kernel_rows x_i))) (fun kappa => Value (reshape_row (cwise (fun v => gamma * v ^ degree) kappa))).
(** kernels.cc 130-142 [Sigmoid]. *)
Definition sigmoid_kernel (gamma beta theta : R) (x_i x_j : mat) : outcome mat :=
  andthen (product x_j (transpose (kernel_rows x_i))) (fun kappa =>
    Value (reshape_row (cwise (fun v => gamma * ((exp (beta * v + theta) - exp (- (beta * v + theta)))
                                                 / (exp (beta * v + theta) + exp (- (beta * v + theta))))) kappa))).
(** kernels.cc 90-102 [RBF] and [Gaussian]. *)
Definition rbf (gamma : R) (x_i x_j : mat) : outcome mat :=
  andthen (broadcast_sub x_j (kernel_rows x_i)) (fun temp =>
    Value (reshape_row {| nrow := nrow temp; ncol := 1;
                          coef := fun i _ => exp (gamma * - sum (ncol temp) (fun k => coef temp i k ^ 2)) |})).
