(** Selected functions of preprocessing.py, activations.py, losses.py, ops.py,
    metrics.py and optimizers.py in floating point arithmetic (see Float.v). Arrays
    hold finite floats of one format; every operation rounds to it. *)
From Coq Require Import List Reals ZArith Bool Permutation.
From Flocq Require Import Core.
From Verif.Model Require Import Base Ops Float.
Import ListNotations.
Local Open Scope R_scope.

(** ** Scaling *)

(** preprocessing.py 226-241 [MinMaxScaler.__call__] on one column. *)
Definition minmax_float (f : format) (data : list R) : result (list num) :=
  mn <- np_min data ;; mx <- np_max data ;;
  Ok (map (fun x => fdiv f (fsub f (Num x) (Num mn)) (fsub f (Num mx) (Num mn))) data).

(** preprocessing.py 243-255 [MinMaxScaler.inverse] on one value. *)
Definition minmax_inverse_float (f : format) (mn mx : R) (z : num) : num :=
  fadd f (fmul f z (fsub f (Num mx) (Num mn))) (Num mn).

(** ** Sums *)

(** [np.sum] adds pairwise in an order that depends on the length: [summed f l v]
    holds when [v] is the result for some order of rounded additions.
    (activations.py 132, losses.py 36-77). *)
Inductive summed (f : format) : list num -> num -> Prop :=
| summed_none : summed f [] (Num 0)
| summed_one v : summed f [v] v
| summed_split l a b u v :
    Permutation l (a ++ b) -> summed f a u -> summed f b v -> summed f l (fadd f u v).

(** ** Activations *)
Section Activations.
Variable f : format.
(** What the library computes for the exponential function and how it sums. *)
Variable ex : R -> R.
Variable sum : list num -> num.

(** activations.py 80-90 [Sigmoid.__call__] on one entry. *)
Definition sigmoid_float (z : R) : num :=
  fdiv f (Num 1) (fadd f (Num 1) (fexp_of f ex (fneg (Num z)))).

(** activations.py 122-133 [Softmax.__call__], one row; [m] is the maximum that is
    subtracted. *)
Definition softmax_row_float (m : R) (row : list R) : list num :=
  let es := map (fun x => fexp_of f ex (fsub f (Num x) (Num m))) row in
  map (fun e => fdiv f e (sum es)) es.
(** activations.py 122-133 [Softmax.__call__]: the maximum is taken over the whole
    array, not over the row. *)
Definition softmax_float (z : list (list R)) : result (list (list num)) :=
  m <- np_max (concat z) ;; Ok (map (softmax_row_float m) z).
End Activations.

(** Does a value come before another in [np.argmax] (metrics.py 119)? NaN comes
    first. *)
Definition beats (a best : num) : bool :=
  match best with NaN => false | _ => match a with NaN => true | _ => flt best a end end.
(** [np.argmax]: the first NaN if there is one, otherwise the first maximum
    (metrics.py 119). *)
Definition argmax_float (l : list num) : result nat := argmin beats l.

(** ** Losses *)
Section Losses.
Variable f : format.
Variable lg : R -> R.
Variable sum : list num -> num.

(** losses.py 36-52 [BinaryCrossentropy.__call__]: labels and predictions of one
    output; the products of a matrix product are summed. *)
Definition crossentropy_float (y p : list num) : num :=
  let t := map (fun q => fmul f (fst q) (flog f lg (snd q))) (combine y p) in
  let r := map (fun q => fmul f (fsub f (Num 1) (fst q)) (flog f lg (fsub f (Num 1) (snd q)))) (combine y p) in
  fdiv f (fneg (fadd f (sum t) (sum r))) (Num (INR (length y))).

(** losses.py 61-77 [CategoricalCrossentropy.__call__]: [n] samples, the entries
    of labels and predictions row after row. *)
Definition categorical_float (n : nat) (y p : list num) : num :=
  fdiv f (fneg (sum (map (fun q => fmul f (fst q) (flog f lg (snd q))) (combine y p)))) (Num (INR n)).

(** losses.py 112-129 [LogLikelihood.__call__] from the scores of line 127. *)
Definition likelihood_float (ex : R -> R) (y z : list num) : num :=
  sum (map (fun q => fadd f (fmul f (fneg (fst q)) (snd q)) (flog f lg (fadd f (Num 1) (fexp_of f ex (snd q))))) (combine y z)).
End Losses.

(** ** Densities *)

(** ops.py 542-547 and 493-498: the density [p], computed exactly here, is rounded
    and a zero is replaced. *)
Definition reported_density (f : format) (p : R) : num :=
  match make f p with
  | Num q => if Reqb q 0 then make f (1 / 10 ^ 36) else Num q
  | v => v
  end.

(** ** Metrics *)

(** metrics.py 92 [BinaryAccuracy.__call__]: a sample is taken off when one of the
    three comparisons holds; comparisons with NaN do not. *)
Definition taken_off (p : num) (y : Z) : bool :=
  (flt p (Num (/ 2)) && (y =? 1)%Z)
  || ((flt (Num (/ 2)) p || feq (Num (/ 2)) p) && (y =? 0)%Z)
  || ((flt (Num (/ 2)) p || feq (Num (/ 2)) p) && (y =? -1)%Z).
(** metrics.py 90-93: the number of samples that are left. *)
Definition counted (p : list num) (y : list Z) : nat :=
  length p - length (filter (fun q => taken_off (fst q) (snd q)) (combine p y)).
(** metrics.py 95: a quotient of two integers. *)
Definition share_float (f : format) (correct n : nat) : num := make f (INR correct / INR n).
(** metrics.py 77-95 [BinaryAccuracy.__call__]. *)
Definition binary_accuracy_float (f : format) (p : list num) (y : list Z) : num := share_float f (counted p y) (length p).

(** ** Support vector machine *)

(** The stored multipliers have one format; an operation is carried out in the
    format that numpy's promotion picks for its operands.  numpy 1.21 to 1.24
    (setup.py 107) compute with a Python float such as [C] in 64 bits even when
    the multipliers have 32. *)
Inductive operation := Span | Bound | Candidate | Change | Step | Move.

(** optimizers.py 1042-1071: the two multipliers after one attempt; [candidate]
    is the exact value of line 1064 before clipping, [same] says whether
    the labels agree, [tiny] is the 1e-5 of line 1068.  No update (None) at lines
    1049-1050 and 1068-1069; the refusal of lines 1061-1062 is
    an attempt that does not happen.  The bounds (1043-1047) and the new multipliers
    (1071, 1080-1081) are stored in the format [f].  Overflow is left out: all
    intermediate values are below 4 C. *)
Definition pair_float (f : format) (w : operation -> format) (C tiny : R) (same : bool) (ai aj candidate : R)
    : option (R * R) :=
  let low := rnd f (Rmax 0 (if same then rnd (w Bound) (rnd (w Span) (ai + aj) - C) else rnd (w Span) (aj - ai))) in
  let high := rnd f (Rmin C (if same then rnd (w Span) (ai + aj) else rnd (w Bound) (rnd (w Bound) (C + aj) - ai))) in
  if Reqb low high then None else
  let aj' := clip_alpha (rnd (w Candidate) candidate) low high in
  if Rltb (Rabs (rnd (w Change) (aj' - aj))) tiny then None else
  let d := rnd (w Step) (aj - aj') in
  Some (rnd f (rnd (w Move) (if same then ai + d else ai - d)), rnd f aj').

(** optimizers.py 1034-1038, 1080-1081: an attempt with samples [i] and [j]. *)
Definition attempt_float (f : format) (w : operation -> format) (C tiny : R) (y : list Z)
    (alphas : list R) (i j : nat) (candidate : R) : list R :=
  if (i =? j)%nat then alphas else
  match pair_float f w C tiny (nth i y 0 =? nth j y 0)%Z (nth i alphas 0) (nth j alphas 0) candidate with
  | None => alphas
  | Some (ai', aj') => set_nth (set_nth alphas i ai') j aj'
  end.

(** optimizers.py 941 and 946-970: training is a sequence of attempts from
    zeros, whatever the kernel, the errors and the choices are. *)
Definition training_float (f : format) (w : operation -> format) (C tiny : R) (y : list Z)
    (attempts : list (nat * nat * R)) : list R :=
  fold_left (fun alphas t => attempt_float f w C tiny y alphas (fst (fst t)) (snd (fst t)) (snd t))
    attempts (repeat 0 (length y)).
