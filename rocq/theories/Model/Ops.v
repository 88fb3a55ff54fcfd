(** Model of parts of classicML/backend/python/ops.py: sampling, target types,
    multiplier selection, initialisation. *)
From Coq Require Import List ZArith Reals Bool Arith String.
From Verif.Model Require Import Base.
Import ListNotations.
Local Notation length := List.length.

(** ** Bootstrap sampling *)

(** A one- or two-dimensional array argument. (ops.py 31-39). *)
Inductive array12 (A : Type) := Vec (v : list A) | Mat (m : list (list A)).
Arguments Vec {A} v.
Arguments Mat {A} m.

(** ops.py 33-34, 38-39: [reshape(-1, 1)] of a vector. *)
Definition as_rows {A} (a : array12 A) : list (list A) :=
  match a with Vec v => map (fun x => [x]) v | Mat m => m end.

(** ops.py 13-51 [bootstrap_sampling].  [choice n] stands for
    [np.random.choice(np.arange(n), size=n)] after seeding. *)
Definition bootstrap_sampling {A B} (choice : nat -> list nat) (x : array12 A) (y : option (array12 B))
  : result (list (list A) * option (list (list B))) :=
  let xr := as_rows x in
  let n := length xr in
  match y with
  | None =>
      xs <- mapM (get_at xr) (choice n) ;; Ok (xs, None)
  | Some y =>
      let yr := as_rows y in
      if negb (n =? length yr) then Err ValueError
      else let idx := choice n in
           xs <- mapM (get_at xr) idx ;;
           ys <- mapM (get_at yr) idx ;; Ok (xs, Some ys)
  end.

(** ** Type of a target *)
(** The kind of [y.dtype] (ops.py 790-830). *)
Inductive dtype_kind := KObject | KFloat | KOther.
(** Arrays by number of dimensions; a matrix carries its number of columns. (ops.py
    790-830). *)
Inductive ndarray (A : Type) :=
| A0 (a : A) | A1 (l : list A) | A2 (cols : nat) (rows : list (list A)) | AN (l : list A).
Arguments A0 {A} a.
Arguments A1 {A} l.
Arguments A2 {A} cols rows.
Arguments AN {A} l.

(** The elements of an array in row order (ops.py 790-830). *)
Definition elements {A} (y : ndarray A) : list A :=
  match y with A0 a => [a] | A1 l => l | A2 _ rows => List.concat rows | AN l => l end.

(** The answers of ops.py 790-830: 'continuous', 'binary', 'multiclass',
    'multilabel', 'unknown'. *)
Inductive target_type := Continuous | Binary | Multiclass | Multilabel | Unknown.

(** ops.py 790-830 [type_of_target].  [frac a] says that the float [a] differs
    from its truncation [astype(int)] (true for NaN and infinities). *)
Definition type_of_target {A} (O : TotalOrder A) (frac : A -> bool) (k : dtype_kind) (y : ndarray A)
  : result target_type :=
  match k, y with
  | KObject, _ => Ok Unknown
  | _, AN _ => Ok Unknown
  | _, _ =>
      if (match k with KFloat => true | _ => false end) && existsb frac (elements y) then Ok Continuous
      else
        let u := length (np_unique O (elements y)) in
        match y with
        | A0 _ => Err IndexError        (* y.shape[1] *)
        | A1 _ => Ok (if u =? 2 then Binary else if 2 <? u then Multiclass else Unknown)
        | A2 c _ =>
            Ok (if (c =? 1) && (u =? 2) then Binary
                else if (c =? 1) && (2 <? u) then Multiclass
                else if 2 <=? u then Multilabel else Unknown)
        | AN _ => Ok Unknown
        end
  end.

(** ** SMO helpers *)
Local Open Scope R_scope.

(** ops.py 289-310 [clip_alpha]. *)
Definition clip_alpha (alpha low high : R) : R :=
  if Rltb high alpha then high else if Rltb alpha low then low else alpha.

(** [flags.nonzero()[0]]. [flags.nonzero()[0]] (ops.py 781). *)
Definition nonzero (flags : list bool) : list nat :=
  map fst (filter snd (enumerate flags)).

(** ops.py 759-787 [select_second_alpha]; [np.argmax] takes the first maximum
    and raises ValueError on an empty array. *)
Definition select_second_alpha (error : R) (error_cache : list R) (non_bound : list bool)
  : result (nat * R) :=
  let idx := nonzero non_bound in
  es <- mapM (get_at error_cache) idx ;;
  k <- argmin (fun a b => Rltb b a) (map (fun e => Rabs (error - e)) es) ;;
  i <- get_at idx k ;;
  e <- get_at error_cache i ;;
  Ok (i, e).

(** ** Initialisation *)
(** A numpy array of arbitrary shape with its flat contents. (ops.py 655-671). *)
Inductive flat := Ints (l : list Z) | Floats (l : list R).
(** (ops.py 655-671). *)
Record nd := { shape : list nat; data : flat }.

(** [np.squeeze]: drop the dimensions of size one. (ops.py 656, 707, 744). *)
Definition squeeze_shape (s : list nat) : list nat := filter (fun k => negb (k =? 1)%nat) s.

(** The contents as floats (ops.py 671, 711, 751). *)
Definition flat_reals (f : flat) : list R := match f with Ints l => map IZR l | Floats l => l end.

(** Rows of a flat array with [d] columns. (ops.py 671). *)
Fixpoint chunk {A} (n d : nat) (l : list A) : list (list A) :=
  match n with O => [] | S n' => firstn d l :: chunk n' d (skipn d l) end.

(** The argument [init] of ops.py 628-676: 'random', an array, or something else. *)
Inductive init_arg := InitRandom | InitArray (a : nd) | InitOther.

(** Comparison of shapes (ops.py 667, 708). *)
Definition shape_eqb (a b : list nat) : bool := if list_eq_dec Nat.eq_dec a b then true else false.

(** ops.py 628-676 [init_centroids]. [randint n k] stands for
    [np.random.randint(low=0, high=n, size=k)] (ValueError if n = 0). [d] is
    [x.shape[1]]. Simplification: with an ndarray argument the comparison [init ==
    'random'] (line 652) is taken to be False, as numpy of the time of the commit
    defines it. *)
Definition init_centroids (randint : nat -> nat -> list nat) (d : nat) (x : list (list R))
  (n_clusters : nat) (init : init_arg) : result (list (list R)) :=
  match init with
  | InitRandom =>
      if (length x =? 0)%nat then Err ValueError
      else mapM (get_at x) (randint (length x) n_clusters)
  | InitArray a =>
      let s := squeeze_shape (shape a) in
      match s with
      | [k] =>
          if negb (k =? n_clusters)%nat then Err ValueError
          else
            mn <- np_min (flat_reals (data a)) ;;
            mx <- np_max (flat_reals (data a)) ;;
            if Rltb mn 0 || Rleb (INR (length x)) mx then Err ValueError
            else match data a with
                 | Ints l => mapM (fun z => get_at x (Z.to_nat z)) l
                 | Floats _ => Err IndexError      (* arrays used as indices must be integer *)
                 end
      | _ =>
          if negb (shape_eqb s [n_clusters; d]) then Err ValueError
          else Ok (chunk n_clusters d (flat_reals (data a)))
      end
  | InitOther => Err TypeError
  end.

(** The identity matrix times 0.1 (ops.py 703-704). *)
Definition diag_tenth (n : nat) : list (list R) :=
  map (fun i => map (fun j => if (i =? j)%nat then 1/10 else 0) (seq 0 n)) (seq 0 n).

(** A covariance argument: [None] or an array. (ops.py 702-714, 741-754). *)
Inductive cov_arg := CovNone | CovArray (a : nd) | CovOther.

(** ops.py 679-716 [init_covariances]. *)
Definition init_covariances (d n_components : nat) (init : cov_arg) : result (list (list (list R))) :=
  match init with
  | CovNone => Ok (map (fun _ => diag_tenth d) (seq 0 n_components))
  | CovArray a =>
      if negb (shape_eqb (squeeze_shape (shape a)) [n_components; d; d]) then Err ValueError
      else Ok (map (chunk d d) (chunk n_components (d * d) (flat_reals (data a))))
  | CovOther => Err TypeError
  end.

(** ops.py 719-756 [init_mixture_coefficient]; [len] of a zero-dimensional
    array is a TypeError. *)
Definition init_mixture_coefficient (n_components : nat) (init : cov_arg) : result (list R) :=
  match init with
  | CovNone => Ok (map (fun _ => 1 / INR n_components) (seq 0 n_components))
  | CovArray a =>
      match squeeze_shape (shape a) with
      | [] => Err TypeError
      | k :: _ =>
          if negb (k =? n_components)%nat then Err ValueError
          else if negb (Reqb (rsum (flat_reals (data a))) 1) then Err ValueError
          else Ok (flat_reals (data a))   (* flat contents; the shape is the squeezed one *)
      end
  | CovOther => Err TypeError
  end.
