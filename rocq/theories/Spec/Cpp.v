(** Specification for C62: when a call of the C++ backend ends like a call of the
    Python backend. *)
From Coq Require Import List Reals Permutation Sorted.
From Verif.Model Require Import Base Cpp.
Import ListNotations.

(** Both return, and the converted results are equal; or both raise the same
    exception. *)
Definition ends_like {A B} (shown : A -> B) (o : outcome A) (r : result B) : Prop :=
  match o, r with
  | Value a, Ok b => shown a = b
  | Throws e, Err e' => e = e'
  | _, _ => False
  end.
(** The same for a number that may be NaN. *)
Definition number_like (o : outcome (option R)) (r : result R) : Prop :=
  match o, r with
  | Value (Some v), Ok w => v = w
  | Value None, Err NotANumber => True
  | Throws e, Err e' => e = e'
  | _, _ => False
  end.

(** Rows in which a number is missing. *)
Definition numbers_like {A} (l : list (option A)) (r : result (list A)) : Prop :=
  match r with
  | Ok m => l = map Some m
  | Err NotANumber => In None l
  | Err _ => False
  end.

(** [by_slope s l] orders the points by their slope from [s]. *)
Definition sorts_by_slope (by_slope : R * R -> list (R * R) -> list (R * R)) : Prop :=
  forall s l, Permutation l (by_slope s l) /\
    StronglySorted (fun p q => slope_lt (slope s q) (slope s p) = false) (by_slope s l).
(** Seen from [s], no two points lie in the same direction. *)
Definition distinct_slopes (s : R * R) (l : list (R * R)) : Prop := NoDup (map (slope s) l).

(** A truth value as the number 0 or 1 the C++ functions take. *)
Definition flag (b : bool) : R := (if b then 1 else 0)%R.
