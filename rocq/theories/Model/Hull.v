(** Model of class [ConvexHull] (classicML/backend/python/ops.py 54-125). *)
From Coq Require Import List Reals Bool Arith.
From Verif.Model Require Import Base.
Import ListNotations.
Local Open Scope R_scope.

(** A row of the array [points] (ops.py 65-72). *)
Definition point := (R * R)%type.

(** ops.py 106-116 [_get_slope]; [None] is [np.inf]. *)
Definition get_slope (p0 p1 : point) : option R :=
  if Reqb (fst p0) (fst p1) then None
  else Some ((snd p0 - snd p1) / (fst p0 - fst p1)).

(** [<=] on slopes. (ops.py 91). *)
Definition slope_leb (a b : option R) : bool :=
  match a, b with
  | _, None => true
  | None, Some _ => false
  | Some x, Some y => Rleb x y
  end.

(** ops.py 118-125 [_get_cross_product]. *)
Definition get_cross_product (p0 p1 p2 : point) : R :=
  (fst p1 - fst p0) * (snd p2 - snd p0) - (snd p1 - snd p0) * (fst p2 - fst p0).

(** [list.sort(key=...)] (ops.py 91) is a stable sort; insertion sort is one. This
    is the insertion. *)
Fixpoint insert_by {A} (le : A -> A -> bool) (x : A) (l : list A) : list A :=
  match l with
  | [] => [x]
  | y :: t => if le x y then x :: l else y :: insert_by le x t
  end.
(** ops.py 91: the sort itself. *)
Definition stable_sort {A} (le : A -> A -> bool) (l : list A) : list A :=
  fold_right (insert_by le) [] l.

(** ops.py 98-99, the [while] loop after [hull.append(point)]. The list holds the
    hull without the new point, last element first. *)
Fixpoint pop_loop (p : point) (st : list point) : list point :=
  match st with
  | b :: ((a :: _) as st') => if Rltb (get_cross_product a b p) 0 then pop_loop p st' else st
  | _ => st
  end.

(** ops.py 96-99: the scan over the sorted points (hull last element first). *)
Definition scan (start : point) (pts : list point) : list point :=
  fold_left (fun st p => p :: pop_loop p st) pts [start].

(** ops.py 74-104 [compute_convex_hull]. [by_x] stands for
    [points[np.argsort(points[:, 0])]] (82); numpy's default sort is not stable, so
    any permutation sorted by x is possible. With fewer than two points indexing
    fails (line 84, or line 92 on an empty slope table). *)
Definition compute_convex_hull (by_x : list point -> list point) (points : list point)
  : result (list point) :=
  match by_x points with
  | [] => Err IndexError
  | start :: rest =>
      match rest with
      | [] => Err IndexError
      | _ =>
        let sorted := stable_sort (fun p q => slope_leb (get_slope start p) (get_slope start q)) rest in
        Ok (rev (scan start sorted) ++ [start])
      end
  end.
