(** Model of the layout computed by classicML/api/plots/tree.py 7-99 and
    classicML/api/plots/utils.py 102-145.

    Not modelled: what matplotlib does with the boxes and texts, their style, and
    the title (utils.py 148-155). *)
From Coq Require Import List ZArith Reals.
From Verif.Model Require Import Base Tree.
Import ListNotations.
Local Open Scope R_scope.

(** Coordinates (tree.py 31). *)
Definition point : Type := R * R.
(** Keys of [subtree]: generators.py 320-321 for a continuous node, the value of the
    feature for a discrete one. *)
Inductive branch := AtLeast (p : R) | Below (p : R) | Value (a : cell).
(** [decision_tree.subtree] (tree.py 53). *)
Definition branches (t : tree) : list (branch * tree) :=
  match t with
  | Leaf _ => []
  | Cont _ _ p _ _ g l => [(AtLeast p, g); (Below p, l)]
  | Disc _ _ _ _ kids => map (fun k => (Value (fst k), snd k)) kids
  end.

(** What is written into a box: a category in a circle, or a feature. (tree.py 38,
    47, 61). *)
Inductive content := Category (l : Z) | Feature (j : nat) | Blank.
(** [Node parent here c]: utils.py 102-126, a box at [here] with an arrow from
    [parent]. Simplified: line 118 starts the arrow 0.05 below the middle of the
    parent's box; [parent] is that middle. [Note at b]: utils.py 129-145, a text;
    None is the empty text of the root. *)
Inductive mark := Node (parent here : point) (c : content) | Note (at_ : point) (b : option branch).

(** utils.py 142-145. *)
Definition note (parent here : point) (b : option branch) : mark :=
  Note ((fst parent - fst here) / 2 + fst here, (snd parent - snd here) / 2 + snd here) b.

(** tree.py 13-67 [_plot_decision_tree], for a node that is not a leaf and a height
    other than 0.  [n] and [h] are NUM_OF_LEAVES and HEIGHT; the state is the pair of
    the globals X and Y, the result the marks in drawing order and the new state. *)
Fixpoint draw (n h : R) (t : tree) (parent : point) (b : option branch) (st : point) {struct t} : list mark * point :=
  let here := (fst st + (1 + INR (num_of_leaves t)) / (2 * n), snd st) in
  let step (k : branch * tree) (rec : point -> list mark * point) (acc : list mark * point) : list mark * point :=
    match snd k with
    | Leaf l =>
        let st' := (fst (snd acc) + 1 / n, snd (snd acc)) in
        (fst acc ++ [note here st' (Some (fst k)); Node here st' (Category l)], st')
    | _ => let r := rec (snd acc) in (fst acc ++ fst r, snd r)
    end in
  let finish (j : nat) (acc : list mark * point) :=
    ([note parent here b; Node parent here (Feature j)] ++ fst acc, (fst (snd acc), snd (snd acc) + 1 / h)) in
  let st1 := (fst st, snd st - 1 / h) in
  match t with
  | Leaf _ => ([], st)
  | Cont j _ p _ _ g l =>
      let a1 := step (AtLeast p, g) (draw n h g here (Some (AtLeast p))) ([], st1) in
      let a2 := step (Below p, l) (draw n h l here (Some (Below p))) a1 in
      finish j a2
  | Disc j _ _ _ kids =>
      finish j ((fix go (ks : list (cell * tree)) (acc : list mark * point) : list mark * point :=
        match ks with
        | [] => acc
        | (a, k) :: ks' => go ks' (step (Value a, k) (draw n h k here (Some (Value a))) acc)
        end) kids ([], st1))
  end.

(** tree.py 70-99 [plot_tree].  A recorded height 0 draws the root as a leaf (38-46);
    the category of a node that is not a leaf is the empty text. *)
Definition plot_tree (t : tree) : result (list mark) :=
  if (num_of_leaves t =? 0)%nat then Err ZeroDivisionError
  else
    let n := INR (num_of_leaves t) in
    let st := (- (1/2) / n, 1) in
    if (height t =? 0)%Z then
      let here := (fst st + (1 + n) / (2 * n), snd st) in
      Ok [note (1/2, 1) here None; Node (1/2, 1) here (match t with Leaf l => Category l | _ => Blank end)]
    else Ok (fst (draw n (IZR (height t)) t (1/2, 1) None st)).
