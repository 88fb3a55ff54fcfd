(** Property theorems C77: the layout of a drawn tree
    (classicML/api/plots/tree.py, classicML/api/plots/utils.py 102-145). *)
From Coq Require Import List ZArith Reals Lra Lia Bool Arith String.
From Verif.Model Require Import Base Tree TreePlot Pruner.
From Verif.Spec Require Import Common Tree TreePlot Pruner.
From Verif.Proof Require Import BaseLemmas Tree TreeGen TreeMain Pruner TreePlot.
Import ListNotations.
Local Open Scope R_scope.
Local Notation length := List.length.

(** The running position kept in module-level variables computes the layout: every
    node once, parents before children, every node above the middle of its leaves,
    every arrow from the parent's box, the name of the branch half-way. *)
Theorem C77_layout : forall t, counted t -> ((height t = 0)%Z <-> exists l, t = Leaf l) ->
  plot_tree t = Ok (List.concat (map (drawn (leaf_count t) (height t)) (spots t 0 0 None))).
Proof. intros t C H. rewrite <- flat_map_concat_map. now apply plot_spec. Qed.
Print Assumptions C77_layout.

(** One box for every node, no two at the same place. *)
Theorem C77_one_box_per_node : forall t ms, counted t -> ((height t = 0)%Z <-> exists l, t = Leaf l) -> plot_tree t = Ok ms ->
  length (boxes_at ms) = node_count t /\ NoDup (boxes_at ms).
Proof.
  intros t ms C H E. rewrite (plot_spec t C H) in E. injection E as <-. rewrite boxes_of, map_length, spots_length.
  split; [reflexivity|now apply boxes_distinct].
Qed.
Print Assumptions C77_one_box_per_node.

(** The leaves come from left to right, equally spaced. *)
Theorem C77_leaves_evenly_spaced : forall t ms, counted t -> ((height t = 0)%Z <-> exists l, t = Leaf l) -> plot_tree t = Ok ms ->
  leaf_columns ms = map (fun i => (INR i + 1 / 2) / INR (leaf_count t)) (seq 0 (leaf_count t)).
Proof. intros t ms C H E. rewrite (plot_spec t C H) in E. injection E as <-. apply leaf_columns_even. Qed.
Print Assumptions C77_leaves_evenly_spaced.

(** The drawing stays within the unit square exactly when the recorded height is at
    least the number of splits on the longest path. *)
Theorem C77_inside_the_frame : forall t ms, counted t -> ((height t = 0)%Z <-> exists l, t = Leaf l) -> (0 <= height t)%Z -> plot_tree t = Ok ms ->
  ((forall p, In p (points_of ms) -> inside p) <-> (Z.of_nat (depth t) <= height t)%Z).
Proof. intros t ms C H Hh E. rewrite (plot_spec t C H) in E. injection E as <-. symmetry. now apply plot_inside. Qed.
Print Assumptions C77_inside_the_frame.

(** Trees as trained, and as pre-pruned: laid out as specified, inside the frame. *)
Theorem C77_trained : forall top rnd c pr w D V t, pr <> Post -> fit_pruned top rnd c pr w D (Some V) = Ok t ->
  exists ms, plot_tree t = Ok ms /\ ms = List.concat (map (drawn (leaf_count t) (height t)) (spots t 0 0 None)) /\
  NoDup (boxes_at ms) /\ forall p, In p (points_of ms) -> inside p.
Proof.
  intros top rnd c pr w D V t Hp E.
  assert (R : ready t /\ (Z.of_nat (depth t) <= height t)%Z).
  { destruct pr; [eapply fit_ready; exact E|eapply pre_ready; exact E|congruence]. }
  destruct R as [(C & H & Hh) G]. eexists. split; [now apply C77_layout|]. split; [reflexivity|].
  rewrite <- flat_map_concat_map. split; [rewrite boxes_of; now apply boxes_distinct|]. now apply plot_inside.
Qed.
Print Assumptions C77_trained.

(** Post-pruned trees: laid out as specified for the height they record. *)
Theorem C77_post_pruned : forall top rnd c w D V t, rectangular w V -> fit_pruned top rnd c Post w D (Some V) = Ok t ->
  plot_tree t = Ok (List.concat (map (drawn (leaf_count t) (height t)) (spots t 0 0 None))) /\
  NoDup (map (fun x => place (leaf_count t) (height t) (fst x)) (spots t 0 0 None)).
Proof.
  intros top rnd c w D V t RV E. destruct (post_ready _ _ _ _ _ _ _ RV E) as (C & H & Hh). split; [now apply C77_layout|now apply boxes_distinct].
Qed.
Print Assumptions C77_post_pruned.

(** Their recorded height can be too small, and then they do not fit: here the
    lowest leaves are drawn a whole height below the frame. *)
Theorem C77_post_pruned_inside_refuted : forall top rnd,
  exists t ms p, fit_pruned top rnd Gini Post 2 boxes (Some [([Txt "b"; Txt "y"]%string, 1%Z)]) = Ok t /\
  plot_tree t = Ok ms /\ In p (boxes_at ms) /\ snd p = -1 /\ ~ inside p.
Proof.
  intros top rnd. destruct (boxes_tree top rnd) as (v0 & v1 & E).
  exists (Disc 0 v0 3 1 [(Txt "a", Leaf 0); (Txt "b", Disc 1 v1 2 1 [(Txt "x", Leaf 0); (Txt "y", Leaf 1)])])%string.
  eexists. exists ((1 + 1 / 2) / 3, -1). split; [|split; [reflexivity|]].
  - unfold fit_pruned. rewrite E. cbn [bind]. cbn.
    destruct (match top [0%Z; 1%Z] with Z.pos q => (1 =? q)%positive | _ => false end); reflexivity.
  - split; [|split; [reflexivity|unfold inside; cbn; lra]]. cbn. right. right. right. left. f_equal; field.
Qed.
Print Assumptions C77_post_pruned_inside_refuted.

(** A tree that is a single leaf is drawn at the top, in the middle. *)
Theorem C77_single_leaf : forall l, plot_tree (Leaf l) = Ok [Note (1/2, 1) None; Node (1/2, 1) (1/2, 1) (Category l)].
Proof.
  intros l. rewrite C77_layout.
  - cbn. unfold drawn, place. cbn. replace ((0 + 1 / 2) / 1) with (1 / 2) by field. replace (1 - 0 / 0) with 1 by (unfold Rdiv; ring). reflexivity.
  - intros s Hs. inversion Hs; subst. split; [reflexivity|exact I].
  - split; [eauto|]. intros _. reflexivity.
Qed.
Print Assumptions C77_single_leaf.

(** A concrete drawing: a root with a leaf and a split into two leaves. *)
Example C77_ex : forall top rnd, exists t ms, fit_tree top rnd Gini 2 boxes = Ok t /\ plot_tree t = Ok ms /\
  boxes_at ms = [(1/2, 1); (1/6, 1/2); (2/3, 1/2); (1/2, 0); (5/6, 0)] /\ leaf_columns ms = [1/6; 1/2; 5/6].
Proof.
  intros top rnd. destruct (boxes_tree top rnd) as (v0 & v1 & E). do 2 eexists. split; [exact E|]. split; [reflexivity|].
  cbn. split; repeat (f_equal; try field).
Qed.
