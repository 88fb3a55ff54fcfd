(** Property theorems C21 and C22: pruning
    (classicML/backend/python/tree/pruners.py). *)
From Coq Require Import List ZArith Reals Lra Lia Arith String.
From Verif.Model Require Import Base Tree Pruner.
From Verif.Spec Require Import Common Tree Pruner.
From Verif.Proof Require Import BaseLemmas Tree TreeGen TreeMain Pruner.
Import ListNotations.
Local Open Scope R_scope.
Local Notation length := List.length.

(** ** C21 *)
Theorem C21_post_pruning_keeps_accuracy : forall top rnd c w D V t',
  rectangular w V -> fit_pruned top rnd c Post w D (Some V) = Ok t' ->
  exists t, fit_tree top rnd c w D = Ok t /\ collapsed t t' /\
    (correct t V <= correct t' V)%nat /\ (leaf_count t' <= leaf_count t)%nat.
Proof. exact fit_post_main. Qed.
Print Assumptions C21_post_pruning_keeps_accuracy.

(** The same for any tree, for example one that was loaded from a file. *)
Theorem C21_post_pruning_any_tree : forall top w t D V t', well_formed w t -> rectangular w V ->
  post_prune top t D V = Ok t' -> collapsed t t' /\ (correct t V <= correct t' V)%nat.
Proof. exact post_main. Qed.
Print Assumptions C21_post_pruning_any_tree.

(** A subtree is only collapsed when that gains validation rows. *)
Theorem C21_post_pruning_only_when_better : forall top rnd c w D V t',
  rectangular w V -> fit_pruned top rnd c Post w D (Some V) = Ok t' ->
  exists t, fit_tree top rnd c w D = Ok t /\ (same_shape t t' \/ (correct t V < correct t' V)%nat).
Proof. exact fit_post_strict. Qed.
Print Assumptions C21_post_pruning_only_when_better.

(** Afterwards no split above leaves is left that the majority label would beat
    on the validation rows reaching it. *)
Theorem C21_post_pruning_leaves_nothing_to_gain : forall top rnd c w D V t',
  fit_pruned top rnd c Post w D (Some V) = Ok t' ->
  forall s D' V', arrives t' D V s D' V' -> bottom_split s -> V' <> [] ->
  (correct (Leaf (top (map snd D'))) V' <= correct s V')%nat.
Proof. exact fit_post_optimal. Qed.
Print Assumptions C21_post_pruning_leaves_nothing_to_gain.

Theorem C21_post_pruning_succeeds : forall top rnd c w D V t,
  rectangular w D -> rectangular w V -> known_values w D V ->
  fit_tree top rnd c w D = Ok t -> exists t', fit_pruned top rnd c Post w D (Some V) = Ok t'.
Proof. exact fit_post_total. Qed.
Print Assumptions C21_post_pruning_succeeds.

Theorem C21_post_pruning_leaf_counts : forall top rnd c w D V t',
  fit_pruned top rnd c Post w D (Some V) = Ok t' -> forall s, subtree s t' -> num_of_leaves s = leaf_count s.
Proof. exact fit_post_counts. Qed.
Print Assumptions C21_post_pruning_leaf_counts.

(** The height reported after post-pruning can be too small. *)
Theorem C21_post_pruning_height_refuted : forall top rnd, exists D V t',
  fit_pruned top rnd Gini Post 2 D (Some V) = Ok t' /\ height t' = 1%Z /\ depth t' = 2%nat.
Proof. intros top rnd. exists boxes, [([Txt "b"; Txt "y"]%string, 1%Z)]. exact (boxes_post top rnd). Qed.
Print Assumptions C21_post_pruning_height_refuted.

Theorem C21_pruning_needs_validation_data : forall top rnd c how w D,
  how <> NoPruning -> fit_pruned top rnd c how w D None = Err AttributeError.
Proof. intros top rnd c how w D H. destruct how; [congruence|reflexivity|reflexivity]. Qed.
Print Assumptions C21_pruning_needs_validation_data.

Example C21_witness : forall top rnd, exists t,
  rectangular 2 boxes /\ rectangular 2 [([Txt "b"; Txt "y"]%string, 1%Z)] /\
  known_values 2 boxes [([Txt "b"; Txt "y"]%string, 1%Z)] /\ fit_tree top rnd Gini 2 boxes = Ok t /\ well_formed 2 t.
Proof.
  intros top rnd. destruct (boxes_tree top rnd) as (v0 & v1 & E). eexists. split.
  { intros r l H. simpl in H. repeat destruct H as [H|H]; try contradiction; now injection H as <- _. }
  split. { intros r l [H|[]]. now injection H as <- _. }
  split; [|split; [exact E|exact (fit_wf _ _ _ _ _ _ E)]].
  intros r l j [H|[]] Hj. injection H as <- _. exists [Txt "b"; Txt "y"]%string, 1%Z. split; [simpl; auto 10|reflexivity].
Qed.

(** ** C22 *)
(** A discrete split survives iff labelling the branches classifies strictly
    more validation rows correctly than one leaf does. *)
Theorem C22_pre_pruning_decision : forall top j v n h kids D V t', D <> [] -> V <> [] ->
  pre_prune top (Disc j v n h kids) D V = Ok t' ->
  exists before after, how_many (fun p => snd p = top (map snd D)) V before /\
    how_many (fun p => branch_label top j D (cell_at j (fst p)) (snd p)) V after /\
    ((after <= before)%nat /\ t' = Leaf (top (map snd D)) \/
     (before < after)%nat /\ exists n' h' kids', t' = Disc j v n' h' kids' /\ map fst kids' = map fst kids).
Proof. exact pre_decision. Qed.
Print Assumptions C22_pre_pruning_decision.

Theorem C22_pre_pruning_only_collapses : forall top rnd c w D V t',
  fit_pruned top rnd c Pre w D (Some V) = Ok t' ->
  exists t, fit_tree top rnd c w D = Ok t /\ collapsed t t' /\ (leaf_count t' <= leaf_count t)%nat /\
    (forall s, subtree s t' -> num_of_leaves s = leaf_count s) /\
    (forall s, subtree s t' -> (Z.of_nat (depth s) <= height s)%Z).
Proof. exact fit_pre_main. Qed.
Print Assumptions C22_pre_pruning_only_collapses.

(** A validation value that is absent from the training rows at the node. *)
Theorem C22_missing_value_fails : forall top j v n h kids D V r l, D <> [] -> In (r, l) V ->
  (forall r' l', In (r', l') D -> cell_at j r' <> cell_at j r) ->
  pre_prune top (Disc j v n h kids) D V = Err KeyError.
Proof. exact pre_unknown. Qed.
Print Assumptions C22_missing_value_fails.

(** A continuous node is never pre-pruned: the accuracy computation fails. *)
Theorem C22_continuous_node_fails : forall top j v p n h g l D V, D <> [] -> V <> [] -> p <> 0 ->
  pre_prune top (Cont j v p n h g l) D V = Err IndexingError.
Proof. exact pre_continuous_fails. Qed.
Print Assumptions C22_continuous_node_fails.

Theorem C22_continuous_data_refuted : forall top, exists D V,
  (exists t, fit_tree top (fun x => x) Gain 1 D = Ok t) /\
  fit_pruned top (fun x => x) Gain Pre 1 D (Some V) = Err IndexingError.
Proof.
  intros top. exists ladder, ladder. split; [|exact (ladder_pre_fails top)].
  destruct (ladder_height top) as (t & E & _). eauto.
Qed.
Print Assumptions C22_continuous_data_refuted.

(** The height reported after pre-pruning can be too large. *)
Theorem C22_pre_pruning_height_refuted : forall rnd, exists top D V t',
  fit_pruned top rnd Gini Pre 2 D (Some V) = Ok t' /\ height t' = 2%Z /\ depth t' = 1%nat.
Proof.
  intros rnd. exists few_zeros, boxes, [([Txt "b"; Txt "y"]%string, 1%Z)].
  destruct (boxes_pre rnd) as (v & t' & E & Et). exists t'. split; auto. subst t'. split; reflexivity.
Qed.
Print Assumptions C22_pre_pruning_height_refuted.

Example C22_witness : exists v0 v1 t', 
  pre_prune few_zeros (Disc 0 v0 3 2 [(Txt "a", Leaf 0); (Txt "b", Disc 1 v1 2 1 [(Txt "x", Leaf 0); (Txt "y", Leaf 1)])])%string
    boxes [([Txt "b"; Txt "y"]%string, 1%Z)] = Ok t'.
Proof. exists 0, 0. eexists. reflexivity. Qed.
