(** Property theorems C23 and C63: decision stump and two-level tree
    (classicML/backend/python/tree/generators.py). *)
From Coq Require Import List ZArith Reals Lra Lia Arith.
From Verif.Model Require Import Base Stump.
From Verif.Spec Require Import Common Stump.
From Verif.Proof Require Import BaseLemmas Counting Stump TwoLevel.
Import ListNotations.
Local Open Scope R_scope.

(** ** C23 *)
(** No rule with one feature and a separating threshold, in either direction,
    makes fewer training mistakes than the fitted stump. *)
Theorem C23_stump_is_optimal : forall w D j t m, plus_minus D -> stump_fit w D = Some (j, t, m) ->
  (j < w)%nat /\
  forall u, (feature_of u < w)%nat -> separates u D -> forall n n',
    how_many (fun p => exists l, stump_predict (Some (j, t, m)) [fst p] = Ok [l] /\ l <> snd p) D n ->
    mistakes u D n' -> (n <= n')%nat.
Proof. exact stump_main. Qed.
Print Assumptions C23_stump_is_optimal.

Theorem C23_stump_errs_on_at_most_half : forall w D j t m n, plus_minus D -> stump_fit w D = Some (j, t, m) ->
  how_many (fun p => exists l, stump_predict (Some (j, t, m)) [fst p] = Ok [l] /\ l <> snd p) D n ->
  (2 * n <= length D)%nat.
Proof. exact stump_half. Qed.
Print Assumptions C23_stump_errs_on_at_most_half.

Theorem C23_stump_exists : forall w D, (1 <= w)%nat -> (2 <= length D)%nat ->
  exists j t m, stump_fit w D = Some (j, t, m) /\ (j < w)%nat.
Proof. exact stump_some. Qed.
Print Assumptions C23_stump_exists.

(** With a single training row (or no feature) the stump cannot predict. *)
Theorem C23_too_little_data_fails : forall w D x, (w = 0)%nat \/ (length D <= 1)%nat ->
  stump_predict (stump_fit w D) x = Err TypeError.
Proof. intros w D x H. now rewrite (stump_none w D H). Qed.
Print Assumptions C23_too_little_data_fails.

Example C23_witness : exists j t m,
  plus_minus [([1], 1%Z); ([2], (-1)%Z); ([3], 1%Z)] /\
  stump_fit 1 [([1], 1%Z); ([2], (-1)%Z); ([3], 1%Z)] = Some (j, t, m) /\
  separates (NegativeFrom 0 2) [([1], 1%Z); ([2], (-1)%Z); ([3], 1%Z)] /\
  mistakes (NegativeFrom 0 2) [([1], 1%Z); ([2], (-1)%Z); ([3], 1%Z)] 1.
Proof.
  destruct (stump_some 1 [([1], 1%Z); ([2], (-1)%Z); ([3], 1%Z)]) as (j & t & m & E & _); simpl; auto.
  exists j, t, m. split; [|split; [exact E|split]].
  - intros p H. simpl in H. intuition (subst; simpl; auto).
  - split; [exists ([1], 1%Z)|exists ([2], (-1)%Z)]; simpl; split; auto; lra.
  - apply hm_no; [intros H; apply H; simpl; right; split; auto; lra|].
    apply hm_no; [intros H; apply H; simpl; left; split; auto; lra|].
    apply hm_yes; [simpl; intros [[_ H]|[H _]]; [discriminate|lra]|constructor].
Qed.

(** ** C63 *)
Theorem C63_at_most_two_levels : forall w D t, tl_fit w D = Ok t -> (tl_depth t <= 2)%nat /\ (tl_leaves t <= 4)%nat.
Proof. intros w D t H. exact (tl_shape w 2 D t H). Qed.
Print Assumptions C63_at_most_two_levels.

(** A leaf is labelled by the heavier class of the training samples reaching
    it, and sits below two splits unless at most two samples reach it. *)
Theorem C63_leaf_label_is_heavier_class : forall w D t d G l, tl_fit w D = Ok t -> tl_at t d G (TLeaf l) ->
  forall p n k, mass (fun s => snd s = 1%Z /\ G (fst s)) D p -> mass (fun s => snd s = (-1)%Z /\ G (fst s)) D n ->
  how_many (fun s => G (s_row s)) D k ->
  (l = 1%Z /\ n < p \/ l = (-1)%Z /\ p <= n) /\ (d = 2 \/ d < 2 /\ k <= 2)%nat.
Proof. exact tl_leaf_main. Qed.
Print Assumptions C63_leaf_label_is_heavier_class.

(** Each split minimises the weighted Gini impurity over all features and all
    thresholds that separate the samples reaching it. *)
Theorem C63_split_is_optimal : forall w D t d G j p u l, weighted_plus_minus D -> (1 <= w)%nat ->
  tl_fit w D = Ok t -> tl_at t d G (TNode j p u l) ->
  (j < w)%nat /\ (forall k, how_many (fun s => G (s_row s)) D k -> (2 < k)%nat) /\
  forall j' p' c c', (j' < w)%nat -> separates_region D G j' p' ->
    split_cost D G j p c -> split_cost D G j' p' c' -> c <= c'.
Proof. exact tl_node_main. Qed.
Print Assumptions C63_split_is_optimal.

(** The weighted training error is at most that of either constant answer. *)
Theorem C63_training_error : forall w D t e p n, (forall s, In s D -> (s_lab s = 1 \/ s_lab s = -1)%Z) ->
  tl_fit w D = Ok t ->
  mass (fun s => tl_predict t (fst s) <> snd s) D e -> mass (fun s => snd s = 1%Z) D p -> mass (fun s => snd s = (-1)%Z) D n ->
  e <= p /\ e <= n.
Proof. exact tl_error_main. Qed.
Print Assumptions C63_training_error.

Theorem C63_fit_succeeds : forall w D, (1 <= w)%nat -> weighted_plus_minus D -> exists t, tl_fit w D = Ok t.
Proof. intros w D Hw. exact (tl_total w Hw 2 D). Qed.
Print Assumptions C63_fit_succeeds.

Theorem C63_no_weight_fails : forall w D, (1 <= w)%nat -> (2 < length D)%nat -> (forall s, In s D -> s_w s = 0) ->
  tl_fit w D = Err TypeError.
Proof. exact tl_zero. Qed.
Print Assumptions C63_no_weight_fails.

Example C63_witness : exists t,
  weighted_plus_minus [([1], 1%Z, 1/2); ([2], (-1)%Z, 1/4); ([3], 1%Z, 1/4)] /\
  tl_fit 1 [([1], 1%Z, 1/2); ([2], (-1)%Z, 1/4); ([3], 1%Z, 1/4)] = Ok t /\
  exists j p u l, tl_at t 0 (fun _ => True) (TNode j p u l).
Proof.
  assert (W : weighted_plus_minus [([1], 1%Z, 1/2); ([2], (-1)%Z, 1/4); ([3], 1%Z, 1/4)]).
  { intros s H. simpl in H. unfold s_lab, s_w. destruct H as [<-|[<-|[<-|[]]]]; simpl; split; auto; lra. }
  destruct (tl_total 1 ltac:(auto) 2 _ W) as (t & E). exists t. split; auto. split; [exact E|].
  destruct t as [l|j p u l]; [|exists j, p, u, l; constructor].
  apply generate_leaf in E. simpl in E. lia.
Qed.
