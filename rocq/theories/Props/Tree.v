(** Property theorems C16-C20 and C65: impurity, splits and decision trees
    (classicML/backend/python/tree/criteria.py and generators.py,
    classicML/api/models/tree/decision_tree_classifier.py). *)
From Coq Require Import List ZArith Reals Lra Lia Arith Permutation String.
From Verif.Model Require Import Base Tree.
From Verif.Spec Require Import Common Tree.
From Verif.Proof Require Import BaseLemmas Impurity Tree TreeGen TreeMain TreeBest.
Import ListNotations.
Local Open Scope R_scope.
Local Notation length := List.length.

(** ** C16 *)
Theorem C16_gini_bounds : forall y k, y <> [] -> num_distinct y k -> 0 <= gini y <= 1 - 1 / INR k.
Proof. intros y k Hy Hk. split; [now apply gini_nonneg|now apply gini_upper]. Qed.
Print Assumptions C16_gini_bounds.

Theorem C16_gini_zero_iff_pure : forall y, y <> [] -> (gini y = 0 <-> forall a b, In a y -> In b y -> a = b).
Proof. exact gini_zero. Qed.
Print Assumptions C16_gini_zero_iff_pure.

(** Gini is the probability that two samples drawn with replacement differ. *)
Theorem C16_gini_is_disagreement : forall y, y <> [] ->
  gini y = INR (length (filter (fun p => negb (Z.eqb (fst p) (snd p))) (list_prod y y)))
           / (INR (length y) * INR (length y)).
Proof. exact gini_pairs. Qed.
Print Assumptions C16_gini_is_disagreement.

Theorem C16_entropy_bounds : forall y k, y <> [] -> num_distinct y k -> 0 <= entropy y <= ln (INR k) / ln 2.
Proof. intros y k Hy Hk. split; [apply entropy_nonneg|now apply entropy_upper]. Qed.
Print Assumptions C16_entropy_bounds.

Theorem C16_entropy_zero_iff_pure : forall y, y <> [] -> (entropy y = 0 <-> forall a b, In a y -> In b y -> a = b).
Proof. exact entropy_zero. Qed.
Print Assumptions C16_entropy_zero_iff_pure.

(** Entropy is the mean over the samples of minus log2 of the label's frequency. *)
Theorem C16_entropy_is_mean_surprisal : forall y, y <> [] ->
  entropy y = fold_right Rplus 0 (map (fun l => - (ln (INR (count_occ Z.eq_dec y l) / INR (length y)) / ln 2)) y) / INR (length y).
Proof. exact entropy_mean_surprisal. Qed.
Print Assumptions C16_entropy_is_mean_surprisal.

Theorem C16_order_irrelevant : forall c y y', Permutation y y' -> impurity c y = impurity c y'.
Proof. exact impurity_perm. Qed.
Print Assumptions C16_order_irrelevant.

Example C16_witness : [0; 1; 1; 2]%Z <> [] /\ num_distinct [0; 1; 1; 2]%Z 3 /\ Permutation [0; 1; 1; 2]%Z [1; 0; 2; 1]%Z.
Proof.
  split; [discriminate|]. split.
  - exists [0; 1; 2]%Z. split; [repeat constructor; simpl; intuition discriminate|]. split; [reflexivity|].
    intros a. simpl. intuition.
  - apply perm_trans with [1; 0; 1; 2]%Z; [apply perm_swap|]. do 2 apply perm_skip. apply perm_swap.
Qed.

(** ** C17 *)
(** [optimal_division] reports an attribute and a split of it such that no
    split of any attribute, at any real threshold, has a smaller weighted
    impurity.  The reported value is that weighted impurity, or for [Gain] the
    entropy of the node minus it.  It reports nothing iff no split exists. *)
Theorem C17_optimal_division : forall c X D cols, D <> [] -> (forall p, In p D -> In (fst p) X) ->
  match optimal_division c X D cols with
  | None => forall j pt parts, In j cols -> ~ split_on X D j pt parts
  | Some (j, (v, pt)) => In j cols /\ exists parts, split_on X D j pt parts /\
      v = match c with
          | Gain => entropy (map snd D) - weighted_impurity entropy parts
          | Gini => weighted_impurity gini parts
          | Entropy => weighted_impurity entropy parts
          end /\
      forall j' pt' parts', In j' cols -> split_on X D j' pt' parts' ->
        weighted_impurity (impurity c) parts <= weighted_impurity (impurity c) parts'
  end.
Proof. exact optimal_division_main. Qed.
Print Assumptions C17_optimal_division.

(** The reported threshold is the midpoint of two neighbouring values. *)
Theorem C17_threshold_is_midpoint : forall c X D cols j v t, D <> [] -> (forall p, In p D -> In (fst p) X) ->
  optimal_division c X D cols = Some (j, (v, Some t)) ->
  exists p q a b, In p D /\ In q D /\ cell_at j (fst p) = Num a /\ cell_at j (fst q) = Num b /\ a < b /\
    t = (a + b) / 2 /\ forall s x, In s D -> cell_at j (fst s) = Num x -> x <= a \/ b <= x.
Proof. exact threshold_midpoint. Qed.
Print Assumptions C17_threshold_is_midpoint.

(** Information gain and entropy build the same tree. *)
Theorem C17_gain_and_entropy_agree : forall top rnd w D,
  match fit_tree top rnd Gain w D, fit_tree top rnd Entropy w D with
  | Ok t, Ok t' => same_shape t t' /\ forall r, predict t r = predict t' r
  | Err e, Err e' => e = e'
  | _, _ => False
  end.
Proof. exact fit_gain_entropy. Qed.
Print Assumptions C17_gain_and_entropy_agree.

Definition melons : list (row * Z) :=
  [([Txt "green"; Num (IZR 0 + / 2)], 1%Z); ([Txt "black"; Num (IZR 1 + / 2)], 1%Z);
   ([Txt "green"; Num (IZR 2 + / 2)], 0%Z); ([Txt "white"; Num (IZR 0 + / 2)], 0%Z)].

Example C17_witness : melons <> [] /\ (forall p, In p melons -> In (fst p) (map fst melons)) /\
  exists r, optimal_division Gini (map fst melons) melons [0; 1]%nat = Some r.
Proof.
  split; [discriminate|]. split; [intros p; apply in_map|].
  destruct (optimal_division Gini (map fst melons) melons [0; 1]%nat) as [r|] eqn:E; [eauto|].
  pose proof (optimal_none _ _ _ _ E 0%nat (or_introl eq_refl)) as H. unfold attribute_value in H. simpl in H. discriminate.
Qed.

(** ** C65 *)
Theorem C65_split_never_raises_impurity : forall c X D j pt parts, D <> [] -> split_on X D j pt parts ->
  weighted_impurity (impurity c) parts <= impurity c (map snd D).
Proof. exact split_lowers. Qed.
Print Assumptions C65_split_never_raises_impurity.

Theorem C65_reported_gain_nonnegative : forall c X D cols j v pt, D <> [] -> (forall p, In p D -> In (fst p) X) ->
  optimal_division c X D cols = Some (j, (v, pt)) ->
  match c with Gain => 0 <= v | _ => v <= impurity c (map snd D) end.
Proof. exact chosen_gain. Qed.
Print Assumptions C65_reported_gain_nonnegative.

Example C65_witness : split_on (map fst melons) melons 0 None [[1; 0]; [1]; [0]]%Z.
Proof.
  apply split_by_value with (vals := [Txt "green"; Txt "black"; Txt "white"]).
  - intros [H _]. destruct (H [Txt "green"; Num (IZR 0 + / 2)]) as (x & Hx); [simpl; auto|discriminate].
  - repeat constructor; simpl; intuition discriminate.
  - intros v. split.
    + intros [<-|[<-|[<-|[]]]].
      * exists ([Txt "green"; Num (IZR 0 + / 2)], 1%Z). split; [simpl; tauto|reflexivity].
      * exists ([Txt "black"; Num (IZR 1 + / 2)], 1%Z). split; [simpl; tauto|reflexivity].
      * exists ([Txt "white"; Num (IZR 0 + / 2)], 0%Z). split; [simpl; tauto|reflexivity].
    + intros (p & Hp & <-). simpl in Hp. destruct Hp as [<-|[<-|[<-|[<-|[]]]]]; simpl; auto.
  - repeat constructor; try discriminate; repeat (apply lw_in; [reflexivity|] || apply lw_out; [discriminate|]); constructor.
Qed.

(** ** C18 *)
(** [rnd] is the rounding of a dividing point to float32; it must not move the
    point past one of the two values it separates. *)
Theorem C18_training_labels_reproduced : forall top rnd c w D,
  D <> [] -> rectangular w D -> keeps_sides rnd D -> consistent D ->
  exists t, fit_tree top rnd c w D = Ok t /\ forall r l, In (r, l) D -> predict t r = Ok l.
Proof. exact fit_correct. Qed.
Print Assumptions C18_training_labels_reproduced.

(** With contradictory rows no function of the row makes fewer errors on the
    training data than the tree, if there is one. *)
Theorem C18_fewest_training_errors : forall top rnd c w D t g n m,
  (forall y z, y <> [] -> (count_occ Z.eq_dec y z <= count_occ Z.eq_dec y (top y))%nat) ->
  rectangular w D -> keeps_sides rnd D -> fit_tree top rnd c w D = Ok t ->
  how_many (fun p => predict t (fst p) <> Ok (snd p)) D n ->
  how_many (fun p => g (fst p) <> snd p) D m -> (n <= m)%nat.
Proof. exact fit_fewest. Qed.
Print Assumptions C18_fewest_training_errors.
Example C18_fewest_witness : exists D t,
  (forall y z, y <> [] -> (count_occ Z.eq_dec y z <= count_occ Z.eq_dec y (mode y))%nat) /\
  rectangular 1 D /\ keeps_sides (fun x => x) D /\ ~ consistent D /\
  fit_tree mode (fun x => x) Gini 1 D = Ok t /\ predict t [Txt "a"%string] = Ok 1%Z.
Proof.
  exists [([Txt "a"%string], 1%Z); ([Txt "a"%string], 0%Z); ([Txt "a"%string], 1%Z)]. eexists.
  split; [exact mode_top|]. split; [intros r l [H|[H|[H|[]]]]; now injection H as <- _|]. split; [apply id_keeps_sides|].
  split; [intros H; specialize (H [Txt "a"%string] 1%Z 0%Z); cbn in H; assert (1 = 0)%Z by tauto; discriminate|]. split; reflexivity.
Qed.

Example C18_witness : melons <> [] /\ rectangular 2 melons /\ keeps_sides (fun x => x) melons /\ consistent melons.
Proof.
  split; [discriminate|]. split; [|split; [apply id_keeps_sides|]].
  - intros r l H. simpl in H. repeat destruct H as [H|H]; try contradiction; now injection H as <- _.
  - intros r l l' H H'. simpl in H, H'.
    repeat destruct H as [H|H]; try contradiction; repeat destruct H' as [H'|H']; try contradiction;
      injection H as Hr <-; injection H' as Hr' <-; auto; exfalso; rewrite <- Hr' in Hr; injection Hr; try discriminate; lra.
Qed.

(** ** C19 *)
Theorem C19_leaf_count : forall top rnd c w D t, fit_tree top rnd c w D = Ok t ->
  forall s, subtree s t -> num_of_leaves s = leaf_count s.
Proof. exact fit_leaves. Qed.
Print Assumptions C19_leaf_count.

Theorem C19_height_at_least_depth : forall top rnd c w D t, fit_tree top rnd c w D = Ok t ->
  forall s, subtree s t -> (Z.of_nat (depth s) <= height s)%Z.
Proof. exact fit_height_ge. Qed.
Print Assumptions C19_height_at_least_depth.

Theorem C19_height_of_discrete_tree : forall top rnd c w D t, fit_tree top rnd c w D = Ok t ->
  forall s, subtree s t -> (forall s', subtree s' s -> ~ is_cont s') -> height s = Z.of_nat (depth s).
Proof. exact fit_height_discrete. Qed.
Print Assumptions C19_height_of_discrete_tree.

(** A continuous node reports the sum of its children's heights plus one. *)
Theorem C19_height_per_node : forall top rnd c w D t, fit_tree top rnd c w D = Ok t ->
  forall s, subtree s t ->
  match s with
  | Leaf _ => True
  | Cont _ _ _ _ h g l => h = (height g + height l + 1)%Z
  | Disc _ _ _ h kids => (forall a k, In (a, k) kids -> (height k < h)%Z) /\
      exists a k, In (a, k) kids /\ (height k + 1 = h)%Z
  end.
Proof. exact fit_height_node. Qed.
Print Assumptions C19_height_per_node.

(** So the reported height of a continuous tree can be wrong. *)
Theorem C19_height_is_depth_refuted : forall top, exists D t,
  fit_tree top (fun x => x) Gain 1 D = Ok t /\ height t = 3%Z /\ depth t = 2%nat.
Proof. intros top. exists ladder. exact (ladder_height top). Qed.
Print Assumptions C19_height_is_depth_refuted.

(** A fit with more than one leaf. *)
Example C19_witness : forall top, exists t, fit_tree top (fun x => x) Gini 2 melons = Ok t /\ t <> Leaf 0%Z /\ t <> Leaf 1%Z.
Proof.
  intros top. destruct C18_witness as (H1 & H2 & H3 & H4).
  destruct (fit_correct top (fun x => x) Gini 2 melons H1 H2 H3 H4) as (t & E & Hp). exists t. split; auto.
  split; intros ->; [specialize (Hp [Txt "green"; Num (IZR 0 + / 2)] 1%Z)|specialize (Hp [Txt "white"; Num (IZR 0 + / 2)] 0%Z)];
    simpl in Hp; discriminate Hp; tauto.
Qed.

(** ** C20 *)
(** Growth always ends: with a tree, or with ValueError, which needs two equal
    rows with different labels. *)
Theorem C20_growth_ends : forall top rnd c w D, D <> [] -> rectangular w D -> keeps_sides rnd D ->
  (exists t, fit_tree top rnd c w D = Ok t) \/ (fit_tree top rnd c w D = Err ValueError /\ ~ consistent D).
Proof. exact fit_outcome. Qed.
Print Assumptions C20_growth_ends.

Theorem C20_contradictory_rows_can_fail : forall top rnd c, exists D,
  rectangular 1 D /\ fit_tree top rnd c 1 D = Err ValueError.
Proof.
  intros top rnd c. exists clash. split; [|apply clash_fails].
  intros r l H. simpl in H. repeat destruct H as [H|H]; try contradiction; now injection H as <- _.
Qed.
Print Assumptions C20_contradictory_rows_can_fail.

Theorem C20_predicts_training_labels : forall top rnd c w D t r l, (forall y, y <> [] -> In (top y) y) ->
  fit_tree top rnd c w D = Ok t -> predict t r = Ok l -> exists r', In (r', l) D.
Proof. exact fit_labels. Qed.
Print Assumptions C20_predicts_training_labels.

Theorem C20_known_values_get_a_label : forall top rnd c w D t r, fit_tree top rnd c w D = Ok t -> length r = w ->
  (forall j, (j < w)%nat -> exists r' l, In (r', l) D /\ cell_at j r' = cell_at j r) -> exists l, predict t r = Ok l.
Proof. exact fit_known. Qed.
Print Assumptions C20_known_values_get_a_label.

(** A discrete node reached with a value that training did not contain raises. *)
Theorem C20_unseen_value_raises : forall top rnd c w D t, fit_tree top rnd c w D = Ok t ->
  forall j v n h kids r a, subtree (Disc j v n h kids) t -> nth_error r j = Some a ->
  (forall r' l, In (r', l) D -> cell_at j r' <> a) -> predict (Disc j v n h kids) r = Err KeyError.
Proof. exact fit_unseen. Qed.
Print Assumptions C20_unseen_value_raises.

Definition last_label (y : list Z) : Z := last y 0%Z.
Example C20_witness : (forall y, y <> [] -> In (last_label y) y) /\
  exists t l, fit_tree last_label (fun x => x) Gini 2 melons = Ok t /\ predict t [Txt "black"; Num (IZR 2 + / 2)] = Ok l.
Proof.
  split.
  - intros y Hy. destruct (exists_last Hy) as (y' & a & ->). unfold last_label. rewrite last_last. apply in_or_app. simpl; auto.
  - destruct C18_witness as (H1 & H2 & H3 & H4).
    destruct (fit_correct last_label (fun x => x) Gini 2 melons H1 H2 H3 H4) as (t & E & Hp). exists t.
    destruct (fit_known _ _ _ _ _ _ [Txt "black"; Num (IZR 2 + / 2)] E eq_refl) as (l & Hl); [|exists l; auto].
    intros [|[|j]] Hj; [| |lia].
    + exists [Txt "black"; Num (IZR 1 + / 2)], 1%Z. simpl. auto.
    + exists [Txt "green"; Num (IZR 2 + / 2)], 0%Z. simpl. auto.
Qed.

Example C20_witness_unseen : forall top rnd c, exists D t j v n h kids r a,
  fit_tree top rnd c 1 D = Ok t /\ subtree (Disc j v n h kids) t /\ nth_error r j = Some a /\
  (forall r' l, In (r', l) D -> cell_at j r' <> a).
Proof.
  intros top rnd c. exists [([Txt "a"%string], 0%Z); ([Txt "b"], 1%Z)].
  destruct c; (eexists; exists 0%nat; do 4 eexists; exists [Txt "c"], (Txt "c");
    split; [cbn; reflexivity|split; [apply sub_refl|split; [reflexivity|]]];
    intros r' l [H|[H|[]]]; injection H as <- _; discriminate).
Qed.
