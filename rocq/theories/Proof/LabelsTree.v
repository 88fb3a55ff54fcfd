(** Lemmas for C108: trees whose labels have other names. *)
From Coq Require Import List ZArith Reals Bool Arith Lia Lra.
From Verif.Model Require Import Base Tree Pruner.
From Verif.Spec Require Import BayesUnits Labels.
From Verif.Proof Require Import BaseLemmas Counting TreeGen TreeBest Pruner.
Import ListNotations.
Local Open Scope R_scope.
Local Notation length := List.length.

Section Names.
Variable f : Z -> Z.
Hypothesis inj : one_to_one f.
Variables top top' : list Z -> Z.
Hypothesis Ht : blind_to_names f top top'.

Lemma eqb_named a b : Z.eqb (f a) (f b) = Z.eqb a b.
Proof. destruct (Z.eqb_spec a b) as [->|N]; [apply Z.eqb_refl|]. apply Z.eqb_neq. intros E. apply N, inj, E. Qed.
Lemma count_named c y : count (Z.eqb (f c)) (map f y) = count (Z.eqb c) y.
Proof. unfold count. induction y as [|a y IH]; [reflexivity|]. cbn [map filter]. rewrite eqb_named. destruct (Z.eqb c a); cbn [length]; now rewrite IH. Qed.
Lemma nodup_named y : nodup Z.eq_dec (map f y) = map f (nodup Z.eq_dec y).
Proof.
  induction y as [|a y IH]; [reflexivity|]. cbn [map nodup]. destruct (in_dec Z.eq_dec a y) as [I|I], (in_dec Z.eq_dec (f a) (map f y)) as [J|J].
  - exact IH.
  - exfalso. apply J. now apply in_map.
  - exfalso. apply in_map_iff in J as (b & E & J). apply inj in E as ->. auto.
  - cbn [map]. now rewrite IH.
Qed.
Lemma frequencies_named y : frequencies (map f y) = frequencies y.
Proof. unfold frequencies. rewrite nodup_named, map_map, map_length. apply map_ext. intros c. now rewrite count_named. Qed.
Lemma impurity_named c y : impurity c (map f y) = impurity c y.
Proof. destruct c; unfold impurity, gini, entropy; now rewrite frequencies_named. Qed.
Lemma entropy_named y : entropy (map f y) = entropy y.
Proof. unfold entropy; now rewrite frequencies_named. Qed.

(** Filters that look at the rows only. *)
Definition named {A} (D : list (A * Z)) : list (A * Z) := map (fun p => (fst p, f (snd p))) D.
Lemma filter_named {A} (q : A -> bool) (D : list (A * Z)) : filter (fun p => q (fst p)) (named D) = named (filter (fun p => q (fst p)) D).
Proof. unfold named. induction D as [|p D IH]; [reflexivity|]. cbn [map filter fst]. destruct (q (fst p)); cbn [map]; now rewrite IH. Qed.
Lemma labels_named {A} (D : list (A * Z)) : map snd (named D) = map f (map snd D).
Proof. unfold named. rewrite !map_map. reflexivity. Qed.
Lemma rows_named {A} (D : list (A * Z)) : map fst (named D) = map fst D.
Proof. unfold named. rewrite map_map. reflexivity. Qed.
Lemma length_named {A} (D : list (A * Z)) : length (named D) = length D.
Proof. apply map_length. Qed.

Lemma split_named c (D : list (R * Z)) t : split_value (impurity c) (named D) t = split_value (impurity c) D t.
Proof.
  unfold split_value. rewrite (filter_named (fun r => Rleb t r)), (filter_named (fun r => Rltb r t)), !labels_named, !impurity_named, !map_length, length_named. reflexivity.
Qed.
Lemma best_ext (s s' : R -> R) ts : (forall t, s t = s' t) -> best_threshold s ts = best_threshold s' ts.
Proof.
  intros H. unfold best_threshold. generalize (@None (R * R)). induction ts as [|t ts IH]; intros b; [reflexivity|]. cbn [fold_left]. rewrite H. apply IH.
Qed.
Lemma continuous_named c (D : list (R * Z)) : get_value_continuous (impurity c) (named D) = get_value_continuous (impurity c) D.
Proof. unfold get_value_continuous. rewrite rows_named. apply best_ext. intros t. apply split_named. Qed.
Lemma discrete_named c (D : list (cell * Z)) : get_value_discrete (impurity c) (named D) = get_value_discrete (impurity c) D.
Proof.
  unfold get_value_discrete. rewrite rows_named. f_equal. apply map_ext. intros v. cbv zeta.
  rewrite (filter_named (fun a => if cell_eq_dec v a then true else false)), labels_named, impurity_named, !map_length, length_named. reflexivity.
Qed.
Lemma project_named {A B} (g : A -> B) (D : list (A * Z)) : map (fun p => (g (fst p), snd p)) (named D) = named (map (fun p => (g (fst p), snd p)) D).
Proof. unfold named. rewrite !map_map. reflexivity. Qed.
Lemma attribute_named c X D j : attribute_value c X (named D) j = attribute_value c X D j.
Proof.
  unfold attribute_value. rewrite rows_named, labels_named, entropy_named, (project_named (fun r => num_of (cell_at j r))), (project_named (fun r => cell_at j r)), continuous_named, discrete_named. reflexivity.
Qed.
Lemma division_named c X D cols : optimal_division c X (named D) cols = optimal_division c X D cols.
Proof.
  unfold optimal_division. generalize (@None (nat * (R * option R))). induction cols as [|j cols IH]; intros b; [reflexivity|]. cbn [fold_left]. rewrite attribute_named. apply IH.
Qed.
Lemma common_named y : most_common top' (map f y) = (l <- most_common top y ;; Ok (f l)).
Proof. destruct y as [|a y]; [reflexivity|]. unfold most_common. cbn [bind]. rewrite <- Ht by discriminate. reflexivity. Qed.
Lemma leaves_named t : num_of_leaves (tree_named f t) = num_of_leaves t.
Proof. now destruct t. Qed.
Lemma height_named t : height (tree_named f t) = height t.
Proof. now destruct t. Qed.
Lemma leaf_named t : is_leaf (tree_named f t) = is_leaf t.
Proof. now destruct t. Qed.
Definition kid_named (k : cell * tree) : cell * tree := (fst k, tree_named f (snd k)).

Lemma mapM_kids (g g' : cell -> result (cell * tree)) vs : (forall a, g' a = (k <- g a ;; Ok (kid_named k))) -> mapM g' vs = (ks <- mapM g vs ;; Ok (map kid_named ks)).
Proof. intros H. induction vs as [|a vs IH]; [reflexivity|]. cbn [mapM]. rewrite H, IH. destruct (g a); cbn [bind]; [|reflexivity]. now destruct (mapM g vs). Qed.
Lemma generate_named rnd c X fuel : forall e cols D,
  generate top' rnd c X fuel e cols (named D) = (t <- generate top rnd c X fuel e cols D ;; Ok (tree_named f t)).
Proof.
  induction fuel as [|n IH]; intros e cols D; [reflexivity|]. cbn [generate]. rewrite labels_named, nodup_named, map_length, length_named, common_named, division_named.
  destruct (length (nodup Z.eq_dec (map snd D)) =? 1)%nat; [destruct (map snd D); reflexivity|].
  destruct (e || (length cols =? 0)%nat || (length D =? 0)%nat); [destruct (most_common top (map snd D)); reflexivity|].
  destruct (optimal_division c X D cols) as [[j [v [t0|]]]|]; [| |reflexivity].
  - rewrite (filter_named (fun r => cell_ge (rnd t0) (cell_at j r))), (filter_named (fun r => cell_lt (rnd t0) (cell_at j r))), !IH.
    destruct (generate top rnd c X n false cols (filter (fun p => cell_ge (rnd t0) (cell_at j (fst p))) D)) as [g|]; cbn [bind]; [|reflexivity].
    destruct (generate top rnd c X n false cols (filter (fun p => cell_lt (rnd t0) (cell_at j (fst p))) D)) as [l|]; cbn [bind]; [|reflexivity].
    now rewrite !leaves_named, !height_named.
  - set (cols' := remove Nat.eq_dec j cols). set (vals := pd_unique cell_eq_dec (map (cell_at j) X)).
    cbv zeta. rewrite (mapM_kids (fun a => k <- (if (length (filter (fun p => if cell_eq_dec (cell_at j (fst p)) a then true else false) D) =? 0)%nat then generate top rnd c X n true cols' D
                            else generate top rnd c X n false cols' (filter (fun p => if cell_eq_dec (cell_at j (fst p)) a then true else false) D)) ;; Ok (a, k))).
    2: { intros a. rewrite (filter_named (fun r => if cell_eq_dec (cell_at j r) a then true else false)), length_named, !IH.
         destruct (length _ =? 0)%nat; [destruct (generate top rnd c X n true cols' D)|destruct (generate top rnd c X n false cols' _)]; reflexivity. }
    destruct (mapM _ vals) as [ks|]; cbn [bind]; [|reflexivity]. cbn [tree_named]. fold kid_named.
    assert (E3 : forall s0, fold_left (fun n k => (n + num_of_leaves (snd k))%nat) (map kid_named ks) s0 = fold_left (fun n (k : cell * tree) => (n + num_of_leaves (snd k))%nat) ks s0).
    { clear. induction ks as [|k ks IH]; intros s0; [reflexivity|]. cbn [map fold_left kid_named snd]. now rewrite leaves_named, IH. }
    assert (E4 : forall s0, fold_left (fun m k => if (m <? height (snd k))%Z then height (snd k) else m) (map kid_named ks) s0 = fold_left (fun m (k : cell * tree) => if (m <? height (snd k))%Z then height (snd k) else m) ks s0).
    { clear. induction ks as [|k ks IH]; intros s0; [reflexivity|]. cbn [map fold_left kid_named snd]. now rewrite height_named, IH. }
    now rewrite E3, E4.
Qed.
Lemma fit_tree_named rnd c w D : fit_tree top' rnd c w (named D) = (t <- fit_tree top rnd c w D ;; Ok (tree_named f t)).
Proof. unfold fit_tree. rewrite rows_named, length_named. apply generate_named. Qed.
Lemma predict_named t r : predict (tree_named f t) r = (l <- predict t r ;; Ok (f l)).
Proof.
  induction t as [l|j v p n h g l IHg IHl|j v n h kids IHk] using tree_ind'; [reflexivity|..]; cbn [tree_named predict]; destruct (get_at r j) as [a|]; cbn [bind]; try reflexivity.
  - destruct a as [x|]; [|reflexivity]. destruct (Rleb p x); assumption.
  - induction kids as [|[b k] kids IH]; [reflexivity|]. cbn [map fst snd]. destruct (cell_eq_dec a b); [apply (IHk b); now left|]. apply IH. intros b' k' I. apply (IHk b'). now right.
Qed.

(** Pruning. *)
Lemma numeric_named j D : numeric_column j (named D) = numeric_column j D.
Proof. unfold numeric_column, named. induction D as [|p D IH]; [reflexivity|]. cbn [map forallb fst]. now rewrite IH. Qed.
Lemma ge_named p j D : rows_ge p j (named D) = named (rows_ge p j D).
Proof. apply (filter_named (fun r => cell_ge p (cell_at j r))). Qed.
Lemma lt_named p j D : rows_lt p j (named D) = named (rows_lt p j D).
Proof. apply (filter_named (fun r => cell_lt p (cell_at j r))). Qed.
Lemma eq_named a j D : rows_eq a j (named D) = named (rows_eq a j D).
Proof. apply (filter_named (fun r => if cell_eq_dec (cell_at j r) a then true else false)). Qed.
Lemma as_leaf_named l V : correct_as_leaf (f l) (named V) = correct_as_leaf l V.
Proof. unfold correct_as_leaf, count, named. induction V as [|p V IH]; [reflexivity|]. cbn [map filter snd]. rewrite eqb_named. destruct (Z.eqb (snd p) l); cbn [length]; now rewrite IH. Qed.
Lemma of_node_named t V : correct_of_node (tree_named f t) (named V) = correct_of_node t V.
Proof.
  unfold correct_of_node. f_equal. unfold named. induction V as [|p V IH]; [reflexivity|]. cbn [map mapM fst snd]. rewrite predict_named. destruct (predict t (fst p)) as [l|]; cbn [bind]; [|reflexivity].
  rewrite IH, eqb_named. reflexivity.
Qed.
Lemma mapM_named {B} (g g' : row * Z -> result B) V : (forall q, g' (fst q, f (snd q)) = g q) -> mapM g' (named V) = mapM g V.
Proof. intros H. unfold named. induction V as [|p V IH]; [reflexivity|]. cbn [map mapM]. now rewrite H, IH. Qed.
Lemma split_accuracy_named j D V : correct_after_split top' j (named D) (named V) = correct_after_split top j D V.
Proof.
  unfold correct_after_split. f_equal.
  assert (G : forall q : row * Z, match rows_eq (cell_at j (fst q)) j (named D) with [] => Err KeyError | p :: l => Ok (Z.eqb (f (snd q)) (top' (map snd (p :: l)))) end =
              match rows_eq (cell_at j (fst q)) j D with [] => Err KeyError | p :: l => Ok (Z.eqb (snd q) (top (map snd (p :: l)))) end).
  { intros q. rewrite eq_named. destruct (rows_eq (cell_at j (fst q)) j D) as [|d l]; [reflexivity|].
    change (named (d :: l)) with ((fst d, f (snd d)) :: named l) at 1. cbv iota. change ((fst d, f (snd d)) :: named l) with (named (d :: l)). now rewrite labels_named, Ht, eqb_named by discriminate. }
  apply mapM_named. intros q. exact (G q).
Qed.
Lemma pre_accuracy_named point j D V : pre_accuracy top' point j (named D) (named V) = pre_accuracy top point j D V.
Proof. unfold pre_accuracy. destruct point as [p|]; [destruct (Reqb p 0); [|reflexivity]|]; apply split_accuracy_named. Qed.
Lemma kids_named (P P' : tree -> list (row * Z) -> list (row * Z) -> result tree) j D V ks :
  (forall a k, In (a, k) ks -> forall D V, P' (tree_named f k) (named D) (named V) = (t' <- P k D V ;; Ok (tree_named f t'))) ->
  prune_kids P' j (named D) (named V) (map kid_named ks) = (ks' <- prune_kids P j D V ks ;; Ok (map kid_named ks')).
Proof.
  induction ks as [|[a k] ks IH]; intros I; [reflexivity|]. change (map kid_named ((a, k) :: ks)) with ((a, tree_named f k) :: map kid_named ks). cbn [prune_kids].
  rewrite !eq_named, (I a k) by now left. destruct (P k _ _) as [k'|]; cbn [bind]; [|reflexivity]. rewrite IH by (intros b m Hm; apply (I b); now right). now destruct (prune_kids P j D V ks).
Qed.
Lemma sum_named ks : leaves_sum (map kid_named ks) = leaves_sum ks.
Proof. unfold leaves_sum. generalize 0%nat. induction ks as [|k ks IH]; intros s0; [reflexivity|]. cbn [map fold_left kid_named snd]. now rewrite IH, leaves_named. Qed.
Lemma loop_named ks : loop_height (map kid_named ks) = loop_height ks.
Proof. unfold loop_height. generalize (-1)%Z. induction ks as [|k ks IH]; intros s0; [reflexivity|]. cbn [map fold_left kid_named snd]. now rewrite IH, height_named. Qed.
Lemma all_leaves_named ks : forallb (fun k => is_leaf (snd k)) (map kid_named ks) = forallb (fun k : cell * tree => is_leaf (snd k)) ks.
Proof. induction ks as [|k ks IH]; [reflexivity|]. cbn [map forallb kid_named snd]. now rewrite IH, leaf_named. Qed.
Lemma post_named t : forall D V, post_prune top' (tree_named f t) (named D) (named V) = (t' <- post_prune top t D V ;; Ok (tree_named f t')).
Proof.
  induction t as [l|j v p n h g l IHg IHl|j v n h kids IHk] using tree_ind'; intros D V; [reflexivity|..].
  - cbn [tree_named post_prune]. rewrite length_named, labels_named, common_named, !numeric_named, !ge_named, !lt_named, IHg, IHl.
    destruct (length V =? 0)%nat; [reflexivity|]. destruct (most_common top (map snd D)) as [cur|]; cbn [bind]; [|reflexivity]. destruct (negb _); [reflexivity|].
    destruct (post_prune top g _ _) as [g'|]; cbn [bind]; [|reflexivity]. destruct (post_prune top l _ _) as [l'|]; cbn [bind]; [|reflexivity].
    rewrite !leaves_named, !height_named, !leaf_named.
    set (t' := Cont j v p (num_of_leaves g' + num_of_leaves l') (Z.max (height g') (height l') + 1)%Z g' l').
    change (Cont j v p (num_of_leaves g' + num_of_leaves l') (Z.max (height g') (height l') + 1)%Z (tree_named f g') (tree_named f l')) with (tree_named f t').
    destruct (is_leaf g' && is_leaf l'); [|reflexivity]. rewrite of_node_named, as_leaf_named. destruct (correct_of_node t' V) as [k|]; cbn [bind]; [|reflexivity]. now destruct (k <? correct_as_leaf cur V)%nat.
  - cbn [tree_named]. fold kid_named. rewrite !post_disc, length_named, labels_named, common_named.
    destruct (length V =? 0)%nat; [reflexivity|]. destruct (most_common top (map snd D)) as [cur|]; cbn [bind]; [|reflexivity].
    rewrite (kids_named (post_prune top) (post_prune top') j D V kids) by exact IHk. destruct (prune_kids (post_prune top) j D V kids) as [ks'|]; cbn [bind]; [|reflexivity].
    cbv zeta. rewrite sum_named, loop_named, all_leaves_named. set (t' := Disc j v (leaves_sum ks') (loop_height ks') ks').
    change (Disc j v (leaves_sum ks') (loop_height ks') (map kid_named ks')) with (tree_named f t').
    destruct (forallb _ ks'); [|reflexivity]. rewrite of_node_named, as_leaf_named. destruct (correct_of_node t' V) as [k|]; cbn [bind]; [|reflexivity]. now destruct (k <? correct_as_leaf cur V)%nat.
Qed.
Lemma pre_named t : forall D V, pre_prune top' (tree_named f t) (named D) (named V) = (t' <- pre_prune top t D V ;; Ok (tree_named f t')).
Proof.
  induction t as [l|j v p n h g l IHg IHl|j v n h kids IHk] using tree_ind'; intros D V; [reflexivity|..].
  - cbn [tree_named pre_prune]. rewrite length_named, labels_named, common_named, pre_accuracy_named, !numeric_named, !ge_named, !lt_named, IHg, IHl.
    destruct (length V =? 0)%nat; [reflexivity|]. destruct (most_common top (map snd D)) as [cur|]; cbn [bind]; [|reflexivity].
    destruct (pre_accuracy top (Some p) j D V) as [k|]; cbn [bind]; [|reflexivity]. rewrite as_leaf_named. destruct (k <=? correct_as_leaf cur V)%nat; [reflexivity|]. destruct (negb _); [reflexivity|].
    destruct (pre_prune top l _ _) as [l'|]; cbn [bind]; [|reflexivity]. destruct (pre_prune top g _ _) as [g'|]; cbn [bind]; [|reflexivity]. now rewrite !leaves_named, !height_named.
  - cbn [tree_named]. fold kid_named. rewrite !pre_disc, length_named, labels_named, common_named, pre_accuracy_named.
    destruct (length V =? 0)%nat; [reflexivity|]. destruct (most_common top (map snd D)) as [cur|]; cbn [bind]; [|reflexivity].
    destruct (pre_accuracy top None j D V) as [k|]; cbn [bind]; [|reflexivity]. rewrite as_leaf_named. destruct (k <=? correct_as_leaf cur V)%nat; [reflexivity|].
    rewrite (kids_named (pre_prune top) (pre_prune top') j D V kids) by exact IHk. destruct (prune_kids (pre_prune top) j D V kids) as [ks'|]; cbn [bind]; [|reflexivity].
    cbv zeta. now rewrite sum_named, loop_named.
Qed.
Lemma fit_pruned_named rnd c how w D V :
  fit_pruned top' rnd c how w (named D) (option_map named V) = (t <- fit_pruned top rnd c how w D V ;; Ok (tree_named f t)).
Proof.
  unfold fit_pruned. destruct how; [apply fit_tree_named|..]; destruct V as [V|]; cbn [option_map]; try reflexivity; rewrite fit_tree_named; destruct (fit_tree top rnd c w D) as [t|]; cbn [bind]; try reflexivity; [apply pre_named|apply post_named].
Qed.
End Names.

(** The most common label that is seen first. *)
Lemma votes_named f c y : one_to_one f -> votes (map f y) (f c) = votes y c.
Proof.
  intros J. induction y as [|a y IH]; [reflexivity|]. cbn [map count_occ]. destruct (Z.eq_dec (f a) (f c)) as [E|E], (Z.eq_dec a c) as [E'|E']; try (now rewrite IH).
  - exfalso. apply E', J, E.
  - exfalso. apply E. now rewrite E'.
Qed.
Lemma mode_named f : one_to_one f -> blind_to_names f mode mode.
Proof.
  intros J l N. unfold mode. replace (hd 0%Z (map f l)) with (f (hd 0%Z l)) by (destruct l; [congruence|reflexivity]).
  generalize (hd 0%Z l) as b. set (y := l) at 1 2 4 5. clearbody y. clear N. induction l as [|z l IH]; intros b; [reflexivity|]. cbn [map fold_left].
  rewrite !votes_named by exact J. destruct (votes y b <? votes y z)%nat; apply IH.
Qed.
