(** Proofs about training rows that are given several times: decision trees
    (C110). *)
From Coq Require Import List ZArith Reals Lra Lia Bool Arith String.
From Verif.Model Require Import Base Tree.
From Verif.Spec Require Import Common Tree Copies.
From Verif.Proof Require Import BaseLemmas Counting Impurity Tree TreeGen Pruner RowOrder RowOrderTree Copies.
Import ListNotations.
Local Open Scope R_scope.
Local Notation length := List.length.

Section TreeCopies.
Variable k : nat.
Hypothesis Hk : (0 < k)%nat.

Lemma pd_unique_copies {A} (dec : forall x y : A, {x = y} + {x <> y}) l : pd_unique dec (copies k l) = pd_unique dec l.
Proof.
  unfold pd_unique. f_equal. destruct k as [|n]; [lia|]. clear Hk. induction n as [|n IH]; [now rewrite copies_1|].
  replace (copies (S (S n)) l) with (copies (S n) l ++ l).
  - rewrite rev_app_distr, nodup_absorb; auto. intros a. rewrite <- !in_rev. intros H. apply copies_In; auto. lia.
  - clear. generalize (S n). intros m. induction m as [|m IH]; [symmetry; apply copies_1|]. rewrite !copies_S, <- app_assoc, IH. now rewrite copies_S.
Qed.
Lemma frequencies_copies y : frequencies (copies k y) = frequencies y.
Proof.
  unfold frequencies. rewrite nodup_copies by auto. apply map_ext. intros c. rewrite count_copies, copies_length, !mult_INR. now apply ratio_copies.
Qed.
Lemma impurity_copies c y : impurity c (copies k y) = impurity c y.
Proof. destruct c; cbn; unfold gini, entropy; now rewrite frequencies_copies. Qed.
Lemma entropy_copies y : entropy (copies k y) = entropy y.
Proof. unfold entropy. now rewrite frequencies_copies. Qed.
Lemma split_value_copies c D t : split_value (impurity c) (copies k D) t = split_value (impurity c) D t.
Proof.
  unfold split_value. cbn zeta. rewrite !copies_filter, !copies_map, !copies_length, !impurity_copies, !mult_INR, !ratio_copies by auto. reflexivity.
Qed.
Lemma continuous_value_copies c D : get_value_continuous (impurity c) (copies k D) = get_value_continuous (impurity c) D.
Proof.
  unfold get_value_continuous. rewrite copies_map, (np_unique_ext ROrder (copies k (map fst D)) (map fst D)) by (intros x; now apply copies_In).
  unfold best_threshold. apply fold_left_ext. intros b t _. now rewrite split_value_copies.
Qed.
Lemma discrete_value_copies c D : get_value_discrete (impurity c) (copies k D) = get_value_discrete (impurity c) D.
Proof.
  unfold get_value_discrete. rewrite copies_map, pd_unique_copies. f_equal. apply map_ext. intros v. cbn zeta.
  rewrite copies_filter, copies_map, !copies_length, impurity_copies, !mult_INR, ratio_copies by auto. reflexivity.
Qed.
Lemma forallb_copies {A} (f : A -> bool) l : forallb f (copies k l) = forallb f l.
Proof.
  apply eq_true_iff_eq. rewrite !forallb_forall. split; intros H a I; apply H; apply (copies_In k l a Hk); auto.
Qed.
Lemma existsb_copies {A} (f : A -> bool) l : existsb f (copies k l) = existsb f l.
Proof.
  apply eq_true_iff_eq. rewrite !existsb_exists. split; intros (a & I & E); exists a; split; auto; apply (copies_In k l a Hk); auto.
Qed.
Lemma attribute_value_copies c X D j : attribute_value c (copies k X) (copies k D) j = attribute_value c X D j.
Proof.
  unfold attribute_value, is_continuous. rewrite !copies_map, forallb_copies, existsb_copies, continuous_value_copies, discrete_value_copies, entropy_copies. reflexivity.
Qed.
Lemma optimal_division_copies c X D cols : optimal_division c (copies k X) (copies k D) cols = optimal_division c X D cols.
Proof. unfold optimal_division. apply fold_left_ext. intros b j _. now rewrite attribute_value_copies. Qed.

Variable top : list Z -> Z.
Hypothesis Htop : forall y, top (copies k y) = top y.
Variable rnd : R -> R.
Variable c : criterion.
Lemma most_common_copies y : most_common top (copies k y) = most_common top y.
Proof.
  destruct y as [|l y]; [now rewrite copies_nil|]. unfold most_common. rewrite Htop. destruct (copies_cons k l y Hk) as (m & ->). reflexivity.
Qed.
Lemma generate_copies X f : forall xe cols D, generate top rnd c (copies k X) f xe cols (copies k D) = generate top rnd c X f xe cols D.
Proof.
  induction f as [|f IH]; intros xe cols D; [reflexivity|]. rewrite !generate_unfold. cbn zeta.
  rewrite !copies_map, nodup_copies, most_common_copies, copies_length, zero_copies, optimal_division_copies by auto.
  destruct (_ =? 1)%nat.
  { destruct (map snd D) as [|l y]; [now rewrite copies_nil|]. destruct (copies_cons k l y Hk) as (m & ->). reflexivity. }
  destruct (xe || _ || _); auto. destruct (optimal_division c X D cols) as [[j [v [t0|]]]|]; auto.
  - rewrite !copies_filter, !IH. reflexivity.
  - rewrite copies_map, pd_unique_copies by auto.
    rewrite (mapM_ext (fun a => k0 <- (if (length (filter (fun p => if cell_eq_dec (cell_at j (fst p)) a then true else false) (copies k D)) =? 0)%nat
        then generate top rnd c (copies k X) f true (remove Nat.eq_dec j cols) (copies k D)
        else generate top rnd c (copies k X) f false (remove Nat.eq_dec j cols) (filter (fun p => if cell_eq_dec (cell_at j (fst p)) a then true else false) (copies k D))) ;; Ok (a, k0))
      (fun a => k0 <- (if (length (filter (fun p => if cell_eq_dec (cell_at j (fst p)) a then true else false) D) =? 0)%nat
        then generate top rnd c X f true (remove Nat.eq_dec j cols) D
        else generate top rnd c X f false (remove Nat.eq_dec j cols) (filter (fun p => if cell_eq_dec (cell_at j (fst p)) a then true else false) D)) ;; Ok (a, k0))).
    + reflexivity.
    + intros a. rewrite copies_filter, copies_length, zero_copies, !IH by auto. reflexivity.
Qed.
End TreeCopies.

(** ** More fuel *)
Lemma mapM_more {A B} (f g : A -> result B) l r : r <> Err StopFuel -> mapM f l = r ->
  (forall a s, s <> Err StopFuel -> f a = s -> g a = s) -> mapM g l = r.
Proof.
  intros N E H. revert r N E. induction l as [|a l IH]; intros r N E; [exact E|]. cbn in *.
  destruct (f a) as [b|e] eqn:F; cbn [bind] in E.
  - rewrite (H a (Ok b)) by (auto; discriminate). cbn [bind]. destruct (mapM f l) as [bs|e] eqn:M; cbn [bind] in E.
    + rewrite (IH (Ok bs)) by (auto; discriminate). exact E.
    + rewrite (IH (Err e)); auto. congruence.
  - rewrite (H a (Err e)); auto. congruence.
Qed.
Lemma generate_more top rnd c X f : forall xe cols D r, r <> Err StopFuel -> generate top rnd c X f xe cols D = r ->
  generate top rnd c X (S f) xe cols D = r.
Proof.
  induction f as [|f IH]; intros xe cols D r N E; [cbn in E; congruence|]. rewrite generate_unfold in E |- *. cbn zeta in *.
  destruct (_ =? 1)%nat; auto. destruct (xe || _ || _); auto. destruct (optimal_division c X D cols) as [[j [v [t0|]]]|]; auto.
  - destruct (generate top rnd c X f false cols (filter (fun p => cell_ge (rnd t0) (cell_at j (fst p))) D)) as [g|e] eqn:G; cbn [bind] in E.
    + rewrite (IH _ _ _ (Ok g)) by (auto; discriminate). cbn [bind].
      destruct (generate top rnd c X f false cols (filter (fun p => cell_lt (rnd t0) (cell_at j (fst p))) D)) as [l|e] eqn:L; cbn [bind] in E.
      * rewrite (IH _ _ _ (Ok l)) by (auto; discriminate). exact E.
      * rewrite (IH _ _ _ (Err e)); auto. congruence.
    + rewrite (IH _ _ _ (Err e)); auto. congruence.
  - match type of E with bind (mapM ?F ?l) _ = _ => destruct (mapM F l) as [kids|e] eqn:M end; cbn [bind] in E.
    + erewrite (mapM_more _ _ _ (Ok kids)); [exact E|discriminate|exact M|]. intros a s Ns Es. cbn beta zeta in *.
      destruct (_ =? 0)%nat.
      * destruct (generate top rnd c X f true _ D) as [q|e] eqn:G; cbn [bind] in Es.
        -- rewrite (IH _ _ _ (Ok q)) by (auto; discriminate). exact Es.
        -- rewrite (IH _ _ _ (Err e)); auto. congruence.
      * destruct (generate top rnd c X f false (remove Nat.eq_dec j cols) _) as [q|e] eqn:G; cbn [bind] in Es.
        -- rewrite (IH _ _ _ (Ok q)) by (auto; discriminate). exact Es.
        -- rewrite (IH _ _ _ (Err e)); auto. congruence.
    + erewrite (mapM_more _ _ _ (Err e)); [exact E|congruence|exact M|]. intros a s Ns Es. cbn beta zeta in *.
      destruct (_ =? 0)%nat.
      * destruct (generate top rnd c X f true _ D) as [q|e'] eqn:G; cbn [bind] in Es.
        -- rewrite (IH _ _ _ (Ok q)) by (auto; discriminate). exact Es.
        -- rewrite (IH _ _ _ (Err e')); auto. congruence.
      * destruct (generate top rnd c X f false (remove Nat.eq_dec j cols) _) as [q|e'] eqn:G; cbn [bind] in Es.
        -- rewrite (IH _ _ _ (Ok q)) by (auto; discriminate). exact Es.
        -- rewrite (IH _ _ _ (Err e')); auto. congruence.
Qed.
Lemma generate_plenty top rnd c X f n xe cols D r : r <> Err StopFuel -> generate top rnd c X f xe cols D = r ->
  generate top rnd c X (n + f) xe cols D = r.
Proof. intros N E. induction n as [|n IH]; auto. now apply generate_more. Qed.
Lemma fit_tree_copies k top rnd c w D r : (0 < k)%nat -> (forall y, top (copies k y) = top y) -> r <> Err StopFuel ->
  fit_tree top rnd c w D = r -> fit_tree top rnd c w (copies k D) = r.
Proof.
  intros Hk Ht N E. unfold fit_tree in *. rewrite copies_map, copies_length, generate_copies by auto.
  replace (S (k * length D + w)) with ((k * length D - length D) + S (length D + w))%nat by nia. now apply generate_plenty.
Qed.
