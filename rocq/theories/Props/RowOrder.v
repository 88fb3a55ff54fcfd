(** C90: the order of the training rows. *)
From Coq Require Import List ZArith Reals Lra Lia Arith Permutation String Sorting.Sorted.
From Verif.Model Require Import Base Ops Stump Ensemble Logistic KMeans Lda Gmm Tree Pruner Bayes.
From Verif.Spec Require Import Common Bayes Tree RowOrder.
From Verif.Proof Require Import BaseLemmas KMeansMain Bayes BayesMain Pruner RowOrder RowOrderTree RowOrderBayes.
From Verif.Props Require Import Bayes Lda.
Import ListNotations.
Local Open Scope R_scope.
Local Notation length := List.length.

(** ** Models for which the order of the rows does not matter at all *)
(** Logistic regression, with gradient descent and with Newton's method. *)
Theorem C90_logistic_regression : forall o init epochs d x y x' y' m, same_rows x y x' y' ->
  lr_fit o init epochs d x' y' m = lr_fit o init epochs d x y m.
Proof. intros. symmetry. now apply lr_fit_perm. Qed.
Print Assumptions C90_logistic_regression.
Theorem C90_linear_discriminant : forall svd d x y x' y', same_rows x y x' y' -> lda_fit svd d x' y' = lda_fit svd d x y.
Proof. intros. symmetry. now apply lda_fit_perm. Qed.
Print Assumptions C90_linear_discriminant.
Theorem C90_stump : forall w D D', Permutation D D' -> stump_fit w D' = stump_fit w D.
Proof. intros. symmetry. now apply stump_fit_perm. Qed.
Print Assumptions C90_stump.
(** The two-level tree on weighted rows: every row keeps its weight. *)
Theorem C90_two_level_tree : forall w D D', Permutation D D' -> tl_fit w D' = tl_fit w D.
Proof. intros. symmetry. now apply tl_fit_perm. Qed.
Print Assumptions C90_two_level_tree.
(** AdaBoost with any learner that ignores the order of its weighted rows ... *)
Theorem C90_adaboost : forall H (learn : list (list R * Z) -> list R -> result H) answer,
  (forall D v D' v', same_rows D v D' v' -> learn D v = learn D' v') ->
  forall n D D' b, Permutation D D' -> ada_fit H learn answer n D' b = ada_fit H learn answer n D b.
Proof. intros. symmetry. now apply ada_fit_perm. Qed.
Print Assumptions C90_adaboost.
(** ... as its own default learner does. *)
Theorem C90_adaboost_default : forall w answer n D D' b, Permutation D D' ->
  ada_fit tltree (tl_learn w) answer n D' b = ada_fit tltree (tl_learn w) answer n D b.
Proof. intros. symmetry. apply ada_fit_perm; auto. apply tl_learn_perm. Qed.
Print Assumptions C90_adaboost_default.

Example C90_same_rows_example : same_rows [[0]; [1]; [4]] [0; 1; 1]%Z [[4]; [0]; [1]] [1; 0; 1]%Z.
Proof.
  repeat split. cbn. apply Permutation_sym. apply (Permutation_cons_append [([0], 0%Z); ([1], 1%Z)] ([4], 1%Z)).
Qed.
Example C90_logistic_example : exists m m', lr_fit (GradientDescent (1/10)) [0; 0] 1 1 [[0]; [1]; [4]] [0; 1; 1]%Z {| lr_beta := None; lr_loaded := false; lr_trained := false |} = Ok m /\
  lr_fit (GradientDescent (1/10)) [0; 0] 1 1 [[4]; [0]; [1]] [1; 0; 1]%Z {| lr_beta := None; lr_loaded := false; lr_trained := false |} = Ok m' /\ m' = m.
Proof.
  rewrite <- (C90_logistic_regression (GradientDescent (1/10)) [0; 0] 1 1 _ _ _ _ {| lr_beta := None; lr_loaded := false; lr_trained := false |} C90_same_rows_example).
  eexists. eexists. split; [reflexivity|]. split; reflexivity.
Qed.

(** ** Clustering from given centroids *)
Theorem C90_kmeans : forall randint randint' d x x' n a tol epochs, Permutation x x' ->
  length (squeeze_shape (shape a)) = 2%nat ->
  same_clustering x x' (km_fit randint d x n (InitArray a) tol epochs) (km_fit randint' d x' n (InitArray a) tol epochs).
Proof. exact km_fit_perm. Qed.
Print Assumptions C90_kmeans.
Theorem C90_gaussian_mixture : forall rnd d randint randint' x x' n a ic im tol epochs, Permutation x x' ->
  length (squeeze_shape (shape a)) = 2%nat ->
  ends_related (fun m m' => fst m' = fst m /\ same_rows x (snd m) x' (snd m'))
    (gm_fit rnd d randint x n (InitArray a) ic im tol epochs) (gm_fit rnd d randint' x' n (InitArray a) ic im tol epochs).
Proof. exact gm_fit_perm. Qed.
Print Assumptions C90_gaussian_mixture.

(** ** Decision trees *)
(** Only the order of the branches may differ; every answer is the same. *)
Theorem C90_tree : forall top rnd c w D D', order_blind top -> Permutation D D' ->
  ends_related (fun t t' => same_branches True t t' /\ forall r, predict t' r = predict t r)
    (fit_tree top rnd c w D) (fit_tree top rnd c w D').
Proof.
  intros top rnd c w D D' O P. pose proof (fit_tree_perm top rnd c w D D' O P) as K.
  destruct (fit_tree top rnd c w D), (fit_tree top rnd c w D'); cbn in *; auto. split; auto. intros r. symmetry. now apply (same_predict True).
Qed.
Print Assumptions C90_tree.
(** Pruned trees, whatever the order of the validation rows too: every answer is the
    same, but the recorded heights need not be. *)
Theorem C90_pruned_tree : forall top rnd c how w D D' V V', order_blind top -> Permutation D D' ->
  match V, V' with Some a, Some b => Permutation a b | None, None => True | _, _ => False end ->
  ends_related (fun t t' => same_branches False t t' /\ forall r, predict t' r = predict t r)
    (fit_pruned top rnd c how w D V) (fit_pruned top rnd c how w D' V').
Proof.
  intros top rnd c how w D D' V V' O P PV. pose proof (fit_pruned_perm top rnd c how w D D' V V' O P PV) as K.
  destruct (fit_pruned top rnd c how w D V), (fit_pruned top rnd c how w D' V'); cbn in *; auto. destruct K as [A B]. split; auto.
Qed.
Print Assumptions C90_pruned_tree.

Definition boxes' : list (row * Z) :=
  [([Txt "b"; Txt "x"], 0%Z); ([Txt "a"; Txt "x"], 0%Z); ([Txt "a"; Txt "y"], 0%Z); ([Txt "b"; Txt "y"], 1%Z)]%string.
Lemma boxes_perm : Permutation boxes boxes'.
Proof. symmetry. exact (Permutation_middle (firstn 2 boxes) (skipn 3 boxes) (nth 2 boxes ([], 0%Z))). Qed.
Lemma boxes'_tree top rnd : exists v0 v1, fit_tree top rnd Gini 2 boxes' =
  Ok (Disc 0 v0 3 2 [(Txt "b", Disc 1 v1 2 1 [(Txt "x", Leaf 0); (Txt "y", Leaf 1)]); (Txt "a", Leaf 0)])%string.
Proof.
  unfold fit_tree. set (X := map fst boxes').
  assert (O : optimal_division Gini X boxes' (seq 0 2) =
    Some (0%nat, (get_value_discrete gini (map (fun p => (cell_at 0 (fst p), snd p)) boxes'), None))).
  { cbn [seq optimal_division fold_left attribute_value]. unfold attribute_value. cbn [X].
    replace (is_continuous X (map fst boxes') 0) with false by reflexivity.
    replace (is_continuous X (map fst boxes') 1) with false by reflexivity.
    cbv beta iota. cbn [better].
    assert (E : get_value_discrete (impurity Gini) (map (fun p => (cell_at 1 (fst p), snd p)) boxes') =
                get_value_discrete (impurity Gini) (map (fun p => (cell_at 0 (fst p), snd p)) boxes')) by (cbn; lra).
    rewrite E. replace (Rltb _ _) with false; [reflexivity|]. symmetry. apply Rltb_false. lra. }
  change (length boxes' + 2)%nat with 6%nat. do 2 eexists.
  rewrite generate_unfold. cbv zeta. rewrite O. lazy -[get_value_discrete]. reflexivity.
Qed.
(** The label with the most occurrences, the smallest among equals: a rule that does
    not look at the order. *)
Definition smallest_top (y : list Z) : Z :=
  fold_right (fun v b => if (count_occ Z.eq_dec y b <? count_occ Z.eq_dec y v)%nat then v else b) (hd 0%Z (np_unique ZOrder y)) (np_unique ZOrder y).
Lemma smallest_top_blind : order_blind smallest_top.
Proof.
  intros y y' P. unfold smallest_top.
  rewrite (np_unique_ext ZOrder y y') by (intros x; split; apply Permutation_in; [exact P|now symmetry]).
  generalize (hd 0%Z (np_unique ZOrder y')). generalize (np_unique ZOrder y').
  intros l z. induction l as [|v l IH]; cbn [fold_right]; auto. rewrite IH.
  now rewrite !(proj1 (Permutation_count_occ Z.eq_dec y y') P).
Qed.
Example C90_tree_example : forall rnd, order_blind smallest_top /\ Permutation boxes boxes' /\
  exists t t', fit_tree smallest_top rnd Gini 2 boxes = Ok t /\ fit_tree smallest_top rnd Gini 2 boxes' = Ok t' /\ t <> t' /\
  forall r, predict t' r = predict t r.
Proof.
  intros rnd. split; [exact smallest_top_blind|]. split; [exact boxes_perm|].
  pose proof (C90_tree smallest_top rnd Gini 2 _ _ smallest_top_blind boxes_perm) as K.
  destruct (boxes_tree smallest_top rnd) as (v0 & v1 & E). destruct (boxes'_tree smallest_top rnd) as (w0 & w1 & E').
  rewrite E, E' in *. do 2 eexists. split; [reflexivity|]. split; [reflexivity|]. split; [discriminate|]. apply K.
Qed.

(** The height reported after post-pruning does depend on the order of the rows:
    the height of the last branch is the one that counts. *)
Theorem C90_pruned_height_refuted : exists V, forall rnd,
  exists t t', fit_pruned smallest_top rnd Gini Post 2 boxes (Some V) = Ok t /\
    fit_pruned smallest_top rnd Gini Post 2 boxes' (Some V) = Ok t' /\ height t = 1%Z /\ height t' = 2%Z /\ depth t = depth t'.
Proof.
  exists [([Txt "b"; Txt "y"]%string, 1%Z)]. intros rnd.
  destruct (boxes_tree smallest_top rnd) as (v0 & v1 & E). destruct (boxes'_tree smallest_top rnd) as (w0 & w1 & E').
  unfold fit_pruned. rewrite E, E'. cbn [bind].
  exists (Disc 0 v0 3 1 [(Txt "a", Leaf 0); (Txt "b", Disc 1 v1 2 1 [(Txt "x", Leaf 0); (Txt "y", Leaf 1)])])%string.
  exists (Disc 0 w0 3 2 [(Txt "b", Disc 1 w1 2 1 [(Txt "x", Leaf 0); (Txt "y", Leaf 1)]); (Txt "a", Leaf 0)])%string.
  split; [reflexivity|]. split; [reflexivity|]. repeat split.
Qed.
Print Assumptions C90_pruned_height_refuted.

(** The first of the most frequent labels, in order of appearance. Taking it, as
    [value_counts().index[0]] may on ties, makes the order of the
    rows visible in the answers. *)
Definition first_top (y : list Z) : Z :=
  fold_right (fun v b => if (count_occ Z.eq_dec y b <=? count_occ Z.eq_dec y v)%nat then v else b) (hd 0%Z y) y.
Lemma first_top_common : picks_most_common first_top.
Proof.
  intros y Hy. unfold first_top.
  assert (K : forall l z, incl l y -> In z y -> let t := fold_right (fun v b => if (count_occ Z.eq_dec y b <=? count_occ Z.eq_dec y v)%nat then v else b) z l in
    In t y /\ (count_occ Z.eq_dec y z <= count_occ Z.eq_dec y t)%nat /\ forall v, In v l -> (count_occ Z.eq_dec y v <= count_occ Z.eq_dec y t)%nat).
  { induction l as [|a l IH]; intros z I Iz; cbn [fold_right]; cbv zeta; [split; auto; split; [lia|intros v []]|].
    destruct (IH z (fun v Hv => I v (or_intror Hv)) Iz) as (A & B & C). cbv zeta in *.
    destruct (_ <=? _)%nat eqn:E; [apply Nat.leb_le in E|apply Nat.leb_gt in E].
    - split; [apply I; now left|]. split; [lia|]. intros v [->|Hv]; [lia|]. specialize (C v Hv). lia.
    - split; auto. split; auto. intros v [->|Hv]; [lia|auto]. }
  destruct y as [|b y]; [congruence|]. destruct (K (b :: y) b (fun v Hv => Hv) (or_introl eq_refl)) as (A & _ & C).
  cbn [hd]. split; [exact A|]. intros l. destruct (in_dec Z.eq_dec l (b :: y)) as [i|i]; [now apply C|].
  rewrite (proj1 (count_occ_not_In Z.eq_dec (b :: y) l) i). lia.
Qed.
Definition tie : list (row * Z) := [([Txt "a"%string], 0%Z); ([Txt "a"%string], 1%Z)].
Definition tie' : list (row * Z) := [([Txt "a"%string], 1%Z); ([Txt "a"%string], 0%Z)].
Theorem C90_ties_refuted : exists top D D' r, picks_most_common top /\ Permutation D D' /\ forall rnd,
  exists t t', fit_tree top rnd Gini 1 D = Ok t /\ fit_tree top rnd Gini 1 D' = Ok t' /\ predict t r = Ok 0%Z /\ predict t' r = Ok 1%Z.
Proof.
  exists first_top, tie, tie', [Txt "a"%string].
  split; [exact first_top_common|]. split; [apply perm_swap|]. intros rnd.
  assert (O : exists v, optimal_division Gini (map fst tie) tie (seq 0 1) = Some (0%nat, (v, None))) by (eexists; reflexivity).
  assert (O' : exists v, optimal_division Gini (map fst tie') tie' (seq 0 1) = Some (0%nat, (v, None))) by (eexists; reflexivity).
  destruct O as (v & E). destruct O' as (v' & E').
  unfold fit_tree. rewrite !generate_unfold. cbv zeta. rewrite E, E'.
  exists (Disc 0 v 1 1 [(Txt "a"%string, Leaf 0)]), (Disc 0 v' 1 1 [(Txt "a"%string, Leaf 1)]).
  split; [lazy -[get_value_discrete]; reflexivity|]. split; [lazy -[get_value_discrete]; reflexivity|]. split; reflexivity.
Qed.
Print Assumptions C90_ties_refuted.

(** ** Bayes classifiers *)
(** Naive Bayes: columns that are continuous, or whose values appear, in both orders
    of the rows, in order of frequency. *)
Theorem C90_naive_bayes : forall A (O : TotalOrder A) num continuous rnd vc cols y cols' y' s, kind_of_values continuous ->
  same_table cols y cols' y' ->
  Forall (fun c => continuous c = true \/ appearance_order c (vc c)) cols ->
  Forall (fun c => continuous c = true \/ appearance_order c (vc c)) cols' ->
  ends_related (fun m m' => forall q, ends_related eq (nb_predict O num rnd m q) (nb_predict O num rnd m' q))
    (nb_fit O num continuous vc cols y s) (nb_fit O num continuous vc cols' y' s).
Proof.
  intros A O num continuous rnd vc cols y cols' y' s K T H H'. apply nb_perm; auto.
  - eapply Forall_impl; [|exact H]. intros c [E|E]; [now left|right; now apply appearance_unique].
  - eapply Forall_impl; [|exact H']. intros c [E|E]; [now left|right; now apply appearance_unique].
Qed.
Print Assumptions C90_naive_bayes.
(** SPODE and AODE count values by name: no condition on the columns is needed. *)
Theorem C90_spode : forall A (O : TotalOrder A) num continuous rnd cols y cols' y' s i, kind_of_values continuous ->
  same_table cols y cols' y' ->
  ends_related (fun t t' => forall q, ends_related eq (sp_predict O num rnd t q) (sp_predict O num rnd t' q))
    (sp_fit O num continuous [] cols y s i) (sp_fit O num continuous [] cols' y' s i).
Proof. intros A O num continuous rnd cols y cols' y' s i K T. apply sp_order; auto. Qed.
Print Assumptions C90_spode.
Theorem C90_aode : forall A (O : TotalOrder A) num continuous rnd cols y cols' y' s m, kind_of_values continuous ->
  same_table cols y cols' y' ->
  ends_related (fun t t' => forall q, ends_related eq (ao_predict O num rnd (snd t) q) (ao_predict O num rnd (snd t') q))
    (ao_fit O num continuous [] cols y s m) (ao_fit O num continuous [] cols' y' s m).
Proof. intros A O num continuous rnd cols y cols' y' s m K T. apply ao_order; auto. Qed.
Print Assumptions C90_aode.

Example C90_table_example : same_table [good_col] good_y [[0; 1; 1]%Z] [0; 1; 1]%Z.
Proof.
  exists [2; 0; 1]%nat. split; [apply (Permutation_cons_append [0; 1]%nat 2%nat)|]. split; [reflexivity|]. constructor; [|constructor]. split; reflexivity.
Qed.
Example C90_spode_example : exists t t', sp_fit ZOrder IZR (fun _ => false) [] [good_col] good_y true 0 = Ok t /\
  sp_fit ZOrder IZR (fun _ => false) [] [[0; 1; 1]%Z] [0; 1; 1]%Z true 0 = Ok t' /\ map sp_value t <> map sp_value t' /\
  forall q, ends_related eq (sp_predict ZOrder IZR (fun r => r) t q) (sp_predict ZOrder IZR (fun r => r) t' q).
Proof.
  do 2 eexists. split; [reflexivity|]. split; [reflexivity|]. split; [discriminate|].
  exact (C90_spode Z ZOrder IZR (fun _ => false) (fun r => r) _ _ _ _ true 0%nat (fun _ _ _ => eq_refl) C90_table_example).
Qed.
(** Without the condition the answers of naive Bayes change with the order of the
    rows: the counts are stored in the order of appearance, under names in the order of
    frequency. *)
Theorem C90_naive_bayes_refuted : exists vc cols y cols' y' m m',
  Forall (fun c => frequency_order c (vc c)) cols /\ Forall (fun c => frequency_order c (vc c)) cols' /\
  same_table cols y cols' y' /\
  nb_fit ZOrder IZR (fun _ => false) vc cols y true = Ok m /\ nb_fit ZOrder IZR (fun _ => false) vc cols' y' true = Ok m' /\
  nb_predict ZOrder IZR (fun r => r) m [0%Z] = Ok 0%Z /\ nb_predict ZOrder IZR (fun r => r) m' [0%Z] = Ok 1%Z.
Proof.
  destruct C36_wrong_labels_refuted as (m' & F' & E' & P0 & P1).
  destruct C69_example as (m & E & Q0 & Q1).
  exists swapped, [good_col], good_y, [[0; 1; 1]%Z], [0; 1; 1]%Z, m, m'.
  split; [constructor; [exact good_frequency|constructor]|]. split; [constructor; [exact F'|constructor]|].
  split; [exact C90_table_example|]. split; [exact E|]. split; [exact E'|]. split; auto.
Qed.
Print Assumptions C90_naive_bayes_refuted.
