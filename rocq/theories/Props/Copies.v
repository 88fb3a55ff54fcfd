(** C110: every training row given several times. *)
From Coq Require Import List ZArith Reals Lra Lia Bool Arith String.
From Verif.Model Require Import Base Ops Stump Logistic KMeans Lda Gmm Tree Bayes Preprocessing Metrics.
From Verif.Model Require Rbf Network.
From Verif.Spec Require Import Common Bayes Tree Stump RowOrder Copies.
From Verif.Proof Require Import BaseLemmas KMeansMain Bayes BayesMain Stump Pruner ColumnsStump Copies CopiesTree CopiesBayes.
From Verif.Props Require Import Bayes RowOrder.
Import ListNotations.
Local Open Scope R_scope.
Local Notation length := List.length.

(** ** Models that do not notice *)
(** K-means from given centroids: the same centroids and the same reason to stop; the
    copies of a row are in the cluster of the row. *)
Theorem C110_kmeans : forall k randint randint' d x n a tol epochs, (0 < k)%nat -> length (squeeze_shape (shape a)) = 2%nat ->
  km_fit randint' d (copies k x) n (InitArray a) tol epochs =
  match km_fit randint d x n (InitArray a) tol epochs with
  | Ok (c, cl, s) => Ok (c, option_map (copies k) cl, s)
  | Err e => Err e
  end.
Proof. intros. now apply km_fit_copies. Qed.
Print Assumptions C110_kmeans.
(** Gaussian mixtures from given means: the same parameters. *)
Theorem C110_gaussian_mixture : forall k rnd d randint randint' x n a ic im tol epochs, (0 < k)%nat -> length (squeeze_shape (shape a)) = 2%nat ->
  gm_fit rnd d randint' (copies k x) n (InitArray a) ic im tol epochs =
  match gm_fit rnd d randint x n (InitArray a) ic im tol epochs with
  | Ok (t, cl) => Ok (t, copies k cl)
  | Err e => Err e
  end.
Proof.
  intros k rnd d randint randint' x n a ic im tol epochs Hk H. rewrite (gm_fit_copies k Hk rnd d randint) by auto.
  destruct (gm_fit rnd d randint x n (InitArray a) ic im tol epochs) as [[t cl]|]; reflexivity.
Qed.
Print Assumptions C110_gaussian_mixture.
(** Logistic regression with Newton's method: the same model. *)
Theorem C110_newton : forall k init epochs d x y m, (0 < k)%nat -> length x = length y ->
  lr_fit NewtonMethod init epochs d (copies k x) (copies k y) m = lr_fit NewtonMethod init epochs d x y m.
Proof. intros. now apply lr_newton_copies. Qed.
Print Assumptions C110_newton.
(** Linear discriminant analysis: the same means and the same answers. *)
Theorem C110_linear_discriminant : forall k svd d x y, (0 < k)%nat -> svd_of_multiples svd ->
  match lda_fit svd d x y, lda_fit svd d (copies k x) (copies k y) with
  | Ok m, Ok m' => lda_mu0 m' = lda_mu0 m /\ lda_mu1 m' = lda_mu1 m /\ forall r, lda_predict m' r = lda_predict m r
  | Err e, Err e' => e' = e
  | _, _ => False
  end.
Proof.
  intros k svd d x y Hk Hs. rewrite (lda_fit_copies k Hk) by auto. destruct (lda_fit svd d x y) as [m|]; cbn [bind]; auto.
  split; [reflexivity|]. split; [reflexivity|]. intros r. now apply lda_predict_copies.
Qed.
Print Assumptions C110_linear_discriminant.
(** Decision trees: the very same tree, if the most common label is chosen in the same
    way ([StopFuel] is not an outcome of the program). *)
Theorem C110_tree : forall k top rnd c w D r, (0 < k)%nat -> (forall y, top (copies k y) = top y) -> r <> Err StopFuel ->
  fit_tree top rnd c w D = r -> fit_tree top rnd c w (copies k D) = r.
Proof. exact fit_tree_copies. Qed.
Print Assumptions C110_tree.
(** Naive Bayes without smoothing: every answer is the same. *)
Theorem C110_naive_bayes : forall A (O : TotalOrder A) num continuous vc rnd k cols y, (0 < k)%nat ->
  Forall (fun c => length c = length y /\ continuous (copies k c) = continuous c /\ vc (copies k c) = vc c) cols ->
  ends_related (fun m m' => forall q, ends_related eq (nb_predict O num rnd m q) (nb_predict O num rnd m' q))
    (nb_fit O num continuous vc cols y false) (nb_fit O num continuous vc (map (copies k) cols) (copies k y) false).
Proof. intros A O num continuous vc rnd k cols y Hk F. now apply nb_copies. Qed.
Print Assumptions C110_naive_bayes.
(** One-dependence estimators of discrete attributes without smoothing. *)
Theorem C110_spode : forall A (O : TotalOrder A) num continuous rnd k cols y i, (0 < k)%nat ->
  Forall (fun c => length c = length y /\ continuous c = false /\ continuous (copies k c) = false) cols ->
  ends_related (fun t t' => forall q, ends_related eq (sp_predict O num rnd t q) (sp_predict O num rnd t' q))
    (sp_fit O num continuous [] cols y false i) (sp_fit O num continuous [] (map (copies k) cols) (copies k y) false i).
Proof. intros A O num continuous rnd k cols y i Hk F. now apply (sp_copies O num continuous (fun l => l)). Qed.
Print Assumptions C110_spode.
(** Averaged estimators, if the least number of rows of a value is multiplied too. *)
Theorem C110_aode : forall A (O : TotalOrder A) num continuous rnd k cols y m, (0 < k)%nat ->
  Forall (fun c => length c = length y /\ continuous c = false /\ continuous (copies k c) = false) cols ->
  ends_related (fun t t' => forall q, ends_related eq (ao_predict O num rnd (snd t) q) (ao_predict O num rnd (snd t') q))
    (ao_fit O num continuous [] cols y false m) (ao_fit O num continuous [] (map (copies k) cols) (copies k y) false (k * m)).
Proof. intros A O num continuous rnd k cols y m Hk F. now apply (ao_copies O num continuous (fun l => l)). Qed.
Print Assumptions C110_aode.
(** Scalers: the same statistics. *)
Theorem C110_scalers : forall k data, (0 < k)%nat ->
  minmax_call (copies k data) = match minmax_call data with Ok (out, st) => Ok (copies k out, st) | Err e => Err e end /\
  standard_call (copies k data) = (copies k (fst (standard_call data)), snd (standard_call data)).
Proof.
  intros k data Hk. split; [|now apply standard_copies]. rewrite minmax_copies by auto. destruct (minmax_call data) as [[out st]|]; reflexivity.
Qed.
Print Assumptions C110_scalers.
(** The accuracy. *)
Theorem C110_accuracy : forall k p y, (0 < k)%nat -> length p = length y -> binary_accuracy (copies k p) (copies k y) = binary_accuracy p y.
Proof. intros. now apply accuracy_copies. Qed.
Print Assumptions C110_accuracy.

(** ** Models that notice in a known way *)
(** Gradient descent adds the gradients of the rows: it is trained as with [k] times the
    learning rate. *)
Theorem C110_gradient_descent : forall k rate init epochs d x y m, (0 < k)%nat -> length x = length y ->
  lr_fit (GradientDescent rate) init epochs d (copies k x) (copies k y) m =
  lr_fit (GradientDescent (INR k * rate)) init epochs d x y m.
Proof. intros. now apply lr_gd_copies. Qed.
Print Assumptions C110_gradient_descent.
Theorem C110_gradient_descent_refuted : exists x y m m' b b',
  lr_fit (GradientDescent 1) [0; 0] 1 1 x y {| lr_beta := None; lr_loaded := false; lr_trained := false |} = Ok m /\
  lr_fit (GradientDescent 1) [0; 0] 1 1 (copies 2 x) (copies 2 y) {| lr_beta := None; lr_loaded := false; lr_trained := false |} = Ok m' /\
  lr_beta m = Some b /\ lr_beta m' = Some b' /\ b <> b'.
Proof.
  exists [[1]], [1%Z]. do 4 eexists. split; [reflexivity|]. split; [rewrite C110_gradient_descent by (auto with arith); reflexivity|].
  split; [reflexivity|]. split; [reflexivity|]. unfold gd_step, gradient_at, backward, forward, forward_row, with_one.
  cbn. intros E. injection E as E _. unfold Activations.sigmoid in E. replace (1 * 0 + (1 * 0 + 0)) with 0 in E by ring.
  rewrite ?Ropp_0, ?exp_0 in E. lra.
Qed.
Print Assumptions C110_gradient_descent_refuted.
(** Radial basis function networks: the same parameters, but the losses that are shown
    are [k] times as large, although they are called means. *)
Theorem C110_rbf : forall k rate x y epochs p, (0 < k)%nat ->
  Rbf.rbf_run rate (copies k x) (Rbf.Column (copies k y)) epochs p =
  match Rbf.rbf_run rate x (Rbf.Column y) epochs p with
  | Ok (q, losses) => Ok (q, map (fun l => INR k * l) losses)
  | Err e => Err e
  end.
Proof.
  intros k rate x y epochs p Hk. rewrite rbf_run_copies by auto. destruct (Rbf.rbf_run rate x (Rbf.Column y) epochs p) as [[q l]|]; reflexivity.
Qed.
Print Assumptions C110_rbf.
(** Neural networks: every row number that is drawn stands for the row of which the
    drawn row is a copy. *)
Theorem C110_network : forall k rate o x y ls draws, length x = length y -> Forall (fun i => (i < k * length x)%nat) draws ->
  Network.sgd_run rate (copies k x) (copies k y) ls draws = Network.sgd_run rate x y ls (map (fun i => i mod length x)%nat draws) /\
  Network.adam_run o (copies k x) (copies k y) ls draws = Network.adam_run o x y ls (map (fun i => i mod length x)%nat draws).
Proof. intros k rate o x y ls draws L F. split; [now apply sgd_copies|now apply adam_copies]. Qed.
Print Assumptions C110_network.

(** ** Models that notice *)
(** The stump looks at the midpoints of neighbours. With every value given twice each
    value is a midpoint too, and so the smallest one: only then can all rows be on one
    side. *)
Definition alike : list (list R * Z) := [([0], (-1)%Z); ([2], (-1)%Z)].
Lemma alike_fit : stump_fit 1 alike = Some (0%nat, 1, Gte).
Proof.
  assert (P : plus_minus alike) by (intros p H; simpl in H; intuition (subst; simpl; auto)).
  assert (V : neighbour_midpoints (map (fun p => feat 0 (fst p)) alike) = [1]).
  { unfold neighbour_midpoints, alike, feat, sort_by; cbn [map fst nth fold_right insert_by].
    destruct (Rleb 0 2) eqn:E; [|apply Rleb_false in E; lra]. cbn [tl combine map fst snd]; f_equal; lra. }
  assert (C : candidates 1 alike = [(0%nat, 1, Gte); (0%nat, 1, Le)]).
  { unfold candidates. cbn [seq flat_map]. rewrite !V. reflexivity. }
  assert (W : forall m, evaluate alike 0 1 m = 1 / 2).
  { intros m. rewrite evaluate_eq; [|discriminate|exact P]. replace (count (wrong (0%nat, 1, m)) alike) with 1%nat; [cbn; lra|].
    unfold count, alike, wrong, stump_label, feat. cbn [filter fst snd nth].
    destruct m.
    - destruct (Rleb 1 0) eqn:E1; [apply Rleb_true in E1; lra|]. destruct (Rleb 1 2) eqn:E2; [|apply Rleb_false in E2; lra]. reflexivity.
    - destruct (Rltb 0 1) eqn:E1; [|apply Rltb_false in E1; lra]. destruct (Rltb 2 1) eqn:E2; [apply Rltb_true in E2; lra|]. reflexivity. }
  unfold stump_fit. rewrite C. cbn [fold_left]. rewrite !W. replace (Rltb (1 / 2) (1 / 2)) with false by (symmetry; apply Rltb_false; lra). reflexivity.
Qed.
Lemma alike_twice_fit : stump_fit 1 (copies 2 alike) = Some (0%nat, 0, Gte).
Proof.
  assert (P : plus_minus (copies 2 alike)) by (intros p H; simpl in H; intuition (subst; simpl; auto)).
  assert (V : neighbour_midpoints (map (fun p => feat 0 (fst p)) (copies 2 alike)) = [0; 1; 2]).
  { unfold neighbour_midpoints, copies, alike, feat, sort_by; cbn [repeat List.concat app map fst nth fold_right insert_by].
    destruct (Rleb 0 2) eqn:E; [|apply Rleb_false in E; lra]. cbn [insert_by].
    destruct (Rleb 2 0) eqn:E1; [apply Rleb_true in E1; lra|]. destruct (Rleb 2 2) eqn:E2; [|apply Rleb_false in E2; lra]. cbn [insert_by].
    destruct (Rleb 0 0) eqn:E3; [|apply Rleb_false in E3; lra]. cbn [tl combine map fst snd]. repeat (apply f_equal2; [lra|]). reflexivity. }
  assert (C : candidates 1 (copies 2 alike) = [(0%nat, 0, Gte); (0%nat, 1, Gte); (0%nat, 2, Gte); (0%nat, 0, Le); (0%nat, 1, Le); (0%nat, 2, Le)]).
  { unfold candidates. cbn [seq flat_map]. rewrite !V. reflexivity. }
  assert (Z : evaluate (copies 2 alike) 0 0 Gte = 0).
  { rewrite evaluate_eq; [|discriminate|exact P]. replace (count (wrong (0%nat, 0, Gte)) (copies 2 alike)) with 0%nat; [cbn; lra|].
    unfold count, copies, alike, wrong, stump_label, feat. cbn [repeat List.concat app filter fst snd nth].
    destruct (Rleb 0 0) eqn:E1; [|apply Rleb_false in E1; lra]. destruct (Rleb 0 2) eqn:E2; [|apply Rleb_false in E2; lra]. reflexivity. }
  assert (G : forall j t m, Rltb (evaluate (copies 2 alike) j t m) 0 = false).
  { intros j t m. apply Rltb_false. rewrite evaluate_eq; [|discriminate|exact P]. apply Rmult_le_pos; [apply pos_INR|]. cbn. lra. }
  unfold stump_fit. rewrite C. cbn [fold_left]. rewrite Z, !G. reflexivity.
Qed.
Theorem C110_stump_refuted : exists D q, In (q, (-1)%Z) D /\
  stump_predict (stump_fit 1 D) [q] = Ok [1%Z] /\ stump_predict (stump_fit 1 (copies 2 D)) [q] = Ok [(-1)%Z].
Proof.
  exists alike, [0]. split; [now left|]. rewrite alike_fit, alike_twice_fit. cbn [stump_predict map]. unfold stump_label, feat. cbn [nth].
  destruct (Rleb 1 0) eqn:E1; [apply Rleb_true in E1; lra|]. destruct (Rleb 0 0) eqn:E2; [|apply Rleb_false in E2; lra]. split; reflexivity.
Qed.
Print Assumptions C110_stump_refuted.
(** Naive Bayes with smoothing: the added counts weigh less among more rows. *)
(** The values in the order of their first appearance. *)
Definition appear (l : list Z) : list Z := unique ZOrder l.
Definition bayes_cols : list (list Z) := [[0; 0; 0; 0; 1; 1]; [0; 0; 0; 1; 1; 0]]%Z.
Definition bayes_y : list Z := [0; 0; 0; 0; 0; 1]%Z.
Theorem C110_smoothing_refuted : exists cols y q m m',
  Forall (fun c => length c = length y /\ frequency_order c (appear c) /\ frequency_order (copies 2 c) (appear (copies 2 c))) cols /\
  nb_fit ZOrder IZR (fun _ => false) appear cols y true = Ok m /\
  nb_fit ZOrder IZR (fun _ => false) appear (map (copies 2) cols) (copies 2 y) true = Ok m' /\
  nb_predict ZOrder IZR (fun r => r) m q = Ok 0%Z /\ nb_predict ZOrder IZR (fun r => r) m' q = Ok 1%Z.
Proof.
  exists bayes_cols, bayes_y, [1; 0]%Z. do 2 eexists. split; [|split; [reflexivity|split; [reflexivity|]]].
  - constructor; [|constructor; [|constructor]]; (split; [reflexivity|]; split; (split; [apply unique_NoDup|]; split; [intros v; apply unique_In|];
      constructor; [constructor; [constructor|constructor]|]; constructor; [|constructor]; apply (as_frequent_occ ZOrder); vm_compute; lia)).
  - split.
    + rewrite (C69_label_compares_products _ _ _ _ _ _ [(2 / 7, 2 / 3); (4 / 7, 2 / 3)]).
      * cbn. destruct (Rlt_dec _ _) as [|N]; auto. exfalso. lra.
      * reflexivity.
      * cbn. lra.
      * cbn. lra.
      * repeat constructor; cbn -[elog]; try lra; repeat first [lra | f_equal].
    + rewrite (C69_label_compares_products _ _ _ _ _ _ [(1 / 4, 3 / 4); (7 / 12, 3 / 4)]).
      * cbn. destruct (Rlt_dec _ _) as [N|]; auto. exfalso. lra.
      * reflexivity.
      * cbn. lra.
      * cbn. lra.
      * repeat constructor; cbn -[elog]; try lra; repeat first [lra | f_equal].
Qed.
Print Assumptions C110_smoothing_refuted.

(** ** Cases that meet the hypotheses *)
Lemma smallest_top_copies k y : (0 < k)%nat -> smallest_top (copies k y) = smallest_top y.
Proof.
  intros Hk. unfold smallest_top. rewrite (np_unique_ext ZOrder (copies k y) y) by (intros x; now apply copies_In).
  generalize (hd 0%Z (np_unique ZOrder y)). generalize (np_unique ZOrder y). intros l z.
  assert (C : forall v, count_occ Z.eq_dec (copies k y) v = (k * count_occ Z.eq_dec y v)%nat).
  { intros v. induction k as [|n IH]; [reflexivity|]. rewrite copies_S, count_occ_app. destruct n; [cbn; lia|]. rewrite IH by lia. reflexivity. }
  induction l as [|v l IH]; cbn [fold_right]; auto. rewrite IH, !C.
  set (b := fold_right _ z l). destruct (Nat.ltb_spec (count_occ Z.eq_dec y b) (count_occ Z.eq_dec y v)) as [L|L];
    destruct (Nat.ltb_spec (k * count_occ Z.eq_dec y b) (k * count_occ Z.eq_dec y v)) as [M|M]; auto; exfalso; nia.
Qed.
Example C110_tree_example : forall rnd, exists t, fit_tree smallest_top rnd Gini 2 boxes = Ok t /\
  fit_tree smallest_top rnd Gini 2 (copies 3 boxes) = Ok t /\ length (copies 3 boxes) = 12%nat /\ depth t = 2%nat.
Proof.
  intros rnd. destruct (boxes_tree smallest_top rnd) as (v0 & v1 & E). eexists. split; [exact E|]. split.
  - apply C110_tree; [lia|intros y; apply smallest_top_copies; lia|discriminate|exact E].
  - split; reflexivity.
Qed.
Example C110_bayes_example : exists m m', nb_fit ZOrder IZR (fun _ => false) appear bayes_cols bayes_y false = Ok m /\
  nb_fit ZOrder IZR (fun _ => false) appear (map (copies 2) bayes_cols) (copies 2 bayes_y) false = Ok m' /\ m <> m' /\
  forall q, ends_related eq (nb_predict ZOrder IZR (fun r => r) m q) (nb_predict ZOrder IZR (fun r => r) m' q).
Proof.
  pose proof (C110_naive_bayes Z ZOrder IZR (fun _ => false) appear (fun r => r) 2 bayes_cols bayes_y ltac:(lia)
    ltac:(repeat constructor)) as K.
  do 2 eexists. split; [reflexivity|]. split; [reflexivity|]. split; [|exact K]. intros E.
  injection E. intros. congruence.
Qed.
Example C110_svd_example : svd_of_multiples (fun s => ([[1]], [nth 0 (nth 0 s []) 0], [[1]])).
Proof.
  intros c s _. cbv beta iota. f_equal. f_equal. cbn [vscale map]. f_equal. exact (entry_scaled c s 0 0).
Qed.
Example C110_copies_example : copies 2 [[1]; [3]] = [[1]; [3]; [1]; [3]] /\ length (copies 3 [[1]; [3]]) = 6%nat.
Proof. split; reflexivity. Qed.
