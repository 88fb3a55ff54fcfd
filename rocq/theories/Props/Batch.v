(** Property theorems C104 and C105: [predict] and [score] on whole arrays
    (classicML/api/models/*/*.py, base_model.py). *)
From Coq Require Import List ZArith Reals Bool Arith Lia Lra String.
From Verif.Model Require Import Base Ops Metrics Network KMeans Kernels Smo Training Life Stump Batch.
From Verif.Model Require Tree Logistic Lda Rbf Gmm Ensemble Bayes.
From Verif.Spec Require Import Common Metrics Batch.
From Verif.Proof Require Import BaseLemmas Batch.
Import ListNotations.
Local Open Scope R_scope.
Local Notation length := List.length.

(** ** C104: the answers for an array *)
(** A batch has one answer for each row, and it is the one the row gets alone. *)
Theorem C104_each_row_alone : forall f w m o, rectangular w m -> predict_array f (Rows w m) = Ok o ->
  length (values o) = length m /\
  forall i, (i < length m)%nat -> exists o1, predict_array f (Rows w [nth i m []]) = Ok o1 /\ values o1 = [nth i (values o) []].
Proof. exact each_row_main. Qed.
Print Assumptions C104_each_row_alone.

(** A batch is accepted if each of its rows is. *)
Theorem C104_rows_together : forall f w m, rectangular w m -> m <> [] ->
  (forall r, In r m -> exists o, predict_array f (Rows w [r]) = Ok o) -> exists o, predict_array f (Rows w m) = Ok o.
Proof. exact rows_together_main. Qed.
Print Assumptions C104_rows_together.

(** Predicting two batches one after the other is the same as predicting both at
    once. *)
Theorem C104_batches : forall f w m1 m2, rectangular w m1 -> rectangular w m2 -> m1 <> [] -> m2 <> [] ->
  forall v, (exists o, predict_array f (Rows w (m1 ++ m2)) = Ok o /\ values o = v) <->
  (exists o1 o2, predict_array f (Rows w m1) = Ok o1 /\ predict_array f (Rows w m2) = Ok o2 /\ v = values o1 ++ values o2).
Proof. exact append_main. Qed.
Print Assumptions C104_batches.

(** The shape of the answer. *)
Theorem C104_shape : forall f w m o, rectangular w m -> predict_array f (Rows w m) = Ok o ->
  shape o = expected_shape f (length m) /\ Forall (fun v => length v = answer_width f) (values o).
Proof. exact shape_main. Qed.
Print Assumptions C104_shape.

(** Arrays whose rows have the length of the training rows get the answers that the
    other properties are about. *)
Theorem C104_support_vector_answers : forall k K d sv m, kernel_fun k = Ok K -> rectangular d (support_vector sv) ->
  length (support_vector sv) = length (support_alpha sv) -> rectangular d m ->
  predict_array (FSvc k d sv) (Rows d m) = Ok (Vector (map (fun r => IZR (svc_predict K sv r)) m)).
Proof. exact svc_link. Qed.
Print Assumptions C104_support_vector_answers.
Theorem C104_cluster_answers : forall d c m, Forall (fun o => match o with Some v => length v = d | None => True end) c -> rectangular d m ->
  predict_array (FKMeans d c) (Rows d m) = (l <- km_predict c m ;; Ok (Vector (map INR l))).
Proof. exact km_link. Qed.
Print Assumptions C104_cluster_answers.
Theorem C104_ensemble_answers :
  (forall b w m o, predict_array (FBagging (Ensemble.bag_stumps b)) (Rows w m) = Ok o ->
     exists l, Ensemble.bag_predict b m = Ok l /\ o = Vector (map IZR l)) /\
  (forall b w m o, rectangular w m -> predict_array (FAda (Ensemble.members tltree b)) (Rows w m) = Ok o ->
     exists l, mapM (Ensemble.ada_predict tltree tl_predict b) m = Ok l /\ o = Vector (map IZR l)).
Proof. split; [exact bag_link|exact ada_link]. Qed.
Print Assumptions C104_ensemble_answers.

(** An array with one dimension is one sample for these models. *)
Theorem C104_flat_is_one_row : forall f l, match f with FLda _ | FKMeans _ _ | FMixture _ _ _ | FBp _ => True | _ => False end ->
  predict_array f (Flat l) = predict_array f (Rows (length l) [l]).
Proof. intros f l H. destruct f; try contradiction; reflexivity. Qed.
Print Assumptions C104_flat_is_one_row.
(** For logistic regression it is a column of samples with one feature. *)
Theorem C104_flat_is_a_column : forall beta l,
  (length beta = 2%nat -> exists o, predict_array (FLogistic beta) (Flat l) = Ok o /\ length (values o) = length l /\
     predict_array (FLogistic beta) (Rows 1 (map (fun v => [v]) l)) = Ok o) /\
  (length beta <> 2%nat -> predict_array (FLogistic beta) (Flat l) = Err ValueError).
Proof.
  intros beta l. cbn [predict_array]. unfold lr_array. split; intros H.
  - rewrite H. cbn [Nat.eqb]. eexists. split; [reflexivity|]. split; [|reflexivity]. rewrite values_squeeze. unfold Logistic.forward. now rewrite !map_length.
  - apply Nat.eqb_neq in H. now rewrite H.
Qed.
Print Assumptions C104_flat_is_a_column.
(** For support vectors each number is a sample: with the rbf and Gaussian kernels it
    stands for a row of equal features, with the other kernels it is refused. *)
Theorem C104_flat_is_constant_rows : forall k d sv l,
  (subtracts k = true -> rectangular d (support_vector sv) ->
   predict_array (FSvc k d sv) (Flat l) = predict_array (FSvc k d sv) (Rows d (map (fun v => repeat v d) l))) /\
  (subtracts k = false -> l <> [] -> exists e, predict_array (FSvc k d sv) (Flat l) = Err e).
Proof. intros k d sv l. split; [apply svc_flat|apply svc_flat_err]. Qed.
Print Assumptions C104_flat_is_constant_rows.
(** The radial basis function network answers it once for each feature. *)
Theorem C104_flat_answered_for_each_feature : forall p l o, predict_array (FRbf p) (Flat l) = Ok o ->
  exists v, Rbf.rbf_predict p [l] = Ok [v] /\ shape o = [length l; 1%nat] /\ values o = repeat [v] (length l).
Proof.
  intros p l o H. destruct (rbf_flat p l o H) as (v & A & ->). exists v. split; auto. cbn [shape values]. now rewrite repeat_length.
Qed.
Print Assumptions C104_flat_answered_for_each_feature.
(** The ensembles refuse it. *)
Theorem C104_flat_refused_by_ensembles :
  (forall ss l, ss <> [] -> predict_array (FBagging ss) (Flat l) = Err IndexError) /\
  (forall j p u t a hs l, l <> [] -> predict_array (FAda ((TNode j p u t, a) :: hs)) (Flat l) = Err IndexError).
Proof. split; [exact bag_flat|exact ada_flat]. Qed.
Print Assumptions C104_flat_refused_by_ensembles.

(** So it is false that one sample gets one answer. *)
Definition small_rbf : Rbf.rbf_params := {| Rbf.rw := [1]; Rbf.rb := 0; Rbf.rc := [[0; 0]]; Rbf.rbeta := [1] |}.
Theorem C104_one_sample_one_answer_refuted :
  ~ (forall f l o o1, predict_array f (Flat l) = Ok o -> predict_array f (Rows (length l) [l]) = Ok o1 -> values o = values o1).
Proof.
  intros H. specialize (H (FRbf small_rbf) [1; 2] _ _ eq_refl eq_refl). discriminate.
Qed.
Print Assumptions C104_one_sample_one_answer_refuted.

(** Lists in place of arrays. *)
Theorem C104_lists : forall f a,
  (forall o, predict_list f a = Ok o -> predict_array f a = Ok o) /\
  ((exists ls, f = FBp ls) -> predict_list f a = Err TypeError) /\
  ((exists ss, f = FBagging ss) \/ (exists hs, f = FAda hs) -> predict_list f a = Err AttributeError) /\
  (predict_list f a <> predict_array f a ->
   (exists ls, f = FBp ls) \/ (exists ss, f = FBagging ss) \/ exists hs, f = FAda hs).
Proof.
  intros f a. split; [|split; [|split]].
  - destruct f; cbn [predict_list]; congruence.
  - now intros [ls ->].
  - now intros [[ss ->]|[hs ->]].
  - destruct f; cbn [predict_list]; intros; try congruence; eauto.
Qed.
Print Assumptions C104_lists.
(** Rows with one entry are taken for rows of equal features by k-means and by
    support vectors with the rbf kernel, and so are centroids with one entry. *)
Theorem C104_single_column_stretched :
  (forall k d sv l, subtracts k = true -> rectangular d (support_vector sv) ->
     predict_array (FSvc k d sv) (Rows 1 (map (fun v => [v]) l)) = predict_array (FSvc k d sv) (Rows d (map (fun v => repeat v d) l))) /\
  (forall d c l, Forall (fun o => match o with Some v => length v = d | None => True end) c ->
     predict_array (FKMeans d c) (Rows 1 (map (fun v => [v]) l)) = predict_array (FKMeans d c) (Rows d (map (fun v => repeat v d) l))) /\
  (forall w c m, rectangular w m ->
     predict_array (FKMeans 1 (map (option_map (fun v => [v])) c)) (Rows w m) =
     predict_array (FKMeans w (map (option_map (fun v => repeat v w)) c)) (Rows w m)).
Proof. split; [|split]; [exact svc_column|exact km_column|exact km_narrow]. Qed.
Print Assumptions C104_single_column_stretched.
Example C104_witness_column :
  predict_array (FKMeans 2 [Some [0; 0]; Some [4; 4]]) (Rows 1 [[1]]) = predict_array (FKMeans 2 [Some [0; 0]; Some [4; 4]]) (Rows 2 [[1; 1]]) /\
  predict_array (FKMeans 2 [Some [0; 0]; Some [4; 4]]) (Rows 2 [[1; 1]]) = Ok (Vector [0]).
Proof.
  split; [apply (proj1 (proj2 C104_single_column_stretched) 2%nat [Some [0; 0]; Some [4; 4]] [1]); repeat constructor|].
  cbn -[sqrt]. unfold Rltb. destruct (Rlt_dec _ _) as [L|]; [|reflexivity]. exfalso.
  apply (Rlt_not_le _ _ L). apply sqrt_le_1_alt. lra.
Qed.

(** *** Tables *)
Theorem C104_tree_each_row_alone : forall text_of t w m o, tree_array text_of t (Arrayed (Rows w m)) = Ok o ->
  length (values o) = length m /\
  forall i, (i < length m)%nat ->
    exists z, Tree.predict t (nth i m []) = Ok z /\ nth i (values o) [] = [IZR z] /\
              tree_array text_of t (Arrayed (Flat (nth i m []))) = Ok (Vector [IZR z]).
Proof.
  intros text_of t w m o H. cbn [tree_array as_rows snd] in H. apply bind_Ok in H as (z & Z & H). injection H as <-.
  apply mapM_nth in Z. destruct Z as [L N]. cbn [values]. rewrite !map_length. split; auto. intros i Hi. specialize (N i [] 0%Z Hi).
  exists (nth i z 0%Z). split; auto. split.
  - rewrite map_map. rewrite (nth_indep _ [] ((fun x => [IZR x]) 0%Z)) by (rewrite map_length, L; exact Hi). now rewrite (map_nth (fun x => [IZR x])).
  - cbn [tree_array as_rows snd mapM]. unfold Tree.row in *. rewrite N. reflexivity.
Qed.
Print Assumptions C104_tree_each_row_alone.
(** A list of numbers is the sample of the array; in a list with a text all elements
    are texts, and a continuous split of the root refuses them although it accepts
    the array of the same elements. *)
Theorem C104_tree_lists : forall text_of t l,
  (forallb Tree.is_num l = true -> tree_array text_of t (Listed (Flat l)) = tree_array text_of t (Arrayed (Flat l))) /\
  (forallb Tree.is_num l = false -> forall j a p b c g h, t = Tree.Cont j a p b c g h ->
     (j < length l)%nat -> tree_array text_of t (Listed (Flat l)) = Err TypeError).
Proof.
  intros text_of t l. cbn [tree_array as_rows snd mapM]. split.
  - intros H. unfold unified. rewrite H, map_id. destruct (Tree.predict t l); reflexivity.
  - intros H j a p b c g h -> Hj. cbn [Tree.predict]. unfold get_at. rewrite nth_error_map.
    destruct (nth_error l j) as [x|] eqn:N; [|apply nth_error_None in N; lia]. cbn. unfold unified. rewrite H. destruct x; reflexivity.
Qed.
Print Assumptions C104_tree_lists.
(** A list of samples gets a single label, if any: its rows are taken for features. *)
Theorem C104_tree_list_of_rows : forall text_of t w m,
  (forall o, tree_array text_of t (Listed (Rows w m)) = Ok o -> length (values o) = 1%nat) /\
  (forall j a p b c g h, t = Tree.Cont j a p b c g h -> (2 <= w)%nat -> rectangular w m -> forallb (forallb Tree.is_num) m = true ->
     (j < length m)%nat -> tree_array text_of t (Listed (Rows w m)) = Err ValueError) /\
  (forall j a b c ks, t = Tree.Disc j a b c ks -> exists e, tree_array text_of t (Listed (Rows w m)) = Err e).
Proof.
  intros text_of t w m. cbn [tree_array]. split; [|split].
  - intros o H. apply bind_Ok in H as (z & _ & H). injection H as <-. reflexivity.
  - intros j a p b c g h -> W R NM J.
    assert (E : map (map (unified text_of (List.concat m))) m = m).
    { assert (C : forallb Tree.is_num (List.concat m) = true).
      { clear -NM. induction m as [|r m IH]; simpl in *; auto. apply andb_true_iff in NM. destruct NM as [A B]. rewrite forallb_app, A. simpl. auto. }
      unfold unified. rewrite C. rewrite (map_ext _ (fun r => r)) by (intros r; apply map_id). apply map_id. }
    rewrite E. cbn [tree_stack]. unfold get_at. destruct (nth_error m j) as [r|] eqn:N; [|apply nth_error_None in N; lia].
    apply nth_error_In in N. cbn [bind]. rewrite forallb_forall in NM. rewrite (NM r N). cbn [negb].
    unfold rectangular in R. rewrite Forall_forall in R. specialize (R r N). destruct r as [|x [|y r]]; simpl in R; try lia. reflexivity.
  - intros j a b c ks ->. cbn [tree_stack]. destruct (get_at _ j); simpl; eauto.
Qed.
Print Assumptions C104_tree_list_of_rows.

Section Bayes.
Context {A : Type} (O : TotalOrder A).
Variable num : A -> R.
Variable rnd : R -> R.
Variable unify : list A -> list A.

Theorem C104_bayes_each_row_alone : forall w m o,
  (forall p, nb_array O num rnd unify p (Arrayed (Rows w m)) = Ok o ->
     length (values o) = length m /\ w = length (Bayes.nb_pi p) /\
     forall i, (i < length m)%nat -> exists z, Bayes.nb_predict O num rnd p (nth i m []) = Ok z /\ nth i (values o) [] = [IZR z]) /\
  (forall v s, sp_array O num rnd v s (Arrayed (Rows w m)) = Ok o ->
     length (values o) = length m /\ w = v /\
     forall i, (i < length m)%nat -> exists z, Bayes.sp_predict O num rnd s (nth i m []) = Ok z /\ nth i (values o) [] = [IZR z]) /\
  (forall v s, ao_array O num rnd v s (Arrayed (Rows w m)) = Ok o ->
     length (values o) = length m /\ w = v /\
     forall i, (i < length m)%nat -> exists z, Bayes.ao_predict O num rnd s (nth i m []) = Ok z /\ nth i (values o) [] = [IZR z]).
Proof.
  assert (G : forall w v (g : list A -> result Z) m o, (if (w =? v)%nat then z <- mapM g m ;; Ok (Vector (map IZR z)) else Err ValueError) = Ok o ->
    length (values o) = length m /\ w = v /\ forall i, (i < length m)%nat -> exists z, g (nth i m []) = Ok z /\ nth i (values o) [] = [IZR z]).
  { intros w v g m o H. destruct (Nat.eqb_spec w v) as [E|]; [|discriminate]. apply bind_Ok in H as (z & Z & H). injection H as <-.
    apply mapM_nth in Z. destruct Z as [L N]. cbn [values]. rewrite !map_length. split; auto. split; auto. intros i Hi. specialize (N i [] 0%Z Hi).
    exists (nth i z 0%Z). split; auto. rewrite map_map, (nth_indep _ [] ((fun x => [IZR x]) 0%Z)) by (rewrite map_length; lia). now rewrite (map_nth (fun x => [IZR x])). }
  intros w m o. split; [|split]; intros; eapply G; eassumption.
Qed.

(** A single sample, given as a list or as an array with one dimension: naive Bayes
    accepts both, the semi-naive classifiers neither unless there is only one
    attribute. A list of lists is accepted by the semi-naive ones only. *)
Theorem C104_bayes_single_samples : forall w m l,
  (forall p, nb_array O num rnd unify p (Arrayed (Flat l)) = nb_array O num rnd unify p (Arrayed (Rows (length l) [l]))) /\
  (forall p, length (unify l) = length l -> nb_array O num rnd unify p (Listed (Flat l)) = nb_array O num rnd unify p (Arrayed (Flat (unify l)))) /\
  (forall p, nb_array O num rnd unify p (Listed (Rows w m)) = Err ValueError) /\
  (forall v s x, x = Listed (Flat l) \/ x = Arrayed (Flat l) -> v <> 1%nat -> sp_array O num rnd v s x = Err ValueError) /\
  (forall v s x, x = Listed (Flat l) \/ x = Arrayed (Flat l) -> v <> 1%nat -> ao_array O num rnd v s x = Err ValueError) /\
  (forall v s, sp_array O num rnd v s (Listed (Rows w m)) = sp_array O num rnd v s (Arrayed (Rows w m))) /\
  (forall v s, ao_array O num rnd v s (Listed (Rows w m)) = ao_array O num rnd v s (Arrayed (Rows w m))).
Proof.
  intros w m l. split; [reflexivity|]. split; [intros p H; unfold nb_array; cbn [as_rows fst snd]; now rewrite H|]. split; [reflexivity|].
  split; [|split; [|split; reflexivity]]; intros v s x [->| ->] H; unfold sp_array, ao_array; cbn [framed]; destruct (Nat.eqb_spec 1 v); try reflexivity; congruence.
Qed.
End Bayes.
Print Assumptions C104_bayes_each_row_alone.
Print Assumptions C104_bayes_single_samples.

(** ** C105: scores *)
(** The score of a model with one number for each row: the share of the rows on the
    right side of one half. *)
Theorem C105_score : forall f w m y o n, clustering f = false -> rectangular w m -> predict_array f (Rows w m) = Ok o -> answer_width f = 1%nat ->
  m <> [] -> (squeezed f = true -> length m <> 1%nat) -> length y = length m -> (forall l, In l y -> (l = 0 \/ l = 1 \/ l = -1)%Z) ->
  how_many (fun q => right_side (nth 0 (fst q) 0) (snd q)) (combine (values o) y) n ->
  score_array f (Rows w m) (Labels y) = Ok (INR n / INR (length m)).
Proof. exact score_main. Qed.
Print Assumptions C105_score.
(** With several outputs: the share of the rows whose largest output is at the place
    of the one. *)
Theorem C105_score_of_classes : forall ls w m t o n, rectangular w m -> predict_array (FBp ls) (Rows w m) = Ok o -> answer_width (FBp ls) <> 1%nat ->
  m <> [] -> length t = length m -> (forall r, In r t -> r <> []) ->
  how_many (fun q => same_first_max (fst q) (snd q)) (combine (values o) t) n ->
  score_array (FBp ls) (Rows w m) (OneHot t) = Ok (INR n / INR (length m)).
Proof. exact score_rows_main. Qed.
Print Assumptions C105_score_of_classes.
(** A single row cannot be scored by logistic regression and by discriminant
    analysis, though it can be predicted. *)
Theorem C105_single_row_refused : forall f w r y o, squeezed f = true -> length r = w ->
  predict_array f (Rows w [r]) = Ok o -> score_array f (Rows w [r]) y = Err IndexError.
Proof. exact score_one_row. Qed.
Print Assumptions C105_single_row_refused.
(** No rows: a division by zero. *)
Theorem C105_no_rows : forall f w y o, clustering f = false -> predict_array f (Rows w []) = Ok o -> answer_width f = 1%nat ->
  score_array f (Rows w []) (Labels y) = Err ZeroDivisionError.
Proof. exact score_empty. Qed.
Print Assumptions C105_no_rows.
(** The score of two batches together is the average of their scores, weighted with
    their sizes. *)
Theorem C105_batches : forall f w m1 m2 y1 y2 a a1 a2, clustering f = false -> rectangular w m1 -> rectangular w m2 -> answer_width f = 1%nat ->
  length y1 = length m1 -> length y2 = length m2 ->
  score_array f (Rows w m1) (Labels y1) = Ok a1 -> score_array f (Rows w m2) (Labels y2) = Ok a2 ->
  score_array f (Rows w (m1 ++ m2)) (Labels (y1 ++ y2)) = Ok a ->
  a * INR (length (m1 ++ m2)) = a1 * INR (length m1) + a2 * INR (length m2).
Proof. exact score_append. Qed.
Print Assumptions C105_batches.
(** Clusterings have no score. *)
Theorem C105_clusterings : forall f a y, clustering f = true -> score_array f a y = Err NotImplementedError.
Proof. intros f a y H. destruct f; try discriminate; reflexivity. Qed.
Print Assumptions C105_clusterings.

(** ** Witnesses *)
Definition small_lda : Lda.lda := {| Lda.lda_w := [1; 0]; Lda.lda_mu0 := [0; 0]; Lda.lda_mu1 := [2; 0] |}.
Example C104_witness_lda : exists o, predict_array (FLda small_lda) (Rows 2 [[0; 5]; [2; 7]; [3; 1]]) = Ok o /\ shape o = [3%nat].
Proof. eexists. split; reflexivity. Qed.
Definition two_stumps : list stump := [Some (0%nat, 1, Gte); Some (1%nat, 0, Le)].
Example C104_witness_bagging : exists o, predict_array (FBagging two_stumps) (Rows 2 [[0; 5]; [2; 7]]) = Ok o /\ shape o = [2%nat].
Proof. eexists. split; reflexivity. Qed.
Example C104_witness_rbf : exists o, predict_array (FRbf small_rbf) (Rows 2 [[0; 5]; [2; 7]]) = Ok o /\ shape o = [2%nat; 1%nat].
Proof. eexists. split; reflexivity. Qed.
Definition small_net : list layer := [([[1; 0]; [0; 1]; [1; 1]], [0; 0; 0]); ([[1; 0; 1]; [0; 1; 0]], [0; 0])].
Example C104_witness_net : exists o, predict_array (FBp small_net) (Rows 2 [[0; 5]; [2; 7]]) = Ok o /\ shape o = [2%nat; 2%nat].
Proof. eexists. split; reflexivity. Qed.
Definition small_svc : svc := {| support := [0%nat; 1%nat]; support_vector := [[0; 0]; [2; 2]]; support_alpha := [1; 1]; support_y := [-1; 1]; svc_b := 0 |}.
Example C104_witness_svc : exists o, predict_array (FSvc KLinear 2 small_svc) (Rows 2 [[0; 5]; [2; 7]]) = Ok o /\ shape o = [2%nat].
Proof. eexists. split; reflexivity. Qed.
Example C104_witness_flat_svc : subtracts (KRbf (Some 1)) = true /\ rectangular 2 (support_vector small_svc).
Proof. split; [reflexivity|repeat constructor]. Qed.
Example C104_witness_ada : exists o, predict_array (FAda [(TNode 0 1 (TLeaf 1) (TLeaf (-1)), 2)]) (Rows 2 [[0; 5]; [2; 7]]) = Ok o.
Proof.
  apply C104_rows_together; [repeat constructor|discriminate|]. intros r H.
  assert (E : exists x y, r = [x; y]) by (destruct H as [<-|[<-|[]]]; eauto). destruct E as (x & y & ->).
  unfold predict_array, ada_array. cbn [samples map mapM tl_sample get_at nth_error bind fst snd].
  replace (Reqb (rsum [2]) 0) with false by (symmetry; unfold rsum, Reqb; simpl; destruct (Req_EM_T (2 + 0) 0); [lra|reflexivity]).
  destruct (Rleb 1 x); cbn; eauto.
Qed.
Example C104_witness_tree : forall text_of, exists o,
  tree_array text_of (Tree.Disc 0 0 2 1 [(Tree.Txt "red", Tree.Leaf 1); (Tree.Txt "blue", Tree.Leaf 0)])
    (Arrayed (Rows 2 [[Tree.Txt "red"; Tree.Num 1]; [Tree.Txt "blue"; Tree.Num 2]])) = Ok o /\ length (values o) = 2%nat.
Proof. intros. eexists. split; reflexivity. Qed.
Example C105_witness : score_array (FLda small_lda) (Rows 2 [[0; 5]; [3; 1]; [0; 0]]) (Labels [0; 1; 1]%Z) = Ok (2 / 3).
Proof.
  assert (A : forall y, Lda.lda_predict small_lda [0; y] = 0%Z).
  { intros y. unfold Lda.lda_predict, dot. simpl. unfold Rltb. destruct (Rlt_dec _ _) as [H|H]; [|reflexivity]. exfalso.
    rewrite Rabs_left, Rabs_pos_eq in H by lra. lra. }
  assert (B : Lda.lda_predict small_lda [3; 1] = 1%Z).
  { unfold Lda.lda_predict, dot. simpl. unfold Rltb. destruct (Rlt_dec _ _) as [H|H]; [reflexivity|]. exfalso.
    rewrite !Rabs_pos_eq in H by lra. lra. }
  assert (P : predict_array (FLda small_lda) (Rows 2 [[0; 5]; [3; 1]; [0; 0]]) = Ok (Vector [0; 1; 0])).
  { unfold predict_array, lda_array. cbn [as_rows map]. rewrite !A, B. reflexivity. }
  replace (2 / 3) with (INR 2 / INR (length [[0; 5]; [3; 1]; [0; 0]])) by (simpl; lra).
  apply C105_score with (o := Vector [0; 1; 0]); auto; try discriminate; [repeat constructor|simpl; intuition lia|].
  cbn. apply hm_yes; [unfold right_side; simpl; split; [lia|lra]|]. apply hm_yes; [unfold right_side; simpl; split; [lra|lia]|].
  apply hm_no; [|constructor]. unfold right_side. simpl. intros [H _]. specialize (H eq_refl). lra.
Qed.
