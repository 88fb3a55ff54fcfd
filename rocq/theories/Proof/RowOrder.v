(** Proofs about the order of the training rows: the numerical models (C90). *)
From Coq Require Import List ZArith Reals Lra Lia Bool Arith Permutation Sorting.Sorted.
From Verif.Model Require Import Base Ops Matrix Metrics Stump Ensemble Logistic KMeans Lda Gmm.
From Verif.Spec Require Import Common RowOrder.
From Verif.Proof Require Import BaseLemmas Counting Stump TwoLevel.
Import ListNotations.
Local Open Scope R_scope.

(** ** Lists *)
Lemma combine_map_both {A B C D} (f : A -> C) (g : B -> D) l : forall m,
  combine (map f l) (map g m) = map (fun p => (f (fst p), g (snd p))) (combine l m).
Proof. induction l as [|a l IH]; intros [|b m]; cbn; auto. now rewrite IH. Qed.
Lemma combine_self {A} (l : list A) : combine l l = map (fun a => (a, a)) l.
Proof. induction l; cbn; congruence. Qed.
Lemma map_fst_combine {A B} (l : list A) : forall m : list B, length l = length m -> map fst (combine l m) = l.
Proof. induction l as [|a l IH]; intros [|b m] H; cbn in *; try lia; auto. f_equal. apply IH. lia. Qed.
Lemma map_snd_combine {A B} (l : list A) : forall m : list B, length l = length m -> map snd (combine l m) = m.
Proof. induction l as [|a l IH]; intros [|b m] H; cbn in *; try lia; auto. f_equal. apply IH. lia. Qed.
Lemma combine_split_pairs {A B} (l : list (A * B)) : combine (map fst l) (map snd l) = l.
Proof. induction l as [|[a b] l IH]; cbn; congruence. Qed.
Lemma same_rows_fst {A B} (x : list A) (y : list B) x' y' : same_rows x y x' y' -> Permutation x x'.
Proof. intros (A1 & A2 & P). apply (Permutation_map fst) in P. now rewrite !map_fst_combine in P by auto. Qed.
Lemma same_rows_snd {A B} (x : list A) (y : list B) x' y' : same_rows x y x' y' -> Permutation y y'.
Proof. intros (A1 & A2 & P). apply (Permutation_map snd) in P. now rewrite !map_snd_combine in P by auto. Qed.
Lemma same_rows_map {A B} (f : A -> B) x x' : Permutation x x' -> same_rows x (map f x) x' (map f x').
Proof.
  intros P. repeat split; try (now rewrite map_length).
  assert (E : forall l, combine l (map f l) = map (fun a => (a, f a)) l) by (induction l; cbn; congruence).
  rewrite !E. now apply Permutation_map.
Qed.
Lemma nodup_perm {A} (dec : forall x y : A, {x = y} + {x <> y}) l m : Permutation l m -> Permutation (nodup dec l) (nodup dec m).
Proof.
  intros P. apply NoDup_Permutation; try apply NoDup_nodup. intros x. rewrite !nodup_In.
  split; apply Permutation_in; auto. now symmetry.
Qed.
Lemma rmean_perm a b : Permutation a b -> rmean a = rmean b.
Proof. intros H. unfold rmean. now rewrite (rsum_perm _ _ H), (Permutation_length H). Qed.
Lemma rsum_map_perm {A} (f : A -> R) a b : Permutation a b -> rsum (map f a) = rsum (map f b).
Proof. intros. now apply rsum_perm, Permutation_map. Qed.

Lemma mapM_perm {A B} (f : A -> result B) x x' l : Permutation x x' -> mapM f x = Ok l ->
  exists l', mapM f x' = Ok l' /\ same_rows x l x' l'.
Proof.
  intros P. revert l. unfold same_rows. induction P as [|a x x' P IH|a b x|x x' x'' P1 IH1 P2 IH2]; intros l E.
  - cbn in E. injection E as <-. exists []. now cbn.
  - cbn in E. destruct (f a) as [v|] eqn:Ea; cbn in E; [|discriminate].
    destruct (mapM f x) as [bs|] eqn:Ex; cbn in E; [|discriminate]. injection E as <-.
    destruct (IH bs eq_refl) as (l' & E' & L1 & L2 & Q). exists (v :: l'). cbn. rewrite Ea, E'. cbn.
    repeat split; auto.
  - cbn in E. destruct (f b) as [v|] eqn:Eb; cbn in E; [|discriminate].
    destruct (f a) as [u|] eqn:Ea; cbn in E; [|discriminate].
    destruct (mapM f x) as [bs|] eqn:Ex; cbn in E; [|discriminate]. injection E as <-.
    exists (u :: v :: bs). cbn. rewrite Ea, Eb, Ex. cbn.
    assert (L : length x = length bs).
    { clear -Ex. revert bs Ex. induction x as [|c x IH]; intros bs E; cbn in E; [injection E as <-; auto|].
      destruct (f c); cbn in E; [|discriminate]. destruct (mapM f x) as [t|]; cbn in E; [|discriminate]. injection E as <-.
      cbn. f_equal. now apply IH. }
    repeat split; auto. apply perm_swap.
  - destruct (IH1 l E) as (l1 & E1 & L1 & L2 & Q1). destruct (IH2 l1 E1) as (l2 & E2 & L3 & L4 & Q2).
    exists l2. repeat split; auto. now transitivity (combine x' l1).
Qed.
Lemma mapM_perm_related {A B} (f : A -> result B) x x' : Permutation x x' ->
  ends_related (fun l l' => same_rows x l x' l') (mapM f x) (mapM f x').
Proof.
  intros P. destruct (mapM f x) as [l|e] eqn:E.
  - destruct (mapM_perm f x x' l P E) as (l' & E' & S). now rewrite E'.
  - destruct (mapM f x') as [l'|] eqn:E'; [|exact I].
    destruct (mapM_perm f x' x l' (Permutation_sym P) E') as (l & E2 & _). congruence.
Qed.

(** ** Logistic regression *)
Lemma backward_perm d x y x' y' beta : same_rows x y x' y' -> gradient_at d x y beta = gradient_at d x' y' beta.
Proof.
  intros (L & L' & P). unfold gradient_at, backward. apply map_ext. intros j.
  assert (E : forall (x : list (list R)) (y : list Z),
    combine (combine (forward x beta) (map IZR y)) (map with_one x) =
    map (fun p => (forward_row beta (fst p), IZR (snd p), with_one (fst p))) (combine x y)).
  { clear. unfold forward. induction x as [|r x IH]; intros [|l y]; cbn; auto. now rewrite IH. }
  rewrite !E, !map_map. now apply rsum_map_perm.
Qed.
Lemma hessian_perm d x x' beta : Permutation x x' -> hessian_at d x beta = hessian_at d x' beta.
Proof.
  intros P. unfold hessian_at, hessian. apply map_ext. intros j. apply map_ext. intros k.
  unfold forward. rewrite !combine_map_both, !map_map, !combine_self, !map_map. now apply rsum_map_perm.
Qed.
Lemma opt_run_perm o n d x y x' y' : same_rows x y x' y' -> forall beta, opt_run o n d x y beta = opt_run o n d x' y' beta.
Proof.
  intros H. induction n as [|n IH]; intros beta; cbn; auto.
  assert (E : opt_step o d x y beta = opt_step o d x' y' beta).
  { destruct o; cbn; unfold gd_step, newton_step; rewrite (backward_perm _ _ _ _ _ _ H); auto.
    now rewrite (hessian_perm _ _ _ _ (same_rows_fst _ _ _ _ H)). }
  rewrite E. destruct (opt_step o d x' y' beta); cbn; auto.
Qed.
Lemma lr_fit_perm o init n d x y x' y' m : same_rows x y x' y' -> lr_fit o init n d x y m = lr_fit o init n d x' y' m.
Proof.
  intros H. unfold lr_fit. destruct (if lr_loaded m then _ else _) as [b|]; cbn; auto. now rewrite (opt_run_perm _ _ _ _ _ _ _ H).
Qed.

(** ** Stumps and two-level trees *)
Lemma sort_sorted_id (l : list R) : StronglySorted Rle (sort_by (fun x => x) l).
Proof.
  induction l as [|a l IH]; [constructor|].
  change (StronglySorted Rle (insert_by (fun x => x) a (sort_by (fun x => x) l))).
  revert IH. generalize (sort_by (fun x : R => x) l). clear.
  induction l as [|b l IH]; intros H; cbn; [repeat constructor|]. unfold Rleb. destruct (Rle_dec a b).
  - constructor; auto. inversion H; subst. constructor; auto. eapply Forall_impl; [|eassumption]. cbn. intros; lra.
  - inversion H; subst. constructor; auto. apply Forall_forall. intros c Hc.
    apply (Permutation_in _ (insert_perm (fun x => x) a l)) in Hc. destruct Hc as [<-|Hc]; [lra|].
    rewrite Forall_forall in H3. auto.
Qed.
Lemma sorted_unique (l : list R) : forall m, Permutation l m -> StronglySorted Rle l -> StronglySorted Rle m -> l = m.
Proof.
  induction l as [|x l IH]; intros m P S1 S2.
  - apply Permutation_nil in P. now subst.
  - destruct m as [|y m]; [symmetry in P; apply Permutation_nil in P; discriminate|].
    inversion S1 as [|? ? S1' F1]; subst. inversion S2 as [|? ? S2' F2]; subst. rewrite Forall_forall in F1, F2.
    assert (E : x = y).
    { assert (Hx : In x (y :: m)) by (eapply Permutation_in; [exact P|now left]).
      assert (Hy : In y (x :: l)) by (eapply Permutation_in; [apply Permutation_sym; exact P|now left]).
      destruct Hx as [|Hx]; [auto|]. destruct Hy as [|Hy]; [auto|]. apply Rle_antisym; auto. }
    subst y. f_equal. apply IH; auto. eapply Permutation_cons_inv; eauto.
Qed.
Lemma sort_perm_eq l m : Permutation l m -> sort_by (fun x : R => x) l = sort_by (fun x => x) m.
Proof.
  intros P. apply sorted_unique; auto using sort_sorted_id.
  rewrite (sort_perm (fun x => x) l), (sort_perm (fun x => x) m). exact P.
Qed.
Lemma midpoints_perm l m : Permutation l m -> neighbour_midpoints l = neighbour_midpoints m.
Proof. intros P. unfold neighbour_midpoints. now rewrite (sort_perm_eq _ _ P). Qed.

Lemma evaluate_perm D D' j t m : Permutation D D' -> evaluate D j t m = evaluate D' j t m.
Proof.
  intros P. unfold evaluate, binary_accuracy. rewrite !combine_map_both, !combine_self, !map_map, !map_length.
  destruct D as [|p D], D' as [|p' D']; auto.
  - apply Permutation_nil in P. discriminate.
  - symmetry in P. apply Permutation_nil in P. discriminate.
  - cbn [map]. rewrite <- !(map_cons (fun x : list R * Z => (IZR (stump_label j t m (fst (fst (x, x)))), snd (snd (x, x))))).
    rewrite (count_perm _ _ _ (Permutation_map _ P)). now rewrite (Permutation_length P).
Qed.
Lemma candidates_perm w D D' : Permutation D D' -> candidates w D = candidates w D'.
Proof.
  intros P. unfold candidates. apply flat_map_ext. intros j. apply flat_map_ext. intros m.
  now rewrite (midpoints_perm _ _ (Permutation_map _ P)).
Qed.
Lemma fold_left_ext {A B} (f g : A -> B -> A) l : (forall a b, In b l -> f a b = g a b) -> forall a, fold_left f l a = fold_left g l a.
Proof. induction l as [|b l IH]; intros H a; cbn; auto. rewrite H by (now left). apply IH. intros; apply H; now right. Qed.
Lemma stump_fit_perm w D D' : Permutation D D' -> stump_fit w D = stump_fit w D'.
Proof.
  intros P. unfold stump_fit. rewrite (candidates_perm w _ _ P).
  rewrite (fold_left_ext _ (fun best c => let e := match c with (j, t, m) => evaluate D' j t m end in
    match best with None => Some (e, c) | Some (e0, _) => if Rltb e e0 then Some (e, c) else best end)); auto.
  intros a [[j t] m] _. now rewrite (evaluate_perm _ _ j t m P).
Qed.

Lemma weighted_gini_perm D D' : Permutation D D' -> weighted_gini D = weighted_gini D'.
Proof.
  intros P. assert (E : rsum (map (fun l => (weight (filter (fun s => Z.eqb (s_lab s) l) D) / weight D) ^ 2) (nodup Z.eq_dec (map s_lab D))) =
    rsum (map (fun l => (weight (filter (fun s => Z.eqb (s_lab s) l) D') / weight D') ^ 2) (nodup Z.eq_dec (map s_lab D')))).
  { rewrite (weight_perm _ _ P).
    rewrite (map_ext _ (fun l => (weight (filter (fun s => Z.eqb (s_lab s) l) D') / weight D') ^ 2)).
    - apply rsum_map_perm, nodup_perm, Permutation_map, P.
    - intros l. now rewrite (weight_perm _ _ (filter_perm _ _ _ P)). }
  unfold weighted_gini. rewrite E, (weight_perm _ _ P).
  destruct D, D'; auto; [apply Permutation_nil in P; discriminate|symmetry in P; apply Permutation_nil in P; discriminate].
Qed.
Lemma up_perm j t D D' : Permutation D D' -> Permutation (up j t D) (up j t D').
Proof. apply filter_perm. Qed.
Lemma low_perm j t D D' : Permutation D D' -> Permutation (low j t D) (low j t D').
Proof. apply filter_perm. Qed.
Lemma threshold_perm j t D D' : Permutation D D' -> threshold_value j D t = threshold_value j D' t.
Proof.
  intros P. unfold threshold_value. rewrite (weighted_gini_perm _ _ (up_perm j t _ _ P)), (weighted_gini_perm _ _ (low_perm j t _ _ P)).
  now rewrite (weight_perm _ _ P), (weight_perm _ _ (up_perm j t _ _ P)), (weight_perm _ _ (low_perm j t _ _ P)).
Qed.
Lemma get_value_perm j D D' : Permutation D D' -> gini_get_value j D = gini_get_value j D'.
Proof.
  intros P. unfold gini_get_value. cbn zeta.
  assert (Q : Permutation (sort_by (fun s => feat j (s_row s)) D) (sort_by (fun s => feat j (s_row s)) D')).
  { rewrite (sort_perm _ D), (sort_perm _ D'). exact P. }
  rewrite (midpoints_perm _ _ (Permutation_map (fun s => feat j (s_row s)) Q)).
  apply fold_left_ext. intros best t _. now rewrite (threshold_perm _ _ _ _ Q).
Qed.
Lemma choose_perm w D D' : Permutation D D' -> choose_feature w D = choose_feature w D'.
Proof.
  intros P. unfold choose_feature. erewrite fold_left_ext; [reflexivity|]. intros best j _. cbn beta. now rewrite (get_value_perm j _ _ P).
Qed.
Lemma tl_generate_perm w levels : forall D D', Permutation D D' -> tl_generate levels w D = tl_generate levels w D'.
Proof.
  induction levels as [|k IH]; intros D D' P; cbn.
  - unfold leaf_label. now rewrite !(weight_perm _ _ (filter_perm _ _ _ P)).
  - rewrite (Permutation_length P), (choose_perm w _ _ P). unfold leaf_label. rewrite !(weight_perm _ _ (filter_perm _ _ _ P)).
    destruct (_ <=? _)%nat; auto. destruct (choose_feature w D') as [[j t]|]; auto.
    now rewrite (IH _ _ (up_perm j t _ _ P)), (IH _ _ (low_perm j t _ _ P)).
Qed.
Lemma tl_fit_perm w D D' : Permutation D D' -> tl_fit w D = tl_fit w D'.
Proof. apply tl_generate_perm. Qed.

(** ** AdaBoost *)
Section Ada.
Variable H : Type.
Variable learn : list (list R * Z) -> list R -> result H.
Variable answer : H -> list R -> Z.
Hypothesis learn_perm : forall D w D' w', same_rows D w D' w' -> learn D w = learn D' w'.

Lemma error_perm D w D' w' h : same_rows D w D' w' -> weighted_error H answer D w h = weighted_error H answer D' w' h.
Proof. intros (_ & _ & P). unfold weighted_error. now apply rsum_map_perm, filter_perm. Qed.
Lemma reweight_perm D w D' w' h a : same_rows D w D' w' ->
  same_rows D (reweight H answer D w h a) D' (reweight H answer D' w' h a).
Proof.
  intros (L & L' & P). unfold reweight. cbn zeta.
  set (f := fun p : (list R * Z) * R => snd p * exp ((if right H answer h (fst p) then -1 else 1) * a)).
  rewrite (rsum_map_perm f _ _ P). set (s := rsum (map f (combine D' w'))). rewrite !map_map.
  assert (E : forall D w, length D = length w -> combine D (map (fun x => f x / s) (combine D w)) = map (fun p => (fst p, f p / s)) (combine D w)).
  { clear. induction D as [|p D IH]; intros [|v w] E; cbn in *; auto; try lia. f_equal. apply IH. lia. }
  repeat split.
  - rewrite map_length, combine_length. lia.
  - rewrite map_length, combine_length. lia.
  - rewrite !E by auto. now apply Permutation_map.
Qed.
Lemma ada_loop_perm n : forall D w D' w', same_rows D w D' w' -> ada_loop H learn answer n D w = ada_loop H learn answer n D' w'.
Proof.
  induction n as [|n IH]; intros D w D' w' P; cbn; auto. unfold ada_round. rewrite (learn_perm _ _ _ _ P).
  destruct (learn D' w') as [h|]; cbn; auto. rewrite (error_perm _ _ _ _ h P).
  destruct (learner_weight _) as [a|]; cbn; auto. rewrite (IH _ _ _ _ (reweight_perm _ _ _ _ h a P)), (error_perm _ _ _ _ h P). reflexivity.
Qed.
Lemma uniform_rows (D D' : list (list R * Z)) : Permutation D D' -> same_rows D (uniform (length D)) D' (uniform (length D')).
Proof.
  intros P. rewrite (Permutation_length P). unfold uniform.
  assert (E : forall n (D : list (list R * Z)) (v : R), length D = n -> repeat v n = map (fun _ => v) D).
  { induction n; intros [|p D0] v E; cbn in *; try lia; auto. f_equal. apply IHn. lia. }
  rewrite (E (length D') D) at 1 by (apply Permutation_length, P). rewrite (E _ D') by reflexivity. now apply same_rows_map.
Qed.
Lemma ada_fit_perm n D D' b : Permutation D D' -> ada_fit H learn answer n D b = ada_fit H learn answer n D' b.
Proof.
  intros P. unfold ada_fit. rewrite (ada_loop_perm n _ _ _ _ (uniform_rows _ _ P)).
  assert (E : match ada_round H learn answer D (uniform (length D)) with Ok _ => @Err (adaboost H) AttributeError | Err e => Err e end =
              match ada_round H learn answer D' (uniform (length D')) with Ok _ => Err AttributeError | Err e => Err e end).
  { unfold ada_round. pose proof (uniform_rows _ _ P) as Q. rewrite (learn_perm _ _ _ _ Q).
    destruct (learn D' _) as [h|]; cbn; auto. rewrite (error_perm _ _ _ _ h Q). destruct (learner_weight _); cbn; auto. }
  now rewrite E.
Qed.
End Ada.
Lemma tl_learn_perm w D v D' v' : same_rows D v D' v' -> tl_learn w D v = tl_learn w D' v'.
Proof. intros (_ & _ & P). now apply tl_fit_perm. Qed.

(** ** K-means *)
Lemma cluster_related x x' c : Permutation x x' ->
  match get_cluster (calculate_euclidean_distance x c), get_cluster (calculate_euclidean_distance x' c) with
  | Ok l, Ok l' => same_rows x l x' l'
  | Err e, Err e' => e = e'
  | _, _ => False
  end.
Proof.
  intros P. unfold get_cluster, calculate_euclidean_distance.
  assert (E : forall y, mapM (argmin nan_lt) (map (fun r => map (distance r) c) y) = mapM (fun r => argmin nan_lt (map (distance r) c)) y).
  { induction y as [|r y IH]; cbn; auto. now rewrite IH. }
  rewrite !E. pose proof (mapM_perm_related (fun r => argmin nan_lt (map (distance r) c)) _ _ P) as Q.
  destruct (mapM _ x) as [l|e] eqn:E1, (mapM _ x') as [l'|e'] eqn:E2; cbn in Q; auto.
  assert (Z : forall y e, mapM (fun r => argmin nan_lt (map (distance r) c)) y = Err e -> e = ValueError).
  { induction y as [|r y IH]; intros f F; cbn in F; [discriminate|].
    destruct (argmin nan_lt (map (distance r) c)) as [v|] eqn:A; cbn in F.
    - destruct (mapM _ y) as [t|] eqn:M; cbn in F; [discriminate|]. injection F as <-. now apply IH.
    - injection F as <-. destruct c; cbn in A; [injection A as <-; auto|discriminate]. }
  now rewrite (Z _ _ E1), (Z _ _ E2).
Qed.
Lemma members_perm x cl x' cl' k : same_rows x cl x' cl' -> Permutation (KMeans.members x cl k) (KMeans.members x' cl' k).
Proof. intros (_ & _ & P). unfold KMeans.members. now apply Permutation_map, filter_perm. Qed.
Lemma mean_rows_perm d a b : Permutation a b -> mean_rows d a = mean_rows d b.
Proof.
  intros P. assert (E : map (fun j => rmean (column 0 a j)) (seq 0 d) = map (fun j => rmean (column 0 b j)) (seq 0 d)).
  { apply map_ext. intros j. unfold column. now apply rmean_perm, Permutation_map. }
  destruct a, b; auto; try (apply Permutation_nil in P; discriminate); try (symmetry in P; apply Permutation_nil in P; discriminate).
  cbn [mean_rows]. now rewrite E.
Qed.
Lemma centroids_perm d x cl x' cl' : same_rows x cl x' cl' -> calculate_centroids d x cl = calculate_centroids d x' cl'.
Proof.
  intros P. unfold calculate_centroids. rewrite (Permutation_length (nodup_perm Nat.eq_dec _ _ (same_rows_snd _ _ _ _ P))).
  apply map_ext. intros k. now apply mean_rows_perm, members_perm.
Qed.

Lemma km_loop_perm d x x' tol n : Permutation x x' -> forall c cl cl',
  match cl, cl' with Some l, Some l' => same_rows x l x' l' | None, None => True | _, _ => False end ->
  same_clustering x x' (km_loop d x tol n c cl) (km_loop d x' tol n c cl').
Proof.
  intros P. induction n as [|n IH]; intros c cl cl' Hc; cbn [km_loop].
  - cbn. auto.
  - pose proof (cluster_related x x' c P) as Q.
    destruct (get_cluster (calculate_euclidean_distance x c)) as [l|e], (get_cluster (calculate_euclidean_distance x' c)) as [l'|e'];
      cbn [bind]; try contradiction; [|cbn; auto].
    rewrite (centroids_perm d _ _ _ _ Q). destruct (compare_differences_any c (calculate_centroids d x' l') tol) as [ch|e]; cbn [bind]; [|cbn; auto].
    destruct ch; [apply IH; auto|cbn; auto].
Qed.

(** A start that does not depend on the rows: an array with one row per cluster. *)
Lemma init_perm randint d x x' n a : length (squeeze_shape (shape a)) = 2%nat ->
  init_centroids randint d x n (InitArray a) = init_centroids randint d x' n (InitArray a).
Proof. intros H. cbn. destruct (squeeze_shape (shape a)) as [|? [|]]; cbn in H; try lia. reflexivity. Qed.
Lemma km_fit_perm randint randint' d x x' n a tol epochs : Permutation x x' -> length (squeeze_shape (shape a)) = 2%nat ->
  same_clustering x x' (km_fit randint d x n (InitArray a) tol epochs) (km_fit randint' d x' n (InitArray a) tol epochs).
Proof.
  intros P H. unfold km_fit. assert (E : init_centroids randint' d x' n (InitArray a) = init_centroids randint d x n (InitArray a)).
  { cbn. destruct (squeeze_shape (shape a)) as [|? [|]]; cbn in H; try lia. reflexivity. }
  rewrite E. destruct (init_centroids randint d x n (InitArray a)) as [c|]; cbn [bind]; [|reflexivity].
  now apply km_loop_perm.
Qed.

(** ** Linear discriminant analysis *)
Lemma with_label_perm l x y x' y' : same_rows x y x' y' -> Permutation (with_label l x y) (with_label l x' y').
Proof. intros (_ & _ & P). unfold with_label. now apply Permutation_map, filter_perm. Qed.
Lemma mean_row_perm d a b : Permutation a b -> mean_row d a = mean_row d b.
Proof.
  intros P. assert (E : map (fun j => rmean (column 0 a j)) (seq 0 d) = map (fun j => rmean (column 0 b j)) (seq 0 d)).
  { apply map_ext. intros j. unfold column. now apply rmean_perm, Permutation_map. }
  destruct a, b; auto; try (apply Permutation_nil in P; discriminate); try (symmetry in P; apply Permutation_nil in P; discriminate).
  cbn [mean_row]. now rewrite E.
Qed.
Lemma scatter_perm d a b mu : Permutation a b -> scatter_of d a mu = scatter_of d b mu.
Proof. intros P. unfold scatter_of. apply map_ext. intros j. apply map_ext. intros k. now apply rsum_map_perm. Qed.
Lemma lda_fit_perm svd d x y x' y' : same_rows x y x' y' -> lda_fit svd d x y = lda_fit svd d x' y'.
Proof.
  intros P. pose proof P as (L & L' & _). unfold lda_fit. rewrite L, L', !Nat.eqb_refl. cbn [negb]. cbn zeta.
  pose proof (with_label_perm 0 _ _ _ _ P) as P0. pose proof (with_label_perm 1 _ _ _ _ P) as P1.
  rewrite (mean_row_perm d _ _ P0), (mean_row_perm d _ _ P1).
  destruct (mean_row d (with_label 0 x' y')) as [m0|]; cbn; auto. destruct (mean_row d (with_label 1 x' y')) as [m1|]; cbn; auto.
  unfold within_class_scatter. now rewrite (scatter_perm d _ _ m0 P0), (scatter_perm d _ _ m1 P1).
Qed.

(** ** Gaussian mixture *)
Section GmmOrder.
Variable rnd : R -> R.
Variable d : nat.

Lemma column_perm (g g' : list (list R)) i : Permutation g g' -> rsum (column 0 g i) = rsum (column 0 g' i).
Proof. intros P. unfold column. now apply rsum_perm, Permutation_map. Qed.
Lemma weighted_mean_perm x g x' g' i : same_rows x g x' g' -> weighted_mean d x g i = weighted_mean d x' g' i.
Proof.
  intros P. unfold weighted_mean. rewrite (column_perm _ _ i (same_rows_snd _ _ _ _ P)). cbn zeta.
  destruct (Reqb _ 0); auto. f_equal. apply map_ext. intros j. now rewrite (rsum_map_perm _ _ _ (proj2 (proj2 P))).
Qed.
Lemma weighted_cov_perm x g x' g' m i : same_rows x g x' g' -> weighted_cov d x g m i = weighted_cov d x' g' m i.
Proof.
  intros P. unfold weighted_cov. rewrite (column_perm _ _ i (same_rows_snd _ _ _ _ P)). cbn zeta.
  destruct (Reqb _ 0); auto. f_equal. apply map_ext. intros j. apply map_ext. intros k.
  now rewrite (rsum_map_perm _ _ _ (proj2 (proj2 P))).
Qed.
Lemma mapM_ext {A B} (f g : A -> result B) l : (forall a, f a = g a) -> mapM f l = mapM g l.
Proof. intros E. induction l as [|a l IH]; cbn; auto. now rewrite E, IH. Qed.
Lemma em_round_perm n x x' t : Permutation x x' ->
  ends_related eq (em_round rnd d n x t) (em_round rnd d n x' t).
Proof.
  intros P. unfold em_round, posterior. pose proof (mapM_perm_related (posterior_row rnd d t) _ _ P) as Q.
  destruct (mapM _ x) as [g|], (mapM _ x') as [g'|]; cbn [bind ends_related] in *; auto; try contradiction.
  assert (E : calculate_means d n x g = calculate_means d n x' g') by (apply mapM_ext; intros; now apply weighted_mean_perm).
  rewrite E. destruct (calculate_means d n x' g') as [m|]; cbn [bind ends_related]; auto.
  assert (F : calculate_covariances d n x m g = calculate_covariances d n x' m g') by (apply mapM_ext; intros; now apply weighted_cov_perm).
  rewrite F. destruct (calculate_covariances d n x' m g') as [s|]; cbn [bind ends_related]; auto.
  f_equal. unfold calculate_mixture. rewrite (Permutation_length P). apply map_ext. intros i.
  now rewrite (column_perm _ _ i (same_rows_snd _ _ _ _ Q)).
Qed.
Lemma gm_loop_perm n x x' tol epochs : Permutation x x' -> forall t,
  ends_related eq (gm_loop rnd d n x tol epochs t) (gm_loop rnd d n x' tol epochs t).
Proof.
  intros P. induction epochs as [|k IH]; intros t; cbn [gm_loop]; [reflexivity|].
  pose proof (em_round_perm n x x' t P) as Q.
  destruct (em_round rnd d n x t) as [u|], (em_round rnd d n x' t) as [u'|]; cbn [bind ends_related] in *; auto; try contradiction.
  subst u'. destruct (moved tol t u); [apply IH|reflexivity].
Qed.
Lemma gm_predict_perm t x x' : Permutation x x' ->
  ends_related (fun l l' => same_rows x l x' l') (gm_predict rnd d t x) (gm_predict rnd d t x').
Proof.
  intros P. unfold gm_predict, posterior.
  assert (E : forall y, (g <- mapM (posterior_row rnd d t) y ;; mapM (fun row => argmin Rltb (map Ropp row)) g) =
                        mapM (fun r => row <- posterior_row rnd d t r ;; argmin Rltb (map Ropp row)) y \/
              exists e e', (g <- mapM (posterior_row rnd d t) y ;; mapM (fun row => argmin Rltb (map Ropp row)) g) = Err e /\
                        mapM (fun r => row <- posterior_row rnd d t r ;; argmin Rltb (map Ropp row)) y = Err e').
  { induction y as [|r y IH]; cbn; [now left|].
    destruct (posterior_row rnd d t r) as [row|e]; cbn; [|right; eauto].
    destruct (mapM (posterior_row rnd d t) y) as [g|e]; cbn in *.
    - destruct IH as [->|(e & e' & -> & ->)]; [now left|]. destruct (argmin Rltb (map Ropp row)); cbn; right; eauto.
    - destruct IH as [IH|(e1 & e' & E1 & E2)].
      + rewrite <- IH. destruct (argmin Rltb (map Ropp row)); cbn; right; eauto.
      + rewrite E2. destruct (argmin Rltb (map Ropp row)); cbn; right; eauto. }
  pose proof (mapM_perm_related (fun r => row <- posterior_row rnd d t r ;; argmin Rltb (map Ropp row)) _ _ P) as Q.
  destruct (E x) as [->|(e & e' & -> & E2)], (E x') as [->|(f & f' & -> & F2)]; auto; try exact I.
  - rewrite F2 in Q. now destruct (mapM _ x).
  - rewrite E2 in Q. now destruct (mapM _ x').
Qed.
Lemma gm_fit_perm randint randint' x x' n a ic im tol epochs : Permutation x x' -> length (squeeze_shape (shape a)) = 2%nat ->
  ends_related (fun m m' => fst m' = fst m /\ same_rows x (snd m) x' (snd m'))
    (gm_fit rnd d randint x n (InitArray a) ic im tol epochs) (gm_fit rnd d randint' x' n (InitArray a) ic im tol epochs).
Proof.
  intros P H. unfold gm_fit, gm_init.
  assert (E : init_centroids randint' d x' n (InitArray a) = init_centroids randint d x n (InitArray a)).
  { cbn. destruct (squeeze_shape (shape a)) as [|? [|]]; cbn in H; try lia. reflexivity. }
  rewrite E. destruct (init_centroids randint d x n (InitArray a)) as [m|]; cbn [bind]; [|exact I].
  destruct (init_covariances d n ic) as [s|]; cbn [bind]; [|exact I].
  destruct (init_mixture_coefficient n im) as [al|]; cbn [bind]; [|exact I].
  pose proof (gm_loop_perm n x x' tol epochs P {| mu := m; sigma := s; alpha := al |}) as Q.
  destruct (gm_loop rnd d n x tol epochs _) as [u|], (gm_loop rnd d n x' tol epochs _) as [u'|]; cbn [bind ends_related] in *; auto; try contradiction.
  subst u'. pose proof (gm_predict_perm u x x' P) as W.
  destruct (gm_predict rnd d u x), (gm_predict rnd d u x'); cbn [bind ends_related fst snd] in *; auto.
Qed.
End GmmOrder.
