(** Lemmas for C109: linear models and clusterings with the features in another order. *)
From Coq Require Import List ZArith Reals Lra Lia Bool Arith Permutation.
From Verif.Model Require Import Base Ops KMeans Matrix Activations Logistic Gmm.
From Verif.Spec Require Import Common Smo Matrix Gmm Units BayesUnits Columns.
From Verif.Proof Require Import BaseLemmas Counting Smo Kernels RowOrder RowOrderTree Gmm Determinant Units UnitsMore UnitsLinear UnitsShift ColumnsMx.
Import ListNotations.
Local Open Scope R_scope.

Lemma dot_map {A} (f g : A -> R) l : dot (map f l) (map g l) = rsum (map (fun j => f j * g j) l).
Proof. induction l as [|i l IH]; [reflexivity|]. cbn [map dot]. rewrite IH. reflexivity. Qed.
Lemma combine_map_same {A B C} (f : A -> B) (g : A -> C) l : combine (map f l) (map g l) = map (fun j => (f j, g j)) l.
Proof. induction l as [|i l IH]; [reflexivity|]. cbn [map combine]. now rewrite IH. Qed.
Lemma combine_map_second {A B C} (f : A -> B) (l : list C) (w : list A) : combine l (map f w) = map (fun p => (fst p, f (snd p))) (combine l w).
Proof. revert w. induction l as [|r l IH]; intros [|v w]; simpl; auto. now rewrite IH. Qed.
Lemma map_nth_seq d (a : list R) : length a = d -> map (fun j => nth j a 0) (seq 0 d) = a.
Proof.
  intros L. apply nth_ext with (d := 0) (d' := 0); [now rewrite map_length, seq_length|]. rewrite map_length, seq_length. intros j Hj. now rewrite nth_map_seq.
Qed.
Lemma rows_seq d (a : list (list R)) : length a = d -> map (fun j => nth j a []) (seq 0 d) = a.
Proof.
  intros L. apply nth_ext with (d := []) (d' := []); [now rewrite map_length, seq_length|]. rewrite map_length, seq_length. intros j Hj. now rewrite nth_map_seq.
Qed.
Lemma nth_vsub a b j : length a = length b -> nth j (vsub a b) 0 = nth j a 0 - nth j b 0.
Proof.
  revert b j. induction a as [|u a IH]; intros [|v b] j H; try discriminate; [destruct j; simpl; lra|]. destruct j; [reflexivity|]. exact (IH b j (f_equal pred H)).
Qed.

Section Order.
Variables (d : nat) (s : list nat).
Hypothesis Hs : new_order d s.

Lemma in_order j : In j s -> (j < d)%nat.
Proof. intros I. apply (Permutation_in _ Hs), in_seq in I. lia. Qed.
Lemma re_length r : length (reordered s r) = d.
Proof. unfold reordered. rewrite map_length. exact (order_length Hs). Qed.
Lemma nth_order {B} (f : nat -> B) (z : B) j : (j < d)%nat -> nth j (map f s) z = f (nth j s 0%nat).
Proof. intros H. rewrite (nth_indep _ z (f 0%nat)) by (rewrite map_length, (order_length Hs); auto). apply map_nth. Qed.
Lemma nth_re r j : (j < d)%nat -> nth j (reordered s r) 0 = nth (nth j s 0%nat) r 0.
Proof. intros H. unfold reordered. now rewrite nth_order. Qed.
Lemma map_order {B} (f : nat -> B) : map (fun j => f (nth j s 0%nat)) (seq 0 d) = map f s.
Proof.
  destruct d as [|d'] eqn:D; [assert (length s = 0)%nat as L by (rewrite (order_length Hs); auto); now destruct s|]. rewrite <- D in *.
  apply nth_ext with (d := f 0%nat) (d' := f 0%nat); [now rewrite !map_length, seq_length, (order_length Hs)|]. rewrite map_length, seq_length. intros j Hj. now rewrite nth_map_seq, nth_order.
Qed.
Lemma seq_re F G : (forall j, (j < d)%nat -> G j = F (nth j s 0%nat)) -> map G (seq 0 d) = reordered s (map F (seq 0 d)).
Proof.
  intros H. transitivity (map F s).
  - rewrite <- map_order. apply map_ext_in. intros j I. apply in_seq in I. apply H. lia.
  - unfold reordered. apply map_ext_in. intros j I. apply in_order in I. now rewrite nth_map_seq.
Qed.
Lemma seq_grid F G : (forall i j, (i < d)%nat -> (j < d)%nat -> G i j = F (nth i s 0%nat) (nth j s 0%nat)) ->
  map (fun i => map (G i) (seq 0 d)) (seq 0 d) = grid_reordered s (map (fun i => map (F i) (seq 0 d)) (seq 0 d)).
Proof.
  intros H. transitivity (map (fun i => map (F i) s) s).
  - rewrite <- map_order. apply map_ext_in. intros i I. apply in_seq in I. rewrite <- map_order. apply map_ext_in. intros j J. apply in_seq in J. apply H; lia.
  - unfold grid_reordered. apply map_ext_in. intros i I. apply map_ext_in. intros j J. apply in_order in I, J. unfold entry. now rewrite !nth_map_seq.
Qed.
Lemma dot_re a b : length a = d -> length b = d -> dot (reordered s a) (reordered s b) = dot a b.
Proof.
  intros A B. unfold reordered. rewrite dot_map, (rsum_map_perm _ _ _ Hs), <- dot_map. now rewrite !map_nth_seq.
Qed.
Lemma vsub_re a b : length a = d -> length b = d -> vsub (reordered s a) (reordered s b) = reordered s (vsub a b).
Proof.
  intros A B. unfold vsub at 1, reordered. rewrite combine_map_same, map_map. apply map_ext. intros j. cbn [fst snd]. rewrite nth_vsub by congruence. reflexivity.
Qed.
Lemma vscale_re c a : vscale c (reordered s a) = reordered s (vscale c a).
Proof.
  unfold vscale, reordered. rewrite map_map. apply map_ext. intros j. revert a. induction j as [|j IH]; intros [|v a]; cbn [map nth]; try apply IH; auto; ring.
Qed.
Lemma vsub_len a b : length a = d -> length b = d -> length (vsub a b) = d.
Proof. intros A B. unfold vsub. rewrite map_length, combine_length. lia. Qed.
Lemma column_re x j : (j < d)%nat -> column 0 (map (reordered s) x) j = column 0 x (nth j s 0%nat).
Proof. intros H. unfold column. rewrite map_map. apply map_ext. intros r. now apply nth_re. Qed.
Lemma width_re x : width d (map (reordered s) x).
Proof. unfold width. rewrite Forall_forall. intros r I. apply in_map_iff in I as (q & <- & _). apply re_length. Qed.
Lemma far_re tol a b : length a = d -> length b = d -> far tol (reordered s a) (reordered s b) = far tol a b.
Proof.
  intros A B. unfold far, reordered. rewrite combine_map_same, existsb_map, (existsb_perm _ _ _ Hs). cbn [fst snd].
  replace (combine a b) with (map (fun j => (nth j a 0, nth j b 0)) (seq 0 d)) by (rewrite <- combine_map_same; now rewrite !map_nth_seq). rewrite existsb_map. reflexivity.
Qed.
Lemma column_grid m j : square d m -> (j < d)%nat -> column 0 (grid_reordered s m) j = reordered s (column 0 m (nth j s 0%nat)).
Proof.
  intros [L F] H. unfold column, grid_reordered. rewrite map_map. unfold reordered. apply map_ext_in. intros i I. apply in_order in I.
  rewrite nth_order by auto. unfold entry. rewrite (nth_map_in (fun r => nth (nth j s 0%nat) r 0) m i 0 []) by lia. reflexivity.
Qed.
Lemma vec_mat_re v m : length v = d -> square d m -> vec_mat d (reordered s v) (grid_reordered s m) = reordered s (vec_mat d v m).
Proof.
  intros L S. unfold vec_mat. apply seq_re. intros j Hj. rewrite column_grid by auto. apply dot_re; auto. destruct S as [S _]. unfold column. now rewrite map_length.
Qed.
Lemma mat_vec_re m g : square d m -> length g = d -> map (fun r => dot r (reordered s g)) (grid_reordered s m) = reordered s (map (fun r => dot r g) m).
Proof.
  intros [S F] L. unfold grid_reordered, reordered at 2. rewrite map_map. apply map_ext_in. intros i I. apply in_order in I.
  rewrite (nth_map_in (fun r => dot r g) m i 0 []) by lia. change (map (fun j => entry m i j) s) with (reordered s (nth i m [])). apply dot_re; auto.
  rewrite Forall_forall in F. apply F, nth_In. lia.
Qed.

(** * K-means *)
Definition cent_re (c : centroid) : centroid := option_map (reordered s) c.
Definition cent_of (c : centroid) : Prop := match c with Some v => length v = d | None => True end.
Lemma distance_re r c : length r = d -> cent_of c -> distance (reordered s r) (cent_re c) = distance r c.
Proof.
  intros L C. destruct c as [v|]; [|reflexivity]. cbn [cent_re option_map distance]. do 2 f_equal. unfold sqnorm. cbn in C. rewrite vsub_re by auto. apply dot_re; now apply vsub_len.
Qed.
Lemma get_cluster_re x cs : width d x -> Forall cent_of cs ->
  get_cluster (calculate_euclidean_distance (map (reordered s) x) (map cent_re cs)) = get_cluster (calculate_euclidean_distance x cs).
Proof.
  intros W C. unfold get_cluster, calculate_euclidean_distance. rewrite map_map. f_equal. apply map_ext_in. intros r I. rewrite map_map. apply map_ext_in. intros c J.
  unfold width in W. rewrite Forall_forall in W, C. apply distance_re; auto.
Qed.
Lemma members_re x cl k : members (map (reordered s) x) cl k = map (reordered s) (members x cl k).
Proof.
  unfold members; rewrite Units.combine_map_l.
  rewrite (Units.filter_map (fun p : list R * nat => (reordered s (fst p), snd p)) (fun p => (snd p =? k)%nat)) by reflexivity; rewrite !map_map; reflexivity.
Qed.
Lemma mean_rows_re rows : mean_rows d (map (reordered s) rows) = cent_re (mean_rows d rows).
Proof.
  destruct rows as [|r rows]; [reflexivity|]. unfold mean_rows. cbn [map cent_re option_map]. f_equal. apply seq_re. intros j Hj.
  change (reordered s r :: map (reordered s) rows) with (map (reordered s) (r :: rows)). now rewrite column_re.
Qed.
Lemma centroids_re x cl : calculate_centroids d (map (reordered s) x) cl = map cent_re (calculate_centroids d x cl).
Proof. unfold calculate_centroids. rewrite map_map. apply map_ext. intros k. rewrite members_re. apply mean_rows_re. Qed.
Lemma centroids_of x cl : Forall cent_of (calculate_centroids d x cl).
Proof.
  unfold calculate_centroids. rewrite Forall_forall. intros c Hc. apply in_map_iff in Hc as (k & <- & _). unfold mean_rows. destruct (members x cl k); cbn; auto. now rewrite map_length, seq_length.
Qed.
Lemma differ_re tol u v : cent_of u -> cent_of v -> differ tol (cent_re u) (cent_re v) = differ tol u v.
Proof. intros U V. destruct u as [u|], v as [v|]; auto. exact (far_re tol u v U V). Qed.
Lemma compare_re c0 c1 tol : Forall cent_of c0 -> Forall cent_of c1 ->
  compare_differences_any (map cent_re c0) (map cent_re c1) tol = compare_differences_any c0 c1 tol.
Proof.
  intros W0 W1; rewrite Forall_forall in *; unfold compare_differences_any; rewrite !map_length; destruct (length c0 =? length c1)%nat.
  - f_equal; rewrite combine_map_both, existsb_map; apply existsb_ext_in; intros [u v] H; cbn [fst snd]; apply differ_re; [apply W0; now apply in_combine_l in H|apply W1; now apply in_combine_r in H].
  - destruct c1 as [|v [|v' c1]]; cbn [map].
    + destruct c0 as [|u [|u' c0]]; reflexivity.
    + assert (G : existsb (fun u => differ tol u (cent_re v)) (map cent_re c0) = existsb (fun u => differ tol u v) c0)
        by (rewrite existsb_map; apply existsb_ext_in; intros u H; apply differ_re; auto; apply W1; now left).
      destruct c0 as [|u [|u' c0]]; cbn [map] in *; f_equal; exact G.
    + destruct c0 as [|u [|u' c0]]; cbn [map]; try reflexivity; f_equal; change (cent_re v :: cent_re v' :: map cent_re c1) with (map cent_re (v :: v' :: c1)); rewrite existsb_map; apply existsb_ext_in; intros w H; apply differ_re; auto; apply W0; now left.
Qed.
Lemma km_loop_re x tol epochs : width d x -> forall cs cl, Forall cent_of cs ->
  km_loop d (map (reordered s) x) tol epochs (map cent_re cs) cl =
  (r <- km_loop d x tol epochs cs cl ;; Ok (map cent_re (fst (fst r)), snd (fst r), snd r)).
Proof.
  intros W; induction epochs as [|n IH]; intros cs cl C; [reflexivity|]; cbn [km_loop]; rewrite get_cluster_re by assumption.
  destruct (get_cluster (calculate_euclidean_distance x cs)) as [lab|]; cbn [bind]; [|reflexivity].
  rewrite centroids_re, compare_re by (auto; apply centroids_of); destruct (compare_differences_any cs (calculate_centroids d x lab) tol) as [[]|]; cbn [bind]; [|reflexivity..].
  apply IH, centroids_of.
Qed.
Lemma km_loop_of x tol epochs : forall cs cl r, Forall cent_of cs -> km_loop d x tol epochs cs cl = Ok r -> Forall cent_of (fst (fst r)).
Proof.
  induction epochs as [|n IH]; intros cs cl r C H; cbn [km_loop] in H; [now injection H as <-|].
  destruct (get_cluster _) as [lab|]; cbn [bind] in H; [|discriminate]; destruct (compare_differences_any _ _ _) as [[]|]; cbn [bind] in H; [|injection H as <-; exact C|discriminate].
  apply (IH _ _ _ (centroids_of x lab) H).
Qed.
Lemma init_re randint x n init : by_rows init ->
  init_centroids randint d (map (reordered s) x) n init = (c <- init_centroids randint d x n init ;; Ok (map (reordered s) c)).
Proof.
  intros B; destruct init as [|t|]; cbn [init_centroids]; [| |reflexivity].
  - rewrite map_length; destruct (length x =? 0)%nat; [reflexivity|]; apply (mapM_get_at_map (reordered s) x (fun i => i)).
  - cbn [by_rows] in B; destruct (squeeze_shape (shape t)) as [|k [|k' l]]; try discriminate.
    destruct (negb (k =? n)%nat); [reflexivity|]; destruct (np_min (flat_reals (data t))) as [mn|]; cbn [bind]; [|reflexivity]; destruct (np_max (flat_reals (data t))) as [mx|]; cbn [bind]; [|reflexivity].
    rewrite map_length; destruct (Rltb mn 0 || Rleb (INR (length x)) mx); [reflexivity|]; destruct (data t) as [zs|vs]; [|reflexivity]; apply (mapM_get_at_map (reordered s) x Z.to_nat).
Qed.
Lemma starts_re randint x n i i' : width d x -> same_starts d s n i i' ->
  init_centroids randint d (map (reordered s) x) n i' = (c <- init_centroids randint d x n i ;; Ok (map (reordered s) c)) /\
  forall c, init_centroids randint d x n i = Ok c -> width d c.
Proof.
  intros W [[B ->]|(rows & L & Hn & Hd & Wr & -> & ->)].
  - apply starts_by_rows in B. split; [now apply init_re|]. intros c E. exact (init_wide randint d x n i c B W E).
  - subst n. rewrite init_given by auto. split.
    + cbn [bind]. rewrite <- (map_length (reordered s) rows). apply init_given; rewrite ?map_length; auto. apply width_re.
    + intros c E. injection E as <-. auto.
Qed.
Lemma km_fit_re randint x n i i' tol epochs : width d x -> same_starts d s n i i' ->
  both (fun r r' => r' = (map cent_re (fst (fst r)), snd (fst r), snd r) /\
          forall q, width d q -> km_predict (fst (fst r')) (map (reordered s) q) = km_predict (fst (fst r)) q)
    (km_fit randint d x n i tol epochs) (km_fit randint d (map (reordered s) x) n i' tol epochs).
Proof.
  intros W S. destruct (starts_re randint x n i i' W S) as [E Wc]. unfold km_fit. rewrite E. destruct (init_centroids randint d x n i) as [c|]; [|reflexivity]. cbn [bind].
  specialize (Wc c eq_refl). assert (C : Forall cent_of (map Some c)) by (unfold width in Wc; rewrite Forall_forall in *; intros z I; apply in_map_iff in I as (v & <- & I); cbn; auto).
  rewrite map_map. replace (map (fun r => Some (reordered s r)) c) with (map cent_re (map Some c)) by now rewrite map_map.
  rewrite km_loop_re by auto. destruct (km_loop d x tol epochs (map Some c) None) as [r|] eqn:K; [|reflexivity]. cbn [bind both]. split; [reflexivity|].
  intros q Wq. cbn [fst]. apply get_cluster_re; auto. exact (km_loop_of _ _ _ _ _ _ C K).
Qed.

(** * Mixtures *)
Variable rnd : R -> R.
Definition params_re (p : params) : params := {| mu := map (reordered s) (mu p); sigma := map (grid_reordered s) (sigma p); alpha := alpha p |}.
Definition shaped (p : params) : Prop := width d (mu p) /\ Forall (square d) (sigma p).
Lemma density_re r m v : length r = d -> length m = d -> normal_density rnd d (reordered s r) (reordered s m) (grid_reordered s v) = normal_density rnd d r m v.
Proof.
  intros H H'. unfold normal_density. rewrite (det_reordered Hs), (inverse_reordered Hs), re_length, H. destruct (Rltb (det d v) 0); [reflexivity|].
  destruct (inverse d v) as [M|] eqn:E; [|reflexivity]. cbn [bind]. destruct (inverse_ok E) as [Sq _]. rewrite vsub_re, vec_mat_re, dot_re; auto using vsub_len.
  unfold vec_mat. now rewrite map_length, seq_length.
Qed.
Lemma densities_re p r : shaped p -> length r = d -> densities rnd d (params_re p) (reordered s r) = densities rnd d p r.
Proof.
  intros [W _] H. unfold densities, params_re. cbn [mu sigma]. unfold width in W. generalize (sigma p). induction (mu p) as [|m l IH]; intros [|v t]; try reflexivity.
  inversion W as [|? ? W1 W2]. cbn [map combine mapM fst snd]. rewrite density_re by auto. now rewrite IH.
Qed.
Lemma posterior_re p x : shaped p -> width d x -> posterior rnd d (params_re p) (map (reordered s) x) = posterior rnd d p x.
Proof.
  intros S H. unfold posterior. induction x as [|r x IH]; [reflexivity|]. inversion H as [|? ? H1 H2]. cbn [map mapM]. unfold posterior_row at 1 3. rewrite densities_re by auto.
  now rewrite IH.
Qed.
Lemma weighted_mean_re x g i : weighted_mean d (map (reordered s) x) g i = (m <- weighted_mean d x g i ;; Ok (reordered s m)).
Proof.
  unfold weighted_mean. destruct (Reqb _ 0); [reflexivity|]. cbn [bind]. f_equal. apply seq_re. intros j Hj. f_equal. rewrite combine_map_first, map_map. cbn [fst snd].
  f_equal. apply map_ext. intros p. now rewrite nth_re.
Qed.
Lemma means_re n x g : calculate_means d n (map (reordered s) x) g = (m <- calculate_means d n x g ;; Ok (map (reordered s) m)).
Proof.
  unfold calculate_means. induction (seq 0 n) as [|i l IH]; [reflexivity|]. cbn [mapM]. rewrite weighted_mean_re.
  destruct (weighted_mean d x g i); [|reflexivity]. cbn [bind]. rewrite IH. destruct (mapM (weighted_mean d x g) l); reflexivity.
Qed.
Lemma cov_re x g m i : weighted_cov d (map (reordered s) x) g (reordered s m) i = (v <- weighted_cov d x g m i ;; Ok (grid_reordered s v)).
Proof.
  unfold weighted_cov. destruct (Reqb _ _); [reflexivity|]. cbn [bind]. f_equal. apply seq_grid. intros j k Hj Hk. f_equal. rewrite combine_map_first, map_map. cbn [fst snd].
  f_equal. apply map_ext. intros p. now rewrite !nth_re.
Qed.
Lemma covs_re n x g m : length m = n ->
  calculate_covariances d n (map (reordered s) x) (map (reordered s) m) g = (v <- calculate_covariances d n x m g ;; Ok (map (grid_reordered s) v)).
Proof.
  intros L. unfold calculate_covariances. assert (B : forall i, In i (seq 0 n) -> (i < n)%nat) by (intros i I; apply in_seq in I; lia).
  induction (seq 0 n) as [|i l IH]; [reflexivity|]. cbn [mapM].
  assert (Hi : (i < length m)%nat) by (rewrite L; apply B; now left).
  rewrite (nth_indep _ [] (reordered s [])) by now rewrite map_length. rewrite map_nth, cov_re. destruct (weighted_cov d x g (nth i m []) i); [|reflexivity]. cbn [bind].
  rewrite IH by (intros j I; apply B; now right). destruct (mapM (fun i => weighted_cov d x g (nth i m []) i) l); reflexivity.
Qed.
Lemma cov_square x g m i v : weighted_cov d x g m i = Ok v -> square d v.
Proof.
  unfold weighted_cov. destruct (Reqb _ _); [discriminate|]. intros E. injection E as <-. split; [now rewrite map_length, seq_length|].
  apply Forall_forall. intros r I. apply in_map_iff in I as (a & <- & _). now rewrite map_length, seq_length.
Qed.
Lemma covs_square n x g m v : calculate_covariances d n x m g = Ok v -> Forall (square d) v.
Proof.
  unfold calculate_covariances. revert v. induction (seq 0 n) as [|i l IH]; intros v E; cbn [mapM] in E; [injection E as <-; constructor|].
  destruct (weighted_cov d x g (nth i m []) i) eqn:E1; [|discriminate]. cbn [bind] in E. destruct (mapM _ l) eqn:E2; [|discriminate]. cbn [bind] in E. injection E as <-.
  constructor; [eapply cov_square; eauto|auto].
Qed.
Lemma round_re n x p : width d x -> shaped p -> em_round rnd d n (map (reordered s) x) (params_re p) = (q <- em_round rnd d n x p ;; Ok (params_re q)).
Proof.
  intros W S. unfold em_round. rewrite posterior_re by auto. destruct (posterior rnd d p x) as [g|] eqn:E; [|reflexivity]. cbn [bind].
  rewrite means_re. destruct (calculate_means d n x g) as [m|] eqn:E2; [|reflexivity]. cbn [bind]. apply means_width in E2 as [_ Ln].
  rewrite covs_re by auto. destruct (calculate_covariances d n x m g) as [t|]; [|reflexivity]. cbn [bind]. now rewrite map_length.
Qed.
Lemma round_shaped n x p q : em_round rnd d n x p = Ok q -> shaped q.
Proof.
  unfold em_round. destruct (posterior rnd d p x) as [g|]; [|discriminate]. cbn [bind]. destruct (calculate_means d n x g) as [m|] eqn:E2; [|discriminate]. cbn [bind].
  destruct (calculate_covariances d n x m g) as [t|] eqn:E3; [|discriminate]. cbn [bind]. intros E. injection E as <-. split; cbn; [now apply means_width in E2|now apply covs_square in E3].
Qed.
Lemma far_rows_re tol a b : square d a -> square d b ->
  existsb (fun q => far tol (fst q) (snd q)) (combine (grid_reordered s a) (grid_reordered s b)) = existsb (fun q => far tol (fst q) (snd q)) (combine a b).
Proof.
  intros A B. unfold grid_reordered. rewrite combine_map_same, existsb_map. cbn [fst snd]. rewrite (existsb_perm _ _ _ Hs).
  transitivity (existsb (fun q => far tol (fst q) (snd q)) (combine (map (fun i => nth i a []) (seq 0 d)) (map (fun i => nth i b []) (seq 0 d)))).
  - rewrite combine_map_same, existsb_map. cbn [fst snd]. apply existsb_ext_in. intros i I. apply in_seq in I. destruct A as [La Fa], B as [Lb Fb]. rewrite Forall_forall in Fa, Fb.
    apply (far_re tol (nth i a []) (nth i b [])); [apply Fa|apply Fb]; apply nth_In; lia.
  - f_equal. f_equal.
    + destruct A as [La _]. now apply rows_seq.
    + destruct B as [Lb _]. now apply rows_seq.
Qed.
Lemma moved_re tol p q : shaped p -> shaped q -> moved tol (params_re p) (params_re q) = moved tol p q.
Proof.
  intros [W V] [W' V']. unfold moved, params_re. cbn [mu sigma alpha]. f_equal. f_equal.
  - rewrite combine_map_both, existsb_map. apply existsb_ext_in. intros [u v] I. cbn [fst snd]. unfold width in W, W'. rewrite Forall_forall in W, W'.
    apply far_re; [apply W; now apply in_combine_l in I|apply W'; now apply in_combine_r in I].
  - rewrite combine_map_both, existsb_map. apply existsb_ext_in. intros [u v] I. cbn [fst snd]. rewrite Forall_forall in V, V'.
    apply far_rows_re; [apply V; now apply in_combine_l in I|apply V'; now apply in_combine_r in I].
Qed.
Lemma loop_re n x tol epochs : width d x -> forall p, shaped p ->
  gm_loop rnd d n (map (reordered s) x) tol epochs (params_re p) = (q <- gm_loop rnd d n x tol epochs p ;; Ok (params_re q)).
Proof.
  intros W. induction epochs as [|k IH]; intros p Wp; [reflexivity|]. cbn [gm_loop]. rewrite round_re by auto.
  destruct (em_round rnd d n x p) as [q|] eqn:E; [|reflexivity]. cbn [bind]. apply round_shaped in E. rewrite moved_re by auto. destruct (moved tol p q); [auto|reflexivity].
Qed.
Lemma loop_shaped n x tol epochs : forall p q, shaped p -> gm_loop rnd d n x tol epochs p = Ok q -> shaped q.
Proof.
  induction epochs as [|k IH]; intros p q W; cbn [gm_loop]; [intros E; injection E as <-; auto|].
  destruct (em_round rnd d n x p) as [p'|] eqn:E; [|discriminate]. cbn [bind]. apply round_shaped in E. destruct (moved tol p p'); [now apply IH|]. intros E'. injection E' as <-. auto.
Qed.
Lemma gm_predict_re p x : shaped p -> width d x -> gm_predict rnd d (params_re p) (map (reordered s) x) = gm_predict rnd d p x.
Proof. intros W H. unfold gm_predict. now rewrite posterior_re. Qed.
Lemma diag_re : grid_reordered s (diag_tenth d) = diag_tenth d.
Proof.
  symmetry. unfold diag_tenth at 1. apply (seq_grid (fun i j => if (i =? j)%nat then 1 / 10 else 0)). intros i j Hi Hj.
  destruct (Nat.eqb_spec i j) as [->|N]; [now rewrite Nat.eqb_refl|]. destruct (Nat.eqb_spec (nth i s 0%nat) (nth j s 0%nat)) as [E|]; [|reflexivity]. destruct N. exact (order_inj Hs Hi Hj E).
Qed.
Lemma diag_square : square d (diag_tenth d).
Proof. split; [unfold diag_tenth; now rewrite map_length, seq_length|]. apply Forall_forall. intros r I. apply in_map_iff in I as (a & <- & _). now rewrite map_length, seq_length. Qed.
Lemma concat_square m : square d m -> length (concat m) = (d * d)%nat /\ chunk d d (concat m) = m.
Proof.
  intros [L F]. rewrite <- L at 3. rewrite chunk_concat by auto. split; [|reflexivity]. rewrite <- L at 1. clear L. induction F as [|r l Hr F IH]; [reflexivity|]. cbn [concat length]. rewrite app_length, IH. lia.
Qed.
Lemma matrix_array_init n ms : length ms = n -> (1 < n)%nat -> (1 < d)%nat -> Forall (square d) ms -> init_covariances d n (matrix_array d ms) = Ok ms.
Proof.
  intros L Hn Hd F. subst n. unfold matrix_array. cbn [init_covariances shape data flat_reals].
  assert (E : squeeze_shape [length ms; d; d] = [length ms; d; d]).
  { unfold squeeze_shape; cbn [filter]; destruct (length ms =? 1)%nat eqn:E1; [apply Nat.eqb_eq in E1; lia|]; destruct (d =? 1)%nat eqn:E2; [apply Nat.eqb_eq in E2; lia|]; reflexivity. }
  rewrite E; unfold shape_eqb; destruct (list_eq_dec Nat.eq_dec _ _) as [_|N]; [|congruence]; cbn [negb]; f_equal.
  rewrite <- (map_length (@concat R) ms), chunk_concat.
  - rewrite map_map. rewrite <- (map_id ms) at 2. apply map_ext_in. intros m I. rewrite Forall_forall in F. now apply concat_square, F.
  - apply Forall_forall. intros c I. apply in_map_iff in I as (m & <- & I). rewrite Forall_forall in F. now apply concat_square, F.
Qed.
Lemma same_cov_re n i i' : same_covariances d s n i i' ->
  init_covariances d n i' = (c <- init_covariances d n i ;; Ok (map (grid_reordered s) c)) /\
  forall c, init_covariances d n i = Ok c -> Forall (square d) c.
Proof.
  intros [[-> ->]|(ms & L & Hn & Hd & F & -> & ->)].
  - cbn [init_covariances bind]. split; [f_equal; rewrite map_map; apply map_ext; intros _; now rewrite diag_re|]. intros c E. injection E as <-.
    apply Forall_forall. intros m I. apply in_map_iff in I as (a & <- & _). exact diag_square.
  - rewrite !matrix_array_init; auto; [|now rewrite map_length|].
    + split; [reflexivity|]. intros c E. now injection E as <-.
    + apply Forall_forall. intros m I. apply in_map_iff in I as (a & <- & _). apply (grid_square Hs).
Qed.
Lemma gm_fit_re randint x n i i' icov icov' imix tol epochs : width d x -> same_starts d s n i i' -> same_covariances d s n icov icov' ->
  both (fun r r' => fst r' = params_re (fst r) /\ snd r' = snd r /\
          forall q, width d q -> gm_predict rnd d (fst r') (map (reordered s) q) = gm_predict rnd d (fst r) q)
    (gm_fit rnd d randint x n i icov imix tol epochs) (gm_fit rnd d randint (map (reordered s) x) n i' icov' imix tol epochs).
Proof.
  intros W S C. destruct (starts_re randint x n i i' W S) as [E Wc]. destruct (same_cov_re n icov icov' C) as [E' Ws]. unfold gm_fit, gm_init. rewrite E, E'.
  destruct (init_centroids randint d x n i) as [c|]; [|reflexivity]. cbn [bind]. specialize (Wc c eq_refl).
  destruct (init_covariances d n icov) as [v|]; [|reflexivity]. cbn [bind]. specialize (Ws v eq_refl).
  destruct (init_mixture_coefficient n imix) as [al|]; [|reflexivity]. cbn [bind].
  set (p := {| mu := c; sigma := v; alpha := al |}). change {| mu := map (reordered s) c; sigma := map (grid_reordered s) v; alpha := al |} with (params_re p).
  assert (Sp : shaped p) by (split; auto).
  rewrite loop_re by auto. destruct (gm_loop rnd d n x tol epochs p) as [q|] eqn:L; [|reflexivity]. cbn [bind].
  pose proof (loop_shaped n x tol epochs p q Sp L) as Wq. rewrite gm_predict_re by auto. destruct (gm_predict rnd d q x) as [cl|]; [|reflexivity]. cbn [bind both fst snd].
  split; [reflexivity|]. split; [reflexivity|]. intros z Wz. now apply gm_predict_re.
Qed.
End Order.
