(** Lemmas for C107: moved zero points in linear discriminant analysis and in mixtures. *)
From Coq Require Import List ZArith Reals Lra Lia Bool Arith.
From Verif.Model Require Import Base Ops KMeans Matrix Lda Gmm.
From Verif.Spec Require Import Common Smo Matrix Svc Units UnitsLinear Lda Logistic BayesUnits Gmm.
From Verif.Proof Require Import BaseLemmas Counting Smo Kernels SvcSym Gmm Lda FitFail UnitsMore UnitsLinear.
Import ListNotations.
Local Open Scope R_scope.

Lemma shift_length t r : length r = length t -> length (shift t r) = length r.
Proof. intros H. unfold shift. rewrite map_length, combine_length. lia. Qed.
Lemma nth_shift t r j : length r = length t -> nth j (shift t r) 0 = nth j r 0 + nth j t 0.
Proof.
  revert r j. induction t as [|w t IH]; intros [|v r] j H; try discriminate; [destruct j; simpl; lra|].
  destruct j; [reflexivity|]. cbn [shift combine map nth]. apply IH. simpl in H. lia.
Qed.
Lemma dot_shift t r w : length r = length t -> dot (shift t r) w = dot r w + dot t w.
Proof.
  revert r w. induction t as [|u t IH]; intros [|v r] w H; try discriminate; [simpl; lra|].
  destruct w as [|z w]; [simpl; lra|]. cbn [shift combine map dot fst snd]. change (map _ (combine r t)) with (shift t r). rewrite IH by (simpl in H; lia). lra.
Qed.
Lemma dot_shift_r t r w : length r = length t -> dot w (shift t r) = dot w r + dot w t.
Proof. intros H. now rewrite dot_comm, dot_shift, (dot_comm r), (dot_comm t). Qed.
Lemma vsub_shift t r s : length r = length t -> length s = length t -> vsub (shift t r) (shift t s) = vsub r s.
Proof.
  revert r s. induction t as [|u t IH]; intros [|v r] [|w s] H H'; try discriminate; [reflexivity|].
  cbn [shift combine map fst snd vsub]. f_equal; [lra|]. apply IH; simpl in *; lia.
Qed.
Lemma far_shift tol t r s : length r = length t -> length s = length t -> far tol (shift t r) (shift t s) = far tol r s.
Proof.
  revert r s. induction t as [|u t IH]; intros [|v r] [|w s] H H'; try discriminate; [reflexivity|].
  unfold far in *. cbn [shift combine map fst snd existsb]. f_equal; [do 2 f_equal; lra|]. apply IH; simpl in *; lia.
Qed.

Section Shift.
Variables (d : nat) (t : list R).
Hypothesis Ht : length t = d.

Lemma column_shift x j : width d x -> column 0 (map (shift t) x) j = map (fun v => v + nth j t 0) (column 0 x j).
Proof. intros W. unfold column. rewrite !map_map. apply map_ext_in. intros r I. unfold width in W. rewrite Forall_forall in W. apply nth_shift. rewrite Ht. auto. Qed.
Lemma width_shift x : width d x -> width d (map (shift t) x).
Proof. unfold width. rewrite !Forall_forall. intros W r I. apply in_map_iff in I as (q & <- & I). rewrite shift_length; [auto|]. rewrite Ht. auto. Qed.

Lemma with_label_shift l x y : with_label l (map (shift t) x) y = map (shift t) (with_label l x y).
Proof.
  unfold with_label. revert y. induction x as [|r x IH]; intros [|v y]; cbn [map combine filter fst snd]; auto.
  destruct (Z.eqb v l); cbn [map fst]; now rewrite IH.
Qed.
Lemma with_label_width l x y : width d x -> width d (with_label l x y).
Proof.
  unfold width, with_label. rewrite !Forall_forall. intros W r I. apply in_map_iff in I as ([q v] & <- & I). apply filter_In in I as [I _]. apply in_combine_l in I. cbn. auto.
Qed.
Lemma map_seq_shift f : map (fun j => f j + nth j t 0) (seq 0 d) = shift t (map f (seq 0 d)).
Proof.
  apply nth_ext with (d := 0) (d' := 0); [rewrite shift_length; rewrite !map_length; auto; rewrite seq_length; lia|].
  rewrite map_length, seq_length. intros j Hj. rewrite nth_shift by (rewrite map_length, seq_length; lia). now rewrite !nth_map_seq.
Qed.
Lemma mean_row_shift x : width d x -> mean_row d (map (shift t) x) = (m <- mean_row d x ;; Ok (shift t m)).
Proof.
  intros W. destruct x as [|r x]; [reflexivity|]. unfold mean_row. cbn [map bind]. f_equal. rewrite <- map_seq_shift.
  apply map_ext. intros j. change (shift t r :: map (shift t) x) with (map (shift t) (r :: x)). rewrite column_shift by auto. apply rmean_shift. discriminate.
Qed.
Lemma mean_row_length x m : mean_row d x = Ok m -> length m = d.
Proof. destruct x; [discriminate|]. intros E. injection E as <-. now rewrite map_length, seq_length. Qed.
Lemma scatter_shift x m : width d x -> length m = d -> scatter_of d (map (shift t) x) (shift t m) = scatter_of d x m.
Proof.
  intros W L. unfold scatter_of. apply map_ext. intros j. apply map_ext. intros k. rewrite map_map. f_equal. apply map_ext_in. intros r I.
  unfold width in W. rewrite Forall_forall in W. rewrite !nth_shift by (rewrite ?Ht; auto). ring.
Qed.
(** The model in the new units. *)
Definition lda_in (m : lda) : lda := {| lda_w := lda_w m; lda_mu0 := shift t (lda_mu0 m); lda_mu1 := shift t (lda_mu1 m) |}.
Lemma lda_fit_shift svd x y : width d x -> lda_fit svd d (map (shift t) x) y = (m <- lda_fit svd d x y ;; Ok (lda_in m)).
Proof.
  intros W. unfold lda_fit. rewrite map_length. destruct (negb (length x =? length y)%nat); [reflexivity|].
  rewrite !with_label_shift, !mean_row_shift by now apply with_label_width.
  destruct (mean_row d (with_label 0 x y)) as [m0|] eqn:E0; [|reflexivity]. destruct (mean_row d (with_label 1 x y)) as [m1|] eqn:E1; [|reflexivity]. cbn [bind].
  apply mean_row_length in E0, E1. unfold within_class_scatter. rewrite !scatter_shift by (auto using with_label_width).
  unfold get_w_v2. destruct (svd _) as [[U S] V]. destruct (inverse _ _); [|reflexivity]. cbn [bind]. rewrite vsub_shift by congruence. reflexivity.
Qed.
Lemma lda_predict_shift m r : length r = d -> length (lda_mu0 m) = d -> length (lda_mu1 m) = d -> lda_predict (lda_in m) (shift t r) = lda_predict m r.
Proof.
  intros H H0 H1. unfold lda_predict, lda_in. cbn [lda_w lda_mu0 lda_mu1]. rewrite dot_shift, !dot_shift_r by congruence. rewrite (dot_comm (lda_w m) t).
  replace (dot r (lda_w m) + dot t (lda_w m) - (dot (lda_w m) (lda_mu1 m) + dot t (lda_w m))) with (dot r (lda_w m) - dot (lda_w m) (lda_mu1 m)) by ring.
  replace (dot r (lda_w m) + dot t (lda_w m) - (dot (lda_w m) (lda_mu0 m) + dot t (lda_w m))) with (dot r (lda_w m) - dot (lda_w m) (lda_mu0 m)) by ring. reflexivity.
Qed.
Lemma lda_fit_lengths svd x y m : lda_fit svd d x y = Ok m -> length (lda_mu0 m) = d /\ length (lda_mu1 m) = d.
Proof.
  unfold lda_fit. destruct (negb _); [discriminate|]. destruct (mean_row d (with_label 0 x y)) as [m0|] eqn:E0; [|discriminate].
  destruct (mean_row d (with_label 1 x y)) as [m1|] eqn:E1; [|discriminate]. cbn [bind]. destruct (get_w_v2 _ _ _ _ _); [|discriminate]. cbn [bind]. intros E. injection E as <-.
  cbn. split; eapply mean_row_length; eauto.
Qed.

(** * Mixtures *)
Variable rnd : R -> R.
Definition params_in (p : params) : params := {| mu := map (shift t) (mu p); sigma := sigma p; alpha := alpha p |}.
Lemma density_shift r m v : length r = d -> length m = d -> normal_density rnd d (shift t r) (shift t m) v = normal_density rnd d r m v.
Proof. intros H H'. unfold normal_density. rewrite vsub_shift, shift_length by congruence. reflexivity. Qed.
Lemma densities_shift p r : width d (mu p) -> length r = d -> densities rnd d (params_in p) (shift t r) = densities rnd d p r.
Proof.
  intros W H. unfold densities, params_in. cbn [mu sigma]. unfold width in W. generalize (sigma p). induction (mu p) as [|m l IH]; intros [|v s]; try reflexivity.
  inversion W as [|? ? W1 W2]. cbn [map combine mapM fst snd]. rewrite density_shift by auto. now rewrite IH.
Qed.
Lemma posterior_shift p x : width d (mu p) -> width d x -> posterior rnd d (params_in p) (map (shift t) x) = posterior rnd d p x.
Proof.
  intros W H. unfold posterior. induction x as [|r x IH]; [reflexivity|]. inversion H as [|? ? H1 H2]. cbn [map mapM]. unfold posterior_row at 1 3. rewrite densities_shift by auto.
  now rewrite IH.
Qed.
Lemma posterior_length p x g : posterior rnd d p x = Ok g -> length g = length x.
Proof. apply mapM_length. Qed.
Lemma gamma_column x (g : list (list R)) i : length g = length x -> rsum (column 0 g i) = rsum (map (fun p : list R * list R => nth i (snd p) 0) (combine x g)).
Proof.
  intros L. unfold column. f_equal. revert x L. induction g as [|w g IH]; intros [|r x] L; try discriminate; [reflexivity|]. cbn [combine map snd]. f_equal. apply IH. simpl in L. lia.
Qed.
Lemma weighted_mean_shift x g i : width d x -> length g = length x ->
  weighted_mean d (map (shift t) x) g i = (m <- weighted_mean d x g i ;; Ok (shift t m)).
Proof.
  intros W L. unfold weighted_mean. destruct (Reqb (rsum (column 0 g i)) 0) eqn:E; [reflexivity|]. cbn [bind]. f_equal. rewrite <- map_seq_shift. apply map_ext. intros j.
  assert (N : rsum (column 0 g i) <> 0) by (intros Z; rewrite Z in E; unfold Reqb in E; destruct (Req_EM_T 0 0); [discriminate|congruence]).
  rewrite combine_map_first, map_map. cbn [fst snd].
  rewrite (rsum_ext (fun p => nth i (snd p) 0 * nth j (shift t (fst p)) 0) (fun p => nth i (snd p) 0 * nth j (fst p) 0 + nth i (snd p) 0 * nth j t 0)).
  - rewrite rsum_map_plus, rsum_map_scal_r, <- gamma_column by auto. field. auto.
  - intros [r w] I. apply in_combine_l in I. unfold width in W. rewrite Forall_forall in W. cbn [fst snd]. rewrite nth_shift by (rewrite Ht; auto). ring.
Qed.
Lemma weighted_mean_length x g i m : weighted_mean d x g i = Ok m -> length m = d.
Proof. unfold weighted_mean. destruct (Reqb _ _); [discriminate|]. intros E. injection E as <-. now rewrite map_length, seq_length. Qed.
Lemma means_shift n x g : width d x -> length g = length x -> calculate_means d n (map (shift t) x) g = (m <- calculate_means d n x g ;; Ok (map (shift t) m)).
Proof.
  intros W L. unfold calculate_means. induction (seq 0 n) as [|i l IH]; [reflexivity|]. cbn [mapM]. rewrite weighted_mean_shift by auto.
  destruct (weighted_mean d x g i); [|reflexivity]. cbn [bind]. rewrite IH. destruct (mapM (weighted_mean d x g) l); reflexivity.
Qed.
Lemma means_width n x g m : calculate_means d n x g = Ok m -> width d m /\ length m = n.
Proof.
  intros E. split; [|apply mapM_length in E; now rewrite seq_length in E].
  revert m E. unfold calculate_means, width. induction (seq 0 n) as [|i l IH]; intros m E; cbn [mapM] in E; [injection E as <-; constructor|].
  destruct (weighted_mean d x g i) eqn:E1; [|discriminate]. cbn [bind] in E. destruct (mapM _ l) eqn:E2; [|discriminate]. cbn [bind] in E. injection E as <-.
  constructor; [eapply weighted_mean_length; eauto|auto].
Qed.
Lemma cov_shift x g m i : width d x -> length m = d -> weighted_cov d (map (shift t) x) g (shift t m) i = weighted_cov d x g m i.
Proof.
  intros W L. unfold weighted_cov. destruct (Reqb _ _); [reflexivity|]. f_equal. apply map_ext. intros j. apply map_ext. intros k. f_equal.
  rewrite combine_map_first, map_map. cbn [fst snd]. apply rsum_ext. intros [r w] I. apply in_combine_l in I. unfold width in W. rewrite Forall_forall in W. cbn [fst snd].
  rewrite !nth_shift by (rewrite ?Ht; auto). ring.
Qed.
Lemma covs_shift n x g m : width d x -> width d m -> length m = n -> calculate_covariances d n (map (shift t) x) (map (shift t) m) g = calculate_covariances d n x m g.
Proof.
  intros W Wm L. unfold calculate_covariances. assert (B : forall i, In i (seq 0 n) -> (i < n)%nat) by (intros i I; apply in_seq in I; lia).
  induction (seq 0 n) as [|i l IH]; [reflexivity|]. cbn [mapM].
  assert (Hi : (i < length m)%nat) by (rewrite L; apply B; now left).
  rewrite (nth_indep _ [] (shift t [])) by now rewrite map_length. rewrite map_nth. rewrite cov_shift; auto; [|unfold width in Wm; rewrite Forall_forall in Wm; apply Wm, nth_In, Hi].
  rewrite IH; [reflexivity|]. intros j I. apply B. now right.
Qed.
Lemma round_shift n x p : width d x -> width d (mu p) -> em_round rnd d n (map (shift t) x) (params_in p) = (q <- em_round rnd d n x p ;; Ok (params_in q)).
Proof.
  intros W Wm. unfold em_round. rewrite posterior_shift by auto. destruct (posterior rnd d p x) as [g|] eqn:E; [|reflexivity]. cbn [bind]. apply posterior_length in E.
  rewrite means_shift by auto. destruct (calculate_means d n x g) as [m|] eqn:E2; [|reflexivity]. cbn [bind]. apply means_width in E2 as [Wn Ln].
  rewrite covs_shift by auto. destruct (calculate_covariances d n x m g) as [s|]; [|reflexivity]. cbn [bind]. now rewrite map_length.
Qed.
Lemma round_width n x p q : em_round rnd d n x p = Ok q -> width d (mu q).
Proof.
  unfold em_round. destruct (posterior rnd d p x) as [g|]; [|discriminate]. cbn [bind]. destruct (calculate_means d n x g) as [m|] eqn:E2; [|discriminate]. cbn [bind].
  destruct (calculate_covariances d n x m g) as [s|]; [|discriminate]. cbn [bind]. intros E. injection E as <-. cbn. now apply means_width in E2.
Qed.
Lemma moved_shift tol p q : width d (mu p) -> width d (mu q) -> moved tol (params_in p) (params_in q) = moved tol p q.
Proof.
  intros W W'. unfold moved, params_in. cbn [mu sigma alpha]. do 2 f_equal. unfold width in *. revert W'. generalize (mu q). induction (mu p) as [|m l IH]; intros [|m' l'] W'; try reflexivity.
  inversion W as [|? ? W1 W2]. inversion W' as [|? ? W3 W4]. cbn [map combine existsb fst snd]. rewrite far_shift by congruence. f_equal. auto.
Qed.
Lemma loop_shift n x tol epochs : width d x -> forall p, width d (mu p) ->
  gm_loop rnd d n (map (shift t) x) tol epochs (params_in p) = (q <- gm_loop rnd d n x tol epochs p ;; Ok (params_in q)).
Proof.
  intros W. induction epochs as [|k IH]; intros p Wp; [reflexivity|]. cbn [gm_loop]. rewrite round_shift by auto.
  destruct (em_round rnd d n x p) as [q|] eqn:E; [|reflexivity]. cbn [bind]. apply round_width in E. rewrite moved_shift by auto. destruct (moved tol p q); [auto|reflexivity].
Qed.
Lemma loop_width n x tol epochs : forall p q, width d (mu p) -> gm_loop rnd d n x tol epochs p = Ok q -> width d (mu q).
Proof.
  induction epochs as [|k IH]; intros p q W; cbn [gm_loop]; [intros E; injection E as <-; auto|].
  destruct (em_round rnd d n x p) as [p'|] eqn:E; [|discriminate]. cbn [bind]. apply round_width in E. destruct (moved tol p p'); [now apply IH|]. intros E'. injection E' as <-. auto.
Qed.
Lemma gm_predict_shift p x : width d (mu p) -> width d x -> gm_predict rnd d (params_in p) (map (shift t) x) = gm_predict rnd d p x.
Proof. intros W H. unfold gm_predict. now rewrite posterior_shift. Qed.
Lemma init_shift randint x n init : by_rows init ->
  init_centroids randint d (map (shift t) x) n init = (c <- init_centroids randint d x n init ;; Ok (map (shift t) c)).
Proof.
  intros B; destruct init as [|s|]; cbn [init_centroids]; [| |reflexivity].
  - rewrite map_length; destruct (length x =? 0)%nat; [reflexivity|]; apply (mapM_get_at_map (shift t) x (fun i => i)).
  - cbn [by_rows] in B; destruct (squeeze_shape (shape s)) as [|k [|k' l]]; try discriminate.
    destruct (negb (k =? n)%nat); [reflexivity|]; destruct (np_min (flat_reals (data s))) as [mn|]; cbn [bind]; [|reflexivity]; destruct (np_max (flat_reals (data s))) as [mx|]; cbn [bind]; [|reflexivity].
    rewrite map_length; destruct (Rltb mn 0 || Rleb (INR (length x)) mx); [reflexivity|]; destruct (data s) as [zs|vs]; [|reflexivity]; apply (mapM_get_at_map (shift t) x Z.to_nat).
Qed.
Lemma gm_fit_shift randint x n init icov imix tol epochs : by_rows init -> width d x ->
  both (fun r r' => fst r' = params_in (fst r) /\ snd r' = snd r /\
          forall q, width d q -> gm_predict rnd d (fst r') (map (shift t) q) = gm_predict rnd d (fst r) q)
    (gm_fit rnd d randint x n init icov imix tol epochs) (gm_fit rnd d randint (map (shift t) x) n init icov imix tol epochs).
Proof.
  intros B W. unfold gm_fit, gm_init. rewrite init_shift by auto. destruct (init_centroids randint d x n init) as [c|] eqn:E; [|reflexivity]. cbn [bind].
  pose proof (init_wide _ _ _ _ _ _ B W E) as Wc. destruct (init_covariances d n icov) as [s|]; [|reflexivity]. cbn [bind].
  destruct (init_mixture_coefficient n imix) as [al|]; [|reflexivity]. cbn [bind].
  change {| mu := map (shift t) c; sigma := s; alpha := al |} with (params_in {| mu := c; sigma := s; alpha := al |}).
  rewrite loop_shift by auto. destruct (gm_loop rnd d n x tol epochs {| mu := c; sigma := s; alpha := al |}) as [q|] eqn:L; [|reflexivity]. cbn [bind].
  pose proof (loop_width n x tol epochs {| mu := c; sigma := s; alpha := al |} q Wc L) as Wq. rewrite gm_predict_shift by auto. destruct (gm_predict rnd d q x) as [cl|]; [|reflexivity]. cbn [bind both fst snd].
  split; [reflexivity|]. split; [reflexivity|]. intros z Wz. now apply gm_predict_shift.
Qed.
Lemma lda_both svd x y : width d x ->
  both (fun m m' => lda_w m' = lda_w m /\ lda_mu0 m' = shift t (lda_mu0 m) /\ lda_mu1 m' = shift t (lda_mu1 m) /\
          forall q, length q = d -> lda_predict m' (shift t q) = lda_predict m q)
    (lda_fit svd d x y) (lda_fit svd d (map (shift t) x) y).
Proof.
  intros W. rewrite lda_fit_shift by auto. destruct (lda_fit svd d x y) as [m|] eqn:E; [|reflexivity]. cbn [bind both].
  do 3 (split; [reflexivity|]). apply lda_fit_lengths in E as [L0 L1]. intros q Hq. now apply lda_predict_shift.
Qed.
End Shift.

(** * One feature *)
Lemma lda_nearest svd x y m q : decomposes svd 1 x y -> lda_fit svd 1 x y = Ok m ->
  (lda_predict m [q] = 1%Z <-> Rabs (q - class_mean 0 (class_rows 1 x y)) < Rabs (q - class_mean 0 (class_rows 0 x y))) /\
  (lda_predict m [q] = 0%Z <-> ~ Rabs (q - class_mean 0 (class_rows 1 x y)) < Rabs (q - class_mean 0 (class_rows 0 x y))).
Proof.
  intros D E. pose proof (lda_one_feature svd x y m D E) as S. destruct (lda_fit_spec _ _ _ _ _ D E) as (L0 & L1 & Lw & Mu & _).
  destruct (Mu 0%nat ltac:(lia)) as [M0 M1].
  assert (V : lda_predict m [q] = 1%Z \/ lda_predict m [q] = 0%Z) by (unfold lda_predict; destruct (Rltb _ _); auto).
  assert (P : lda_predict m [q] = 1%Z <-> Rabs (q - class_mean 0 (class_rows 1 x y)) < Rabs (q - class_mean 0 (class_rows 0 x y))).
  { destruct (predict_rule m [q]) as [_ P]; try (simpl; congruence). rewrite P. clear P. unfold inner. rewrite Lw. unfold sum_below, total. cbn [seq map fold_right nth].
    rewrite M0, M1. set (w := nth 0 (lda_w m) 0) in *. set (c0 := class_mean 0 (class_rows 0 x y)) in *. set (c1 := class_mean 0 (class_rows 1 x y)) in *.
    replace (w * q + 0 - (w * c1 + 0)) with (w * (q - c1)) by ring. replace (w * q + 0 - (w * c0 + 0)) with (w * (q - c0)) by ring. rewrite !Rabs_mult.
    destruct (Req_dec w 0) as [Z|N].
    - rewrite Z in *. rewrite Rabs_R0. replace c1 with c0 by lra. lra.
    - pose proof (Rabs_pos_lt w N). split; intros H'; [apply Rmult_lt_reg_l in H'; auto|apply Rmult_lt_compat_l; auto]. }
  split; [exact P|]. rewrite <- P. destruct V as [-> | ->]; split; intros H; try discriminate; try congruence.
Qed.
Lemma class_rows_map f l x y : class_rows l (map f x) y = map f (class_rows l x y).
Proof.
  unfold class_rows. revert y. induction x as [|r x IH]; intros [|v y]; cbn [map combine filter fst snd]; auto.
  destruct (Z.eqb v l); cbn [map fst]; now rewrite IH.
Qed.
Lemma class_mean_units a b rows : rows <> [] -> class_mean 0 (map (row_units [a] [b]) rows) = a * class_mean 0 rows + b.
Proof.
  intros N. unfold class_mean. rewrite map_length, map_map. change total with rsum. cbn [row_units length seq map nth].
  rewrite (rsum_map_plus (fun r => a * nth 0 r 0) (fun _ => b)), rsum_map_scal, rsum_map_const. field. apply not_0_INR. destruct rows; [congruence|discriminate].
Qed.
Lemma lda_fit_rows svd x y m : lda_fit svd 1 x y = Ok m -> class_rows 0 x y <> [] /\ class_rows 1 x y <> [].
Proof.
  unfold lda_fit. destruct (negb _); [discriminate|]. change (with_label 0 x y) with (class_rows 0 x y). change (with_label 1 x y) with (class_rows 1 x y).
  destruct (class_rows 0 x y); [discriminate|]. destruct (class_rows 1 x y); [discriminate|]. split; discriminate.
Qed.
Lemma lda_units_one svd svd' a b x y m m' q : a <> 0 -> decomposes svd 1 x y -> decomposes svd' 1 (map (row_units [a] [b]) x) y ->
  lda_fit svd 1 x y = Ok m -> lda_fit svd' 1 (map (row_units [a] [b]) x) y = Ok m' ->
  lda_predict m' (row_units [a] [b] [q]) = lda_predict m [q].
Proof.
  intros Na D D' E E'. change (row_units [a] [b] [q]) with [a * q + b]. destruct (lda_nearest _ _ _ _ q D E) as [P1 P0]. destruct (lda_nearest _ _ _ _ (a * q + b) D' E') as [Q1 Q0].
  destruct (lda_fit_rows _ _ _ _ E) as [R0 R1]. rewrite !class_rows_map, !class_mean_units in Q1, Q0 by auto.
  assert (Z : forall c, a * q + b - (a * c + b) = a * (q - c)) by (intros; ring). rewrite !Z, !Rabs_mult in Q1, Q0. pose proof (Rabs_pos_lt a Na).
  assert (K : Rabs a * Rabs (q - class_mean 0 (class_rows 1 x y)) < Rabs a * Rabs (q - class_mean 0 (class_rows 0 x y)) <-> Rabs (q - class_mean 0 (class_rows 1 x y)) < Rabs (q - class_mean 0 (class_rows 0 x y)))
    by (split; intros H'; [apply Rmult_lt_reg_l in H'; auto|apply Rmult_lt_compat_l; auto]).
  destruct (Rlt_dec (Rabs (q - class_mean 0 (class_rows 1 x y))) (Rabs (q - class_mean 0 (class_rows 0 x y)))) as [L|L].
  - transitivity 1%Z; [now apply Q1, K|symmetry; now apply P1].
  - transitivity 0%Z; [apply Q0; now rewrite K|symmetry; now apply P0].
Qed.

(** * Witnesses *)
Definition three_x : list (list R) := [[0; 0]; [0; 2]; [12; 1]; [15; 1]].
Definition three_svd (s : list (list R)) : list (list R) * list R * list (list R) :=
  if Req_EM_T (nth 0 (nth 0 s []) 0) (1 / 2) then (wit_swap, [2; 1 / 2], wit_swap) else ([[1; 0]; [0; 1]], [9 / 2; 2], [[1; 0]; [0; 1]]).
Lemma three_units : map (row_units [3; 1] [0; 0]) wit_x = three_x.
Proof. unfold wit_x, three_x, row_units. cbn [map length seq nth]. repeat (f_equal; try lra). Qed.
Lemma three_means : mean_row 2 (class_rows 0 three_x wit_y) = Ok [0; 1] /\ mean_row 2 (class_rows 1 three_x wit_y) = Ok [27 / 2; 1].
Proof. unfold class_rows, three_x, wit_y, mean_row, column, rmean, rsum. simpl. split; f_equal; (f_equal; [field|f_equal; field]). Qed.
Lemma three_scatter s : scatter_matrix 2 three_x wit_y s -> s = [[9 / 2; 0]; [0; 2]].
Proof.
  intros [[L F] Sc]. pose proof (Sc 0%nat 0%nat ltac:(lia) ltac:(lia)) as S00. pose proof (Sc 0%nat 1%nat ltac:(lia) ltac:(lia)) as S01.
  pose proof (Sc 1%nat 0%nat ltac:(lia) ltac:(lia)) as S10. pose proof (Sc 1%nat 1%nat ltac:(lia) ltac:(lia)) as S11.
  destruct s as [|r0 [|r1 [|]]]; try discriminate. inversion F as [|? ? A F']; subst. inversion F' as [|? ? B _]; subst.
  destruct r0 as [|a [|b [|]]]; try discriminate. destruct r1 as [|c [|e [|]]]; try discriminate.
  unfold entry, class_scatter, class_mean, total, three_x, wit_y, class_rows in S00, S01, S10, S11. simpl in S00, S01, S10, S11.
  repeat f_equal; [rewrite S00|rewrite S01|rewrite S10|rewrite S11]; field.
Qed.
Lemma three_scatter' : within_class_scatter 2 (class_rows 0 three_x wit_y) (class_rows 1 three_x wit_y) [0; 1] [27 / 2; 1] = [[9 / 2; 0]; [0; 2]].
Proof.
  unfold within_class_scatter, scatter_of, class_rows, three_x, wit_y, rsum, vadd. simpl. f_equal; [f_equal; [field|f_equal; field]|f_equal; f_equal; [field|f_equal; field]].
Qed.
Lemma decomp_diag a b : b <= a -> 0 <= b -> singular_value_decomposition 2 [[a; 0]; [0; b]] [[1; 0]; [0; 1]] [a; b] [[1; 0]; [0; 1]].
Proof.
  intros H1 H2. split; [split; [reflexivity|repeat constructor]|]. split; [split; [reflexivity|repeat constructor]|]. split; [reflexivity|].
  split; [intros [|[|i]] [|[|j]] Hi Hj; try lia; unfold sum_below, total, entry; simpl; lra|].
  split; [intros [|[|i]] [|[|j]] Hi Hj; try lia; unfold sum_below, total, entry; simpl; lra|].
  split; [intros [|[|i]] Hi; try lia; simpl; lra|].
  split; [intros [|[|i]] [|[|j]] Hi Hj; try lia; simpl; lra|].
  intros [|[|i]] [|[|j]] Hi Hj; try lia; unfold sum_below, total, entry; simpl; lra.
Qed.
Lemma three_decomposes : decomposes three_svd 2 wit_x wit_y /\ decomposes three_svd 2 three_x wit_y.
Proof.
  split; intros s Hs.
  - rewrite (wit_scatter s Hs). unfold three_svd, wit_s. cbn [nth]. destruct (Req_EM_T (1 / 2) (1 / 2)); [|congruence].
    split; [split; [reflexivity|repeat constructor]|]. split; [split; [reflexivity|repeat constructor]|]. split; [reflexivity|].
    split; [intros [|[|i]] [|[|j]] Hi Hj; try lia; unfold sum_below, total, entry; simpl; lra|].
    split; [intros [|[|i]] [|[|j]] Hi Hj; try lia; unfold sum_below, total, entry; simpl; lra|].
    split; [intros [|[|i]] Hi; try lia; simpl; lra|].
    split; [intros [|[|i]] [|[|j]] Hi Hj; try lia; simpl; lra|].
    intros [|[|i]] [|[|j]] Hi Hj; try lia; unfold sum_below, total, entry; simpl; lra.
  - rewrite (three_scatter s Hs). unfold three_svd. cbn [nth]. destruct (Req_EM_T (9 / 2) (1 / 2)); [lra|]. apply decomp_diag; lra.
Qed.
Lemma three_fit : exists m, lda_fit three_svd 2 three_x wit_y = Ok m /\ map (lda_predict m) three_x = wit_y.
Proof.
  destruct three_means as [M0 M1]. unfold lda_fit. change (with_label 0 three_x wit_y) with (class_rows 0 three_x wit_y). change (with_label 1 three_x wit_y) with (class_rows 1 three_x wit_y).
  rewrite M0, M1. cbn [length Nat.eqb negb three_x wit_y bind]. fold three_x wit_y. rewrite three_scatter'. unfold get_w_v2, three_svd. cbn [nth]. destruct (Req_EM_T (9 / 2) (1 / 2)); [lra|].
  assert (I : inverse 2 (diag 2 [9 / 2; 2]) = Ok [[2 / 9; 0]; [0; 1 / 2]]).
  { unfold inverse. destruct (Reqb _ 0) eqn:E; [apply Reqb_true in E; exfalso; unfold det, diag, minor, drop_nth, sign, rsum in E; simpl in E; lra|].
    unfold det, diag, minor, drop_nth, sign, rsum. simpl. repeat (f_equal; try field). }
  rewrite I. cbn [bind]. eexists. split; [reflexivity|]. unfold three_x, wit_y, elementwise, transposed, vsub. cbn [seq map combine fst snd column nth dot].
  unfold lda_predict. cbn [lda_w lda_mu0 lda_mu1 dot].
  unfold Rltb. repeat match goal with |- context [Rlt_dec ?p ?q] => destruct (Rlt_dec p q) as [H|H]; [try (exfalso; revert H; unfold Rabs; repeat destruct (Rcase_abs _); lra)|try (exfalso; revert H; unfold Rabs; repeat destruct (Rcase_abs _); lra)]; clear H end. reflexivity.
Qed.
Lemma three_old m : lda_fit three_svd 2 wit_x wit_y = Ok m -> map (lda_predict m) wit_x = [0; 0; 0; 0]%Z.
Proof.
  intros E. destruct (wit_all_zero three_svd m (proj1 three_decomposes) E) as [_ Z]. unfold wit_x. cbn [map]. rewrite !Z by reflexivity. reflexivity.
Qed.
Lemma three_old_fit : exists m, lda_fit three_svd 2 wit_x wit_y = Ok m.
Proof.
  destruct wit_means as [M0 M1].
  unfold lda_fit. change (with_label 0 wit_x wit_y) with (class_rows 0 wit_x wit_y). change (with_label 1 wit_x wit_y) with (class_rows 1 wit_x wit_y).
  rewrite M0, M1. cbn [length Nat.eqb negb wit_x wit_y bind]. fold wit_x wit_y.
  assert (I : forall a b, a * b <> 0 -> exists M, inverse 2 (diag 2 [a; b]) = Ok M).
  { intros a b N. unfold inverse. destruct (Reqb _ 0) eqn:E; [|eauto]. apply Reqb_true in E. exfalso. apply N. unfold det, diag, minor, drop_nth, sign, rsum in E. simpl in E. lra. }
  unfold get_w_v2, three_svd. destruct (Req_EM_T _ _).
  - destruct (I 2 (1 / 2) ltac:(lra)) as [M ->]. cbn [bind]. eauto.
  - destruct (I (9 / 2) 2 ltac:(lra)) as [M ->]. cbn [bind]. eauto.
Qed.
