(** Proofs about training rows that are given several times: the numerical models
    (C110). *)
From Coq Require Import List ZArith Reals Lra Lia Bool Arith Permutation.
From Verif.Model Require Import Base Ops Matrix Metrics Logistic KMeans Lda Gmm Activations Preprocessing.
From Verif.Model Require Rbf Network.
From Verif.Spec Require Import Common Copies Gmm Matrix.
From Verif.Proof Require Import BaseLemmas Counting Determinant RowOrder ColumnsMx Preprocessing Smo.
Import ListNotations.
Local Open Scope R_scope.
Local Notation length := List.length.

(** ** Lists *)
Lemma copies_S {A} k (l : list A) : copies (S k) l = l ++ copies k l.
Proof. reflexivity. Qed.
Lemma copies_1 {A} (l : list A) : copies 1 l = l.
Proof. unfold copies. cbn. apply app_nil_r. Qed.
Lemma copies_length {A} k (l : list A) : length (copies k l) = (k * length l)%nat.
Proof. induction k as [|k IH]; auto. rewrite copies_S, app_length, IH. reflexivity. Qed.
Lemma copies_map {A B} (f : A -> B) k l : map f (copies k l) = copies k (map f l).
Proof. induction k as [|k IH]; auto. now rewrite !copies_S, map_app, IH. Qed.
Lemma copies_filter {A} (f : A -> bool) k l : filter f (copies k l) = copies k (filter f l).
Proof. induction k as [|k IH]; auto. now rewrite !copies_S, filter_app, IH. Qed.
Lemma combine_app {A B} (l l' : list A) : forall (m m' : list B), length l = length m ->
  combine (l ++ l') (m ++ m') = combine l m ++ combine l' m'.
Proof. induction l as [|a l IH]; intros [|b m] m' E; cbn in *; try lia; auto. f_equal. apply IH. lia. Qed.
Lemma copies_combine {A B} k (l : list A) (m : list B) : length l = length m ->
  combine (copies k l) (copies k m) = copies k (combine l m).
Proof. intros E. induction k as [|k IH]; auto. now rewrite !copies_S, combine_app, IH. Qed.
Lemma copies_In {A} k (l : list A) a : (0 < k)%nat -> In a (copies k l) <-> In a l.
Proof.
  intros H. destruct k as [|k]; [lia|]. clear H. induction k as [|k IH]; [now rewrite copies_1|].
  rewrite copies_S, in_app_iff, IH. tauto.
Qed.
Lemma copies_nil {A} k : copies k (@nil A) = [].
Proof. induction k; auto. Qed.
Lemma copies_cons {A} k (a : A) l : (0 < k)%nat -> exists m, copies k (a :: l) = a :: m.
Proof. destruct k; [lia|]. intros _. rewrite copies_S. cbn. eauto. Qed.
Lemma rsum_copies k l : rsum (copies k l) = INR k * rsum l.
Proof. induction k as [|k IH]; [cbn; lra|]. rewrite copies_S, rsum_app, IH, S_INR. lra. Qed.
Lemma count_copies {A} (f : A -> bool) k l : count f (copies k l) = (k * count f l)%nat.
Proof. unfold count. now rewrite copies_filter, copies_length. Qed.
Lemma INR_pos k : (0 < k)%nat -> 0 < INR k.
Proof. intros. apply lt_0_INR. auto. Qed.
Lemma ratio_copies k a b : (0 < k)%nat -> (INR k * a) / (INR k * b) = a / b.
Proof.
  intros H. pose proof (INR_pos k H) as P. destruct (Req_dec b 0) as [->|N].
  - rewrite Rmult_0_r. unfold Rdiv. rewrite Rinv_0. lra.
  - field. split; lra.
Qed.
Lemma rmean_copies k l : (0 < k)%nat -> rmean (copies k l) = rmean l.
Proof. intros H. unfold rmean. rewrite rsum_copies, copies_length, mult_INR. now apply ratio_copies. Qed.
Lemma rvar_copies k l : (0 < k)%nat -> rvar (copies k l) = rvar l.
Proof. intros H. unfold rvar. rewrite rmean_copies by auto. rewrite copies_map. now apply rmean_copies. Qed.
Lemma nodup_absorb {A} (dec : forall x y : A, {x = y} + {x <> y}) a b : incl a b -> nodup dec (a ++ b) = nodup dec b.
Proof.
  induction a as [|x a IH]; intros H; cbn; auto. destruct (in_dec dec x (a ++ b)) as [I|N].
  - apply IH. intros y Hy. apply H. now right.
  - exfalso. apply N, in_or_app. right. apply H. now left.
Qed.
Lemma nodup_copies {A} (dec : forall x y : A, {x = y} + {x <> y}) k l : (0 < k)%nat -> nodup dec (copies k l) = nodup dec l.
Proof.
  intros H. destruct k as [|k]; [lia|]. clear H. induction k as [|k IH]; [now rewrite copies_1|].
  rewrite copies_S, nodup_absorb, IH; auto. intros a Ha. apply copies_In; auto. lia.
Qed.
Lemma mapM_app {A B} (f : A -> result B) l m : mapM f (l ++ m) = (a <- mapM f l ;; b <- mapM f m ;; Ok (a ++ b)).
Proof.
  induction l as [|x l IH]; cbn; [now destruct (mapM f m)|]. destruct (f x); cbn; auto. rewrite IH.
  destruct (mapM f l); cbn; auto. destruct (mapM f m); reflexivity.
Qed.
Lemma mapM_copies {A B} (f : A -> result B) k l : (0 < k)%nat ->
  mapM f (copies k l) = (r <- mapM f l ;; Ok (copies k r)).
Proof.
  intros H. destruct k as [|k]; [lia|]. clear H. induction k as [|k IH].
  - rewrite copies_1. destruct (mapM f l) as [r|]; cbn [bind]; auto. now rewrite copies_1.
  - rewrite copies_S, mapM_app, IH. destruct (mapM f l) as [r|]; cbn [bind]; auto.
Qed.
Lemma mapM_len {A B} (f : A -> result B) l : forall r, mapM f l = Ok r -> length l = length r.
Proof.
  induction l as [|x l IH]; intros r E; cbn in E; [injection E as <-; auto|].
  destruct (f x); cbn in E; [|discriminate]. destruct (mapM f l); cbn in E; [|discriminate]. injection E as <-. cbn. f_equal. now apply IH.
Qed.
Lemma Reqb_scaled k s : (0 < k)%nat -> Reqb (INR k * s) 0 = Reqb s 0.
Proof.
  intros H. pose proof (INR_pos k H). unfold Reqb. destruct (Req_EM_T (INR k * s) 0) as [E|E], (Req_EM_T s 0) as [F|F]; auto; exfalso.
  - apply F. apply (Rmult_eq_reg_l (INR k)); lra.
  - apply E. subst. lra.
Qed.

(** ** K-means *)
Section Copies.
Variable k : nat.
Hypothesis Hk : (0 < k)%nat.

Lemma mean_rows_copies d rows : mean_rows d (copies k rows) = mean_rows d rows.
Proof.
  assert (E : map (fun j => rmean (column 0 (copies k rows) j)) (seq 0 d) = map (fun j => rmean (column 0 rows j)) (seq 0 d)).
  { apply map_ext. intros j. unfold column. rewrite copies_map. now apply rmean_copies. }
  unfold mean_rows. rewrite E. destruct rows as [|r rows]; [now rewrite copies_nil|].
  destruct (copies_cons k r rows Hk) as (m & ->). reflexivity.
Qed.
Lemma centroids_copies d x cl : length x = length cl -> calculate_centroids d (copies k x) (copies k cl) = calculate_centroids d x cl.
Proof.
  intros L. unfold calculate_centroids. rewrite nodup_copies by auto. apply map_ext. intros i.
  unfold KMeans.members. rewrite copies_combine, copies_filter, copies_map by auto. apply mean_rows_copies.
Qed.
Lemma cluster_copies x c : get_cluster (calculate_euclidean_distance (copies k x) c) =
  (l <- get_cluster (calculate_euclidean_distance x c) ;; Ok (copies k l)).
Proof. unfold get_cluster, calculate_euclidean_distance. rewrite copies_map. now apply mapM_copies. Qed.
Definition km_copied (r : result (list centroid * option (list nat) * bool)) : result (list centroid * option (list nat) * bool) :=
  match r with Ok (c, cl, s) => Ok (c, option_map (copies k) cl, s) | Err e => Err e end.
Lemma km_loop_copies d x tol n : forall c cl,
  km_loop d (copies k x) tol n c (option_map (copies k) cl) = km_copied (km_loop d x tol n c cl).
Proof.
  induction n as [|n IH]; intros c cl; cbn [km_loop]; [reflexivity|].
  rewrite cluster_copies. destruct (get_cluster (calculate_euclidean_distance x c)) as [l|e] eqn:E; cbn [bind]; [|reflexivity].
  assert (L : length x = length l).
  { apply mapM_len in E. unfold calculate_euclidean_distance in E. now rewrite map_length in E. }
  rewrite centroids_copies by auto. destruct (compare_differences_any _ _ _) as [ch|e]; cbn [bind]; [|reflexivity].
  destruct ch; [|reflexivity]. apply (IH _ (Some l)).
Qed.
Lemma km_fit_copies randint randint' d x n a tol epochs : length (squeeze_shape (shape a)) = 2%nat ->
  km_fit randint' d (copies k x) n (InitArray a) tol epochs = km_copied (km_fit randint d x n (InitArray a) tol epochs).
Proof.
  intros H. unfold km_fit. assert (E : init_centroids randint' d (copies k x) n (InitArray a) = init_centroids randint d x n (InitArray a)).
  { cbn. destruct (squeeze_shape (shape a)) as [|? [|]]; cbn in H; try lia. reflexivity. }
  rewrite E. destruct (init_centroids randint d x n (InitArray a)) as [c|]; cbn [bind]; [|reflexivity].
  apply (km_loop_copies _ _ _ _ _ None).
Qed.

(** ** Gaussian mixtures *)
Section Mixture.
Variable rnd : R -> R.
Variable d : nat.
Lemma column_copies g i : rsum (column 0 (copies k g) i) = INR k * rsum (column 0 g i).
Proof. unfold column. rewrite copies_map. apply rsum_copies. Qed.
Lemma weighted_mean_copies x g i : length x = length g -> weighted_mean d (copies k x) (copies k g) i = weighted_mean d x g i.
Proof.
  intros L. unfold weighted_mean. cbn zeta. rewrite column_copies, Reqb_scaled by auto. destruct (Reqb _ 0); auto. f_equal.
  apply map_ext. intros j. rewrite copies_combine, copies_map, rsum_copies by auto. now apply ratio_copies.
Qed.
Lemma weighted_cov_copies x g m i : length x = length g -> weighted_cov d (copies k x) (copies k g) m i = weighted_cov d x g m i.
Proof.
  intros L. unfold weighted_cov. cbn zeta. rewrite column_copies, Reqb_scaled by auto. destruct (Reqb _ 0); auto. f_equal.
  apply map_ext. intros a. apply map_ext. intros b. rewrite copies_combine, copies_map, rsum_copies by auto. now apply ratio_copies.
Qed.
Lemma mixture_copies n (x : list (list R)) g : calculate_mixture n (length (copies k x)) (copies k g) = calculate_mixture n (length x) g.
Proof.
  unfold calculate_mixture. apply map_ext. intros i. rewrite column_copies, copies_length, mult_INR.
  pose proof (ratio_copies k (rsum (column 0 g i)) (INR (length x)) Hk) as E. unfold Rdiv in *. rewrite !Rmult_1_l in *.
  rewrite (Rmult_comm _ (INR k * _)), E. ring.
Qed.
Lemma em_round_copies n x t : em_round rnd d n (copies k x) t = em_round rnd d n x t.
Proof.
  unfold em_round, posterior. rewrite mapM_copies by auto. destruct (mapM (posterior_row rnd d t) x) as [g|] eqn:E; cbn [bind]; auto.
  apply mapM_len in E.
  assert (M : calculate_means d n (copies k x) (copies k g) = calculate_means d n x g) by (apply mapM_ext; intros; now apply weighted_mean_copies).
  rewrite M. destruct (calculate_means d n x g) as [m|]; cbn [bind]; auto.
  assert (F : calculate_covariances d n (copies k x) m (copies k g) = calculate_covariances d n x m g) by (apply mapM_ext; intros; now apply weighted_cov_copies).
  rewrite F. destruct (calculate_covariances d n x m g) as [s|]; cbn [bind]; auto. now rewrite mixture_copies.
Qed.
Lemma gm_loop_copies n x tol epochs : forall t, gm_loop rnd d n (copies k x) tol epochs t = gm_loop rnd d n x tol epochs t.
Proof.
  induction epochs as [|e IH]; intros t; cbn [gm_loop]; auto. rewrite em_round_copies. destruct (em_round rnd d n x t); cbn [bind]; auto.
  destruct (moved tol t a); auto.
Qed.
Lemma gm_predict_copies t x : gm_predict rnd d t (copies k x) = (l <- gm_predict rnd d t x ;; Ok (copies k l)).
Proof.
  unfold gm_predict, posterior. rewrite mapM_copies by auto. destruct (mapM (posterior_row rnd d t) x); cbn [bind]; auto. now apply mapM_copies.
Qed.
Lemma gm_fit_copies randint randint' x n a ic im tol epochs : length (squeeze_shape (shape a)) = 2%nat ->
  gm_fit rnd d randint' (copies k x) n (InitArray a) ic im tol epochs =
  (r <- gm_fit rnd d randint x n (InitArray a) ic im tol epochs ;; Ok (fst r, copies k (snd r))).
Proof.
  intros H. unfold gm_fit, gm_init.
  assert (E : init_centroids randint' d (copies k x) n (InitArray a) = init_centroids randint d x n (InitArray a)).
  { cbn. destruct (squeeze_shape (shape a)) as [|? [|]]; cbn in H; try lia. reflexivity. }
  rewrite E. destruct (init_centroids randint d x n (InitArray a)) as [m|]; cbn [bind]; [|reflexivity].
  destruct (init_covariances d n ic) as [s|]; cbn [bind]; [|reflexivity].
  destruct (init_mixture_coefficient n im) as [al|]; cbn [bind]; [|reflexivity].
  rewrite gm_loop_copies. destruct (gm_loop _ _ _ _ _ _ _) as [u|]; cbn [bind]; [|reflexivity].
  rewrite gm_predict_copies. destruct (gm_predict _ _ _ _); reflexivity.
Qed.
End Mixture.

(** ** Scaled matrices *)
End Copies.
Lemma entry_scaled c m i j : entry (scaled c m) i j = c * entry m i j.
Proof.
  unfold entry, scaled. change (@nil R) with (vscale c []) at 1. rewrite map_nth. unfold vscale.
  rewrite <- (Rmult_0_r c) at 1. apply map_nth.
Qed.
Lemma scaled_square c n m : square n m -> square n (scaled c m).
Proof.
  intros [L F]. split; [unfold scaled; now rewrite map_length|]. apply Forall_forall. intros r I. apply in_map_iff in I.
  destruct I as (q & <- & Q). unfold vscale. rewrite map_length. rewrite Forall_forall in F. auto.
Qed.
Lemma scaled_one n a b c : c <> 0 -> product_is_one n a b -> product_is_one n (scaled c a) (scaled (/ c) b).
Proof.
  intros C H i j Hi Hj. rewrite <- (H i j Hi Hj). apply Smo.sum_below_ext. intros q _. rewrite !entry_scaled. now field.
Qed.
Lemma scaled_scaled c m : c <> 0 -> scaled (/ c) (scaled c m) = m.
Proof.
  intros C. unfold scaled. rewrite map_map, <- map_id. apply map_ext. intros r. unfold vscale. rewrite map_map, <- map_id.
  apply map_ext. intros v. now field.
Qed.
Lemma inverse_scaled n m c : c <> 0 -> inverse n (scaled c m) = match inverse n m with Ok q => Ok (scaled (/ c) q) | Err e => Err e end.
Proof.
  intros C. assert (C' : / c <> 0) by now apply Rinv_neq_0_compat.
  destruct (inverse n m) as [q|e] eqn:E; destruct (inverse n (scaled c m)) as [q'|e'] eqn:E'.
  - f_equal. destruct (inverse_ok E) as (S & Rt & L). destruct (inverse_ok E') as (S' & _). apply (@square_eq n); auto using scaled_square.
    intros i j Hi Hj. symmetry. refine (left_inverse_unique E' _ Hi Hj).
    pose proof (scaled_one n q m (/ c) C' L) as Q. now rewrite Rinv_inv in Q.
  - destruct (inverse_ok E) as (_ & Rt & _). destruct (inverse_err E') as (_ & N). exfalso. apply (proj1 (N (scaled (/ c) q))). now apply scaled_one.
  - destruct (inverse_ok E') as (_ & Rt & _). destruct (inverse_err E) as (_ & N). exfalso. apply (proj1 (N (scaled c q'))).
    pose proof (scaled_one n _ _ (/ c) C' Rt) as Q. now rewrite scaled_scaled, Rinv_inv in Q.
  - now rewrite (proj1 (inverse_err E)), (proj1 (inverse_err E')).
Qed.

Lemma dot_scale_l c a : forall b, dot (vscale c a) b = c * dot a b.
Proof. unfold vscale. induction a as [|x a IH]; intros [|y b]; cbn; try lra. fold (dot (map (Rmult c) a) b) (dot a b). rewrite IH. lra. Qed.
Lemma dot_scale_r c a : forall b, dot a (vscale c b) = c * dot a b.
Proof. unfold vscale. induction a as [|x a IH]; intros [|y b]; cbn; try lra. fold (dot a (map (Rmult c) b)) (dot a b). rewrite IH. lra. Qed.

(** ** Logistic regression *)
Section Linear.
Variable k : nat.
Hypothesis Hk : (0 < k)%nat.
Lemma gradient_copies d x y b : length x = length y -> gradient_at d (copies k x) (copies k y) b = vscale (INR k) (gradient_at d x y b).
Proof.
  intros L. unfold gradient_at, backward, forward, vscale. rewrite !copies_map, map_map. apply map_ext. intros j.
  rewrite copies_combine by (now rewrite !map_length). rewrite copies_combine by (rewrite combine_length, !map_length; lia).
  rewrite copies_map. apply rsum_copies.
Qed.
Lemma hessian_copies d x b : hessian_at d (copies k x) b = scaled (INR k) (hessian_at d x b).
Proof.
  unfold hessian_at, hessian, forward, scaled. rewrite !copies_map, map_map. apply map_ext. intros j.
  unfold vscale. rewrite map_map. apply map_ext. intros i. rewrite copies_combine by (now rewrite !map_length).
  rewrite copies_map. apply rsum_copies.
Qed.
Lemma newton_copies d x y b : length x = length y -> newton_step d (copies k x) (copies k y) b = newton_step d x y b.
Proof.
  intros L. pose proof (INR_pos k Hk) as P. unfold newton_step. rewrite hessian_copies, inverse_scaled by lra.
  destruct (inverse (S d) (hessian_at d x b)) as [q|]; cbn [bind]; auto. f_equal. f_equal. unfold scaled. rewrite map_map.
  apply map_ext. intros r. rewrite gradient_copies by auto. rewrite dot_scale_l, dot_scale_r. field. lra.
Qed.
Lemma gd_copies rate d x y b : length x = length y -> gd_step rate d (copies k x) (copies k y) b = gd_step (INR k * rate) d x y b.
Proof.
  intros L. unfold gd_step. f_equal. rewrite gradient_copies by auto. unfold vscale. rewrite map_map. apply map_ext. intros v. ring.
Qed.
Lemma opt_newton_copies n d x y : length x = length y -> forall b, opt_run NewtonMethod n d (copies k x) (copies k y) b = opt_run NewtonMethod n d x y b.
Proof. intros L. induction n as [|n IH]; intros b; cbn; auto. rewrite newton_copies by auto. destruct (newton_step d x y b); cbn; auto. Qed.
Lemma opt_gd_copies rate n d x y : length x = length y -> forall b,
  opt_run (GradientDescent rate) n d (copies k x) (copies k y) b = opt_run (GradientDescent (INR k * rate)) n d x y b.
Proof. intros L. induction n as [|n IH]; intros b; cbn; auto. rewrite gd_copies by auto. auto. Qed.
Lemma lr_newton_copies init n d x y m : length x = length y ->
  lr_fit NewtonMethod init n d (copies k x) (copies k y) m = lr_fit NewtonMethod init n d x y m.
Proof. intros L. unfold lr_fit. destruct (if lr_loaded m then _ else _) as [b|]; cbn; auto. now rewrite opt_newton_copies. Qed.
Lemma lr_gd_copies rate init n d x y m : length x = length y ->
  lr_fit (GradientDescent rate) init n d (copies k x) (copies k y) m = lr_fit (GradientDescent (INR k * rate)) init n d x y m.
Proof. intros L. unfold lr_fit. destruct (if lr_loaded m then _ else _) as [b|]; cbn; auto. now rewrite opt_gd_copies. Qed.

(** ** Linear discriminant analysis *)
Lemma with_label_copies l x y : length x = length y -> with_label l (copies k x) (copies k y) = copies k (with_label l x y).
Proof. intros L. unfold with_label. now rewrite copies_combine, copies_filter, copies_map. Qed.
Lemma mean_row_copies d x : mean_row d (copies k x) = mean_row d x.
Proof.
  assert (E : map (fun j => rmean (column 0 (copies k x) j)) (seq 0 d) = map (fun j => rmean (column 0 x j)) (seq 0 d)).
  { apply map_ext. intros j. unfold column. rewrite copies_map. now apply rmean_copies. }
  unfold mean_row. rewrite E. destruct x as [|r x]; [now rewrite copies_nil|]. destruct (copies_cons k r x Hk) as (m & ->). reflexivity.
Qed.
Lemma scatter_copies d x mu : scatter_of d (copies k x) mu = scaled (INR k) (scatter_of d x mu).
Proof.
  unfold scatter_of, scaled. rewrite map_map. apply map_ext. intros i. unfold vscale. rewrite map_map. apply map_ext. intros j.
  rewrite copies_map. apply rsum_copies.
Qed.
Lemma vadd_scale c a : forall b, vadd (vscale c a) (vscale c b) = vscale c (vadd a b).
Proof. unfold vadd, vscale. induction a as [|x a IH]; intros [|y b]; cbn; auto. rewrite IH. f_equal. ring. Qed.
Lemma within_copies d x0 x1 m0 m1 : within_class_scatter d (copies k x0) (copies k x1) m0 m1 = scaled (INR k) (within_class_scatter d x0 x1 m0 m1).
Proof.
  unfold within_class_scatter. rewrite !scatter_copies. unfold scaled. generalize (scatter_of d x0 m0), (scatter_of d x1 m1).
  induction l as [|a l IH]; intros [|b l']; cbn [combine map fst snd]; auto. now rewrite IH, vadd_scale.
Qed.
Lemma diag_scaled d c v : diag d (vscale c v) = scaled c (diag d v).
Proof.
  unfold diag, scaled. rewrite map_map. apply map_ext. intros i. unfold vscale. rewrite map_map. apply map_ext. intros j.
  destruct (i =? j)%nat; [|lra]. rewrite <- (Rmult_0_r c) at 1. apply map_nth.
Qed.
Lemma elementwise_scaled_r c a : forall b, elementwise a (scaled c b) = scaled c (elementwise a b).
Proof.
  unfold elementwise, scaled. induction a as [|r a IH]; intros [|s b]; cbn; auto. rewrite IH. f_equal. clear. revert s.
  unfold vscale. induction r as [|u r IH]; intros [|v s]; cbn; auto. rewrite IH. f_equal. ring.
Qed.
Lemma elementwise_scaled_l c a : forall b, elementwise (scaled c a) b = scaled c (elementwise a b).
Proof.
  unfold elementwise, scaled. induction a as [|r a IH]; intros [|s b]; cbn; auto. rewrite IH. f_equal. clear. revert s.
  unfold vscale. induction r as [|u r IH]; intros [|v s]; cbn; auto. rewrite IH. f_equal. ring.
Qed.
Definition lda_copied (m : lda) : lda := {| lda_w := vscale (/ INR k) (lda_w m); lda_mu0 := lda_mu0 m; lda_mu1 := lda_mu1 m |}.
Lemma lda_fit_copies svd d x y : svd_of_multiples svd ->
  lda_fit svd d (copies k x) (copies k y) = (m <- lda_fit svd d x y ;; Ok (lda_copied m)).
Proof.
  intros Hs. pose proof (INR_pos k Hk) as P. unfold lda_fit. rewrite !copies_length.
  destruct (Nat.eqb_spec (length x) (length y)) as [L|L].
  2:{ cbn [negb bind]. destruct (Nat.eqb_spec (k * length x) (k * length y)) as [M|M]; [|reflexivity].
      apply Nat.mul_cancel_l in M; lia. }
  rewrite L, Nat.eqb_refl. cbn [negb]. cbn zeta. rewrite !with_label_copies, !mean_row_copies by auto.
  destruct (mean_row d (with_label 0 x y)) as [m0|]; cbn [bind]; auto.
  destruct (mean_row d (with_label 1 x y)) as [m1|]; cbn [bind]; auto.
  rewrite within_copies. unfold get_w_v2. rewrite (Hs _ _ P). destruct (svd _) as [[u v] w]. rewrite diag_scaled, inverse_scaled by lra.
  destruct (inverse d (diag d v)) as [q|]; cbn [bind]; auto. f_equal. unfold lda_copied. cbn. f_equal.
  rewrite elementwise_scaled_r, elementwise_scaled_l. unfold scaled. rewrite !map_map. apply map_ext. intros r. apply dot_scale_l.
Qed.
Lemma lda_predict_copies m r : lda_predict (lda_copied m) r = lda_predict m r.
Proof.
  pose proof (INR_pos k Hk) as P. assert (Q : 0 < / INR k) by now apply Rinv_0_lt_compat.
  unfold lda_predict, lda_copied. cbn. rewrite dot_scale_r, !dot_scale_l, <- !Rmult_minus_distr_l, !Rabs_mult, (Rabs_right (/ INR k)) by lra.
  unfold Rltb. destruct (Rlt_dec (/ INR k * _) _) as [A|A], (Rlt_dec _ _) as [B|B]; auto; exfalso.
  - apply B. now apply Rmult_lt_reg_l in A.
  - apply A. now apply Rmult_lt_compat_l.
Qed.

(** ** Radial basis function networks *)
Lemma zero_copies n : (k * n =? 0)%nat = (n =? 0)%nat.
Proof. destruct n; [now rewrite Nat.mul_0_r|]. destruct k; [lia|reflexivity]. Qed.
Lemma eqb_copies a b : (k * a =? k * b)%nat = (a =? b)%nat.
Proof.
  destruct (Nat.eqb_spec a b) as [->|N]; [apply Nat.eqb_refl|]. apply Nat.eqb_neq. intros E. apply N. apply Nat.mul_cancel_l in E; lia.
Qed.
Lemma rbf_backward_copies h rows y w : Rbf.rbf_backward h (copies k rows) (copies k y) w = Rbf.rbf_backward h rows y w.
Proof.
  unfold Rbf.rbf_backward. rewrite !copies_length, eqb_copies. destruct (Nat.eqb_spec (length rows) (length y)) as [L|]; auto. cbn [negb].
  rewrite zero_copies. destruct (length y =? 0)%nat; auto. cbn zeta. rewrite copies_combine, mult_INR by auto. f_equal. f_equal.
  - apply map_ext. intros u. rewrite copies_map, rsum_copies. now apply ratio_copies.
  - rewrite copies_map, rsum_copies. now apply ratio_copies.
  - apply map_ext. intros u. rewrite copies_map, rsum_copies. now apply ratio_copies.
Qed.
Lemma zip_copies f (a b : list R) : length a = length b -> zip2 f (copies k a) (copies k b) = copies k (zip2 f a b).
Proof.
  intros L. assert (E : forall a b, zip2 f a b = map (fun p => f (fst p) (snd p)) (combine a b)).
  { clear. induction a as [|x a IH]; intros [|y b]; cbn; auto. }
  rewrite !E, copies_combine, copies_map by auto. reflexivity.
Qed.
Lemma loss_copies n a b : length a = length b -> mean_squared_error (k * n) (copies k a) (copies k b) =
  (l <- mean_squared_error n a b ;; Ok (INR k * l)).
Proof.
  intros L. unfold mean_squared_error. rewrite zero_copies. destruct (Nat.eqb_spec n 0) as [|N]; auto. cbn [bind]. f_equal.
  rewrite zip_copies, rsum_copies, mult_INR by auto. pose proof (INR_pos k Hk). assert (0 < INR n) by (apply lt_0_INR; lia). field. lra.
Qed.
Lemma rbf_epoch_copies rate x y p : Rbf.rbf_epoch rate (copies k x) (Rbf.Column (copies k y)) p =
  (r <- Rbf.rbf_epoch rate x (Rbf.Column y) p ;; Ok (fst r, INR k * snd r)).
Proof.
  unfold Rbf.rbf_epoch, Rbf.rbf_forward. rewrite mapM_copies by auto. destruct (mapM (Rbf.forward_row p) x) as [rows|]; cbn [bind]; auto.
  cbn [Rbf.label_list]. rewrite rbf_backward_copies, copies_map, copies_length.
  destruct (Rbf.rbf_backward (length (Rbf.rc p)) rows y (Rbf.rw p)) as [g|] eqn:E; cbn [bind]; auto.
  assert (L : length rows = length y).
  { unfold Rbf.rbf_backward in E. destruct (Nat.eqb_spec (length rows) (length y)); auto. discriminate. }
  rewrite loss_copies by (now rewrite map_length). destruct (mean_squared_error (length rows) _ y); reflexivity.
Qed.
Lemma rbf_run_copies rate x y n : forall p, Rbf.rbf_run rate (copies k x) (Rbf.Column (copies k y)) n p =
  (r <- Rbf.rbf_run rate x (Rbf.Column y) n p ;; Ok (fst r, vscale (INR k) (snd r))).
Proof.
  induction n as [|n IH]; intros p; cbn [Rbf.rbf_run]; [reflexivity|]. rewrite rbf_epoch_copies.
  destruct (Rbf.rbf_epoch rate x (Rbf.Column y) p) as [[q l]|]; cbn [bind fst snd]; auto. rewrite IH.
  destruct (Rbf.rbf_run rate x (Rbf.Column y) n q) as [[u v]|]; reflexivity.
Qed.

(** ** Scalers *)
Lemma np_min_copies l : np_min (copies k l) = np_min l.
Proof.
  destruct l as [|a l]; [now rewrite copies_nil|]. destruct (copies_cons k a l Hk) as (m & E). rewrite E.
  pose proof (np_min_is_min (a :: l) _ eq_refl) as [I1 L1]. pose proof (np_min_is_min (a :: m) _ eq_refl) as [I2 L2].
  cbn [np_min]. f_equal. rewrite <- E in I2, L2. apply Rle_antisym.
  - apply L2. now apply copies_In.
  - apply L1. apply copies_In in I2; auto.
Qed.
Lemma np_max_copies l : np_max (copies k l) = np_max l.
Proof.
  destruct l as [|a l]; [now rewrite copies_nil|]. destruct (copies_cons k a l Hk) as (m & E). rewrite E.
  pose proof (np_max_is_max (a :: l) _ eq_refl) as [I1 L1]. pose proof (np_max_is_max (a :: m) _ eq_refl) as [I2 L2].
  cbn [np_max]. f_equal. rewrite <- E in I2, L2. apply Rle_antisym.
  - apply L1. apply copies_In in I2; auto.
  - apply L2. now apply copies_In.
Qed.
Lemma minmax_copies l : minmax_call (copies k l) = (r <- minmax_call l ;; Ok (copies k (fst r), snd r)).
Proof.
  unfold minmax_call. rewrite np_min_copies, np_max_copies. destruct (np_min l); cbn [bind]; auto. destruct (np_max l); cbn [bind]; auto.
  now rewrite copies_map.
Qed.
Lemma standard_copies l : standard_call (copies k l) = (copies k (fst (standard_call l)), snd (standard_call l)).
Proof. unfold standard_call. rewrite rmean_copies, rvar_copies, copies_map by auto. reflexivity. Qed.
Lemma accuracy_copies p y : length p = length y -> binary_accuracy (copies k p) (copies k y) = binary_accuracy p y.
Proof.
  intros L. assert (E : forall n c : nat, (INR (k * n) - INR (k * c)) / INR (k * n) = (INR n - INR c) / INR n).
  { intros n c. rewrite !mult_INR, <- Rmult_minus_distr_l. now apply ratio_copies. }
  unfold binary_accuracy. rewrite copies_combine, count_copies, copies_length, E by auto.
  destruct p as [|a p]; [now rewrite copies_nil|]. destruct (copies_cons k a p Hk) as (m & ->). reflexivity.
Qed.
End Linear.

(** ** Neural networks *)
Lemma get_copies {A} k (l : list A) i : (i < k * length l)%nat -> get_at (copies k l) i = get_at l (i mod length l).
Proof.
  intros H. unfold get_at. enough (E : nth_error (copies k l) i = nth_error l (i mod length l)) by now rewrite E.
  revert i H. induction k as [|k IH]; intros i H; [lia|]. rewrite copies_S. destruct (Nat.lt_ge_cases i (length l)) as [L|L].
  - rewrite nth_error_app1, Nat.mod_small by auto. reflexivity.
  - rewrite nth_error_app2 by auto. rewrite IH by lia. f_equal.
    replace i with ((i - length l) + 1 * length l)%nat at 2 by lia. rewrite Nat.mod_add by lia. reflexivity.
Qed.
Lemma sample_copies k x y ls i : length x = length y -> (i < k * length x)%nat ->
  Network.sample_gradient (copies k x) (copies k y) ls i = Network.sample_gradient x y ls (i mod length x).
Proof.
  intros L H. unfold Network.sample_gradient. rewrite !get_copies by (try rewrite <- L; exact H). now rewrite <- L.
Qed.
Lemma sgd_copies k rate x y draws : length x = length y -> Forall (fun i => (i < k * length x)%nat) draws -> forall ls,
  Network.sgd_run rate (copies k x) (copies k y) ls draws = Network.sgd_run rate x y ls (map (fun i => i mod length x)%nat draws).
Proof.
  intros L F. unfold Network.sgd_run. induction F as [|i draws Hi F IH]; intros ls; cbn [foldM map]; auto.
  unfold Network.sgd_epoch at 1 3. rewrite sample_copies by auto.
  destruct (Network.sample_gradient x y ls (i mod length x)); cbn [bind]; auto.
Qed.
Lemma adam_copies k o x y draws ls : length x = length y -> Forall (fun i => (i < k * length x)%nat) draws ->
  Network.adam_run o (copies k x) (copies k y) ls draws = Network.adam_run o x y ls (map (fun i => i mod length x)%nat draws).
Proof.
  intros L F. unfold Network.adam_run. rewrite map_length.
  enough (E : forall n s, foldM (Network.adam_epoch o (copies k x) (copies k y)) (combine (seq n (length draws)) draws) s =
    foldM (Network.adam_epoch o x y) (combine (seq n (length draws)) (map (fun i => i mod length x)%nat draws)) s) by now rewrite E.
  induction F as [|i draws Hi F IH]; intros n s; cbn [length seq combine foldM map]; auto.
  assert (E : Network.adam_epoch o (copies k x) (copies k y) s (n, i) = Network.adam_epoch o x y s (n, (i mod length x)%nat)).
  { unfold Network.adam_epoch. cbn [fst snd]. now rewrite sample_copies. }
  rewrite E. destruct (Network.adam_epoch o x y s (n, _)); cbn [bind]; auto.
Qed.
