(** Proofs about the kernels. *)
From Coq Require Import List ZArith Reals Lra Lia Arith.
From Verif.Model Require Import Base Kernels.
From Verif.Spec Require Import Common Smo.
From Verif.Proof Require Import BaseLemmas Smo.
Import ListNotations.
Local Open Scope R_scope.

Lemma dot_comm a b : dot a b = dot b a.
Proof.
  revert b; induction a as [|u a IH]; intros [|v b]; simpl; auto. rewrite IH. ring.
Qed.

Lemma dot_sum D a b : length a = D -> length b = D -> dot a b = sum_below D (fun k => nth k a 0 * nth k b 0).
Proof.
  revert a b; induction D as [|D IH]; intros a b Ha Hb.
  - destruct a, b; simpl in *; try lia. reflexivity.
  - destruct (exists_last (l := a)) as (a' & u & ->); [destruct a; simpl in *; [lia|discriminate]|].
    destruct (exists_last (l := b)) as (b' & v & ->); [destruct b; simpl in *; [lia|discriminate]|].
    rewrite app_length in Ha, Hb. simpl in Ha, Hb. rewrite sum_below_S.
    assert (G : forall (p q : list R) w z, length p = length q -> dot (p ++ [w]) (q ++ [z]) = dot p q + w * z).
    { clear. induction p as [|u p IH]; intros [|v q] w z H; simpl in *; try lia; [ring|]. rewrite IH by lia. ring. }
    rewrite G by lia. rewrite (IH a' b') by lia. rewrite !(app_nth2 _ [_]) by lia.
    replace (D - length a')%nat with 0%nat by lia. replace (D - length b')%nat with 0%nat by lia. simpl. f_equal.
    apply sum_below_ext. intros k Hk. rewrite !app_nth1 by lia. reflexivity.
Qed.

Lemma sum_below_swap N M f : sum_below M (fun m => sum_below N (fun k => f m k)) = sum_below N (fun k => sum_below M (fun m => f m k)).
Proof.
  induction M as [|M IH].
  - unfold sum_below at 1. simpl. symmetry. apply sum_below_zero. reflexivity.
  - rewrite sum_below_S, IH, <- sum_below_plus. apply sum_below_ext. intros k _. now rewrite sum_below_S.
Qed.
Lemma sum_below_nonneg n f : (forall m, (m < n)%nat -> 0 <= f m) -> 0 <= sum_below n f.
Proof. induction n as [|n IH]; intros H; [unfold sum_below; simpl; lra|]. rewrite sum_below_S. pose proof (H n (Nat.lt_succ_diag_r n)). assert (0 <= sum_below n f) by (apply IH; intros; apply H; lia). lra. Qed.
Lemma sum_below_mult N M f g : sum_below N f * sum_below M g = sum_below N (fun i => sum_below M (fun j => f i * g j)).
Proof.
  rewrite Rmult_comm, <- sum_below_scal. apply sum_below_ext. intros i _. rewrite sum_below_scal. ring.
Qed.

(** A kernel with a finite feature map is positive semidefinite. *)
Lemma feature_psd (phi : list R -> list R) D d cs xs :
  (forall v, length v = d -> length (phi v) = D) -> Forall (fun v => length v = d) xs ->
  0 <= gram_form (fun a b => dot (phi a) (phi b)) cs xs.
Proof.
  intros Hphi Hxs. unfold gram_form. set (n := length xs).
  assert (HL : forall i, (i < n)%nat -> length (phi (nth i xs [])) = D).
  { intros i Hi. apply Hphi. rewrite Forall_forall in Hxs. apply Hxs. apply nth_In. exact Hi. }
  assert (E : sum_below n (fun i => sum_below n (fun j => nth i cs 0 * nth j cs 0 * dot (phi (nth i xs [])) (phi (nth j xs [])))) =
     sum_below D (fun k => sum_below n (fun i => nth i cs 0 * nth k (phi (nth i xs [])) 0) * sum_below n (fun i => nth i cs 0 * nth k (phi (nth i xs [])) 0))).
  { transitivity (sum_below n (fun i => sum_below n (fun j => sum_below D (fun k =>
        (nth i cs 0 * nth k (phi (nth i xs [])) 0) * (nth j cs 0 * nth k (phi (nth j xs [])) 0))))).
    - apply sum_below_ext. intros i Hi. apply sum_below_ext. intros j Hj.
      rewrite (dot_sum D) by auto. rewrite <- sum_below_scal. apply sum_below_ext. intros k _. ring.
    - transitivity (sum_below n (fun i => sum_below D (fun k => sum_below n (fun j =>
        (nth i cs 0 * nth k (phi (nth i xs [])) 0) * (nth j cs 0 * nth k (phi (nth j xs [])) 0))))).
      + apply sum_below_ext. intros i _. apply sum_below_swap.
      + rewrite sum_below_swap. apply sum_below_ext. intros k _. rewrite sum_below_mult. reflexivity. }
  rewrite E. apply sum_below_nonneg. intros k _. nra.
Qed.

Lemma gram_ext K K' cs xs : (forall a b, In a xs -> In b xs -> K a b = K' a b) -> gram_form K cs xs = gram_form K' cs xs.
Proof.
  intros H. apply sum_below_ext. intros i Hi. apply sum_below_ext. intros j Hj.
  rewrite H; [reflexivity|apply nth_In; auto|apply nth_In; auto].
Qed.
Lemma gram_scale K c cs xs : gram_form (fun a b => c * K a b) cs xs = c * gram_form K cs xs.
Proof.
  unfold gram_form. rewrite <- sum_below_scal. apply sum_below_ext. intros i _. rewrite <- sum_below_scal.
  apply sum_below_ext. intros; ring.
Qed.
Lemma gram_plus K K' cs xs : gram_form (fun a b => K a b + K' a b) cs xs = gram_form K cs xs + gram_form K' cs xs.
Proof.
  unfold gram_form. rewrite <- sum_below_plus. apply sum_below_ext. intros i _. rewrite <- sum_below_plus.
  apply sum_below_ext. intros; ring.
Qed.

Lemma linear_psd : positive_semidefinite linear.
Proof.
  intros d cs xs H. rewrite (gram_ext _ (fun a b => dot ((fun v => v) a) ((fun v => v) b))).
  - eapply (feature_psd (fun v => v) d d); auto.
  - intros a b _ _. apply dot_comm.
Qed.

(** Tensor powers. *)
Fixpoint outer (a b : list R) : list R :=
  match a with [] => [] | u :: a' => map (Rmult u) b ++ outer a' b end.
Fixpoint power (k : nat) (v : list R) : list R :=
  match k with O => [1] | S k' => outer v (power k' v) end.
Lemma outer_length a b : length (outer a b) = (length a * length b)%nat.
Proof. induction a; simpl; auto. rewrite app_length, map_length, IHa. reflexivity. Qed.
Lemma power_length k d : forall v, length v = d -> length (power k v) = Nat.pow d k.
Proof. induction k; intros v H; simpl; auto. rewrite outer_length, H. f_equal. auto. Qed.
Lemma dot_app a b c e : length a = length c -> dot (a ++ b) (c ++ e) = dot a c + dot b e.
Proof.
  revert c; induction a as [|u a IH]; intros [|v c] H; simpl in *; try lia; [ring|].
  rewrite IH by lia. ring.
Qed.
Lemma dot_map u v a b : dot (map (Rmult u) a) (map (Rmult v) b) = u * v * dot a b.
Proof. revert b; induction a as [|p a IH]; intros [|q b]; simpl; try ring. rewrite IH. ring. Qed.
Lemma outer_dot a b c e : length a = length c -> length b = length e -> dot (outer a b) (outer c e) = dot a c * dot b e.
Proof.
  revert c; induction a as [|u a IH]; intros [|v c] H H'; simpl in *; try lia.
  - simpl. ring.
  - rewrite dot_app by (rewrite !map_length; auto). rewrite dot_map, IH by auto.
    change (dot (u :: a) (v :: c)) with (u * v + dot a c). ring.
Qed.
Lemma power_dot k a b : length a = length b -> dot (power k a) (power k b) = dot a b ^ k.
Proof.
  intros H. induction k as [|k IH]; simpl; [simpl; ring|].
  rewrite outer_dot, IH; auto. now rewrite (power_length k (length a)), (power_length k (length a)) by auto.
Qed.

Lemma dot_power_psd k : positive_semidefinite (fun a b => dot b a ^ k).
Proof.
  intros d cs xs H. rewrite (gram_ext _ (fun a b => dot (power k a) (power k b))).
  - apply (feature_psd (power k) (Nat.pow d k) d); auto. apply power_length.
  - intros a b Ha Hb. rewrite Forall_forall in H. rewrite power_dot by (rewrite !H by auto; reflexivity). now rewrite dot_comm.
Qed.
Lemma polynomial_psd gamma degree : 0 <= gamma -> positive_semidefinite (polynomial gamma degree).
Proof.
  intros Hg d cs xs H. unfold polynomial. rewrite gram_scale. apply Rmult_le_pos; auto.
  now apply (dot_power_psd degree d).
Qed.

(** The exponential of a positive multiple of the inner product. *)
Lemma exp_cv z : Un_cv (fun N => sum_f_R0 (fun k => / INR (fact k) * z ^ k) N) (exp z).
Proof.
  unfold exp. destruct (exist_exp z) as (l & Hl). simpl. unfold exp_in, infinite_sum in Hl. exact Hl.
Qed.
Lemma sum_below_cv n (u : nat -> nat -> R) l : (forall i, (i < n)%nat -> Un_cv (u i) (l i)) ->
  Un_cv (fun N => sum_below n (fun i => u i N)) (sum_below n l).
Proof.
  induction n as [|n IH]; intros H.
  - unfold sum_below. simpl. intros e He. exists 0%nat. intros. rewrite R_dist_eq. exact He.
  - apply Un_cv_ext with (fun N => sum_below n (fun i => u i N) + u n N).
    + intros N. now rewrite sum_below_S.
    + rewrite sum_below_S. apply CV_plus; auto.
Qed.
Lemma cst_cv c : Un_cv (fun _ => c) c.
Proof. intros e He. exists 0%nat. intros. rewrite R_dist_eq. exact He. Qed.
Lemma cv_nonneg u l : (forall N, 0 <= u N) -> Un_cv u l -> 0 <= l.
Proof.
  intros H C. destruct (Rle_or_lt 0 l) as [L|L]; auto. destruct (C (- l) ltac:(lra)) as (N & HN).
  specialize (HN N (le_n N)). unfold R_dist in HN. specialize (H N). unfold Rabs in HN. destruct (Rcase_abs _); lra.
Qed.
Lemma exp_dot_psd c : 0 <= c -> positive_semidefinite (fun a b => exp (c * dot b a)).
Proof.
  intros Hc d cs xs H.
  set (u := fun N => gram_form (fun a b => sum_f_R0 (fun k => / INR (fact k) * (c * dot b a) ^ k) N) cs xs).
  apply (cv_nonneg u).
  - intros N. unfold u. induction N as [|N IH].
    + simpl. rewrite (gram_ext _ (fun a b => 1 * dot b a ^ 0)) by (intros; simpl; field).
      rewrite gram_scale. pose proof (dot_power_psd 0 d cs xs H). lra.
    + rewrite (gram_ext _ (fun a b => sum_f_R0 (fun k => / INR (fact k) * (c * dot b a) ^ k) N + (/ INR (fact (S N)) * c ^ S N) * dot b a ^ S N)).
      2: { intros a b _ _. rewrite tech5. f_equal. rewrite Rpow_mult_distr. ring. }
      rewrite gram_plus, gram_scale. apply Rplus_le_le_0_compat; auto. apply Rmult_le_pos.
      * apply Rmult_le_pos; [left; apply Rinv_0_lt_compat, INR_fact_lt_0|now apply pow_le].
      * now apply (dot_power_psd (S N) d).
  - unfold u, gram_form. apply sum_below_cv. intros i _. apply sum_below_cv. intros j _.
    apply CV_mult; [apply cst_cv|apply exp_cv].
Qed.

Lemma sqnorm_vsub a b : length a = length b -> sqnorm (vsub b a) = dot a a + dot b b - 2 * dot b a.
Proof.
  unfold sqnorm, vsub. revert b; induction a as [|u a IH]; intros [|v b] H; simpl in *; try lia; [ring|].
  rewrite IH by lia. ring.
Qed.
Lemma sqnorm_sym a b : sqnorm (vsub b a) = sqnorm (vsub a b).
Proof. unfold sqnorm, vsub. revert b; induction a as [|u a IH]; intros [|v b]; simpl; auto. rewrite IH. ring. Qed.
Lemma sqnorm_nonneg a : 0 <= sqnorm a.
Proof. unfold sqnorm. induction a as [|u a IH]; simpl; [lra|]. nra. Qed.
Lemma sqnorm_self a : sqnorm (vsub a a) = 0.
Proof. unfold sqnorm, vsub. induction a as [|u a IH]; simpl; auto. rewrite IH. ring. Qed.

Lemma rbf_psd gamma : 0 <= gamma -> positive_semidefinite (rbf gamma).
Proof.
  intros Hg d cs xs H. set (w := fun v => exp (- gamma * dot v v)).
  set (cs' := map (fun p => fst p * w (snd p)) (combine (map (fun i => nth i cs 0) (seq 0 (length xs))) xs)).
  assert (Hn : forall i, (i < length xs)%nat -> nth i cs' 0 = nth i cs 0 * w (nth i xs [])).
  { intros i Hi. unfold cs'. set (f := fun p : R * list R => fst p * w (snd p)).
    rewrite (nth_indep _ 0 (f (0, []))) by (rewrite map_length, combine_length, map_length, seq_length; lia).
    rewrite map_nth, combine_nth by (rewrite map_length, seq_length; reflexivity). unfold f. simpl. f_equal.
    rewrite nth_map_seq by exact Hi. reflexivity. }
  assert (E : gram_form (rbf gamma) cs xs = gram_form (fun a b => exp (2 * gamma * dot b a)) cs' xs).
  { apply sum_below_ext. intros i Hi. apply sum_below_ext. intros j Hj. rewrite !Hn by auto. unfold rbf, w.
    rewrite Forall_forall in H.
    rewrite sqnorm_vsub by (rewrite !H by (apply nth_In; auto); reflexivity).
    set (p := nth i xs []). set (q := nth j xs []).
    replace (gamma * - (dot p p + dot q q - 2 * dot q p)) with (- gamma * dot p p + - gamma * dot q q + 2 * gamma * dot q p) by ring.
    rewrite !exp_plus. ring. }
  rewrite E. apply (exp_dot_psd (2 * gamma) ltac:(lra) d). exact H.
Qed.

(** Curvature of a positive semidefinite symmetric kernel. *)
Lemma psd_curvature K a b : positive_semidefinite K -> symmetric K -> length a = length b -> 0 <= curvature K a b.
Proof.
  intros P Sy H. pose proof (P (length a) [1; -1] [a; b] ltac:(repeat constructor; auto)) as G.
  unfold gram_form in G. simpl length in G. rewrite !sum_below_S in G. unfold sum_below in G. simpl in G.
  unfold curvature. rewrite (Sy b a) in G. lra.
Qed.

Lemma linear_sym : symmetric linear. Proof. intros a b. apply dot_comm. Qed.
Lemma polynomial_sym g k : symmetric (polynomial g k). Proof. intros a b. unfold polynomial. now rewrite dot_comm. Qed.
Lemma rbf_sym g : symmetric (rbf g). Proof. intros a b. unfold rbf. now rewrite sqnorm_sym. Qed.
Lemma sigmoid_sym g be th : symmetric (sigmoid_kernel g be th). Proof. intros a b. unfold sigmoid_kernel. now rewrite dot_comm. Qed.

Lemma rbf_range gamma a b : 0 <= gamma -> 0 < rbf gamma a b <= 1.
Proof.
  intros Hg. unfold rbf. split; [apply exp_pos|]. pose proof (sqnorm_nonneg (vsub b a)) as S.
  destruct (Rle_lt_or_eq_dec 0 (gamma * sqnorm (vsub b a)) ltac:(nra)) as [L|E].
  - left. rewrite <- exp_0. apply exp_increasing. lra.
  - right. replace (gamma * - sqnorm (vsub b a)) with 0 by lra. apply exp_0.
Qed.
Lemma rbf_diag gamma a : rbf gamma a a = 1.
Proof. unfold rbf. rewrite sqnorm_self. rewrite <- exp_0. f_equal. ring. Qed.

Lemma linear_curvature a b : length a = length b -> curvature linear a b = sqnorm (vsub b a).
Proof. intros H. rewrite sqnorm_vsub by auto. unfold curvature, linear. ring. Qed.

(** Distinct vectors have positive curvature with the linear and RBF kernels. *)
Lemma sqnorm_zero a b : length a = length b -> sqnorm (vsub b a) = 0 -> a = b.
Proof.
  unfold sqnorm, vsub. revert b; induction a as [|u a IH]; intros [|v b] H E; simpl in *; try lia; auto.
  pose proof (sqnorm_nonneg (vsub b a)) as S. unfold sqnorm, vsub in S.
  assert (A : 0 <= (v - u) * (v - u)) by exact (Rle_0_sqr (v - u)).
  match type of S with 0 <= ?r => assert (Z : r = 0) by lra end.
  assert (Q : (v - u) * (v - u) = 0) by lra. apply Rmult_integral in Q.
  f_equal; [lra|]. apply IH; auto; lia.
Qed.
Lemma rbf_curvature_pos gamma a b : 0 < gamma -> length a = length b -> a <> b -> 0 < curvature (rbf gamma) a b.
Proof.
  intros Hg H N. unfold curvature. rewrite !rbf_diag.
  assert (rbf gamma a b < 1); [|lra]. unfold rbf. rewrite <- exp_0. apply exp_increasing.
  pose proof (sqnorm_nonneg (vsub b a)). assert (sqnorm (vsub b a) <> 0) by (intros E; apply N; now apply sqnorm_zero). nra.
Qed.
Lemma linear_curvature_pos a b : length a = length b -> a <> b -> 0 < curvature linear a b.
Proof.
  intros H N. rewrite linear_curvature by auto. pose proof (sqnorm_nonneg (vsub b a)).
  assert (sqnorm (vsub b a) <> 0) by (intros E; apply N; now apply sqnorm_zero). lra.
Qed.

Lemma tanh_lt_1 z : tanh z < 1.
Proof.
  unfold tanh. pose proof (exp_pos z). pose proof (exp_pos (- z)).
  apply Rmult_lt_reg_r with (exp z + exp (- z)); [lra|]. unfold Rdiv. rewrite Rmult_assoc, Rinv_l by lra. lra.
Qed.
Lemma tanh_1 : 1 / 2 < tanh 1.
Proof.
  unfold tanh. pose proof (exp_pos 1). pose proof (exp_pos (- (1))).
  apply Rmult_lt_reg_r with (exp 1 + exp (- (1))); [lra|]. unfold Rdiv. rewrite (Rmult_assoc (exp 1 - _)), Rinv_l by lra.
  assert (3 * exp (- (1)) < exp 1); [|lra].
  assert (3 < exp 2) by (pose proof (exp_ineq1 2 ltac:(lra)); lra).
  replace (exp 1) with (exp 2 * exp (- (1))); [nra|]. rewrite <- exp_plus. f_equal. ring.
Qed.
Lemma tanh_0 : tanh 0 = 0.
Proof. unfold tanh. rewrite Ropp_0. unfold Rminus. rewrite Rplus_opp_r. unfold Rdiv. ring. Qed.
Lemma sigmoid_curvature_neg : curvature (sigmoid_kernel 1 1 (-1)) [1] [2] < 0.
Proof.
  unfold curvature, sigmoid_kernel. simpl.
  replace (1 * (1 * 1 + 0) + -1) with 0 by ring. replace (1 * (2 * 2 + 0) + -1) with 3 by ring.
  replace (1 * (2 * 1 + 0) + -1) with 1 by ring.
  rewrite tanh_0. pose proof (tanh_lt_1 3). pose proof tanh_1. lra.
Qed.
Lemma sigmoid_not_psd : ~ positive_semidefinite (sigmoid_kernel 1 1 (-1)).
Proof.
  intros P. pose proof (psd_curvature _ [1] [2] P (sigmoid_sym _ _ _) eq_refl). pose proof sigmoid_curvature_neg. lra.
Qed.
