(** Proofs for C44 to C46, C70 and C71. *)
From Coq Require Import List ZArith Reals Bool Arith Lia Lra Psatz.
From Verif.Model Require Import Base Activations Matrix Logistic.
From Verif.Spec Require Import Common Smo Gmm Matrix Logistic.
From Verif.Proof Require Import BaseLemmas Smo Kernels Gmm KMeans Activations Determinant.
Import ListNotations.
Local Open Scope R_scope.

(** ** Scalar facts about ln (1 + exp s) *)
Definition sp (s : R) : R := ln (1 + exp s).

Lemma sp_pos_arg s : 0 < 1 + exp s. Proof. pose proof (exp_pos s). lra. Qed.

Lemma exp_ge x : 1 + x <= exp x.
Proof. destruct (Req_dec x 0) as [->|H]; [rewrite exp_0; lra|]. left. now apply exp_ineq1. Qed.

Lemma sp_below s h : sp s + sigmoid s * h <= sp (s + h).
Proof.
  unfold sp. pose proof (exp_pos s) as Es. pose proof (sigmoid_range s) as Rg.
  (* exp (p h) <= 1 - p + p exp h *)
  assert (Q : exp (sigmoid s * h) <= (1 - sigmoid s) + sigmoid s * exp h).
  { pose proof (exp_ge (h - sigmoid s * h)) as A. pose proof (exp_ge (- (sigmoid s * h))) as B.
    assert (C1 : exp h = exp (sigmoid s * h) * exp (h - sigmoid s * h)) by (rewrite <- exp_plus; f_equal; lra).
    assert (C2 : 1 = exp (sigmoid s * h) * exp (- (sigmoid s * h))) by (rewrite <- exp_plus; rewrite Rplus_opp_r, exp_0; lra).
    set (E := exp (sigmoid s * h)) in *. assert (0 < E) by apply exp_pos.
    replace (1 - sigmoid s + sigmoid s * exp h) with (E * ((1 - sigmoid s) * exp (- (sigmoid s * h)) + sigmoid s * exp (h - sigmoid s * h))).
    - assert (1 <= (1 - sigmoid s) * exp (- (sigmoid s * h)) + sigmoid s * exp (h - sigmoid s * h)) by nra. nra.
    - transitivity ((1 - sigmoid s) * (E * exp (- (sigmoid s * h))) + sigmoid s * (E * exp (h - sigmoid s * h))); [ring|].
      rewrite <- C1, <- C2. ring. }
  assert (V : (1 + exp s) * ((1 - sigmoid s) + sigmoid s * exp h) = 1 + exp (s + h)).
  { rewrite exp_plus, sigmoid_alt. field. lra. }
  replace (sigmoid s * h) with (ln (exp (sigmoid s * h))) by apply ln_exp.
  rewrite <- ln_mult by (try apply exp_pos; lra). apply Rle_trans with (ln (1 + exp (s + h))); [|lra].
  destruct Q as [Q|Q].
  - left. apply ln_increasing; [pose proof (exp_pos (sigmoid s * h)); nra|]. rewrite <- V. nra.
  - rewrite Q, V. lra.
Qed.

Lemma sp_below_strict s h : h <> 0 -> sp s + sigmoid s * h < sp (s + h).
Proof.
  intros Hh. pose proof (sp_below s (h / 2)) as A. pose proof (sp_below (s + h / 2) (h / 2)) as B.
  replace (s + h / 2 + h / 2) with (s + h) in B by lra.
  destruct (Rtotal_order h 0) as [H|[H|H]]; [|lra|].
  - pose proof (sigmoid_incr (s + h / 2) s ltac:(lra)). nra.
  - pose proof (sigmoid_incr s (s + h / 2) ltac:(lra)). nra.
Qed.

Lemma sigmoid_prod p : 0 < p < 1 -> 0 < p * (1 - p) <= 1 / 4.
Proof. intros H. split; [nra|]. pose proof (pow2_ge_0 (p - 1 / 2)). nra. Qed.

Lemma sigmoid_lip a b : a <= b -> sigmoid b - sigmoid a <= (b - a) / 4.
Proof.
  intros [H|H]; [|subst; lra].
  destruct (MVT_cor2 sigmoid (fun z => sigmoid z * (1 - sigmoid z)) a b H) as (c & E & _); [intros; apply sigmoid_deriv|].
  rewrite E. pose proof (sigmoid_prod _ (sigmoid_range c)). nra.
Qed.

Lemma sp_above s h : sp (s + h) <= sp s + sigmoid s * h + h ^ 2 / 8.
Proof.
  destruct (Rtotal_order h 0) as [H|[H|H]].
  - destruct (MVT_cor2 (fun z => sp z - sigmoid s * z - (z - s) ^ 2 / 8) (fun z => sigmoid z - sigmoid s * 1 - 2 * (z - s) / 8) (s + h) s ltac:(lra)) as (c & E & Hc).
    { intros c _. apply derivable_pt_lim_minus; [apply derivable_pt_lim_minus; [apply softplus_deriv|]|].
      - apply (derivable_pt_lim_scal id). apply derivable_pt_lim_id.
      - unfold Rdiv. apply (derivable_pt_lim_ext (fun z => / 8 * ((z - s) * (z - s)))); [intros; lra|].
        replace (2 * (c - s) * / 8) with (/ 8 * (1 * (c - s) + (c - s) * 1)) by lra.
        apply derivable_pt_lim_scal. apply (derivable_pt_lim_mult (fun z => z - s) (fun z => z - s));
          (replace 1 with (1 - 0) by lra; apply (derivable_pt_lim_minus id); [apply derivable_pt_lim_id|apply derivable_pt_lim_const]). }
    cbv beta in E. pose proof (sigmoid_lip c s ltac:(lra)). nra.
  - subst. replace (s + 0) with s by lra. lra.
  - destruct (MVT_cor2 (fun z => sp z - sigmoid s * z - (z - s) ^ 2 / 8) (fun z => sigmoid z - sigmoid s * 1 - 2 * (z - s) / 8) s (s + h) ltac:(lra)) as (c & E & Hc).
    { intros c _. apply derivable_pt_lim_minus; [apply derivable_pt_lim_minus; [apply softplus_deriv|]|].
      - apply (derivable_pt_lim_scal id). apply derivable_pt_lim_id.
      - unfold Rdiv. apply (derivable_pt_lim_ext (fun z => / 8 * ((z - s) * (z - s)))); [intros; lra|].
        replace (2 * (c - s) * / 8) with (/ 8 * (1 * (c - s) + (c - s) * 1)) by lra.
        apply derivable_pt_lim_scal. apply (derivable_pt_lim_mult (fun z => z - s) (fun z => z - s));
          (replace 1 with (1 - 0) by lra; apply (derivable_pt_lim_minus id); [apply derivable_pt_lim_id|apply derivable_pt_lim_const]). }
    cbv beta in E. pose proof (sigmoid_lip s c ltac:(lra)). nra.
Qed.

(** ** Vectors *)
Lemma dot_between t r : forall a b, length a = length b -> dot r (between t a b) = (1 - t) * dot r a + t * dot r b.
Proof.
  unfold between. induction r as [|z r IH]; intros [|u a] [|v b] L; try discriminate; simpl; try lra.
  rewrite IH by (simpl in L; lia). lra.
Qed.
Lemma dot_difference r : forall b a, length b = length a -> dot r (difference b a) = dot r b - dot r a.
Proof.
  unfold difference. induction r as [|z r IH]; intros [|u a] [|v b] L; try discriminate; simpl; try lra.
  rewrite IH by (simpl in L; lia). lra.
Qed.
Lemma vsub_difference b a : vsub b a = difference b a. Proof. reflexivity. Qed.
Lemma dot_vsub r b a : length b = length a -> dot r (vsub b a) = dot r b - dot r a. Proof. apply dot_difference. Qed.
Lemma dot_vscale c r : forall a, dot r (vscale c a) = c * dot r a.
Proof. induction r as [|z r IH]; intros [|u a]; simpl; try lra. rewrite IH. lra. Qed.
Lemma vscale_length c a : length (vscale c a) = length a. Proof. apply map_length. Qed.
Lemma vsub_length a b : length a = length b -> length (vsub a b) = length a.
Proof. intros L. unfold vsub. rewrite map_length, combine_length. lia. Qed.
Lemma difference_length a b : length a = length b -> length (difference a b) = length a.
Proof. apply vsub_length. Qed.
Lemma between_length t a b : length a = length b -> length (between t a b) = length a.
Proof. intros L. unfold between. rewrite map_length, combine_length. lia. Qed.
Lemma nth_difference b a j : length b = length a -> nth j (difference b a) 0 = nth j b 0 - nth j a 0.
Proof.
  unfold difference. revert a j. induction b as [|u b IH]; intros [|v a] [|j] L; try discriminate; simpl; try lra.
  rewrite IH by (simpl in L; lia). lra.
Qed.
Lemma inner_dot a b : length a = length b -> inner a b = dot a b.
Proof. intros L. symmetry. now apply dot_sum. Qed.

Lemma with_one_length r : length (with_one r) = S (length r).
Proof. unfold with_one. rewrite app_length. simpl. lia. Qed.

Lemma score_dot d beta r : length r = d -> length beta = S d -> score beta r = dot (with_one r) beta.
Proof.
  intros Hr Hb. rewrite (dot_sum (S d)) by (rewrite ?with_one_length; lia). unfold score. rewrite Hr, sum_below_S.
  unfold with_one. rewrite (app_nth2 r [1]) by lia. rewrite Hr, Nat.sub_diag. simpl. rewrite Rmult_1_l. f_equal.
  apply sum_below_ext. intros m Hm. rewrite app_nth1 by lia. lra.
Qed.

(** Replacing one parameter. *)
Lemma with_param_length j t b : (j < length b)%nat -> length (with_param j t b) = length b.
Proof. intros H. unfold with_param. rewrite app_length, firstn_length. cbn [length]. rewrite skipn_length. lia. Qed.
Lemma dot_with_param t : forall b r j, (j < length b)%nat -> (j < length r)%nat -> dot r (with_param j t b) = dot r b + (t - nth j b 0) * nth j r 0.
Proof.
  induction b as [|v b IH]; intros [|u r] [|j] Hb Hr; cbn [length] in *; try lia; unfold with_param in *; simpl; [lra|].
  specialize (IH r j ltac:(lia) ltac:(lia)). simpl in IH. rewrite IH. lra.
Qed.
Lemma with_param_self : forall b j, (j < length b)%nat -> with_param j (nth j b 0) b = b.
Proof.
  induction b as [|v b IH]; intros [|j] H; cbn [length] in *; try lia; unfold with_param in *; simpl; auto.
  f_equal. apply IH. lia.
Qed.

(** ** Sums over the samples *)
Section Data.
  Variables (d : nat) (x : list (list R)) (y : list Z).
  Hypothesis Hxy : length x = length y.
  Hypothesis Hx : Forall (fun r => length r = d) x.

  Definition u (b : list R) (p : list R * Z) : R := dot (with_one (fst p)) b.

  Lemma in_data p : In p (combine x y) -> length (with_one (fst p)) = S d.
  Proof. destruct p as [r l]. intros H. apply in_combine_l in H. rewrite Forall_forall in Hx. rewrite with_one_length. simpl. now rewrite (Hx _ H). Qed.

  Lemma loss_sum b : length b = S d -> neg_log_likelihood x y b = rsum (map (fun p => sp (u b p) - IZR (snd p) * u b p) (combine x y)).
  Proof.
    intros Hb. unfold neg_log_likelihood. change total with rsum. apply rsum_ext. intros [r l] Hp. simpl.
    rewrite Forall_forall in Hx. rewrite (score_dot d) by (auto; apply Hx; eapply in_combine_l; eauto). reflexivity.
  Qed.

  Lemma log_likelihood_sum b : length b = S d -> Model.Activations.log_likelihood (map IZR y) b (map with_one x) = neg_log_likelihood x y b.
  Proof.
    intros Hb. rewrite loss_sum by auto. unfold Model.Activations.log_likelihood. clear Hx. revert y Hxy. induction x as [|r xs IH]; intros [|l ys] L; try discriminate; auto.
    cbn [map combine]. unfold rsum in *. cbn [fold_right]. rewrite IH by (simpl in L; lia). unfold sp, u. simpl. lra.
  Qed.

  Lemma backward_row (g : list R -> R * R -> R) b :
    map (fun p => g (snd p) (fst p)) (combine (combine (forward x b) (map IZR y)) (map with_one x)) =
    map (fun p => g (with_one (fst p)) (sigmoid (u b p), IZR (snd p))) (combine x y).
  Proof.
    clear Hx. revert y Hxy. induction x as [|r xs IH]; intros [|l ys] L; try discriminate; auto.
    simpl. f_equal. apply IH. simpl in L; lia.
  Qed.

  Lemma gradient_length b : length (gradient_at d x y b) = S d.
  Proof. unfold gradient_at, backward. now rewrite map_length, seq_length. Qed.

  Lemma gradient_nth b j : (j < S d)%nat ->
    nth j (gradient_at d x y b) 0 = rsum (map (fun p => nth j (with_one (fst p)) 0 * (sigmoid (u b p) - IZR (snd p))) (combine x y)).
  Proof.
    intros Hj. unfold gradient_at, backward. rewrite nth_map_seq by auto.
    rewrite (backward_row (fun r q => - nth j r 0 * (snd q - fst q))). apply rsum_ext. intros p _. simpl. lra.
  Qed.

  Lemma gradient_dot b v : length v = S d ->
    dot (gradient_at d x y b) v = rsum (map (fun p => (sigmoid (u b p) - IZR (snd p)) * dot (with_one (fst p)) v) (combine x y)).
  Proof.
    intros Hv. rewrite (dot_sum (S d)) by (auto using gradient_length).
    transitivity (rsum (map (fun p => sum_below (S d) (fun k => (sigmoid (u b p) - IZR (snd p)) * (nth k (with_one (fst p)) 0 * nth k v 0))) (combine x y))).
    - rewrite rsum_sum_below. apply sum_below_ext. intros k Hk. rewrite gradient_nth by auto.
      rewrite <- rsum_map_scal_r. apply rsum_ext. intros p _. lra.
    - apply rsum_ext. intros p Hp. rewrite sum_below_scal. f_equal. symmetry. apply dot_sum; auto. now apply in_data.
  Qed.

  Lemma hessian_entry b j k : (j < S d)%nat -> (k < S d)%nat ->
    entry (hessian_at d x b) j k =
    rsum (map (fun p => nth j (with_one (fst p)) 0 * (sigmoid (u b p) * (1 - sigmoid (u b p))) * nth k (with_one (fst p)) 0) (combine x y)).
  Proof.
    intros Hj Hk. unfold entry, hessian_at, hessian. rewrite nth_map_seq by auto. rewrite nth_map_seq by auto.
    clear Hx. f_equal. revert y Hxy. induction x as [|r xs IH]; intros [|l ys] L; try discriminate; auto.
    simpl. f_equal. apply IH. simpl in L; lia.
  Qed.

  (** Derivatives. *)
  Lemma deriv_sum {A} (f : A -> R -> R) (f' : A -> R) t (l : list A) : (forall a, In a l -> derivable_pt_lim (f a) t (f' a)) ->
    derivable_pt_lim (fun s => rsum (map (fun a => f a s) l)) t (rsum (map f' l)).
  Proof.
    clear. induction l as [|a l IH]; intros H; simpl; [apply derivable_pt_lim_const|]. unfold rsum in *. simpl.
    apply (derivable_pt_lim_plus (f a)); [apply H; simpl; auto|]. apply IH. intros; apply H; simpl; auto.
  Qed.

  Lemma deriv_line a c t0 t : derivable_pt_lim (fun s => a + (s - t0) * c) t c.
  Proof.
    replace c with (0 + ((1 - 0) * c + (t - t0) * 0)) at 1 by lra.
    apply (derivable_pt_lim_plus (fun _ => a)); [apply derivable_pt_lim_const|].
    apply (derivable_pt_lim_mult (fun s => s - t0) (fun _ => c)); [|apply derivable_pt_lim_const].
    apply (derivable_pt_lim_minus id); [apply derivable_pt_lim_id|apply derivable_pt_lim_const].
  Qed.

  Lemma gradient_is_derivative b j : length b = S d -> (j < S d)%nat ->
    derivable_pt_lim (fun t => neg_log_likelihood x y (with_param j t b)) (nth j b 0) (nth j (gradient_at d x y b) 0).
  Proof.
    intros Hb Hj. rewrite gradient_nth by auto.
    apply (derivable_pt_lim_ext (fun t => rsum (map (fun p => sp (u b p + (t - nth j b 0) * nth j (with_one (fst p)) 0) - IZR (snd p) * (u b p + (t - nth j b 0) * nth j (with_one (fst p)) 0)) (combine x y)))).
    - intros t. rewrite loss_sum by (rewrite with_param_length; lia). apply rsum_ext. intros p Hp. unfold u.
      rewrite dot_with_param; [reflexivity|lia|]. rewrite (in_data p Hp). lia.
    - apply deriv_sum. intros p Hp. set (c := nth j (with_one (fst p)) 0).
      replace (c * (sigmoid (u b p) - IZR (snd p))) with (sigmoid (u b p + (nth j b 0 - nth j b 0) * c) * c - IZR (snd p) * c)
        by (rewrite Rminus_eq_0, Rmult_0_l, Rplus_0_r; ring).
      apply derivable_pt_lim_minus.
      + apply (derivable_pt_lim_comp (fun t => u b p + (t - nth j b 0) * c) sp); [apply deriv_line|apply softplus_deriv].
      + apply derivable_pt_lim_scal, deriv_line.
  Qed.

  Lemma hessian_is_derivative b j k : length b = S d -> (j < S d)%nat -> (k < S d)%nat ->
    derivable_pt_lim (fun t => nth j (gradient_at d x y (with_param k t b)) 0) (nth k b 0) (entry (hessian_at d x b) j k).
  Proof.
    intros Hb Hj Hk. rewrite hessian_entry by auto.
    apply (derivable_pt_lim_ext (fun t => rsum (map (fun p => nth j (with_one (fst p)) 0 * (sigmoid (u b p + (t - nth k b 0) * nth k (with_one (fst p)) 0) - IZR (snd p))) (combine x y)))).
    - intros t. rewrite gradient_nth by auto. apply rsum_ext. intros p Hp. unfold u.
      rewrite dot_with_param; [reflexivity|lia|]. rewrite (in_data p Hp). lia.
    - apply deriv_sum. intros p Hp. set (c := nth k (with_one (fst p)) 0). rewrite Rmult_assoc. apply derivable_pt_lim_scal.
      replace (sigmoid (u b p) * (1 - sigmoid (u b p)) * c) with
        ((sigmoid (u b p + (nth k b 0 - nth k b 0) * c) * (1 - sigmoid (u b p + (nth k b 0 - nth k b 0) * c))) * c - 0)
        by (rewrite Rminus_eq_0, Rmult_0_l, Rplus_0_r; ring).
      apply derivable_pt_lim_minus; [|apply derivable_pt_lim_const].
      apply (derivable_pt_lim_comp (fun t => u b p + (t - nth k b 0) * c) sigmoid); [apply deriv_line|apply sigmoid_deriv].
  Qed.

  (** Convexity. *)
  Lemma first_order a b : length a = S d -> length b = S d ->
    neg_log_likelihood x y a + inner (gradient_at d x y a) (difference b a) <= neg_log_likelihood x y b.
  Proof.
    intros Ha Hb. rewrite inner_dot by (rewrite gradient_length, difference_length; lia). rewrite gradient_dot by (rewrite difference_length; lia).
    rewrite !loss_sum by auto. rewrite <- rsum_map_plus. apply rsum_le. intros p Hp.
    rewrite dot_difference by lia. fold (u b p) (u a p). pose proof (sp_below (u a p) (u b p - u a p)) as H.
    replace (u a p + (u b p - u a p)) with (u b p) in H by lra. nra.
  Qed.

  Lemma first_order_eq a b : length a = S d -> length b = S d ->
    neg_log_likelihood x y b <= neg_log_likelihood x y a + inner (gradient_at d x y a) (difference b a) ->
    forall r, In r x -> score a r = score b r.
  Proof.
    intros Ha Hb Le r Hr. rewrite inner_dot in Le by (rewrite gradient_length, difference_length; lia). rewrite gradient_dot in Le by (rewrite difference_length; lia).
    rewrite !loss_sum in Le by auto. rewrite <- rsum_map_plus in Le.
    assert (Z : forall p, In p (combine x y) -> u b p = u a p).
    { set (F := fun p => (sp (u b p) - IZR (snd p) * u b p) - (sp (u a p) - IZR (snd p) * u a p + (sigmoid (u a p) - IZR (snd p)) * dot (with_one (fst p)) (difference b a))).
      assert (P : forall p, 0 <= F p /\ (F p = 0 -> u b p = u a p)).
      { intros p. unfold F. rewrite dot_difference by lia. fold (u b p) (u a p). split.
        - pose proof (sp_below (u a p) (u b p - u a p)) as H. replace (u a p + (u b p - u a p)) with (u b p) in H by lra. nra.
        - intros E. destruct (Req_dec (u b p - u a p) 0) as [|N]; [lra|]. pose proof (sp_below_strict (u a p) _ N) as H.
          replace (u a p + (u b p - u a p)) with (u b p) in H by lra. nra. }
      assert (S0 : rsum (map F (combine x y)) = 0).
      { apply Rle_antisym; [unfold F; rewrite rsum_map_minus; lra|]. apply rsum_nonneg. intros v Hv. apply in_map_iff in Hv. destruct Hv as (p & <- & _). apply P. }
      intros p Hp. apply P. apply (rsum_nonneg_zero (map F (combine x y))); auto; [|now apply in_map].
      intros v Hv. apply in_map_iff in Hv. destruct Hv as (q & <- & _). apply P. }
    rewrite Forall_forall in Hx. rewrite !(score_dot d) by auto.
    apply In_nth with (d := []) in Hr. destruct Hr as (i & Hi & <-).
    assert (In (nth i x [], nth i y 0%Z) (combine x y)) as Hin by (rewrite <- combine_nth by auto; apply nth_In; rewrite combine_length; lia).
    symmetry. exact (Z _ Hin).
  Qed.

  Lemma loss_convex t a b : length a = S d -> length b = S d -> 0 <= t <= 1 ->
    neg_log_likelihood x y (between t a b) <= (1 - t) * neg_log_likelihood x y a + t * neg_log_likelihood x y b.
  Proof.
    intros Ha Hb Ht. rewrite !loss_sum by (auto; rewrite between_length; lia). rewrite <- !rsum_map_scal, <- rsum_map_plus. apply rsum_le. intros p Hp.
    set (m := between t a b). assert (Em : u m p = (1 - t) * u a p + t * u b p) by (unfold u, m; apply dot_between; lia).
    pose proof (sp_below (u m p) (u a p - u m p)) as A. pose proof (sp_below (u m p) (u b p - u m p)) as B.
    replace (u m p + (u a p - u m p)) with (u a p) in A by lra. replace (u m p + (u b p - u m p)) with (u b p) in B by lra.
    set (s := sigmoid (u m p)) in *.
    assert (sp (u m p) <= (1 - t) * sp (u a p) + t * sp (u b p)).
    { assert ((1 - t) * (sp (u m p) + s * (u a p - u m p)) <= (1 - t) * sp (u a p)) by (apply Rmult_le_compat_l; lra).
      assert (t * (sp (u m p) + s * (u b p - u m p)) <= t * sp (u b p)) by (apply Rmult_le_compat_l; lra).
      assert (s * ((1 - t) * (u a p - u m p) + t * (u b p - u m p)) = 0) by (rewrite Em; ring). nra. }
    rewrite Em in *. nra.
  Qed.

  Lemma quadratic b (v : list R) : length v = S d ->
    sum_below (S d) (fun j => sum_below (S d) (fun k => nth j v 0 * nth k v 0 * entry (hessian_at d x b) j k)) =
    rsum (map (fun p => sigmoid (u b p) * (1 - sigmoid (u b p)) * dot (with_one (fst p)) v ^ 2) (combine x y)).
  Proof.
    intros Hv. transitivity (rsum (map (fun p => sum_below (S d) (fun j => sum_below (S d) (fun k =>
        sigmoid (u b p) * (1 - sigmoid (u b p)) * ((nth j (with_one (fst p)) 0 * nth j v 0) * (nth k (with_one (fst p)) 0 * nth k v 0))))) (combine x y))).
    - rewrite (rsum_sum_below (S d) (fun p j => sum_below (S d) (fun k =>
        sigmoid (u b p) * (1 - sigmoid (u b p)) * ((nth j (with_one (fst p)) 0 * nth j v 0) * (nth k (with_one (fst p)) 0 * nth k v 0))))).
      apply sum_below_ext. intros j Hj. rewrite (rsum_sum_below (S d) (fun p k =>
        sigmoid (u b p) * (1 - sigmoid (u b p)) * ((nth j (with_one (fst p)) 0 * nth j v 0) * (nth k (with_one (fst p)) 0 * nth k v 0)))).
      apply sum_below_ext. intros k Hk. rewrite hessian_entry by auto. rewrite <- rsum_map_scal. apply rsum_ext. intros p _. ring.
    - apply rsum_ext. intros p Hp. rewrite (dot_sum (S d) (with_one (fst p)) v) by (auto; now apply in_data).
      replace (sum_below (S d) (fun k => nth k (with_one (fst p)) 0 * nth k v 0) ^ 2) with
        (sum_below (S d) (fun k => nth k (with_one (fst p)) 0 * nth k v 0) * sum_below (S d) (fun k => nth k (with_one (fst p)) 0 * nth k v 0)) by ring.
      rewrite sum_below_mult. rewrite <- sum_below_scal. apply sum_below_ext. intros j _. now rewrite <- sum_below_scal.
  Qed.

  Lemma hessian_sym b : symmetric_matrix (S d) (hessian_at d x b).
  Proof. intros j k Hj Hk. rewrite !hessian_entry by auto. apply rsum_ext. intros p _. ring. Qed.

  Lemma quadratic_nonneg b v : length v = S d ->
    0 <= sum_below (S d) (fun j => sum_below (S d) (fun k => nth j v 0 * nth k v 0 * entry (hessian_at d x b) j k)).
  Proof.
    intros Hv. rewrite quadratic by auto. apply rsum_nonneg. intros z Hz. apply in_map_iff in Hz. destruct Hz as (p & <- & _).
    pose proof (sigmoid_prod _ (sigmoid_range (u b p))). pose proof (pow2_ge_0 (dot (with_one (fst p)) v)). nra.
  Qed.

  Lemma hessian_psd b : psd_matrix (S d) (hessian_at d x b).
  Proof.
    intros v. pose proof (quadratic_nonneg b (map v (seq 0 (S d))) ltac:(now rewrite map_length, seq_length)) as H.
    erewrite sum_below_ext; [exact H|]. intros j Hj. apply sum_below_ext. intros k Hk. rewrite !nth_map_seq by auto. reflexivity.
  Qed.

  (** ** Gradient descent *)
  Definition smoothness : R := rsum (map (fun p => sqnorm (with_one (fst p))) (combine x y)) / 4.

  Lemma cauchy : forall a b, length a = length b -> dot a b ^ 2 <= sqnorm a * sqnorm b.
  Proof.
    clear. unfold sqnorm. induction a as [|x a IH]; intros [|y b] L; try discriminate; simpl; [lra|].
    specialize (IH b ltac:(simpl in L; lia)). pose proof (sqnorm_nonneg a) as A. pose proof (sqnorm_nonneg b) as B. unfold sqnorm in A, B.
    set (p := dot a b) in *. set (q := dot a a) in *. set (s := dot b b) in *.
    assert (Q : 2 * (x * y) * p <= x * x * s + y * y * q).
    { assert (0 <= x * x * s + y * y * q - 2 * (x * y) * p \/ x * x * s + y * y * q - 2 * (x * y) * p < 0) as [|N] by lra; [lra|exfalso].
      assert (K : (x * x * s + y * y * q) ^ 2 >= 4 * ((x * x * s) * (y * y * q))) by (pose proof (pow2_ge_0 (x * x * s - y * y * q)); nra).
      assert (K2 : 4 * (x * y) ^ 2 * p ^ 2 <= 4 * (x * y) ^ 2 * (q * s)) by (apply Rmult_le_compat_l; [pose proof (pow2_ge_0 (x * y)); lra|simpl in *; lra]).
      assert (0 <= x * x * s + y * y * q) by nra. nra. }
    simpl in IH. nra.
  Qed.

  Lemma descent rate b : length b = S d ->
    neg_log_likelihood x y (gd_step rate d x y b) <=
    neg_log_likelihood x y b - rate * (1 - rate * smoothness / 2) * sqnorm (gradient_at d x y b).
  Proof.
    intros Hb. set (g := gradient_at d x y b). assert (Hg : length g = S d) by apply gradient_length.
    unfold gd_step. fold g. rewrite !loss_sum by (auto; rewrite vsub_length; rewrite ?vscale_length; lia).
    assert (G : sqnorm g = rsum (map (fun p => (sigmoid (u b p) - IZR (snd p)) * dot (with_one (fst p)) g) (combine x y))) by (apply gradient_dot; auto).
    apply Rle_trans with (rsum (map (fun p => (sp (u b p) - IZR (snd p) * u b p) + (- rate) * ((sigmoid (u b p) - IZR (snd p)) * dot (with_one (fst p)) g)
                                      + (rate ^ 2 / 8 * sqnorm g) * sqnorm (with_one (fst p))) (combine x y))).
    - apply rsum_le. intros p Hp. unfold u at 1 2. rewrite dot_vsub by (rewrite vscale_length; lia). rewrite dot_vscale. fold (u b p).
      set (w := dot (with_one (fst p)) g). pose proof (sp_above (u b p) (- (rate * w))) as A.
      replace (u b p + - (rate * w)) with (u b p - rate * w) in A by lra.
      assert (C : w ^ 2 <= sqnorm (with_one (fst p)) * sqnorm g) by (apply cauchy; rewrite (in_data p Hp); lia).
      assert (rate ^ 2 / 8 * w ^ 2 <= rate ^ 2 / 8 * (sqnorm (with_one (fst p)) * sqnorm g)) by (apply Rmult_le_compat_l; [pose proof (pow2_ge_0 rate); lra|auto]).
      replace ((- (rate * w)) ^ 2 / 8) with (rate ^ 2 / 8 * w ^ 2) in A by field. nra.
    - rewrite !rsum_map_plus. rewrite (rsum_map_scal (- rate)), (rsum_map_scal (rate ^ 2 / 8 * sqnorm g)). rewrite <- G. unfold smoothness.
      apply Req_le. field.
  Qed.

  Lemma gd_length rate b : length b = S d -> length (gd_step rate d x y b) = S d.
  Proof. intros Hb. unfold gd_step. rewrite vsub_length; rewrite ?vscale_length, ?gradient_length; auto. Qed.

  (** Progress towards any fixed parameters. *)
  Lemma gd_progress rate b c : length b = S d -> length c = S d -> 0 < rate -> rate * smoothness <= 1 ->
    2 * rate * (neg_log_likelihood x y (gd_step rate d x y b) - neg_log_likelihood x y c) <=
    sqnorm (difference b c) - sqnorm (difference (gd_step rate d x y b) c).
  Proof.
    intros Hb Hc Hr Hs. pose proof (descent rate b Hb) as D. pose proof (first_order b c Hb Hc) as F.
    set (g := gradient_at d x y b) in *. assert (Hg : length g = S d) by apply gradient_length.
    rewrite inner_dot in F by (rewrite difference_length; lia). rewrite dot_difference in F by lia.
    assert (E : sqnorm (difference (gd_step rate d x y b) c) = sqnorm (difference b c) - 2 * rate * (dot g b - dot g c) + rate ^ 2 * sqnorm g).
    { unfold gd_step. fold g. rewrite <- !vsub_difference.
      assert (L1 : length (vsub b (vscale rate g)) = S d) by (rewrite vsub_length; rewrite ?vscale_length; lia).
      assert (W : forall z, dot (vsub b (vscale rate g)) z = dot b z - rate * dot g z).
      { intros z. rewrite dot_comm, dot_vsub by (rewrite vscale_length; lia). rewrite dot_vscale. now rewrite (dot_comm z b), (dot_comm z g). }
      assert (W' : forall z, dot z (vsub b (vscale rate g)) = dot b z - rate * dot g z) by (intros; rewrite dot_comm; apply W).
      rewrite !sqnorm_vsub by lia. rewrite !W, !W'. unfold sqnorm. rewrite (dot_comm b g). ring. }
    rewrite E. pose proof (sqnorm_nonneg g) as Gn.
    assert (P : rate / 2 * sqnorm g <= rate * (1 - rate * smoothness / 2) * sqnorm g).
    { apply Rmult_le_compat_r; auto. assert (0 <= rate * (1 - rate * smoothness)) by (apply Rmult_le_pos; lra). nra. }
    assert (2 * rate * (neg_log_likelihood x y (gd_step rate d x y b) - neg_log_likelihood x y c) <=
            2 * rate * (dot g b - dot g c - rate / 2 * sqnorm g)) by (apply Rmult_le_compat_l; lra).
    nra.
  Qed.

  Lemma gd_descends rate b : length b = S d -> 0 <= rate -> rate * smoothness <= 2 ->
    neg_log_likelihood x y (gd_step rate d x y b) <= neg_log_likelihood x y b.
  Proof.
    intros Hb Hr Hs. pose proof (descent rate b Hb). pose proof (sqnorm_nonneg (gradient_at d x y b)).
    assert (0 <= rate * (1 - rate * smoothness / 2)) by (apply Rmult_le_pos; lra).
    assert (0 <= rate * (1 - rate * smoothness / 2) * sqnorm (gradient_at d x y b)) by (apply Rmult_le_pos; auto). lra.
  Qed.

  Lemma gd_run_rate rate n : forall b b' c, length b = S d -> length c = S d -> 0 < rate -> rate * smoothness <= 1 ->
    opt_run (GradientDescent rate) n d x y b = Ok b' ->
    length b' = S d /\
    INR n * (2 * rate) * (neg_log_likelihood x y b' - neg_log_likelihood x y c) <= sqnorm (difference b c) - sqnorm (difference b' c) /\
    neg_log_likelihood x y b' <= neg_log_likelihood x y b.
  Proof.
    induction n as [|n IH]; intros b b' c Hb Hc Hr Hs E; cbn [opt_run opt_step bind] in E.
    - injection E as <-. split; auto. split; [simpl; lra|lra].
    - destruct (IH _ b' c (gd_length rate b Hb) Hc Hr Hs E) as (L & A & B). split; auto.
      pose proof (gd_progress rate b c Hb Hc Hr Hs) as P. pose proof (gd_descends rate b Hb ltac:(lra) ltac:(lra)) as De.
      split; [|lra]. rewrite S_INR.
      assert (2 * rate * neg_log_likelihood x y b' <= 2 * rate * neg_log_likelihood x y (gd_step rate d x y b)) by (apply Rmult_le_compat_l; lra).
      lra.
  Qed.

  (** ** Newton's method *)
  Lemma newton_length b b' : length b = S d -> newton_step d x y b = Ok b' -> length b' = S d.
  Proof.
    intros Hb. unfold newton_step. destruct (inverse _ _) as [M|] eqn:E; simpl; [|discriminate]. intros H. injection H as <-.
    destruct (inverse_ok E) as [[LM _] _]. rewrite vsub_length; rewrite ?map_length; lia.
  Qed.

  Lemma newton_solves b b' : length b = S d -> newton_step d x y b = Ok b' ->
    forall i, (i < S d)%nat ->
      sum_below (S d) (fun k => entry (hessian_at d x b) i k * nth k (difference b' b) 0) = - nth i (gradient_at d x y b) 0.
  Proof.
    intros Hb E i Hi. pose proof (newton_length b b' Hb E) as Lb'. unfold newton_step in E. destruct (inverse _ _) as [M|] eqn:EM; simpl in E; [|discriminate].
    destruct (inverse_ok EM) as ([LM RM] & P & _). set (g := gradient_at d x y b) in *. assert (Hg : length g = S d) by apply gradient_length.
    set (H := hessian_at d x b) in *.
    assert (K : forall k, (k < S d)%nat -> nth k (difference b' b) 0 = - sum_below (S d) (fun l => entry M k l * nth l g 0)).
    { intros k Hk. rewrite nth_difference by lia. injection E as <-. rewrite vsub_difference, nth_difference by (rewrite map_length; lia).
      rewrite (nth_map_in _ _ _ _ []) by lia. rewrite (dot_sum (S d)) by (auto; rewrite Forall_forall in RM; apply RM, nth_In; lia). unfold entry. lra. }
    erewrite sum_below_ext; [|intros k Hk; rewrite (K k Hk); reflexivity].
    transitivity (- sum_below (S d) (fun l => sum_below (S d) (fun k => entry H i k * entry M k l) * nth l g 0)).
    - rewrite <- (Rmult_1_l (sum_below (S d) (fun l => _ * nth l g 0))), Ropp_mult_distr_l, <- sum_below_scal.
      transitivity (sum_below (S d) (fun k => sum_below (S d) (fun l => -1 * (entry H i k * entry M k l * nth l g 0)))).
      + apply sum_below_ext. intros k _. rewrite sum_below_scal. rewrite <- Ropp_mult_distr_r, <- sum_below_scal.
        rewrite (sum_below_ext _ (fun m => entry H i k * (entry M k m * nth m g 0)) (fun m => entry H i k * entry M k m * nth m g 0)) by (intros; ring). lra.
      + rewrite sum_below_swap. apply sum_below_ext. intros l _. rewrite sum_below_scal. f_equal.
        rewrite (sum_below_ext _ (fun m => entry H i m * entry M m l * nth l g 0) (fun m => nth l g 0 * (entry H i m * entry M m l))) by (intros; ring).
        rewrite sum_below_scal. ring.
    - f_equal. rewrite (sum_below_one (S d) i); auto.
      + rewrite (P i i) by auto. rewrite Nat.eqb_refl. lra.
      + intros l Hl Ne. rewrite (P i l) by auto. destruct (Nat.eqb_spec i l); [congruence|lra].
  Qed.

  Lemma newton_direction b b' : length b = S d -> newton_step d x y b = Ok b' ->
    inner (gradient_at d x y b) (difference b' b) =
    - sum_below (S d) (fun j => sum_below (S d) (fun k => nth j (difference b' b) 0 * nth k (difference b' b) 0 * entry (hessian_at d x b) j k)).
  Proof.
    intros Hb E. pose proof (newton_solves b b' Hb E) as Q. unfold inner. rewrite gradient_length.
    rewrite <- (Rmult_1_l (sum_below (S d) (fun j => sum_below _ _))), Ropp_mult_distr_l, <- sum_below_scal.
    apply sum_below_ext. intros i Hi. replace (nth i (gradient_at d x y b) 0) with (- - nth i (gradient_at d x y b) 0) by lra. rewrite <- (Q i Hi).
    rewrite (sum_below_ext _ (fun k => nth i (difference b' b) 0 * nth k (difference b' b) 0 * entry (hessian_at d x b) i k)
               (fun k => nth i (difference b' b) 0 * (entry (hessian_at d x b) i k * nth k (difference b' b) 0))) by (intros; ring).
    rewrite sum_below_scal. ring.
  Qed.

  Definition stationary (b : list R) : Prop := forall j, (j < S d)%nat -> nth j (gradient_at d x y b) 0 = 0.

  (** The columns and the constant are linearly dependent on the rows. *)
  Definition dependent : Prop := exists v, length v = S d /\ (exists j, (j < S d)%nat /\ nth j v 0 <> 0) /\ forall r, In r x -> dot (with_one r) v = 0.

  Lemma square_sum_zero b v : rsum (map (fun p => sigmoid (u b p) * (1 - sigmoid (u b p)) * dot (with_one (fst p)) v ^ 2) (combine x y)) = 0 ->
    forall p, In p (combine x y) -> dot (with_one (fst p)) v = 0.
  Proof.
    intros Z p Hp. set (F := fun p => sigmoid (u b p) * (1 - sigmoid (u b p)) * dot (with_one (fst p)) v ^ 2) in Z.
    assert (N : forall z, In z (map F (combine x y)) -> 0 <= z).
    { intros z Hz. apply in_map_iff in Hz. destruct Hz as (q & <- & _). unfold F.
      pose proof (sigmoid_prod _ (sigmoid_range (u b q))). pose proof (pow2_ge_0 (dot (with_one (fst q)) v)). nra. }
    pose proof (rsum_nonneg_zero _ N Z _ (in_map F _ p Hp)) as E. unfold F in E.
    pose proof (sigmoid_prod _ (sigmoid_range (u b p))). apply Rmult_integral in E. destruct E as [E|E]; [lra|]. nra.
  Qed.

  Lemma hessian_kernel b v : length v = S d ->
    (forall j, (j < S d)%nat -> sum_below (S d) (fun k => entry (hessian_at d x b) j k * nth k v 0) = 0) <->
    (forall p, In p (combine x y) -> dot (with_one (fst p)) v = 0).
  Proof.
    intros Hv. split.
    - intros H p Hp.
      assert (Z : rsum (map (fun p => sigmoid (u b p) * (1 - sigmoid (u b p)) * dot (with_one (fst p)) v ^ 2) (combine x y)) = 0).
      { rewrite <- quadratic by auto. apply sum_below_zero. intros j Hj.
        rewrite (sum_below_ext _ _ (fun k => nth j v 0 * (entry (hessian_at d x b) j k * nth k v 0))) by (intros; ring).
        rewrite sum_below_scal, (H j Hj). lra. }
      pose proof (square_sum_zero b v Z p Hp) as E.
      exact E.
    - intros H j Hj.
      rewrite (sum_below_ext _ _ (fun k => rsum (map (fun p => nth j (with_one (fst p)) 0 * (sigmoid (u b p) * (1 - sigmoid (u b p))) * (nth k (with_one (fst p)) 0 * nth k v 0)) (combine x y)))).
      + rewrite <- rsum_sum_below. transitivity (rsum (map (fun _ : list R * Z => 0) (combine x y))).
        * apply rsum_ext. intros p Hp. rewrite sum_below_scal. rewrite <- (dot_sum (S d) (with_one (fst p)) v) by (auto; now apply in_data). rewrite (H p Hp). lra.
        * rewrite rsum_map_const. lra.
      + intros k Hk. rewrite hessian_entry by auto. rewrite <- rsum_map_scal_r. apply rsum_ext. intros; ring.
  Qed.

  Lemma data_rows (P : list R -> Prop) : (forall p, In p (combine x y) -> P (fst p)) <-> (forall r, In r x -> P r).
  Proof.
    split; intros H.
    - intros r Hr. apply In_nth with (d := []) in Hr. destruct Hr as (i & Hi & <-).
      apply (H (nth i x [], nth i y 0%Z)). rewrite <- combine_nth by auto. apply nth_In. rewrite combine_length. lia.
    - intros [r l] Hp. apply H. eapply in_combine_l; eauto.
  Qed.

  Lemma newton_fails b : (exists e, newton_step d x y b = Err e) <-> dependent.
  Proof.
    split.
    - intros [e E]. unfold newton_step in E. destruct (inverse _ _) as [M|e'] eqn:EM; simpl in E; [discriminate|].
      destruct (inverse_err_kernel EM) as (v & (i & Hi & Vi) & K).
      set (w := map v (seq 0 (S d))). assert (Lw : length w = S d) by (unfold w; now rewrite map_length, seq_length).
      assert (Nw : forall k, (k < S d)%nat -> nth k w 0 = v k) by (intros; unfold w; now rewrite nth_map_seq).
      exists w. split; auto. split; [exists i; split; auto; rewrite Nw; auto|].
      apply (data_rows (fun r => dot (with_one r) w = 0)). apply (proj1 (hessian_kernel b w Lw)). intros j Hj. transitivity R0; [|reflexivity]. rewrite <- (K j Hj).
      apply sum_below_ext. intros k Hk. now rewrite Nw.
    - intros (v & Lv & (i & Hi & Vi) & H). destruct (newton_step d x y b) as [b'|e] eqn:E; [|eauto]. exfalso. unfold newton_step in E.
      destruct (inverse _ _) as [M|] eqn:EM; simpl in E; [|discriminate]. destruct (inverse_ok EM) as (_ & _ & P).
      assert (K : forall j, (j < S d)%nat -> sum_below (S d) (fun k => entry (hessian_at d x b) j k * nth k v 0) = 0)
        by (apply (proj2 (hessian_kernel b v Lv)); apply (data_rows (fun r => dot (with_one r) v = 0)); exact H).
      apply Vi. transitivity (sum_below (S d) (fun j => sum_below (S d) (fun k => entry M i k * entry (hessian_at d x b) k j) * nth j v 0)).
      + rewrite (sum_below_one (S d) i); auto.
        * rewrite (P i i) by auto. rewrite Nat.eqb_refl. lra.
        * intros l Hl Ne. rewrite (P i l) by auto. destruct (Nat.eqb_spec i l); [congruence|lra].
      + transitivity (sum_below (S d) (fun j => sum_below (S d) (fun k => entry M i k * (entry (hessian_at d x b) k j * nth j v 0)))).
        * apply sum_below_ext. intros j _.
          rewrite (sum_below_ext _ (fun k => entry M i k * (entry (hessian_at d x b) k j * nth j v 0)) (fun k => nth j v 0 * (entry M i k * entry (hessian_at d x b) k j))) by (intros; ring).
          rewrite sum_below_scal. ring.
        * rewrite sum_below_swap. apply sum_below_zero. intros k Hk. rewrite sum_below_scal, (K k Hk). lra.
  Qed.

  Lemma newton_descent b b' : length b = S d -> newton_step d x y b = Ok b' ->
    (stationary b /\ b' = b) \/ (~ stationary b /\ b' <> b /\ inner (gradient_at d x y b) (difference b' b) < 0).
  Proof.
    intros Hb E. pose proof (newton_length b b' Hb E) as Lb'. pose proof (newton_direction b b' Hb E) as D. pose proof (newton_solves b b' Hb E) as S0.
    assert (Ld : length (difference b' b) = S d) by (rewrite difference_length; lia).
    pose proof (quadratic_nonneg b _ Ld) as Q. rewrite <- (Ropp_involutive (sum_below (S d) _)) in Q. rewrite <- D in Q.
    assert (Eb : b' = b -> stationary b).
    { intros -> j Hj. pose proof (S0 j Hj) as Z. rewrite sum_below_zero in Z; [lra|]. intros k Hk. rewrite nth_difference by auto. lra. }
    destruct (Req_dec (inner (gradient_at d x y b) (difference b' b)) 0) as [Z|Z].
    - left. assert (B : b' = b).
      { assert (K : forall p, In p (combine x y) -> dot (with_one (fst p)) (difference b' b) = 0).
        { rewrite D, quadratic in Z by auto. intros p Hp.
          apply Ropp_eq_0_compat in Z. rewrite Ropp_involutive in Z. pose proof (square_sum_zero b _ Z p Hp) as Ep.
          exact Ep. }
        destruct (list_eq_dec Req_EM_T b' b) as [|Ne]; auto. exfalso.
        assert (F : dependent).
        { exists (difference b' b). split; auto. split; [|now apply (data_rows (fun r => dot (with_one r) (difference b' b) = 0))].
          assert (X : ~ forall j, (j < S d)%nat -> nth j (difference b' b) 0 = 0).
          { intros A. apply Ne. apply nth_ext with 0 0; [lia|]. intros j Hj. specialize (A j ltac:(lia)). rewrite nth_difference in A by lia. lra. }
          clear - X. induction (S d) as [|n IH]; [exfalso; apply X; intros; lia|].
          destruct (Req_dec (nth n (difference b' b) 0) 0) as [Zn|Zn]; [|exists n; split; auto].
          destruct IH as (j & Hj & Nj); [|exists j; split; auto]. intros A. apply X. intros j Hj.
          destruct (Nat.eq_dec j n) as [->|]; auto. apply A. lia. }
        apply (newton_fails b) in F. destruct F as [e F]. congruence. }
      split; auto.
    - right. assert (Ns : ~ stationary b).
      { intros St. apply Z. unfold inner. apply sum_below_zero. intros m Hm. rewrite gradient_length in Hm. rewrite (St m Hm). lra. }
      split; auto. split; [tauto|lra].
  Qed.

  Lemma stationary_minimum b : length b = S d -> stationary b -> forall b', length b' = S d -> neg_log_likelihood x y b <= neg_log_likelihood x y b'.
  Proof.
    intros Hb St b' Hb'. pose proof (first_order b b' Hb Hb') as F.
    assert (Z : inner (gradient_at d x y b) (difference b' b) = 0).
    { unfold inner. apply sum_below_zero. intros m Hm. rewrite gradient_length in Hm. rewrite (St m Hm). lra. }
    lra.
  Qed.
End Data.
