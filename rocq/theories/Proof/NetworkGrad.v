(** Back-propagation computes the gradient of the loss. *)
From Coq Require Import List Reals Arith Lia Lra Ranalysis.
From Verif.Model Require Import Base Activations Network.
From Verif.Spec Require Import Common Smo Activations Network.
From Verif.Proof Require Import BaseLemmas Smo Kernels Gmm KMeans Activations Logistic Network NetworkMain.
Import ListNotations.
Local Open Scope R_scope.

(** [sig] is the derivative of the loss with respect to the scores. *)
Definition has_signal (c : nat) (L : list R -> list R -> R) (sig : list R -> list R -> list R) (y : list R) : Prop :=
  (forall z, length z = c -> length (sig z y) = c) /\
  forall Z z', vder c Z z' -> derivable_pt_lim (fun t => L (Z t) y) 0 (dot (sig (Z 0) y) z').

Lemma dot_zeros a n : dot a (repeat 0 n) = 0.
Proof. revert n. induction a as [|u a IH]; intros [|n]; simpl; auto. rewrite IH. lra. Qed.
Lemma vder_const n r : length r = n -> vder n (fun _ => r) (repeat 0 n).
Proof.
  intros H. split; [auto|split; [apply repeat_length|]]. intros j Hj. rewrite nth_repeat. apply derivable_pt_lim_const.
Qed.

Definition signal_at (c : nat) (L : list R -> list R -> R) (s z y : list R) : Prop :=
  length s = c /\ forall Z z', vder c Z z' -> Z 0 = z -> derivable_pt_lim (fun t => L (Z t) y) 0 (dot s z').

Lemma gradient_rows_at c d L sig ls x y p : wired d ls c -> x <> [] -> Forall (fun r => length r = d) x -> length y = length x ->
  (forall u v, In (u, v) (combine x y) -> signal_at c L (sig (output_scores ls u) v) (output_scores ls u) v) -> Forall (away_from_kinks ls) x ->
  gradient_of (fun ls => mean_loss L ls x y) ls
    (fst (back_rec (length y) (caches_of ls x p) (map (fun q => sig (output_scores ls (fst q)) (snd q)) (combine x y)))).
Proof.
  intros W Hx Fx Ly HS K. set (da := map _ (combine x y)).
  assert (Ld : length da = length x) by (unfold da; rewrite map_length, combine_length; lia).
  assert (Fd : Forall (fun r => length r = c) da).
  { unfold da. apply Forall_forall. intros r Hr. apply in_map_iff in Hr. destruct Hr as ([u v] & <- & Hq). cbn [fst snd]. apply (HS u v Hq). }
  destruct (back_rec_rows c (length y) ls d x p da W Hx Fx Ld Fd) as (G1 & _ & G3). split; [exact G1|].
  intros D S. rewrite (G3 D S). unfold mean_loss. change total with rsum. rewrite Ly.
  assert (E : combine da x = map (fun q => (sig (output_scores ls (fst q)) (snd q), fst q)) (combine x y)).
  { unfold da. clear - Ly. revert y Ly. induction x as [|u x IH]; intros [|v y] L; try discriminate; simpl; auto. f_equal. apply IH. simpl in L. lia. }
  rewrite E, map_map. cbn [fst snd].
  apply derivable_pt_lim_ext with (fun t => / INR (length x) * rsum (map (fun q => L (output_scores (moved t ls D) (fst q)) (snd q)) (combine x y))); [intros t; unfold Rdiv; ring|].
  unfold Rdiv. rewrite Rmult_comm. apply derivable_pt_lim_scal.
  apply (deriv_sum (fun q t => L (output_scores (moved t ls D) (fst q)) (snd q))). intros [u v] Hq. cbn [fst snd].
  pose proof (in_combine_l _ _ _ _ Hq) as Hu. pose proof (in_combine_r _ _ _ _ Hq) as Hv.
  rewrite Forall_forall in Fx, K.
  destruct (row_derivative c ls D d (fun _ => u) (repeat 0 d) W S (vder_const d u (Fx u Hu)) (K u Hu)) as (z' & Vz & Ez).
  destruct (HS u v Hq) as [SL SD]. specialize (SD _ _ Vz). cbv beta in SD. rewrite (moved_0 ls D S) in SD. specialize (SD eq_refl).
  rewrite (Ez _ SL) in SD. rewrite dot_zeros, Rplus_0_r in SD. exact SD.
Qed.

Lemma gradient_rows c d L sig ls x y p : wired d ls c -> x <> [] -> Forall (fun r => length r = d) x -> length y = length x ->
  Forall (has_signal c L sig) y -> Forall (away_from_kinks ls) x ->
  gradient_of (fun ls => mean_loss L ls x y) ls
    (fst (back_rec (length y) (caches_of ls x p) (map (fun q => sig (output_scores ls (fst q)) (snd q)) (combine x y)))).
Proof.
  intros W Hx Fx Ly HS K. apply (gradient_rows_at c d); auto. intros u v Hq. apply in_combine_r in Hq. rewrite Forall_forall in HS.
  destruct (HS v Hq) as [A B]. split; [apply A; now apply (output_scores_length c ls d)|]. intros Z z' V <-. now apply B.
Qed.

(** ** The losses *)
Lemma exp_total_pos z : z <> [] -> 0 < total (map exp z).
Proof.
  intros H. change total with rsum. apply rsum_pos; [destruct z; simpl; congruence|]. intros v Hv. apply in_map_iff in Hv. destruct Hv as (u & <- & _). apply exp_pos.
Qed.
Lemma class_loss_eq z y : z <> [] -> length y = length z ->
  class_loss z y = total y * ln (total (map exp z)) - dot y z.
Proof.
  intros Hz Hy. unfold class_loss, softmax_prob. pose proof (exp_total_pos z Hz) as P. set (T := total (map exp z)) in *.
  rewrite (dot_sum (length z)) by auto.
  assert (Ty : total y = sum_below (length z) (fun k => nth k y 0)).
  { change total with rsum. rewrite <- (map_id y) at 1. rewrite (rsum_map_nth 0 (fun v => v)). now rewrite Hy. }
  rewrite Ty, (Rmult_comm (sum_below _ _)), <- sum_below_scal, <- sum_below_minus.
  replace (- sum_below (length z) (fun k => nth k y 0 * ln (exp (nth k z 0) / T))) with
    (-1 * sum_below (length z) (fun k => nth k y 0 * ln (exp (nth k z 0) / T))) by ring.
  rewrite <- sum_below_scal. apply sum_below_ext. intros k Hk. unfold Rdiv. rewrite ln_mult; [|apply exp_pos|now apply Rinv_0_lt_compat].
  rewrite ln_exp, ln_Rinv by auto. ring.
Qed.

Definition class_signal (z y : list R) : list R := zip2 Rminus (map (fun v => exp v / total (map exp z)) z) y.
Lemma class_signal_ok c y : (0 < c)%nat -> label_row c y -> has_signal c class_loss class_signal y.
Proof.
  intros Hc [Ly Ty]. split.
  - intros z Hz. unfold class_signal. rewrite zip2_length; rewrite map_length; congruence.
  - intros Z z' (LZ & Lz' & D).
    assert (NZ : forall t, Z t <> []). { intros t E. specialize (LZ t). rewrite E in LZ. simpl in LZ. lia. }
    apply derivable_pt_lim_ext with (fun t => ln (sum_below c (fun k => exp (nth k (Z t) 0))) - sum_below c (fun k => nth k y 0 * nth k (Z t) 0)).
    { intros t. rewrite class_loss_eq by (rewrite ?LZ; auto). rewrite Ty, Rmult_1_l. f_equal.
      - f_equal. change total with rsum. rewrite (rsum_map_nth 0). now rewrite LZ.
      - f_equal. symmetry. apply dot_sum; auto. }
    pose proof (exp_total_pos (Z 0) (NZ 0)) as P.
    assert (TE : total (map exp (Z 0)) = sum_below c (fun k => exp (nth k (Z 0) 0))) by (change total with rsum; rewrite (rsum_map_nth 0); now rewrite LZ).
    assert (E : dot (class_signal (Z 0) y) z' =
      / sum_below c (fun k => exp (nth k (Z 0) 0)) * sum_below c (fun k => exp (nth k (Z 0) 0) * nth k z' 0) - sum_below c (fun k => nth k y 0 * nth k z' 0)).
    { rewrite <- sum_below_scal, <- sum_below_minus. unfold class_signal.
      rewrite (dot_sum c) by (auto; rewrite zip2_length; rewrite map_length; rewrite ?LZ; auto).
      apply sum_below_ext. intros k Hk. rewrite nth_zip2 by (rewrite map_length, LZ; auto).
      rewrite (nth_map_in _ (Z 0) k 0 0) by (rewrite LZ; auto). rewrite TE. unfold Rdiv. ring. }
    rewrite E. rewrite TE in P.
    apply (derivable_pt_lim_minus (fun t => ln (sum_below c (fun k => exp (nth k (Z t) 0)))) (fun t => sum_below c (fun k => nth k y 0 * nth k (Z t) 0))).
    + apply (derivable_pt_lim_comp (fun t => sum_below c (fun k => exp (nth k (Z t) 0))) ln).
      * apply (deriv_sum (fun k t => exp (nth k (Z t) 0))). intros k Hk. apply in_seq in Hk.
        apply (derivable_pt_lim_comp (fun t => nth k (Z t) 0) exp); [apply D; lia|apply derivable_pt_lim_exp].
      * apply derivable_pt_lim_ln. exact P.
    + apply (deriv_sum (fun k t => nth k y 0 * nth k (Z t) 0)). intros k Hk. apply in_seq in Hk.
      apply (derivable_pt_lim_scal (fun t => nth k (Z t) 0)). apply D. lia.
Qed.

Lemma logistic_sigmoid z : logistic z = sigmoid z. Proof. reflexivity. Qed.
Lemma two_class_loss_eq z y : two_class_loss z y = ln (1 + exp (nth 0 z 0)) - nth 0 y 0 * nth 0 z 0.
Proof.
  unfold two_class_loss. rewrite logistic_sigmoid. set (s := nth 0 z 0). pose proof (exp_pos s) as P.
  assert (A : ln (sigmoid s) = s - ln (1 + exp s)).
  { rewrite sigmoid_alt. unfold Rdiv. rewrite ln_mult; [|auto|apply Rinv_0_lt_compat; lra]. rewrite ln_exp, ln_Rinv by lra. lra. }
  assert (B : ln (1 - sigmoid s) = - ln (1 + exp s)).
  { replace (1 - sigmoid s) with (/ (1 + exp s)) by (rewrite sigmoid_alt; field; lra). apply ln_Rinv. lra. }
  rewrite A, B. ring.
Qed.

Definition code_loss (z y : list R) : R := two_class_loss z y - half_square z y.
Definition code_signal (z y : list R) : list R :=
  let p := sigmoid (nth 0 z 0) in [p - nth 0 y 0 - p ^ 2 * (1 - p)].
Definition true_signal (z y : list R) : list R := [sigmoid (nth 0 z 0) - nth 0 y 0].

Lemma vder_1 Z z' : vder 1 Z z' -> z' = [nth 0 z' 0] /\ derivable_pt_lim (fun t => nth 0 (Z t) 0) 0 (nth 0 z' 0).
Proof.
  intros (_ & L & D). split; [|apply D; lia]. destruct z' as [|v [|? ?]]; try discriminate. reflexivity.
Qed.
Lemma two_class_deriv Z z' y : vder 1 Z z' ->
  derivable_pt_lim (fun t => two_class_loss (Z t) y) 0 ((sigmoid (nth 0 (Z 0) 0) - nth 0 y 0) * nth 0 z' 0).
Proof.
  intros V. destruct (vder_1 _ _ V) as [_ D].
  apply derivable_pt_lim_ext with (fun t => ln (1 + exp (nth 0 (Z t) 0)) - nth 0 y 0 * nth 0 (Z t) 0); [intros t; now rewrite two_class_loss_eq|].
  rewrite Rmult_minus_distr_r.
  apply (derivable_pt_lim_minus (fun t => ln (1 + exp (nth 0 (Z t) 0))) (fun t => nth 0 y 0 * nth 0 (Z t) 0)).
  - apply (derivable_pt_lim_comp (fun t => nth 0 (Z t) 0) (fun z => ln (1 + exp z))); auto. apply softplus_deriv.
  - apply (derivable_pt_lim_scal (fun t => nth 0 (Z t) 0)). auto.
Qed.
Lemma true_signal_ok y : has_signal 1 two_class_loss true_signal y.
Proof.
  split; [reflexivity|]. intros Z z' V. destruct (vder_1 _ _ V) as [E _].
  replace (dot (true_signal (Z 0) y) z') with ((sigmoid (nth 0 (Z 0) 0) - nth 0 y 0) * nth 0 z' 0).
  - now apply two_class_deriv.
  - destruct z' as [|v z']; [discriminate|]. unfold true_signal. simpl. destruct z'; ring.
Qed.
Lemma code_signal_ok y : has_signal 1 code_loss code_signal y.
Proof.
  split; [reflexivity|]. intros Z z' V. destruct (vder_1 _ _ V) as [E D].
  set (p := sigmoid (nth 0 (Z 0) 0)).
  replace (dot (code_signal (Z 0) y) z') with ((p - nth 0 y 0) * nth 0 z' 0 - p * (p * (1 - p) * nth 0 z' 0)).
  2:{ destruct z' as [|v z']; [discriminate|]. unfold code_signal. fold p. simpl. destruct z'; ring. }
  apply (derivable_pt_lim_minus (fun t => two_class_loss (Z t) y) (fun t => half_square (Z t) y)); [now apply two_class_deriv|].
  unfold half_square. apply derivable_pt_lim_ext with (fun t => / 2 * (sigmoid (nth 0 (Z t) 0) * sigmoid (nth 0 (Z t) 0))).
  { intros t. change logistic with sigmoid. field. }
  replace (p * (p * (1 - p) * nth 0 z' 0)) with (/ 2 * (p * (1 - p) * nth 0 z' 0 * p + p * (p * (1 - p) * nth 0 z' 0))) by field.
  apply (derivable_pt_lim_scal (fun t => sigmoid (nth 0 (Z t) 0) * sigmoid (nth 0 (Z t) 0))).
  assert (DS : derivable_pt_lim (fun t => sigmoid (nth 0 (Z t) 0)) 0 (p * (1 - p) * nth 0 z' 0)).
  { apply (derivable_pt_lim_comp (fun t => nth 0 (Z t) 0) sigmoid); auto. apply sigmoid_deriv. }
  apply (derivable_pt_lim_mult (fun t => sigmoid (nth 0 (Z t) 0)) (fun t => sigmoid (nth 0 (Z t) 0))); auto.
Qed.

(** ** The code's output signals *)
Lemma softmax_rows z p : softmax z = Ok p -> Forall (fun r => r <> []) z -> p = map (fun r => map (fun v => exp v / total (map exp r)) r) z.
Proof.
  unfold softmax. destruct (matrix_max z) as [c|]; simpl; [|discriminate]. intros E Hz. injection E as <-.
  apply map_ext_in. intros r Hr. rewrite Forall_forall in Hz. specialize (Hz r Hr).
  assert (T : rsum (map (fun v => exp (v - c)) r) = exp (- c) * total (map exp r)).
  { change total with rsum. rewrite <- rsum_map_scal. apply rsum_ext. intros v _. unfold Rminus. rewrite exp_plus. ring. }
  rewrite T. apply map_ext. intros v. unfold Rminus. rewrite exp_plus. pose proof (exp_pos (- c)). pose proof (exp_total_pos r Hz). field. lra.
Qed.

Lemma last_cache : forall ls x p, ls <> [] -> snd (last (caches_of ls x p) ([], [], [])) = p.
Proof.
  induction ls as [|l ls IH]; intros x p H; [congruence|]. destruct ls as [|l2 ls]; [reflexivity|].
  specialize (IH (map (hidden_act l) x) p ltac:(discriminate)).
  change (caches_of (l :: l2 :: ls) x p) with ((x, fst l, map (hidden_act l) x) :: caches_of (l2 :: ls) (map (hidden_act l) x) p).
  destruct (caches_of (l2 :: ls) (map (hidden_act l) x) p) as [|q qs] eqn:E; [destruct ls; discriminate|]. exact IH.
Qed.
Lemma caches_nonempty ls x p : ls <> [] -> caches_of ls x p <> [].
Proof. destruct ls as [|l [|l2 ls]]; simpl; congruence. Qed.
Lemma wired_nonempty d ls c : wired d ls c -> ls <> []. Proof. destruct ls; [intros []|congruence]. Qed.

Section Batch.
Variables (d c : nat) (ls : list neurons) (x y : list (list R)).
Hypothesis (W : wired d ls c) (Hx : x <> []) (Fx : Forall (fun r => length r = d) x) (Ly : length y = length x).

Lemma Hy : y <> []. Proof. destruct y; [destruct x; [congruence|discriminate]|congruence]. Qed.

Lemma multi_backward : (2 <= c)%nat -> Forall (fun r => length r = c) y ->
  exists p, forward ls x = Ok (p, caches_of ls x p) /\ p = map (fun r => map (fun v => exp v / total (map exp (output_scores ls r))) (output_scores ls r)) x /\
    backward p y (caches_of ls x p) =
    Ok (fst (back_rec (length y) (caches_of ls x p) (map (fun q => class_signal (output_scores ls (fst q)) (snd q)) (combine x y)))).
Proof.
  intros Hc Fy. set (Z := map (output_scores ls) x).
  assert (FZ : Forall (fun r => r <> []) Z).
  { apply Forall_forall. intros r Hr E. apply in_map_iff in Hr. destruct Hr as (s & Es & _). pose proof (output_scores_length c ls d s W) as L.
    rewrite Es, E in L. simpl in L. lia. }
  destruct (softmax_total Z) as [p Ep]; [unfold Z; destruct x; simpl; congruence|auto|]. exists p.
  pose proof (softmax_rows Z p Ep FZ) as Rp. unfold Z in Rp. rewrite map_map in Rp.
  split; [|split; [exact Rp|]].
  - rewrite (forward_rows c ls d x W Fx). replace (c =? 1)%nat with false by (symmetry; apply Nat.eqb_neq; lia). fold Z. rewrite Ep. reflexivity.
  - apply backward_is_rec; [apply caches_nonempty, (wired_nonempty d ls c W)|exact Hy|]. rewrite last_cache by apply (wired_nonempty d ls c W).
    unfold output_signal. assert (Lp : length p = length y) by (rewrite Rp, map_length; auto). rewrite Lp, Nat.eqb_refl. cbn [negb].
    rewrite (width_rows c y) by (auto using Hy). replace (c =? 1)%nat with false by (symmetry; apply Nat.eqb_neq; lia).
    rewrite (width_rows c p).
    + rewrite Nat.eqb_refl. f_equal. rewrite Rp. unfold mzip. clear - Ly. revert y Ly. generalize x as xs. induction xs as [|u xs IH]; intros [|v ys] L; try discriminate; simpl; auto.
      f_equal; [|apply IH; simpl in L; lia]. unfold class_signal, zip2, softmax_diff. generalize (map (fun v0 => exp v0 / total (map exp (output_scores ls u))) (output_scores ls u)).
      clear. intros a. revert a. induction v as [|y1 v IH]; intros [|b a]; simpl; auto. now rewrite IH.
    + rewrite Rp. destruct x; simpl; congruence.
    + rewrite Rp. apply Forall_forall. intros r Hr. apply in_map_iff in Hr. destruct Hr as (s & <- & _). rewrite map_length. now apply (output_scores_length c ls d).
Qed.

Lemma multi_gradient : (2 <= c)%nat -> Forall (label_row c) y -> Forall (away_from_kinks ls) x ->
  exists p cs g, forward ls x = Ok (p, cs) /\ backward p y cs = Ok g /\ gradient_of (fun ls => mean_loss class_loss ls x y) ls g.
Proof.
  intros Hc Fy K. destruct multi_backward as (p & E1 & _ & E2); auto.
  { eapply Forall_impl; [|exact Fy]. intros r []. auto. }
  exists p, (caches_of ls x p). eexists. split; [exact E1|split; [exact E2|]].
  apply (gradient_rows c d class_loss class_signal); auto. eapply Forall_impl; [|exact Fy]. intros r Hr. apply class_signal_ok; auto. lia.
Qed.

Lemma single_backward : c = 1%nat -> Forall (fun r => length r = 1%nat) y ->
  let p := map (fun r => [sigmoid (nth 0 (output_scores ls r) 0)]) x in
  forward ls x = Ok (p, caches_of ls x p) /\
    backward p y (caches_of ls x p) =
    Ok (fst (back_rec (length y) (caches_of ls x p) (map (fun q => code_signal (output_scores ls (fst q)) (snd q)) (combine x y)))).
Proof.
  intros Hc Fy p.
  assert (Ep : mmap sigmoid (map (output_scores ls) x) = p).
  { unfold mmap, p. rewrite map_map. apply map_ext. intros r. pose proof (output_scores_length c ls d r W) as L. rewrite Hc in L.
    destruct (output_scores ls r) as [|v [|? ?]]; try discriminate. reflexivity. }
  split.
  - rewrite (forward_rows c ls d x W Fx). rewrite Hc. cbn [Nat.eqb]. rewrite Ep. reflexivity.
  - apply backward_is_rec; [apply caches_nonempty, (wired_nonempty d ls c W)|exact Hy|]. rewrite last_cache by apply (wired_nonempty d ls c W).
    unfold output_signal. assert (Lp : length p = length y) by (unfold p; rewrite map_length; auto). rewrite Lp, Nat.eqb_refl. cbn [negb].
    rewrite (width_rows 1 y) by (auto using Hy). cbn [Nat.eqb]. f_equal. unfold p. clear - Ly. revert y Ly.
    generalize x as xs. induction xs as [|u xs IH]; intros [|v ys] L; try discriminate; simpl; auto. f_equal; [|apply IH; simpl in L; lia].
    unfold zip2, code_signal, sigmoid_diff. simpl. f_equal. pose proof (sigmoid_range (nth 0 (output_scores ls u) 0)). field. lra.
Qed.

Lemma single_gradient : c = 1%nat -> Forall (fun r => length r = 1%nat) y -> Forall (away_from_kinks ls) x ->
  exists p cs g, forward ls x = Ok (p, cs) /\ backward p y cs = Ok g /\
    gradient_of (fun ls => mean_loss two_class_loss ls x y - mean_loss half_square ls x y) ls g.
Proof.
  intros Hc Fy K. destruct single_backward as (E1 & E2); auto. set (p := map _ x) in *. 
  exists p, (caches_of ls x p). eexists. split; [exact E1|split; [exact E2|]].
  assert (G : gradient_of (fun ls => mean_loss code_loss ls x y) ls
    (fst (back_rec (length y) (caches_of ls x p) (map (fun q => code_signal (output_scores ls (fst q)) (snd q)) (combine x y))))).
  { apply (gradient_rows c d code_loss code_signal); auto. eapply Forall_impl; [|exact Fy]. intros r Hr. rewrite Hc. apply code_signal_ok. }
  destruct G as [G1 G2]. split; auto. intros D S. eapply derivable_pt_lim_ext; [|apply (G2 D S)]. intros t. unfold mean_loss, code_loss. change total with rsum.
  rewrite (rsum_map_minus (fun q => two_class_loss (output_scores (moved t ls D) (fst q)) (snd q))). unfold Rdiv. ring.
Qed.
End Batch.
