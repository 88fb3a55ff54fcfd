(** Lemmas for C107: Newton's method in other units. *)
From Coq Require Import List ZArith Reals Lra Lia Bool Arith Classical.
From Verif.Model Require Import Base Matrix Activations Logistic.
From Verif.Spec Require Import Common Smo Gmm Logistic UnitsLinear.
From Verif.Proof Require Import BaseLemmas Counting Smo Kernels KMeans Activations Logistic LogisticMain.
Import ListNotations.
Local Open Scope R_scope.

Lemma row_units_length a b r : length (row_units a b r) = length a.
Proof. unfold row_units. now rewrite map_length, seq_length. Qed.
Lemma nth_row_units a b r j : (j < length a)%nat -> nth j (row_units a b r) 0 = nth j a 0 * nth j r 0 + nth j b 0.
Proof. intros H. unfold row_units. now rewrite nth_map_seq. Qed.
Lemma weights_length a b beta : length (weights_units a b beta) = S (length a).
Proof. unfold weights_units. rewrite app_length, map_length, seq_length. simpl. lia. Qed.
Lemma nth_weights a b beta j : (j < length a)%nat -> nth j (weights_units a b beta) 0 = nth j beta 0 / nth j a 0.
Proof. intros H. unfold weights_units. rewrite app_nth1 by (rewrite map_length, seq_length; lia). now rewrite nth_map_seq. Qed.
Lemma last_weights d a b beta : length a = d -> nth d (weights_units a b beta) 0 =
  nth d beta 0 - sum_below d (fun j => nth j b 0 * nth j beta 0 / nth j a 0).
Proof. intros <-. unfold weights_units. rewrite app_nth2 by (rewrite map_length, seq_length; lia). rewrite map_length, seq_length, Nat.sub_diag. reflexivity. Qed.
Lemma factor_nonzero d a b j : units_for d a b -> (j < d)%nat -> nth j a 0 <> 0.
Proof. intros (L & _ & F) H. rewrite Forall_forall in F. apply F, nth_In. lia. Qed.

Lemma score_units d a b beta r : units_for d a b -> length r = d ->
  score (weights_units a b beta) (row_units a b r) = score beta r.
Proof.
  intros U Hr. pose proof U as (La & Lb & _). unfold score. rewrite row_units_length, La, Hr, (last_weights d) by auto.
  rewrite (sum_below_ext d _ (fun j => nth j beta 0 * nth j r 0 + nth j b 0 * nth j beta 0 / nth j a 0)).
  - rewrite sum_below_plus. lra.
  - intros j Hj. rewrite nth_weights, nth_row_units by lia. pose proof (factor_nonzero d a b j U Hj). field. auto.
Qed.

Lemma combine_map_first {A B C} (f : A -> B) (l : list A) (w : list C) : combine (map f l) w = map (fun p => (f (fst p), snd p)) (combine l w).
Proof. revert w. induction l as [|r l IH]; intros [|v w]; simpl; auto. now rewrite IH. Qed.

Section Newton.
Variables (d : nat) (a b : list R) (x : list (list R)) (y : list Z).
Hypothesis U : units_for d a b.
Hypothesis Hxy : length x = length y.
Hypothesis Hx : Forall (fun r => length r = d) x.
Let x' := map (row_units a b) x.

Lemma fits_in beta : length beta = S d -> fits d x' y (weights_units a b beta).
Proof.
  intros L. destruct U as (La & _). split; [unfold x'; now rewrite map_length|]. split; [|rewrite weights_length; lia].
  apply Forall_forall. intros r I. apply in_map_iff in I as (q & <- & _). now rewrite row_units_length.
Qed.
Lemma forward_in beta q : length beta = S d -> length q = d -> forward_row (weights_units a b beta) (row_units a b q) = forward_row beta q.
Proof.
  intros L Hq. destruct U as (La & _). rewrite !(forward_score d); auto; [|rewrite row_units_length; lia|rewrite weights_length; lia].
  f_equal. now apply (score_units d).
Qed.
(** The combination that the old units had. *)
Definition back (v : list R) : list R :=
  map (fun j => nth j v 0 * nth j a 0) (seq 0 d) ++ [nth d v 0 + sum_below d (fun j => nth j b 0 * nth j v 0)].
Lemma back_length v : length (back v) = S d.
Proof. unfold back. rewrite app_length, map_length, seq_length. simpl. lia. Qed.
Lemma nth_back v j : (j < d)%nat -> nth j (back v) 0 = nth j v 0 * nth j a 0.
Proof. intros H. unfold back. rewrite app_nth1 by (rewrite map_length, seq_length; lia). now rewrite nth_map_seq. Qed.
Lemma last_back v : nth d (back v) 0 = nth d v 0 + sum_below d (fun j => nth j b 0 * nth j v 0).
Proof. unfold back. rewrite app_nth2 by (rewrite map_length, seq_length; lia). rewrite map_length, seq_length, Nat.sub_diag. reflexivity. Qed.
Lemma weights_back v : length v = S d -> weights_units a b (back v) = v.
Proof.
  intros L. pose proof U as (La & _). apply nth_ext with (d := 0) (d' := 0); [rewrite weights_length; lia|]. rewrite weights_length. intros j Hj.
  destruct (Nat.eq_dec j d) as [->|N].
  - rewrite (last_weights d) by auto. rewrite last_back. rewrite (sum_below_ext d (fun j => nth j b 0 * nth j (back v) 0 / nth j a 0) (fun j => nth j b 0 * nth j v 0)); [lra|].
    intros j Hk. rewrite nth_back by auto. pose proof (factor_nonzero d a b j U Hk). field. auto.
  - rewrite nth_weights by lia. rewrite nth_back by lia. pose proof (factor_nonzero d a b j U ltac:(lia)). field. auto.
Qed.
Lemma collinear_in : collinear d x' <-> collinear d x.
Proof.
  pose proof U as (La & _). split.
  - intros (v & L & (j & Hj & N) & H). exists (back v). split; [apply back_length|]. split.
    + apply NNPP. intros Q.
      assert (Z : forall k, (k < S d)%nat -> nth k (back v) 0 = 0) by (intros k Hk; apply NNPP; intros P; apply Q; eauto).
      apply N. rewrite <- (weights_back v L). destruct (Nat.eq_dec j d) as [->|Nj].
      * rewrite (last_weights d), Z by (auto; lia). rewrite sum_below_zero; [lra|]. intros k Hk. rewrite Z by lia. unfold Rdiv. ring.
      * rewrite nth_weights by lia. rewrite Z by lia. unfold Rdiv. ring.
    + intros r I. rewrite <- (score_units d a b (back v) r U); [|rewrite Forall_forall in Hx; auto]. rewrite (weights_back v L). apply H. unfold x'. now apply in_map.
  - intros (v & L & (j & Hj & N) & H). exists (weights_units a b v). split; [rewrite weights_length; lia|]. split.
    + apply NNPP. intros Q.
      assert (Z : forall k, (k < S d)%nat -> nth k (weights_units a b v) 0 = 0) by (intros k Hk; apply NNPP; intros P; apply Q; eauto).
      assert (Zj : forall k, (k < d)%nat -> nth k v 0 = 0).
      { intros k Hk. specialize (Z k ltac:(lia)). rewrite nth_weights in Z by lia. pose proof (factor_nonzero d a b k U Hk).
        replace (nth k v 0) with (nth k v 0 / nth k a 0 * nth k a 0) by (field; auto). rewrite Z. ring. }
      apply N. destruct (Nat.eq_dec j d) as [->|Nj]; [|apply Zj; lia].
      specialize (Z d ltac:(lia)). rewrite (last_weights d) in Z by auto. rewrite sum_below_zero in Z; [lra|]. intros k Hk. rewrite Zj by lia. unfold Rdiv. ring.
    + intros r I. apply in_map_iff in I as (q & <- & I). rewrite (score_units d) by (auto; rewrite Forall_forall in Hx; auto). auto.
Qed.
(** The equation of a Newton step, row by row. *)
Lemma newton_rows (z : list (list R)) beta beta' : length z = length y -> Forall (fun r => length r = d) z -> length beta = S d -> length beta' = S d ->
  forall i, (i < S d)%nat ->
  sum_below (S d) (fun k => entry (hessian_at d z beta) i k * nth k (difference beta' beta) 0) + nth i (gradient_at d z y beta) 0 =
  rsum (map (fun p => nth i (with_one (fst p)) 0 * (sigmoid (u beta p) * (1 - sigmoid (u beta p)) * (u beta' p - u beta p) + (sigmoid (u beta p) - IZR (snd p)))) (combine z y)).
Proof.
  intros Lz Fz L L' i Hi. rewrite (gradient_nth d z y Lz beta i Hi).
  rewrite (sum_below_ext (S d) _ (fun k => rsum (map (fun p => nth i (with_one (fst p)) 0 * (sigmoid (u beta p) * (1 - sigmoid (u beta p))) * (nth k (with_one (fst p)) 0 * nth k (difference beta' beta) 0)) (combine z y)))).
  2:{ intros k Hk. rewrite (hessian_entry d z y Lz beta i k Hi Hk). rewrite <- rsum_map_scal_r. apply rsum_ext. intros p _. ring. }
  rewrite <- (rsum_sum_below (S d) (fun p k => nth i (with_one (fst p)) 0 * (sigmoid (u beta p) * (1 - sigmoid (u beta p))) * (nth k (with_one (fst p)) 0 * nth k (difference beta' beta) 0))).
  rewrite <- rsum_map_plus. apply rsum_ext. intros p Ip. rewrite sum_below_scal.
  rewrite <- (dot_sum (S d)) by (rewrite ?difference_length; try lia; apply (in_data d z y Fz p Ip)).
  rewrite dot_difference by lia. fold (u beta' p) (u beta p). ring.
Qed.
Lemma newton_unique (z : list (list R)) beta c c' : length z = length y -> Forall (fun r => length r = d) z -> ~ collinear d z ->
  length beta = S d -> length c = S d -> length c' = S d ->
  (forall i, (i < S d)%nat -> sum_below (S d) (fun k => entry (hessian_at d z beta) i k * nth k (difference c beta) 0) = - nth i (gradient_at d z y beta) 0) ->
  (forall i, (i < S d)%nat -> sum_below (S d) (fun k => entry (hessian_at d z beta) i k * nth k (difference c' beta) 0) = - nth i (gradient_at d z y beta) 0) ->
  c = c'.
Proof.
  intros Lz Fz NC L Lc Lc' H H'. apply NNPP. intros Q. apply NC. exists (difference c c'). split; [rewrite difference_length; lia|]. split.
  - apply NNPP. intros P. apply Q. apply nth_ext with (d := 0) (d' := 0); [lia|]. intros j Hj. apply NNPP. intros N. apply P. exists j. split; [lia|].
    rewrite nth_difference by lia. lra.
  - assert (Z : sum_below (S d) (fun j => sum_below (S d) (fun k => nth j (difference c c') 0 * nth k (difference c c') 0 * entry (hessian_at d z beta) j k)) = 0).
    { apply sum_below_zero. intros j Hj.
      rewrite (sum_below_ext (S d) _ (fun k => nth j (difference c c') 0 * (entry (hessian_at d z beta) j k * nth k (difference c beta) 0) - nth j (difference c c') 0 * (entry (hessian_at d z beta) j k * nth k (difference c' beta) 0))).
      - rewrite sum_below_minus, !sum_below_scal, H, H' by auto. ring.
      - intros k Hk. rewrite !nth_difference by lia. ring. }
    rewrite (quadratic d z y Lz Fz beta) in Z by (rewrite difference_length; lia).
    intros r I. rewrite (score_dot d) by (rewrite ?difference_length; try lia; rewrite Forall_forall in Fz; auto).
    apply In_nth with (d := []) in I. destruct I as (i & Hi & <-).
    assert (Hin : In (nth i z [], nth i y 0%Z) (combine z y)) by (rewrite <- combine_nth by auto; apply nth_In; rewrite combine_length; lia).
    assert (E : sigmoid (u beta (nth i z [], nth i y 0%Z)) * (1 - sigmoid (u beta (nth i z [], nth i y 0%Z))) * dot (with_one (fst (nth i z [], nth i y 0%Z))) (difference c c') ^ 2 = 0).
    { match type of Z with rsum (map ?F _) = 0 => apply (rsum_nonneg_zero (map F (combine z y))) end; auto; [|apply (in_map (fun p => sigmoid (u beta p) * (1 - sigmoid (u beta p)) * dot (with_one (fst p)) (difference c c') ^ 2) _ _ Hin)].
      intros v Hv. apply in_map_iff in Hv. destruct Hv as (q & <- & _). apply Rmult_le_pos; [|apply pow2_ge_0].
      pose proof (sigmoid_prod _ (sigmoid_range (u beta q))). lra. }
    cbn [fst] in E. pose proof (sigmoid_prod _ (sigmoid_range (u beta (nth i z [], nth i y 0%Z)))) as [S _].
    apply Rmult_integral in E as [E|E]; [lra|]. destruct (Req_dec (dot (with_one (nth i z [])) (difference c c')) 0) as [|N]; auto.
    exfalso. apply (pow_nonzero _ 2) in N. auto.
Qed.
Lemma nth_with_one r j : length r = d -> (j < d)%nat -> nth j (with_one r) 0 = nth j r 0.
Proof. intros L H. unfold with_one. now rewrite app_nth1 by lia. Qed.
Lemma last_with_one r : length r = d -> nth d (with_one r) 0 = 1.
Proof. intros L. unfold with_one. rewrite app_nth2 by lia. now rewrite L, Nat.sub_diag. Qed.
Lemma u_in beta r l : length beta = S d -> length r = d -> u (weights_units a b beta) (row_units a b r, l) = u beta (r, l).
Proof.
  intros L Hr. pose proof U as (La & _). unfold u. cbn [fst]. rewrite <- !(score_dot d); auto; try (rewrite ?row_units_length, ?weights_length; lia).
  now apply (score_units d).
Qed.
Lemma combine_in : combine x' y = map (fun p => (row_units a b (fst p), snd p)) (combine x y).
Proof. apply combine_map_first. Qed.
Lemma newton_in beta : length beta = S d ->
  newton_step d x' y (weights_units a b beta) = (c <- newton_step d x y beta ;; Ok (weights_units a b c)).
Proof.
  intros L. assert (F : fits d x y beta) by (split; auto). pose proof (fits_in beta L) as F'. pose proof U as (La & _).
  destruct (newton_step d x y beta) as [c|e] eqn:E, (newton_step d x' y (weights_units a b beta)) as [c'|e'] eqn:E'; cbn [bind].
  - f_equal. assert (NC : ~ collinear d x') by (intros C; apply (newton_fails_main d x' y _ F') in C as [e C]; congruence).
    destruct F' as (Lx' & Fx' & Lw).
    assert (Lc1 : length c = S d) by exact (newton_length d x y Hxy beta c L E). assert (Lc2 : length c' = S d) by exact (newton_length d x' y Lx' _ c' Lw E').
    apply (newton_unique x' (weights_units a b beta) c' (weights_units a b c) Lx' Fx' NC Lw Lc2); [rewrite weights_length; lia|intros i Hi; exact (newton_solves d x' y Lx' _ c' Lw E' i Hi)|].
    intros i Hi. apply Rplus_opp_r_uniq. rewrite Rplus_comm.
    rewrite newton_rows; auto; [|rewrite weights_length; lia].
    rewrite combine_in, map_map.
    set (e := fun p => sigmoid (u beta p) * (1 - sigmoid (u beta p)) * (u c p - u beta p) + (sigmoid (u beta p) - IZR (snd p))).
    assert (O : forall j, (j < S d)%nat -> rsum (map (fun p => nth j (with_one (fst p)) 0 * e p) (combine x y)) = 0).
    { intros j Hj. unfold e. rewrite <- (newton_rows x beta c Hxy Hx L Lc1 j Hj). rewrite (newton_solves d x y Hxy beta c L E j Hj). ring. }
    destruct (Nat.eq_dec i d) as [->|N].
    + transitivity (rsum (map (fun p => nth d (with_one (fst p)) 0 * e p) (combine x y))); [|apply O; lia]. apply rsum_ext. intros [r l] Ip. assert (Hr : length r = d) by (rewrite Forall_forall in Hx; apply Hx; eapply in_combine_l; eauto).
      cbn [fst snd]. rewrite !last_with_one by (rewrite ?row_units_length; lia). unfold e. rewrite !u_in by auto. cbn [snd]. ring.
    + transitivity (nth i a 0 * rsum (map (fun p => nth i (with_one (fst p)) 0 * e p) (combine x y)) + nth i b 0 * rsum (map (fun p => nth d (with_one (fst p)) 0 * e p) (combine x y))); [|rewrite !O by lia; ring].
      rewrite <- !rsum_map_scal, <- rsum_map_plus. apply rsum_ext. intros [r l] Ip. assert (Hr : length r = d) by (rewrite Forall_forall in Hx; apply Hx; eapply in_combine_l; eauto).
      cbn [fst snd]. rewrite last_with_one by auto. rewrite !nth_with_one by (rewrite ?row_units_length; lia). rewrite nth_row_units by lia. unfold e. rewrite !u_in by auto. cbn [snd]. ring.
  - exfalso. assert (C : collinear d x') by (apply (newton_fails_main d x' y _ F'); eauto).
    apply collinear_in in C. apply (newton_fails_main d x y _ F) in C as [e C]. congruence.
  - exfalso. assert (C : collinear d x) by (apply (newton_fails_main d x y _ F); eauto).
    apply collinear_in in C. apply (newton_fails_main d x' y _ F') in C as [e0 C]. congruence.
  - now rewrite (newton_error _ _ _ _ _ E), (newton_error _ _ _ _ _ E').
Qed.
Lemma newton_run epochs : forall beta, length beta = S d ->
  opt_run NewtonMethod epochs d x' y (weights_units a b beta) = (c <- opt_run NewtonMethod epochs d x y beta ;; Ok (weights_units a b c)).
Proof.
  induction epochs as [|n IH]; intros beta L; [reflexivity|]. cbn [opt_run opt_step]. rewrite newton_in by auto.
  destruct (newton_step d x y beta) as [c|e] eqn:E; cbn [bind]; [|reflexivity]. apply IH. exact (newton_length d x y Hxy beta c L E).
Qed.
Lemma newton_run_length epochs : forall beta c, length beta = S d -> opt_run NewtonMethod epochs d x y beta = Ok c -> length c = S d.
Proof.
  induction epochs as [|n IH]; intros beta c L; cbn [opt_run opt_step]; [intros E; injection E as <-; auto|].
  destruct (newton_step d x y beta) as [c1|e] eqn:E; cbn [bind]; [|discriminate]. apply IH. exact (newton_length d x y Hxy beta c1 L E).
Qed.
End Newton.
