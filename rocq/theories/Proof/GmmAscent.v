(** Gaussian mixture: the likelihood never decreases, any number of features. *)
From Coq Require Import List ZArith Reals Lra Lia Bool Arith.
From Verif.Model Require Import Base Ops Matrix Gmm.
From Verif.Spec Require Import Common Ops Smo KMeans Gmm Matrix.
From Verif.Proof Require Import BaseLemmas Smo Kernels Ops KMeans KMeansMain Gmm GmmMain.
From Verif.Proof Require Determinant Cholesky.
Import ListNotations.
Local Open Scope R_scope.

Section Many.
Variable rnd : R -> R.
Hypothesis Exact : forall p, rnd p = p.
Variable d : nat.

Definition quad (q : list (list R)) (v : nat -> R) : R := sum_below d (fun a => sum_below d (fun b => v a * v b * entry q a b)).

Lemma two_pi : 0 < 2 * PI.
Proof. pose proof PI_RGT_0. lra. Qed.
Lemma normal_pos m s q r : 0 < det d s -> 0 < normal d m s q r.
Proof.
  intros P. unfold normal. apply Rdiv_lt_0_compat; [apply exp_pos|]. apply sqrt_lt_R0. apply Rmult_lt_0_compat; auto.
  apply pow_lt. apply two_pi.
Qed.
Lemma ln_normal m s q r : 0 < det d s -> ln (normal d m s q r) =
  - / 2 * (INR d * ln (2 * PI)) - / 2 * ln (det d s) - / 2 * quad q (fun a => nth a r 0 - nth a m 0).
Proof.
  intros P. pose proof two_pi as P2. assert (P3 : 0 < (2 * PI) ^ d) by now apply pow_lt.
  assert (P4 : 0 < (2 * PI) ^ d * det d s) by now apply Rmult_lt_0_compat.
  assert (Q : 0 < sqrt ((2 * PI) ^ d * det d s)) by now apply sqrt_lt_R0.
  unfold normal, Rdiv. rewrite ln_mult; [|apply exp_pos|now apply Rinv_0_lt_compat]. rewrite ln_exp, ln_Rinv by auto.
  assert (H : ln ((2 * PI) ^ d * det d s) = 2 * ln (sqrt ((2 * PI) ^ d * det d s))).
  { rewrite <- (sqrt_sqrt ((2 * PI) ^ d * det d s)) at 1 by lra. rewrite ln_mult by auto. lra. }
  rewrite ln_mult in H by auto. rewrite ln_pow in H by auto. unfold quad. lra.
Qed.

Lemma density_many r m s p : length r = d -> length m = d -> normal_density rnd d r m s = Ok p ->
  exists q, inverse d s = Ok q /\ 0 < det d s /\ p = normal d m s q r.
Proof.
  intros Lr Lm. unfold normal_density. destruct (Rltb (det d s) 0) eqn:N; [discriminate|]. apply Rltb_false in N.
  destruct (inverse d s) as [q|e] eqn:HI; [|discriminate]. cbn [bind]. cbv zeta. rewrite Exact.
  assert (Z : det d s <> 0) by (unfold inverse in HI; destruct (Reqb (det d s) 0) eqn:E; [discriminate|now apply Reqb_false in E]).
  assert (P : 0 < det d s) by lra. intros H. exists q. split; auto. split; auto.
  assert (P2 := two_pi).
  match type of H with (if Reqb ?q0 0 then _ else _) = _ => set (p0 := q0) in *; assert (E : p0 = normal d m s q r) end.
  { unfold p0, normal. rewrite Lr. rewrite Rmult_comm. unfold Rdiv at 4. f_equal.
    - f_equal. replace (- (sum_below d (fun a => sum_below d (fun b => (nth a r 0 - nth a m 0) * (nth b r 0 - nth b m 0) * entry q a b)) / 2))
        with (-1 / 2 * sum_below d (fun a => sum_below d (fun b => (nth a r 0 - nth a m 0) * (nth b r 0 - nth b m 0) * entry q a b))) by lra.
      f_equal. rewrite sum_below_swap.
      assert (Sq : square d q) by (apply (@Determinant.inverse_ok d s q HI)). destruct Sq as (Lq & _).
      assert (Lv : length (vsub r m) = d) by (unfold vsub; rewrite map_length, combine_length; lia).
      assert (Nv : forall a, (a < d)%nat -> nth a (vsub r m) 0 = nth a r 0 - nth a m 0).
      { intros a Ha. unfold vsub. rewrite (nth_map_in (fun p => fst p - snd p) (combine r m) a 0 (0, 0)) by (rewrite combine_length; lia).
        rewrite combine_nth by congruence. reflexivity. }
      assert (Dot : forall u w, length u = d -> length w = d -> dot u w = sum_below d (fun a => nth a u 0 * nth a w 0)).
      { intros u w Lu Lw. now apply dot_sum. }
      rewrite Dot by (auto; unfold vec_mat; now rewrite map_length, seq_length).
      apply sum_below_ext. intros b Hb. unfold vec_mat. rewrite nth_map_seq by auto.
      rewrite Dot by (auto; unfold column; now rewrite map_length). rewrite Rmult_comm, <- sum_below_scal. apply sum_below_ext. intros a Ha.
      rewrite !Nv by auto. unfold column. rewrite (nth_map_in (fun r => nth b r 0) q a 0 []) by lia. unfold entry. ring.
    - unfold Rdiv. rewrite Rmult_1_l. f_equal. rewrite sqrt_mult_alt by (apply pow_le; lra). rewrite Rmult_comm. f_equal.
      rewrite <- Rpower_pow by auto. rewrite <- Rpower_sqrt by (apply exp_pos). rewrite Rpower_mult. f_equal. }
  pose proof (normal_pos m s q r P) as G. destruct (Reqb p0 0) eqn:Q; [apply Reqb_true in Q; lra|]. congruence.
Qed.

(** The new mean and covariance matrix are the best ones for the weights. *)
Lemma component_many N (z : nat -> nat -> R) (g : nat -> R) (m m' : list R) s s' q q' (r : nat -> list R) :
  (forall j a, nth a (r j) 0 = z j a) ->
  let S := sum_below N g in 0 < S -> inverse d s = Ok q -> inverse d s' = Ok q' ->
  symmetric_matrix d s -> psd_matrix d s -> symmetric_matrix d s' -> psd_matrix d s' ->
  (forall a, (a < d)%nat -> nth a m' 0 = sum_below N (fun j => g j * z j a) / S) ->
  (forall a b, (a < d)%nat -> (b < d)%nat ->
     entry s' a b = sum_below N (fun j => g j * ((z j a - nth a m' 0) * (z j b - nth b m' 0))) / S) ->
  0 <= sum_below N (fun j => g j * (ln (normal d m' s' q' (r j)) - ln (normal d m s q (r j)))).
Proof.
  intros Hr S HS HI HI' Sy Ps Sy' Ps' Em Es.
  assert (Z' : det d s' <> 0) by (unfold inverse in HI'; destruct (Reqb (det d s') 0) eqn:E; [discriminate|now apply Reqb_false in E]).
  destruct (@Cholesky.det_trace_list d s s' q Sy Ps HI Sy' Ps' Z') as (D & D' & Tr & Pq).
  assert (W : forall (qq : list (list R)) (mm : list R),
     sum_below N (fun j => g j * quad qq (fun a => nth a (r j) 0 - nth a mm 0)) =
     S * (sum_below d (fun a => sum_below d (fun b => entry qq a b * entry s' a b)) + quad qq (fun a => nth a m' 0 - nth a mm 0))).
  { intros qq mm.
    assert (Mo : forall a b, (a < d)%nat -> (b < d)%nat -> sum_below N (fun j => g j * ((z j a - nth a mm 0) * (z j b - nth b mm 0))) =
       S * (entry s' a b + (nth a m' 0 - nth a mm 0) * (nth b m' 0 - nth b mm 0))).
    { intros a b Ha Hb.
      assert (EM : forall a, (a < d)%nat -> sum_below N (fun j => g j * z j a) = S * nth a m' 0) by (intros a' Ha'; rewrite Em by auto; field; lra).
      assert (ES : sum_below N (fun j => g j * ((z j a - nth a m' 0) * (z j b - nth b m' 0))) = S * entry s' a b) by (rewrite Es by auto; field; lra).
      rewrite (sum_below_ext N _ (fun j => g j * ((z j a - nth a m' 0) * (z j b - nth b m' 0)) +
         ((nth a m' 0 - nth a mm 0) * (g j * z j b) + ((nth b m' 0 - nth b mm 0) * (g j * z j a) +
          (nth a mm 0 * nth b mm 0 - nth a m' 0 * nth b m' 0) * g j)))) by (intros; ring).
      rewrite !sum_below_plus, !sum_below_scal, ES, !EM by auto. fold S. ring. }
    unfold quad.
    rewrite (sum_below_ext N _ (fun j => sum_below d (fun a => sum_below d (fun b => entry qq a b * (g j * ((z j a - nth a mm 0) * (z j b - nth b mm 0))))))).
    2:{ intros j Hj. rewrite <- sum_below_scal. apply sum_below_ext. intros a Ha. rewrite <- sum_below_scal. apply sum_below_ext. intros b Hb.
        rewrite !Hr. ring. }
    rewrite sum_below_swap. rewrite <- sum_below_plus, <- sum_below_scal. apply sum_below_ext. intros a Ha.
    rewrite sum_below_swap. rewrite <- sum_below_plus, <- sum_below_scal. apply sum_below_ext. intros b Hb.
    rewrite sum_below_scal, Mo by auto. ring. }
  rewrite (sum_below_ext N _ (fun j => / 2 * (ln (det d s) - ln (det d s')) * g j +
     (/ 2 * (g j * quad q (fun a => nth a (r j) 0 - nth a m 0)) - / 2 * (g j * quad q' (fun a => nth a (r j) 0 - nth a m' 0))))).
  2:{ intros j Hj. rewrite !ln_normal by auto. ring. }
  rewrite sum_below_plus, sum_below_minus, !sum_below_scal, !W. fold S.
  assert (Q0 : quad q' (fun a => nth a m' 0 - nth a m' 0) = 0).
  { unfold quad. apply sum_below_zero. intros a _. apply sum_below_zero. intros b _. ring. }
  assert (Tq' : sum_below d (fun a => sum_below d (fun b => entry q' a b * entry s' a b)) = INR d).
  { destruct (@Determinant.inverse_ok d s' q' HI') as (_ & _ & One).
    rewrite (sum_below_ext d _ (fun _ => 1)).
    - unfold sum_below. change total with rsum. rewrite rsum_map_const, seq_length. lra.
    - intros a Ha. rewrite (sum_below_ext d _ (fun b => entry q' a b * entry s' b a)) by (intros b Hb; now rewrite (Sy' a b)).
      rewrite (One a a Ha Ha). now rewrite Nat.eqb_refl. }
  assert (Tq : sum_below d (fun a => sum_below d (fun b => entry q a b * entry s' a b)) = sum_below d (fun a => sum_below d (fun b => entry q a b * entry s' b a))).
  { apply sum_below_ext. intros a Ha. apply sum_below_ext. intros b Hb. now rewrite (Sy' a b). }
  rewrite Q0, Tq', Tq. assert (Hq : 0 <= quad q (fun a => nth a m' 0 - nth a m 0)) by exact (Pq (fun a => nth a m' 0 - nth a m 0)).
  set (tr := sum_below d (fun a => sum_below d (fun b => entry q a b * entry s' b a))) in *.
  replace (/ 2 * (ln (det d s) - ln (det d s')) * S + (/ 2 * (S * (tr + quad q (fun a => nth a m' 0 - nth a m 0))) - / 2 * (S * (INR d + 0))))
    with (S * (/ 2 * ((tr - INR d) - (ln (det d s') - ln (det d s)) + quad q (fun a => nth a m' 0 - nth a m 0)))) by ring.
  apply Rmult_le_pos; [lra|]. apply Rmult_le_pos; [lra|]. lra.
Qed.

(** ** The code's round *)
Definition mean_of (t : params) (i : nat) := nth i (mu t) [].
Definition cov_of (t : params) (i : nat) := nth i (sigma t) [].
Definition inv_of (t : params) (i : nat) := match inverse d (cov_of t i) with Ok q => q | Err _ => [] end.
Definition many (t : params) : Prop := rect d (mu t) /\ Forall (fun s => square d s /\ symmetric_matrix d s /\ psd_matrix d s) (sigma t).
Definition dens (t : params) (i : nat) (r : list R) := normal d (mean_of t i) (cov_of t i) (inv_of t i) r.
Definition mix (n : nat) (t : params) (r : list R) := sum_below n (fun i => a_of t i * dens t i r).
Definition regular (n : nat) (t : params) : Prop := forall i, (i < n)%nat -> inverse d (cov_of t i) = Ok (inv_of t i) /\ 0 < det d (cov_of t i).

Lemma post_many n t r row : shaped n t -> many t -> length r = d -> posterior_row rnd d t r = Ok row ->
  regular n t /\ forall i, (i < n)%nat -> nth i row 0 = a_of t i * dens t i r / mix n t r.
Proof.
  intros Sh O Lr H. pose proof Sh as (S1 & S2 & S3). destruct O as (O1 & O2). unfold rect in O1. rewrite Forall_forall in O1.
  unfold posterior_row in H. apply bind_Ok in H. destruct H as (ps & HP & H). cbv zeta in H.
  set (joint := map (fun c => fst c * snd c) (combine (alpha t) ps)) in *.
  assert (Lp : length ps = n). { rewrite (mapM_length _ _ _ HP), combine_length. lia. }
  assert (Lj : length joint = n) by (unfold joint; rewrite map_length, combine_length; lia).
  assert (D : forall i, (i < n)%nat -> inverse d (cov_of t i) = Ok (inv_of t i) /\ 0 < det d (cov_of t i) /\ nth i ps 0 = dens t i r).
  { intros i Hi.
    pose proof (mapM_nth _ _ _ i ([], []) 0 HP ltac:(rewrite combine_length; lia)) as E. rewrite combine_nth in E by lia. cbn [fst snd] in E.
    assert (Lm : length (nth i (mu t) []) = d) by (apply O1, nth_In; lia).
    destruct (density_many r _ _ _ Lr Lm E) as (q & Hq & Dp & Ep).
    assert (Q : inv_of t i = q) by (unfold inv_of, cov_of; now rewrite Hq).
    unfold dens. rewrite Q. unfold cov_of, mean_of. auto. }
  assert (Nj : forall i, (i < n)%nat -> nth i joint 0 = a_of t i * dens t i r).
  { intros i Hi. pose proof (map_nth (fun c : R * R => fst c * snd c) (combine (alpha t) ps) (0, 0) i) as E.
    rewrite combine_nth in E by lia. cbn [fst snd] in E. rewrite (nth_indep joint 0 (0 * 0)) by lia. destruct (D i Hi) as (_ & _ & De). rewrite De in E. exact E. }
  assert (EP : rsum joint = mix n t r) by (rewrite rsum_nth, Lj; apply sum_below_ext; auto).
  rewrite EP in H. destruct (Reqb (mix n t r) 0) eqn:Q; [discriminate|]. injection H as <-.
  split; [intros i Hi; destruct (D i Hi) as (? & ? & _); auto|]. intros i Hi. rewrite <- Nj by auto.
  replace 0 with ((fun q => q / mix n t r) 0) at 1 by (simpl; unfold Rdiv; ring). apply (map_nth (fun q => q / mix n t r)).
Qed.

Definition LLd (n : nat) (x : list (list R)) (t : params) : R := sum_below (length x) (fun j => ln (mix n t (nth j x []))).

Lemma round_many n x t t' : x <> [] -> rect d x -> good n t -> many t -> em_round rnd d n x t = Ok t' ->
  good n t' /\ many t' /\ (regular n t' -> LLd n x t <= LLd n x t').
Proof.
  intros Hx Rx G O H. pose proof (exact_sign rnd Exact) as Sg.
  destruct (round_good rnd d Sg n _ t t' Hx G H) as (G' & (A1 & A2)). split; auto.
  assert (O' : many t').
  { split; [eapply Forall_impl; [|exact A1]; intros q (L & _); exact L|exact A2]. }
  split; auto. intros Rg'. destruct (good_pos n t G) as (A & P). pose proof G as (Sh & _ & _ & T). unfold em_round in H.
  apply bind_Ok in H. destruct H as (gamma & Hg & H). apply bind_Ok in H. destruct H as (m & Hm & H).
  apply bind_Ok in H. destruct H as (c & Hc & H).
  destruct (posterior_spec rnd d Sg n t x gamma Sh A P Hg) as (L & F & _).
  assert (HN : (0 < length x)%nat) by (destruct x; [congruence|simpl; lia]).
  assert (Lr : forall j, (j < length x)%nat -> length (nth j x []) = d) by (intros j Hj; unfold rect in Rx; rewrite Forall_forall in Rx; apply Rx, nth_In; auto).
  assert (Row : forall j, (j < length x)%nat -> posterior_row rnd d t (nth j x []) = Ok (nth j gamma [])) by (intros j Hj; apply (mapM_nth _ _ _ j [] [] Hg Hj)).
  destruct (post_many n t _ _ Sh O (Lr 0%nat HN) (Row 0%nat HN)) as (Rg & _).
  set (gg i j := a_of t i * dens t i (nth j x []) / mix n t (nth j x [])) in *.
  assert (Gm : forall i j, (i < n)%nat -> (j < length x)%nat -> nth i (nth j gamma []) 0 = gg i j).
  { intros i j Hi Hj. destruct (post_many n t _ _ Sh O (Lr j Hj) (Row j Hj)) as (_ & E). unfold gg. auto. }
  assert (Gs : forall i, (i < n)%nat -> sum_below (length x) (fun j => nth i (nth j gamma []) 0) = sum_below (length x) (fun j => gg i j)).
  { intros i Hi. apply sum_below_ext. intros. now apply Gm. }
  assert (Mi : forall i, (i < n)%nat -> weighted_mean d x gamma i = Ok (nth i m [])) by (intros; now apply (mapM_seq_nth _ n)).
  assert (Ci : forall i, (i < n)%nat -> weighted_cov d x gamma (nth i m []) i = Ok (nth i c [])) by (intros; now apply (mapM_seq_nth _ n _ _ [] Hc)).
  assert (Sn : forall i, (i < n)%nat -> sum_below (length x) (fun j => gg i j) <> 0).
  { intros i Hi. rewrite <- Gs by auto. now apply (mean_nth d x gamma L i _ (Mi i Hi)). }
  assert (Pa : forall i, (i < n)%nat -> 0 < a_of t i).
  { intros i Hi. destruct (Req_dec (a_of t i) 0) as [Z|Z].
    - exfalso. apply (Sn i Hi). apply sum_below_zero. intros j _. unfold gg. rewrite Z. unfold Rdiv. ring.
    - rewrite Forall_forall in A. assert (0 <= a_of t i) by (apply A, nth_In; destruct Sh as (_ & _ & S3); lia). lra. }
  assert (Adm : forall tt i, shaped n tt -> many tt -> (i < n)%nat -> symmetric_matrix d (cov_of tt i) /\ psd_matrix d (cov_of tt i)).
  { intros tt i (_ & S2 & _) (_ & O2) Hi. rewrite Forall_forall in O2. apply (O2 (cov_of tt i)). apply nth_In. lia. }
  unfold LLd, mix.
  apply (ascent n (length x) (a_of t) (a_of t') (fun i j => dens t i (nth j x [])) (fun i j => dens t' i (nth j x []))); auto.
  - change total with rsum in T. rewrite rsum_nth in T. destruct Sh as (_ & _ & S3). rewrite S3 in T. exact T.
  - intros i j Hi. now apply normal_pos, Rg.
  - intros i j Hi. now apply normal_pos, Rg'.
  - intros i Hi. injection H as <-. unfold a_of. simpl. destruct (mixture_spec n x gamma L F Hx) as (_ & E). rewrite E by auto.
    rewrite Gs by auto. reflexivity.
  - intros i Hi HS. destruct (Adm t i Sh O Hi) as (Sy & Ps). destruct (Adm t' i (proj1 G') O' Hi) as (Sy' & Ps').
    apply (component_many (length x) (fun j a => nth a (nth j x []) 0) (gg i) (mean_of t i) (mean_of t' i) (cov_of t i) (cov_of t' i)
       (inv_of t i) (inv_of t' i) (fun j => nth j x [])); auto; try (apply Rg; auto); try (apply Rg'; auto).
    + intros a Ha. destruct (mean_nth d x gamma L i _ (Mi i Hi)) as (_ & _ & E).
      assert (Em : mean_of t' i = nth i m []) by (injection H as <-; reflexivity). rewrite Em, E by auto.
      rewrite Gs by auto. unfold Rdiv. f_equal. apply sum_below_ext. intros j Hj. rewrite Gm by auto. reflexivity.
    + intros a b Ha Hb. assert (Em : mean_of t' i = nth i m []) by (injection H as <-; reflexivity).
      assert (Es : cov_of t' i = nth i c []) by (injection H as <-; reflexivity).
      rewrite Em, Es. destruct (cov_entry d x gamma L i _ _ (Ci i Hi)) as (_ & _ & E). rewrite E by auto.
      rewrite Gs by auto. unfold Rdiv. f_equal. apply sum_below_ext. intros j Hj. rewrite Gm by auto. reflexivity.
Qed.

Lemma posterior_regular n x t gamma : x <> [] -> rect d x -> shaped n t -> many t -> posterior rnd d t x = Ok gamma -> regular n t.
Proof.
  intros Hx Rx Sh O H. destruct x as [|r x]; [congruence|].
  assert (R1 := mapM_nth _ _ _ 0%nat [] [] H ltac:(simpl; lia)). simpl in R1.
  apply Forall_cons_iff in Rx. destruct Rx as (Lr & _). apply (post_many n t r _ Sh O Lr R1).
Qed.

Lemma loop_many n x tol epochs : x <> [] -> rect d x -> forall t t', good n t -> many t ->
  gm_loop rnd d n x tol epochs t = Ok t' -> (exists gamma, posterior rnd d t' x = Ok gamma) ->
  good n t' /\ many t' /\ LLd n x t <= LLd n x t' /\ regular n t.
Proof.
  intros Hx Rx. induction epochs as [|epochs IH]; intros t t' G O H (gamma & D); cbn [gm_loop] in H.
  { injection H as <-. split; auto. split; auto. split; [lra|]. now apply (posterior_regular n x t gamma Hx Rx (proj1 G) O). }
  apply bind_Ok in H. destruct H as (t1 & H1 & H). destruct (round_many n x t t1 Hx Rx G O H1) as (G1 & O1 & A1).
  assert (R0 : regular n t).
  { unfold em_round in H1. apply bind_Ok in H1. destruct H1 as (g0 & H1 & _). now apply (posterior_regular n x t g0 Hx Rx (proj1 G) O). }
  destruct (moved tol t t1); [|injection H as <-; split; auto; split; auto; split; auto; lra].
  destruct (IH t1 t' G1 O1 H (ex_intro _ gamma D)) as (G' & O' & A' & R1). split; auto. split; auto. split; auto.
  apply Rle_trans with (2 := A'). now apply A1.
Qed.

Lemma LLd_spec n x t : shaped n t -> LLd n x t = mixture_log_likelihood d x (alpha t) (mu t) (sigma t) (map (inv_of t) (seq 0 n)).
Proof.
  intros (S1 & S2 & S3). unfold mixture_log_likelihood, LLd. change total with rsum at 1. rewrite (rsum_map_nth []). apply sum_below_ext. intros j _.
  f_equal. change total with rsum.
  assert (L2 : length (combine (sigma t) (map (inv_of t) (seq 0 n))) = n) by (rewrite combine_length, map_length, seq_length; lia).
  assert (L1 : length (combine (mu t) (combine (sigma t) (map (inv_of t) (seq 0 n)))) = n) by (rewrite combine_length; lia).
  rewrite (rsum_combine 0 ([], ([], []))), S3 by lia. unfold mix. apply sum_below_ext. intros i Hi. cbn [fst snd].
  rewrite combine_nth by lia. cbn [fst snd]. rewrite combine_nth by (rewrite map_length, seq_length; lia). cbn [fst snd].
  rewrite nth_map_seq by auto. reflexivity.
Qed.

Lemma fit_ascends_many randint x n i_mu i_cov i_mix tol epochs t0 t cl : valid_randint randint -> rect d x -> x <> [] -> (1 <= n)%nat ->
  consistent i_mu -> nonneg_mixture n i_mix ->
  gm_init d randint x n i_mu i_cov i_mix = Ok t0 ->
  Forall (fun s => square d s /\ symmetric_matrix d s /\ psd_matrix d s) (sigma t0) ->
  gm_fit rnd d randint x n i_mu i_cov i_mix tol epochs = Ok (t, cl) ->
  exists q0 q, Forall2 (inverse_of d) (sigma t0) q0 /\ Forall2 (inverse_of d) (sigma t) q /\
  mixture_log_likelihood d x (alpha t0) (mu t0) (sigma t0) q0 <= mixture_log_likelihood d x (alpha t) (mu t) (sigma t) q.
Proof.
  intros V Rx Hx Hn Cs Hm H0 Hs H. unfold gm_fit in H. rewrite H0 in H. cbn [bind] in H.
  apply bind_Ok in H. destruct H as (t1 & HL & H). apply bind_Ok in H. destruct H as (cl' & HP & H). injection H as <- <-.
  assert (G0 := init_good _ _ _ _ _ _ _ _ V Rx Hx Hn Cs Hm H0).
  assert (O0 : many t0).
  { split; [|exact Hs]. unfold gm_init in H0. apply bind_Ok in H0. destruct H0 as (m & Em & H0). apply bind_Ok in H0. destruct H0 as (s & Es & H0).
    apply bind_Ok in H0. destruct H0 as (a & Ea & H0). injection H0 as <-. simpl. now destruct (init_rect _ _ _ _ _ _ V Rx Hx Cs Em). }
  unfold gm_predict in HP. apply bind_Ok in HP. destruct HP as (gamma & HP & _).
  destruct (loop_many n x tol epochs Hx Rx t0 t1 G0 O0 HL (ex_intro _ gamma HP)) as (G1 & O1 & A & R0).
  assert (R1 := posterior_regular n x t1 gamma Hx Rx (proj1 G1) O1 HP).
  assert (Inv : forall t, shaped n t -> regular n t -> Forall2 (inverse_of d) (sigma t) (map (inv_of t) (seq 0 n))).
  { intros t (_ & S2 & _) Rg. rewrite <- (map_id (sigma t)).
    assert (E : map (fun z => z) (sigma t) = map (cov_of t) (seq 0 n)).
    { rewrite map_id. apply nth_ext with [] []; [now rewrite map_length, seq_length|]. intros i Hi. rewrite nth_map_seq by lia. reflexivity. }
    rewrite E. assert (I : forall i, In i (seq 0 n) -> (i < n)%nat) by (intros i Hi; apply in_seq in Hi; lia). revert I. generalize (seq 0 n).
    induction l as [|i l IH]; intros I; cbn [map]; constructor; [|apply IH; intros; apply I; cbn; auto].
    apply (@Determinant.inverse_ok d). apply Rg. apply I. cbn. auto. }
  exists (map (inv_of t0) (seq 0 n)), (map (inv_of t1) (seq 0 n)). split; [apply Inv; [apply G0|auto]|]. split; [apply Inv; [apply G1|auto]|].
  rewrite <- !LLd_spec by (apply G0 || apply G1). exact A.
Qed.

(** ** Training returns when the samples span the space *)
Definition alive_many (n : nat) (t : params) : Prop := good n t /\ many t /\
  (forall i, (i < n)%nat -> 0 < a_of t i) /\ (forall i, (i < n)%nat -> exists q, inverse d (cov_of t i) = Ok q).

Lemma density_many_ok r m s q : symmetric_matrix d s -> psd_matrix d s -> inverse d s = Ok q ->
  exists p, normal_density rnd d r m s = Ok p.
Proof.
  intros Sy Ps HI. assert (Z : det d s <> 0) by (unfold inverse in HI; destruct (Reqb (det d s) 0) eqn:E; [discriminate|now apply Reqb_false in E]).
  destruct (@Cholesky.det_trace_list d s s q Sy Ps HI Sy Ps Z) as (D & _).
  unfold normal_density. rewrite (proj2 (Rltb_false _ 0)) by lra. rewrite HI. cbn [bind]. cbv zeta.
  match goal with |- exists p, (if ?b then _ else _) = _ => destruct b; eauto end.
Qed.

Lemma row_many_ok n t r : (1 <= n)%nat -> alive_many n t -> exists row, posterior_row rnd d t r = Ok row.
Proof.
  intros Hn (G & (_ & O) & Pa & Ps). pose proof (exact_sign rnd Exact) as Sg. pose proof G as (Sh & _). pose proof Sh as (S1 & S2 & S3). unfold posterior_row.
  rewrite Forall_forall in O.
  assert (D : exists ps, densities rnd d t r = Ok ps).
  { apply mapM_exists. intros c I. apply (In_nth _ _ ([], [])) in I. destruct I as (i & Hi & <-). rewrite combine_length in Hi.
    rewrite combine_nth by lia. cbn [fst snd]. destruct (Ps i ltac:(lia)) as (q & Hq).
    destruct (O (nth i (sigma t) []) ltac:(apply nth_In; lia)) as (_ & Sy & Pd). exact (density_many_ok r _ _ q Sy Pd Hq). }
  destruct D as (ps & HP). rewrite HP. cbn [bind]. cbv zeta.
  set (joint := map (fun c => fst c * snd c) (combine (alpha t) ps)).
  assert (Lp : length ps = n). { rewrite (mapM_length _ _ _ HP), combine_length. lia. }
  assert (J : 0 < rsum joint).
  { unfold joint. rewrite (rsum_combine 0 0), S3 by lia. apply (sum_below_pos n _ 0); [lia| |].
    - intros i Hi. apply Rmult_le_pos; [apply Rlt_le, Pa; auto|]. apply Rlt_le. cbn [snd].
      eapply (density_pos rnd d Sg). apply (mapM_nth _ _ _ i ([], []) 0 HP). rewrite combine_length. lia.
    - cbn [fst snd]. apply Rmult_lt_0_compat; [apply Pa; lia|]. eapply (density_pos rnd d Sg).
      apply (mapM_nth _ _ _ 0%nat ([], []) 0 HP). rewrite combine_length. lia. }
  rewrite (proj2 (Reqb_false (rsum joint) 0)) by lra. eauto.
Qed.

Lemma posterior_many_ok n t x : (1 <= n)%nat -> alive_many n t -> exists gamma, posterior rnd d t x = Ok gamma.
Proof. intros Hn A. apply mapM_exists. intros r _. now apply (row_many_ok n). Qed.

Lemma round_many_ok n x t : (1 <= n)%nat -> x <> [] -> rect d x -> spanning d x -> alive_many n t ->
  exists t', em_round rnd d n x t = Ok t' /\ alive_many n t'.
Proof.
  intros Hn Hx Rx Sx AL. pose proof AL as (G & O & Pa & Ps). pose proof (exact_sign rnd Exact) as Sg.
  destruct (posterior_many_ok n t x Hn AL) as (gamma & Hg). destruct (good_pos n t G) as (A & P). pose proof G as (Sh & _).
  destruct (posterior_spec rnd d Sg n t x gamma Sh A P Hg) as (L & F & Gp).
  assert (HN : (0 < length x)%nat) by (destruct x; [congruence|simpl; lia]).
  assert (Sp : forall i, (i < n)%nat -> 0 < rsum (column 0 gamma i)).
  { intros i Hi. rewrite col_sum with (x := x) by auto. apply (sum_below_pos (length x) _ 0); auto.
    - intros j Hj. apply Rlt_le. apply Gp; auto. apply Pa; auto.
    - apply Gp; auto. apply Pa; auto. }
  assert (Em : exists m, calculate_means d n x gamma = Ok m).
  { apply mapM_exists. intros i I. apply in_seq in I. unfold weighted_mean. rewrite (proj2 (Reqb_false _ 0)) by (apply Rgt_not_eq, Sp; lia). eauto. }
  destruct Em as (m & Hm).
  assert (Ec : exists c, calculate_covariances d n x m gamma = Ok c).
  { apply mapM_exists. intros i I. apply in_seq in I. unfold weighted_cov. rewrite (proj2 (Reqb_false _ 0)) by (apply Rgt_not_eq, Sp; lia). eauto. }
  destruct Ec as (c & Hc).
  assert (HR : em_round rnd d n x t = Ok {| mu := m; sigma := c; alpha := calculate_mixture n (length x) gamma |}).
  { unfold em_round. rewrite Hg. cbn [bind]. rewrite Hm. cbn [bind]. rewrite Hc. reflexivity. }
  eexists. split; [exact HR|]. destruct (round_many n x t _ Hx Rx G O HR) as (G' & O' & _). split; auto. split; auto. split.
  - intros i Hi. unfold a_of. simpl. destruct (mixture_spec n x gamma L F Hx) as (_ & E). rewrite E by auto.
    apply Rdiv_lt_0_compat; [rewrite <- (col_sum x gamma L i); auto|apply INR_pos_length; auto].
  - intros i Hi. unfold cov_of. simpl. pose proof (mapM_seq_nth _ n _ i [] Hc Hi) as Ci. simpl in Ci.
    destruct (inverse d (nth i c [])) as [q|e] eqn:HI; [eauto|]. exfalso.
    destruct (@Determinant.inverse_err_kernel d _ e HI) as (v & Nv & Kv).
    destruct (cov_entry d x gamma L i _ _ Ci) as (Z & _ & E).
    set (mm := nth i m []) in *. set (sg := sum_below (length x) (fun j => nth i (nth j gamma []) 0)) in *.
    assert (Psg : 0 < sg) by (unfold sg; rewrite <- (col_sum x gamma L i); auto).
    set (pr j := sum_below d (fun a => v a * (nth a (nth j x []) 0 - nth a mm 0))).
    assert (Q : sum_below (length x) (fun j => nth i (nth j gamma []) 0 * (pr j * pr j)) = 0).
    { assert (T : sum_below d (fun a => v a * sum_below d (fun k => entry (nth i c []) a k * v k)) = 0).
      { apply sum_below_zero. intros a Ha. pose proof (Kv a Ha) as K. change (sum_below d (fun k => entry (nth i c []) a k * v k) = 0) in K. rewrite K. ring. }
      assert (T2 : sum_below d (fun a => v a * sum_below d (fun k => entry (nth i c []) a k * v k)) =
        / sg * sum_below (length x) (fun j => nth i (nth j gamma []) 0 * (pr j * pr j))).
      { rewrite <- sum_below_scal.
        rewrite (sum_below_ext d _ (fun a => sum_below (length x) (fun j => / sg * (nth i (nth j gamma []) 0 * (v a * (nth a (nth j x []) 0 - nth a mm 0) * pr j))))).
        - rewrite sum_below_swap. apply sum_below_ext. intros j Hj. rewrite !sum_below_scal. f_equal. f_equal.
          rewrite (sum_below_ext d _ (fun a => pr j * (v a * (nth a (nth j x []) 0 - nth a mm 0)))) by (intros; ring). rewrite sum_below_scal. reflexivity.
        - intros a Ha. rewrite <- sum_below_scal.
          rewrite (sum_below_ext d _ (fun k => sum_below (length x) (fun j => / sg * (nth i (nth j gamma []) 0 * (v a * (nth a (nth j x []) 0 - nth a mm 0) * (v k * (nth k (nth j x []) 0 - nth k mm 0))))))).
          + rewrite sum_below_swap. apply sum_below_ext. intros j Hj. rewrite !sum_below_scal. reflexivity.
          + intros k Hk. rewrite E by auto. fold mm sg. unfold Rdiv.
            rewrite (sum_below_ext (length x) (fun j => / sg * _) (fun j => (v a * / sg * v k) * (nth i (nth j gamma []) 0 * ((nth a (nth j x []) 0 - nth a mm 0) * (nth k (nth j x []) 0 - nth k mm 0))))) by (intros; ring).
            rewrite sum_below_scal. ring. }
      rewrite T2 in T. apply Rmult_integral in T. destruct T as [T|T]; auto. exfalso. pose proof (Rinv_0_lt_compat _ Psg). lra. }
    destruct (Sx v Nv) as (r & r' & Ir & Ir' & Nr). apply Nr.
    assert (Zero : forall u, In u x -> sum_below d (fun a => v a * nth a u 0) = sum_below d (fun a => v a * nth a mm 0)).
    { intros u Iu. apply (In_nth _ _ []) in Iu. destruct Iu as (j & Hj & <-).
      assert (Pz : pr j = 0).
      { destruct (Req_dec (pr j) 0) as [|Nz]; auto. exfalso.
        assert (0 < sum_below (length x) (fun j => nth i (nth j gamma []) 0 * (pr j * pr j))); [|lra].
        apply (sum_below_pos (length x) _ j); auto.
        - intros k Hk. apply Rmult_le_pos; [apply Rlt_le, Gp; auto; apply Pa; auto|apply (Rle_0_sqr (pr k))].
        - apply Rmult_lt_0_compat; [apply Gp; auto; apply Pa; auto|]. apply (Rsqr_pos_lt (pr j)); auto. }
      unfold pr in Pz. rewrite (sum_below_ext d _ (fun a => v a * nth a (nth j x []) 0 - v a * nth a mm 0)) in Pz by (intros; ring).
      rewrite sum_below_minus in Pz. lra. }
    now rewrite (Zero r Ir), (Zero r' Ir').
Qed.

Lemma loop_many_ok n x tol epochs : (1 <= n)%nat -> x <> [] -> rect d x -> spanning d x -> forall t, alive_many n t ->
  exists t', gm_loop rnd d n x tol epochs t = Ok t' /\ alive_many n t'.
Proof.
  intros Hn Hx Rx D. induction epochs as [|epochs IH]; intros t A; cbn [gm_loop]; [eauto|].
  destruct (round_many_ok n x t Hn Hx Rx D A) as (t1 & -> & A1). cbn [bind]. destruct (moved tol t t1); eauto.
Qed.

Lemma fit_many_ok randint x n i_mu i_cov i_mix tol epochs t0 : valid_randint randint -> rect d x -> x <> [] -> (1 <= n)%nat ->
  consistent i_mu -> nonneg_mixture n i_mix -> spanning d x ->
  gm_init d randint x n i_mu i_cov i_mix = Ok t0 -> Forall (fun a => 0 < a) (alpha t0) ->
  Forall (fun s => square d s /\ symmetric_matrix d s /\ psd_matrix d s /\ exists q, inverse_of d s q) (sigma t0) ->
  exists t cl, gm_fit rnd d randint x n i_mu i_cov i_mix tol epochs = Ok (t, cl).
Proof.
  intros V Rx Hx Hn Cs Hm Sx H0 Pa Hs. assert (G0 := init_good _ _ _ _ _ _ _ _ V Rx Hx Hn Cs Hm H0). pose proof G0 as ((S1 & S2 & S3) & _).
  pose proof (exact_sign rnd Exact) as Sg. rewrite Forall_forall in Pa, Hs.
  assert (A : alive_many n t0).
  { split; auto. split; [|split].
    - split; [|apply Forall_forall; intros s I; destruct (Hs s I) as (? & ? & ? & _); auto].
      unfold gm_init in H0. apply bind_Ok in H0. destruct H0 as (m & Em & H0). apply bind_Ok in H0. destruct H0 as (s & Es & H0).
      apply bind_Ok in H0. destruct H0 as (a & Ea & H0). injection H0 as <-. simpl. now destruct (init_rect _ _ _ _ _ _ V Rx Hx Cs Em).
    - intros i Hi. apply Pa, nth_In. lia.
    - intros i Hi. destruct (Hs (cov_of t0 i)) as (_ & _ & _ & q & _ & Pq & _); [apply nth_In; lia|].
      destruct (inverse d (cov_of t0 i)) as [q'|e] eqn:HI; [eauto|]. exfalso. apply (proj1 (proj2 (@Determinant.inverse_err d _ e HI) q) Pq). }
  destruct (loop_many_ok n x tol epochs Hn Hx Rx Sx _ A) as (t & HL & At).
  unfold gm_fit. rewrite H0. cbn [bind]. rewrite HL. cbn [bind]. unfold gm_predict.
  destruct (posterior_many_ok n t x Hn At) as (gamma & Hg). rewrite Hg. cbn [bind].
  assert (Ek : exists cl, mapM (fun row => argmin Rltb (map Ropp row)) gamma = Ok cl).
  { apply mapM_exists. intros row I. apply argmin_total. destruct At as (G & _). destruct (good_pos n t G) as (B & C).
    destruct (posterior_spec rnd d Sg n t _ gamma (proj1 G) B C Hg) as (_ & F & _). rewrite Forall_forall in F.
    destruct (F row I) as (L & _). destruct row; [simpl in L; lia|discriminate]. }
  destruct Ek as (cl & ->). cbn [bind]. eauto.
Qed.
End Many.

(** The default covariance matrices are admissible. *)
Lemma diag_entry c d a b : (a < d)%nat -> (b < d)%nat ->
  entry (map (fun i => map (fun j => if (i =? j)%nat then c else 0) (seq 0 d)) (seq 0 d)) a b = if (a =? b)%nat then c else 0.
Proof.
  intros Ha Hb. unfold entry. rewrite (nth_map_seq (fun i => map (fun j => if (i =? j)%nat then c else 0) (seq 0 d))) by auto.
  now rewrite (nth_map_seq (fun j => if (a =? j)%nat then c else 0)) by auto.
Qed.
Lemma diag_square c d : square d (map (fun i => map (fun j => if (i =? j)%nat then c else 0) (seq 0 d)) (seq 0 d)).
Proof.
  split; [now rewrite map_length, seq_length|]. apply Forall_forall. intros r I. apply in_map_iff in I. destruct I as (i & <- & _). now rewrite map_length, seq_length.
Qed.
Lemma diag_product c c' d : c * c' = 1 ->
  product_is_one d (map (fun i => map (fun j => if (i =? j)%nat then c else 0) (seq 0 d)) (seq 0 d))
                   (map (fun i => map (fun j => if (i =? j)%nat then c' else 0) (seq 0 d)) (seq 0 d)).
Proof.
  intros E i j Hi Hj. rewrite (sum_below_one d i); auto.
  - rewrite !diag_entry by auto. rewrite Nat.eqb_refl. destruct (i =? j)%nat; [auto|ring].
  - intros k Hk N. rewrite !diag_entry by auto. destruct (Nat.eqb_spec i k); [congruence|ring].
Qed.
Lemma default_admissible d n s : init_covariances d n CovNone = Ok s ->
  Forall (fun s => square d s /\ symmetric_matrix d s /\ psd_matrix d s /\ exists q, inverse_of d s q) s.
Proof.
  intros H. injection H as <-. apply Forall_forall. intros m Hm. apply in_map_iff in Hm. destruct Hm as (i & <- & _). unfold diag_tenth.
  split; [apply diag_square|]. split; [|split].
  - intros a b Ha Hb. rewrite !diag_entry by auto. rewrite Nat.eqb_sym. reflexivity.
  - intros v. apply sum_below_nonneg. intros a Ha. rewrite (sum_below_one d a); auto.
    + rewrite diag_entry, Nat.eqb_refl by auto. apply Rmult_le_pos; [apply (Rle_0_sqr (v a))|lra].
    + intros b Hb N. rewrite diag_entry by auto. destruct (Nat.eqb_spec a b); [congruence|ring].
  - exists (map (fun i => map (fun j => if (i =? j)%nat then 10 else 0) (seq 0 d)) (seq 0 d)).
    split; [apply diag_square|]. split; apply diag_product; lra.
Qed.

Lemma regular_inverses d n t : shaped n t -> regular d n t -> Forall2 (inverse_of d) (sigma t) (map (inv_of d t) (seq 0 n)).
Proof.
  intros (_ & S2 & _) Rg. rewrite <- (map_id (sigma t)).
  assert (E : map (fun z => z) (sigma t) = map (cov_of t) (seq 0 n)).
  { rewrite map_id. apply nth_ext with [] []; [now rewrite map_length, seq_length|]. intros i Hi. rewrite nth_map_seq by lia. reflexivity. }
  rewrite E. assert (I : forall i, In i (seq 0 n) -> (i < n)%nat) by (intros i Hi; apply in_seq in Hi; lia). revert I. generalize (seq 0 n).
  induction l as [|i l IH]; intros I; cbn [map]; constructor; [|apply IH; intros; apply I; cbn; auto].
  apply (@Determinant.inverse_ok d). apply Rg. apply I. cbn. auto.
Qed.

Lemma round_ascends rnd : (forall p, rnd p = p) ->
  forall d n x t t', x <> [] -> rect d x ->
  length (mu t) = n -> length (sigma t) = n -> probability n (alpha t) -> rect d (mu t) ->
  Forall (fun s => square d s /\ symmetric_matrix d s /\ psd_matrix d s) (sigma t) ->
  em_round rnd d n x t = Ok t' -> Forall (fun s => exists q, inverse_of d s q) (sigma t') ->
  exists q q', Forall2 (inverse_of d) (sigma t) q /\ Forall2 (inverse_of d) (sigma t') q' /\
  mixture_log_likelihood d x (alpha t) (mu t) (sigma t) q <= mixture_log_likelihood d x (alpha t') (mu t') (sigma t') q'.
Proof.
  intros Ex d n x t t' Hx Rx L1 L2 Pa Rm Hs H Hi.
  assert (G : good n t) by (split; [split; [|split]; auto; apply Pa|exact Pa]).
  assert (O : many d t) by (split; auto).
  destruct (round_many rnd Ex d n x t t' Hx Rx G O H) as (G' & O' & A).
  assert (Rg : regular d n t).
  { unfold em_round in H. apply bind_Ok in H. destruct H as (g & Hg & _). exact (posterior_regular rnd Ex d n x t g Hx Rx (proj1 G) O Hg). }
  assert (Rg' : regular d n t').
  { intros i Hn. pose proof G' as ((_ & S2 & _) & _). pose proof O' as (_ & O2). rewrite Forall_forall in Hi, O2.
    assert (I : In (cov_of t' i) (sigma t')) by (apply nth_In; lia).
    destruct (Hi _ I) as (q & _ & Pq & _). destruct (O2 _ I) as (_ & Sy & Ps). unfold inv_of.
    destruct (inverse d (cov_of t' i)) as [q'|e] eqn:HI.
    - split; auto. assert (Z : det d (cov_of t' i) <> 0) by (unfold inverse in HI; destruct (Reqb (det d (cov_of t' i)) 0) eqn:E; [discriminate|now apply Reqb_false in E]).
      apply (@Cholesky.det_trace_list d _ _ q' Sy Ps HI Sy Ps Z).
    - exfalso. apply (proj1 (proj2 (@Determinant.inverse_err d _ e HI) q) Pq). }
  exists (map (inv_of d t) (seq 0 n)), (map (inv_of d t') (seq 0 n)).
  split; [apply regular_inverses; [apply G|auto]|]. split; [apply regular_inverses; [apply G'|auto]|].
  rewrite <- (LLd_spec d n x t), <- (LLd_spec d n x t') by (apply G || apply G'). auto.
Qed.

Lemma default_start rnd : (forall p, rnd p = p) ->
  forall d randint x n tol epochs, valid_randint randint -> rect d x -> x <> [] -> (1 <= n)%nat -> spanning d x ->
  exists t0 t clusters q0 q, gm_init d randint x n InitRandom CovNone CovNone = Ok t0 /\
  gm_fit rnd d randint x n InitRandom CovNone CovNone tol epochs = Ok (t, clusters) /\
  Forall2 (inverse_of d) (sigma t0) q0 /\ Forall2 (inverse_of d) (sigma t) q /\
  mixture_log_likelihood d x (alpha t0) (mu t0) (sigma t0) q0 <= mixture_log_likelihood d x (alpha t) (mu t) (sigma t) q.
Proof.
  intros Ex d randint x n tol epochs V Rx Hx Hn Sx.
  destruct (init_random randint d x n V Hx) as (c & Ec & Lc & _).
  destruct (mixture_default n ltac:(lia)) as (a & Ea & La & Sa & Pa).
  assert (H0 : gm_init d randint x n InitRandom CovNone CovNone =
    Ok {| mu := c; sigma := map (fun _ => diag_tenth d) (seq 0 n); alpha := a |}).
  { unfold gm_init. rewrite Ec. cbn [bind]. change (init_covariances d n CovNone) with (Ok (map (fun _ => diag_tenth d) (seq 0 n))). cbn [bind]. rewrite Ea. reflexivity. }
  pose proof (default_admissible d n _ eq_refl) as Hs.
  destruct (fit_many_ok rnd Ex d randint x n InitRandom CovNone CovNone tol epochs _ V Rx Hx Hn I I Sx H0) as (t & cl & H).
  - simpl. apply Forall_forall. auto.
  - simpl. exact Hs.
  - destruct (fit_ascends_many rnd Ex d randint x n InitRandom CovNone CovNone tol epochs _ t cl V Rx Hx Hn I I H0) as (q0 & q & A & B & C); auto.
    + simpl. eapply Forall_impl; [|exact Hs]. intros s (? & ? & ? & _). auto.
    + exists {| mu := c; sigma := map (fun _ => diag_tenth d) (seq 0 n); alpha := a |}, t, cl, q0, q. auto.
Qed.
