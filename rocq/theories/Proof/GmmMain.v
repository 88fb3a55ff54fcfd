(** Gaussian mixture: the whole training, and the likelihood for one feature. *)
From Coq Require Import List ZArith Reals Lra Lia Bool Arith.
From Verif.Model Require Import Base Ops Matrix Gmm.
From Verif.Spec Require Import Common Ops Smo KMeans Gmm.
From Verif.Proof Require Import BaseLemmas Smo Kernels Ops KMeans KMeansMain Gmm.
Import ListNotations.
Local Open Scope R_scope.

Lemma init_good randint d x n i_mu i_cov i_mix t : valid_randint randint -> rect d x -> x <> [] -> (1 <= n)%nat ->
  consistent i_mu -> nonneg_mixture n i_mix ->
  gm_init d randint x n i_mu i_cov i_mix = Ok t -> good n t.
Proof.
  intros V Rx Hx Hn Cs Hm H. unfold gm_init in H. apply bind_Ok in H. destruct H as (m & Em & H).
  apply bind_Ok in H. destruct H as (s & Es & H). apply bind_Ok in H. destruct H as (a & Ea & H). injection H as <-.
  destruct (init_rect _ _ _ _ _ _ V Rx Hx Cs Em) as (Lm & _).
  assert (Ls : length s = n).
  { unfold init_covariances in Es. destruct i_cov; [injection Es as <-; now rewrite map_length, seq_length| |discriminate].
    destruct (negb _); [discriminate|]. injection Es as <-. rewrite map_length. generalize (flat_reals (data a0)). clear. intros l.
    set (k := (d * d)%nat). clearbody k. revert l. induction n; intros l; simpl; auto. }
  assert (Pa : probability n a).
  { destruct i_mix as [|b|]; [| |discriminate].
    - destruct (mixture_default n ltac:(lia)) as (a' & E & L & S & P). rewrite E in Ea. injection Ea as <-.
      split; auto. split; auto. apply Forall_forall. intros z I. apply Rlt_le. auto.
    - destruct (mixture_given n b a Ea) as (-> & S). destruct Hm as (L & F). split; [now rewrite flat_reals_length|split; auto]. }
  split; [|exact Pa]. split; auto. split; auto. apply Pa.
Qed.

(** ** One feature *)
Section One.
Variable rnd : R -> R.
Hypothesis Exact : forall p, rnd p = p.

Lemma exact_sign : sign_preserving rnd.
Proof. intros p H. now rewrite Exact. Qed.

Lemma density_one z m s p : normal_density rnd 1 [z] [m] [[s]] = Ok p -> 0 < s /\ p = gauss m s z.
Proof.
  unfold normal_density. assert (D : det 1 [[s]] = s) by (simpl; unfold sign; simpl; lra). rewrite D.
  destruct (Rltb s 0) eqn:N; [discriminate|]. apply Rltb_false in N. unfold inverse. rewrite D.
  destruct (Reqb s 0) eqn:Z; [discriminate|]. apply Reqb_false in Z. assert (P : 0 < s) by lra.
  cbn [bind]. cbv zeta. rewrite Exact. intros H. split; auto.
  assert (P2 : 0 < 2 * PI) by (pose proof PI_RGT_0; lra).
  match type of H with (if Reqb ?q 0 then _ else _) = _ => set (p0 := q) in *; assert (E : p0 = gauss m s z) end.
  { unfold p0, gauss. f_equal.
    - f_equal. change (INR (length [z])) with 1. unfold Rdiv at 1. rewrite Rmult_1_l, Rpower_sqrt by auto.
      rewrite <- sqrt_mult by lra. f_equal. ring.
    - f_equal. simpl. unfold sign. simpl. field. lra. }
  assert (G : 0 < gauss m s z).
  { unfold gauss. apply Rmult_lt_0_compat; [|apply exp_pos]. apply Rdiv_lt_0_compat; [lra|]. apply sqrt_lt_R0. apply Rmult_lt_0_compat; auto. }
  destruct (Reqb p0 0) eqn:Q; [apply Reqb_true in Q; lra|]. congruence.
Qed.

Lemma gauss_pos m s z : 0 < s -> 0 < gauss m s z.
Proof.
  intros P. assert (P2 : 0 < 2 * PI) by (pose proof PI_RGT_0; lra).
  unfold gauss. apply Rmult_lt_0_compat; [|apply exp_pos]. apply Rdiv_lt_0_compat; [lra|]. apply sqrt_lt_R0. apply Rmult_lt_0_compat; auto.
Qed.
Lemma ln_gauss m s z : 0 < s -> ln (gauss m s z) = - / 2 * ln (2 * PI) - / 2 * ln s - (z - m) ^ 2 / (2 * s).
Proof.
  intros P. assert (P2 : 0 < 2 * PI) by (pose proof PI_RGT_0; lra). assert (P3 : 0 < 2 * PI * s) by (apply Rmult_lt_0_compat; auto).
  assert (Q : 0 < sqrt (2 * PI * s)) by now apply sqrt_lt_R0.
  unfold gauss. rewrite ln_mult; [|apply Rdiv_lt_0_compat; lra|apply exp_pos]. rewrite ln_exp. unfold Rdiv at 1. rewrite Rmult_1_l, ln_Rinv by auto.
  assert (H : ln (2 * PI * s) = 2 * ln (sqrt (2 * PI * s))).
  { rewrite <- (sqrt_sqrt (2 * PI * s)) at 1 by lra. rewrite ln_mult by auto. lra. }
  rewrite ln_mult in H by auto. unfold Rdiv. lra.
Qed.
Lemma ln_le_minus z : 0 < z -> ln z <= z - 1.
Proof.
  intros H. destruct (Req_dec z 1) as [->|N]; [rewrite ln_1; lra|].
  assert (ln z <> 0) by (intros E; apply N; apply ln_inv; try lra; now rewrite ln_1).
  pose proof (exp_ineq1 (ln z) H0) as E. rewrite exp_ln in E by auto. lra.
Qed.

(** The ascent property for index functions: [f i j] and [f' i j] are densities
    of component [i] at sample [j] before and after the round. *)
Section Ascent.
Variables (n N : nat) (al al' : nat -> R) (f f' : nat -> nat -> R).
Hypothesis HN : (0 < N)%nat.
Hypothesis Pal : forall i, (i < n)%nat -> 0 < al i.
Hypothesis Sal : sum_below n al = 1.
Hypothesis f_pos : forall i j, (i < n)%nat -> 0 < f i j.
Hypothesis f'_pos : forall i j, (i < n)%nat -> 0 < f' i j.
Let P j := sum_below n (fun i => al i * f i j).
Let P' j := sum_below n (fun i => al' i * f' i j).
Let g i j := al i * f i j / P j.
Let S i := sum_below N (fun j => g i j).
Hypothesis Eal : forall i, (i < n)%nat -> al' i = S i / INR N.
Hypothesis component_part : forall i, (i < n)%nat -> 0 < S i -> 0 <= sum_below N (fun j => g i j * (ln (f' i j) - ln (f i j))).

Lemma n_pos : (0 < n)%nat.
Proof. destruct n; [unfold sum_below in Sal; simpl in Sal; lra|lia]. Qed.
Lemma P_pos j : 0 < P j.
Proof.
  apply (sum_below_pos n _ 0); [apply n_pos| |apply Rmult_lt_0_compat; [apply Pal|apply f_pos]; apply n_pos].
  intros i Hi. apply Rlt_le, Rmult_lt_0_compat; [now apply Pal|now apply f_pos].
Qed.
Lemma g_pos i j : (i < n)%nat -> 0 < g i j.
Proof. intros. apply Rdiv_lt_0_compat; [apply Rmult_lt_0_compat; [now apply Pal|now apply f_pos]|apply P_pos]. Qed.
Lemma S_pos i : (i < n)%nat -> 0 < S i.
Proof. intros. apply (sum_below_pos N _ 0); auto; intros; [apply Rlt_le|]; now apply g_pos. Qed.
Lemma INR_N : 0 < INR N.
Proof. apply lt_0_INR. auto. Qed.
Lemma al'_pos i : (i < n)%nat -> 0 < al' i.
Proof. intros H. rewrite Eal by auto. apply Rdiv_lt_0_compat; [now apply S_pos|apply INR_N]. Qed.
Lemma P'_pos j : 0 < P' j.
Proof.
  apply (sum_below_pos n _ 0); [apply n_pos| |apply Rmult_lt_0_compat; [apply al'_pos|apply f'_pos]; apply n_pos].
  intros i Hi. apply Rlt_le, Rmult_lt_0_compat; [now apply al'_pos|now apply f'_pos].
Qed.
Lemma g_sum j : sum_below n (fun i => g i j) = 1.
Proof.
  rewrite (sum_below_ext _ _ (fun i => / P j * (al i * f i j))) by (intros; unfold g, Rdiv; ring).
  rewrite sum_below_scal. fold (P j). apply Rinv_l. pose proof (P_pos j). lra.
Qed.

Lemma e_step j : sum_below n (fun i => g i j * (ln (al' i) - ln (al i) + (ln (f' i j) - ln (f i j)))) <= ln (P' j) - ln (P j).
Proof.
  assert (H : sum_below n (fun i => g i j * (ln (al' i) - ln (al i) + (ln (f' i j) - ln (f i j))) - (ln (P' j) - ln (P j)) * g i j)
     <= sum_below n (fun i => / P' j * (al' i * f' i j) - g i j)).
  { apply sum_below_le. intros i Hi.
    pose proof (g_pos i j Hi) as Gp. pose proof (P_pos j) as Pp. pose proof (P'_pos j) as Pp'.
    pose proof (Pal i Hi) as A1. pose proof (al'_pos i Hi) as A2. pose proof (f_pos i j Hi) as F1. pose proof (f'_pos i j Hi) as F2.
    set (q := (al' i * f' i j / P' j) / g i j).
    assert (Q0 : 0 < al' i * f' i j / P' j) by (apply Rdiv_lt_0_compat; auto; now apply Rmult_lt_0_compat).
    assert (Q : 0 < q) by now apply Rdiv_lt_0_compat.
    assert (LQ : ln q = ln (al' i) + ln (f' i j) - ln (P' j) - (ln (al i) + ln (f i j) - ln (P j))).
    { unfold q, g, Rdiv. rewrite !ln_mult, !ln_Rinv, !ln_mult, ?ln_Rinv; auto; try (apply Rinv_0_lt_compat; auto); try now apply Rmult_lt_0_compat. }
    pose proof (ln_le_minus q Q) as B. rewrite LQ in B.
    replace (/ P' j * (al' i * f' i j) - g i j) with (g i j * (q - 1)) by (unfold q; field; split; lra).
    replace (g i j * (ln (al' i) - ln (al i) + (ln (f' i j) - ln (f i j))) - (ln (P' j) - ln (P j)) * g i j)
      with (g i j * (ln (al' i) + ln (f' i j) - ln (P' j) - (ln (al i) + ln (f i j) - ln (P j)))) by ring.
    apply Rmult_le_compat_l; lra. }
  rewrite !sum_below_minus, !sum_below_scal in H.
  change (sum_below n (fun i => g i j)) with (sum_below n (fun i => g i j)) in H.
  pose proof (g_sum j) as G. change (sum_below n (fun m0 => g m0 j)) with (sum_below n (fun i => g i j)) in H.
  rewrite G in H. fold (P' j) in H. rewrite Rinv_l in H by (pose proof (P'_pos j); lra). lra.
Qed.

Lemma mixing_part : 0 <= sum_below n (fun i => S i * (ln (al' i) - ln (al i))).
Proof.
  assert (H : sum_below n (fun i => INR N * (al' i - al i)) <= sum_below n (fun i => S i * (ln (al' i) - ln (al i)))).
  { apply sum_below_le. intros i Hi. pose proof (Pal i Hi) as A1. pose proof (al'_pos i Hi) as A2. pose proof INR_N as HI. pose proof (S_pos i Hi) as HS.
    assert (Q : 0 < al i / al' i) by now apply Rdiv_lt_0_compat. pose proof (ln_le_minus _ Q) as B.
    unfold Rdiv in B at 1. rewrite ln_mult, ln_Rinv in B; auto; [|now apply Rinv_0_lt_compat].
    assert (ES : S i = INR N * al' i) by (rewrite Eal by auto; field; lra).
    replace (INR N * (al' i - al i)) with (S i * (1 - al i / al' i)) by (rewrite ES; field; lra).
    apply Rmult_le_compat_l; lra. }
  rewrite sum_below_scal, sum_below_minus, Sal in H.
  assert (E : sum_below n al' = 1).
  { rewrite (sum_below_ext _ _ (fun i => / INR N * S i)) by (intros; rewrite Eal by auto; unfold Rdiv; ring).
    rewrite sum_below_scal. unfold S. rewrite sum_below_swap, (sum_below_ext _ _ (fun _ => 1)) by (intros; apply g_sum).
    replace (sum_below N (fun _ => 1)) with (INR N); [pose proof INR_N; field; lra|]. unfold sum_below. change total with rsum. rewrite rsum_map_const, seq_length. lra. }
  change (sum_below n (fun i => al' i)) with (sum_below n al') in H. rewrite E in H. lra.
Qed.

Lemma ascent : sum_below N (fun j => ln (P j)) <= sum_below N (fun j => ln (P' j)).
Proof.
  assert (H : sum_below N (fun j => sum_below n (fun i => g i j * (ln (al' i) - ln (al i) + (ln (f' i j) - ln (f i j)))))
    <= sum_below N (fun j => ln (P' j) - ln (P j))) by (apply sum_below_le; intros; apply e_step).
  rewrite sum_below_minus in H. rewrite sum_below_swap in H.
  assert (G : 0 <= sum_below n (fun i => sum_below N (fun j => g i j * (ln (al' i) - ln (al i) + (ln (f' i j) - ln (f i j)))))).
  { rewrite (sum_below_ext n _ (fun i => S i * (ln (al' i) - ln (al i)) + sum_below N (fun j => g i j * (ln (f' i j) - ln (f i j))))).
    - rewrite sum_below_plus. pose proof mixing_part.
      assert (0 <= sum_below n (fun i => sum_below N (fun j => g i j * (ln (f' i j) - ln (f i j))))) by (apply sum_below_nonneg; intros; apply component_part; auto; now apply S_pos).
      lra.
    - intros i Hi. rewrite (sum_below_ext N _ (fun j => (ln (al' i) - ln (al i)) * g i j + g i j * (ln (f' i j) - ln (f i j)))) by (intros; ring).
      rewrite sum_below_plus, sum_below_scal. change (sum_below N (g i)) with (S i). ring. }
  lra.
Qed.
End Ascent.

(** One feature: the new mean and variance are the best ones for the weights. *)
Lemma component_one N (z g : nat -> R) m s m' s' : let S := sum_below N g in 0 < S -> 0 < s -> 0 < s' ->
  m' = sum_below N (fun j => g j * z j) / S -> s' = sum_below N (fun j => g j * ((z j - m') * (z j - m'))) / S ->
  0 <= sum_below N (fun j => g j * (ln (gauss m' s' (z j)) - ln (gauss m s (z j)))).
Proof.
  intros S HS H1 H2 Em Es.
  assert (E : sum_below N (fun j => g j * (ln (gauss m' s' (z j)) - ln (gauss m s (z j)))) =
    S * (/ 2 * (ln s - ln s') - / 2 + (s' + (m' - m) ^ 2) / (2 * s))).
  { assert (Q : forall j, g j * (ln (gauss m' s' (z j)) - ln (gauss m s (z j))) =
      / 2 * (ln s - ln s') * g j + (/ (2 * s) - / (2 * s')) * (g j * ((z j - m') * (z j - m')))
      + ((m' - m) / s * (g j * z j) + ((m * m - m' * m') / (2 * s) - (m' - m) / s * 0) * g j - 0)).
    { intros j. rewrite !ln_gauss by auto. field. lra. }
    rewrite (sum_below_ext _ _ _ (fun j _ => Q j)). rewrite !sum_below_plus, !sum_below_minus, !sum_below_plus, !sum_below_scal.
    assert (EM : sum_below N (fun j => g j * z j) = S * m') by (rewrite Em at 1; field; lra).
    assert (ES : sum_below N (fun j => g j * ((z j - m') * (z j - m'))) = S * s') by (rewrite Es at 1; field; lra).
    rewrite EM, ES. fold S. rewrite (sum_below_zero N (fun _ => 0)) by auto. field. lra. }
  rewrite E. apply Rmult_le_pos; [lra|].
  assert (Q : 0 < s' / s) by now apply Rdiv_lt_0_compat. pose proof (ln_le_minus _ Q) as B.
  unfold Rdiv in B at 1. rewrite ln_mult, ln_Rinv in B; auto; [|now apply Rinv_0_lt_compat].
  assert (0 <= (m' - m) ^ 2 / (2 * s)) by (apply Rmult_le_pos; [apply pow2_ge_0|apply Rlt_le, Rinv_0_lt_compat; lra]).
  replace ((s' + (m' - m) ^ 2) / (2 * s)) with (/ 2 * (s' / s) + (m' - m) ^ 2 / (2 * s)) by (field; lra). lra.
Qed.

(** ** The code's round is the round of [Ascent] *)
Definition m_of (t : params) (i : nat) := nth 0 (nth i (mu t) []) 0.
Definition s_of (t : params) (i : nat) := entry (nth i (sigma t) []) 0 0.
Definition a_of (t : params) (i : nat) := nth i (alpha t) 0.
Definition one (t : params) : Prop := rect 1 (mu t) /\ Forall (square 1) (sigma t).
Definition P_of (n : nat) (t : params) (z : R) := sum_below n (fun i => a_of t i * gauss (m_of t i) (s_of t i) z).

Lemma one_row n t i : shaped n t -> one t -> (i < n)%nat -> nth i (mu t) [] = [m_of t i] /\ nth i (sigma t) [] = [[s_of t i]].
Proof.
  intros (S1 & S2 & S3) (O1 & O2) Hi. unfold rect in O1. rewrite Forall_forall in O1, O2. split.
  - pose proof (O1 (nth i (mu t) []) ltac:(apply nth_In; lia)) as L. unfold m_of. destruct (nth i (mu t) []) as [|u [|v l]]; simpl in *; try lia; auto.
  - destruct (O2 (nth i (sigma t) []) ltac:(apply nth_In; lia)) as (L & F). unfold s_of, entry.
    destruct (nth i (sigma t) []) as [|u [|v l]]; simpl in *; try lia. inversion F as [|? ? Lu]; subst. destruct u as [|w [|w' u]]; simpl in *; try lia; auto.
Qed.

Lemma post_one n t z row : shaped n t -> one t -> posterior_row rnd 1 t [z] = Ok row ->
  (forall i, (i < n)%nat -> 0 < s_of t i) /\ P_of n t z <> 0 /\
  forall i, (i < n)%nat -> nth i row 0 = a_of t i * gauss (m_of t i) (s_of t i) z / P_of n t z.
Proof.
  intros Sh O H. pose proof Sh as (S1 & S2 & S3). unfold posterior_row in H. apply bind_Ok in H. destruct H as (ps & HP & H). cbv zeta in H.
  set (joint := map (fun c => fst c * snd c) (combine (alpha t) ps)) in *.
  assert (Lp : length ps = n). { rewrite (mapM_length _ _ _ HP), combine_length. lia. }
  assert (Lj : length joint = n) by (unfold joint; rewrite map_length, combine_length; lia).
  assert (D : forall i, (i < n)%nat -> 0 < s_of t i /\ nth i ps 0 = gauss (m_of t i) (s_of t i) z).
  { intros i Hi. apply (density_one z (m_of t i) (s_of t i)).
    pose proof (mapM_nth _ _ _ i ([], []) 0 HP ltac:(rewrite combine_length; lia)) as E. rewrite combine_nth in E by lia. cbn [fst snd] in E.
    destruct (one_row n t i Sh O Hi) as (E1 & E2). rewrite E1, E2 in E. exact E. }
  assert (Nj : forall i, (i < n)%nat -> nth i joint 0 = a_of t i * gauss (m_of t i) (s_of t i) z).
  { intros i Hi. pose proof (map_nth (fun c : R * R => fst c * snd c) (combine (alpha t) ps) (0, 0) i) as E.
    rewrite combine_nth in E by lia. cbn [fst snd] in E. rewrite (nth_indep joint 0 (0 * 0)) by lia. rewrite (proj2 (D i Hi)) in E. exact E. }
  assert (EP : rsum joint = P_of n t z) by (rewrite rsum_nth, Lj; apply sum_below_ext; auto).
  rewrite EP in H. destruct (Reqb (P_of n t z) 0) eqn:Q; [discriminate|]. apply Reqb_false in Q. injection H as <-.
  split; [intros; now apply D|]. split; auto. intros i Hi. rewrite <- Nj by auto.
  replace 0 with ((fun q => q / P_of n t z) 0) at 1 by (simpl; unfold Rdiv; ring). apply (map_nth (fun q => q / P_of n t z)).
Qed.

Definition LL (n : nat) (zs : list R) (t : params) : R := sum_below (length zs) (fun j => ln (P_of n t (nth j zs 0))).
Lemma nth_samples zs j : (j < length zs)%nat -> nth j (map (fun z => [z]) zs) [] = [nth j zs 0].
Proof. intros H. rewrite (nth_indep _ [] [0]) by now rewrite map_length. apply (map_nth (fun z => [z])). Qed.

Lemma round_one n zs t t' : zs <> [] -> good n t -> one t -> em_round rnd 1 n (map (fun z => [z]) zs) t = Ok t' ->
  good n t' /\ one t' /\ ((forall i, (i < n)%nat -> 0 < s_of t' i) -> LL n zs t <= LL n zs t').
Proof.
  intros Hz G O H. assert (Hx : map (fun z => [z]) zs <> []) by (destruct zs; [congruence|discriminate]).
  destruct (round_good rnd 1 exact_sign n _ t t' Hx G H) as (G' & (A1 & A2)). split; auto. split.
  { split; [eapply Forall_impl; [|exact A1]; intros q (L & _); exact L|eapply Forall_impl; [|exact A2]; intros q (L & _); exact L]. }
  intros Ps'. destruct (good_pos n t G) as (A & P). pose proof G as (Sh & _ & _ & T). unfold em_round in H.
  apply bind_Ok in H. destruct H as (gamma & Hg & H). apply bind_Ok in H. destruct H as (m & Hm & H).
  apply bind_Ok in H. destruct H as (c & Hc & H).
  set (x := map (fun z => [z]) zs) in *.
  destruct (posterior_spec rnd 1 exact_sign n t x gamma Sh A P Hg) as (L & F & _).
  assert (Lx : length x = length zs) by (unfold x; now rewrite map_length).
  assert (Row : forall j, (j < length zs)%nat -> posterior_row rnd 1 t [nth j zs 0] = Ok (nth j gamma [])).
  { intros j Hj. pose proof (mapM_nth _ _ _ j [] [] Hg ltac:(lia)) as E. unfold x in E. rewrite nth_samples in E by auto. exact E. }
  assert (HN : (0 < length zs)%nat) by (destruct zs; [congruence|simpl; lia]).
  destruct (post_one n t _ _ Sh O (Row 0%nat HN)) as (Ps & _ & _).
  assert (Gm : forall i j, (i < n)%nat -> (j < length zs)%nat -> nth i (nth j gamma []) 0 =
     a_of t i * gauss (m_of t i) (s_of t i) (nth j zs 0) / P_of n t (nth j zs 0)).
  { intros i j Hi Hj. destruct (post_one n t _ _ Sh O (Row j Hj)) as (_ & _ & E). auto. }
  set (gg i j := a_of t i * gauss (m_of t i) (s_of t i) (nth j zs 0) / P_of n t (nth j zs 0)) in *.
  assert (Gs : forall i, (i < n)%nat -> sum_below (length x) (fun j => nth i (nth j gamma []) 0) = sum_below (length zs) (fun j => gg i j)).
  { intros i Hi. rewrite Lx. apply sum_below_ext. intros. now apply Gm. }
  assert (Mi : forall i, (i < n)%nat -> weighted_mean 1 x gamma i = Ok (nth i m [])) by (intros; now apply (mapM_seq_nth _ n)).
  assert (Ci : forall i, (i < n)%nat -> weighted_cov 1 x gamma (nth i m []) i = Ok (nth i c [])) by (intros; now apply (mapM_seq_nth _ n _ _ [] Hc)).
  assert (Sn : forall i, (i < n)%nat -> sum_below (length zs) (fun j => gg i j) <> 0).
  { intros i Hi. rewrite <- Gs by auto. now apply (mean_nth 1 x gamma L i _ (Mi i Hi)). }
  assert (Pa : forall i, (i < n)%nat -> 0 < a_of t i).
  { intros i Hi. destruct (Req_dec (a_of t i) 0) as [Z|Z].
    - exfalso. apply (Sn i Hi). apply sum_below_zero. intros j _. unfold gg. rewrite Z. unfold Rdiv. ring.
    - rewrite Forall_forall in A. assert (0 <= a_of t i) by (apply A, nth_In; destruct Sh as (_ & _ & S3); lia). lra. }
  unfold LL, P_of.
  assert (Emi : forall i, (i < n)%nat -> m_of t' i = sum_below (length zs) (fun j => gg i j * nth j zs 0) / sum_below (length zs) (gg i)).
  { intros i Hi. injection H as <-. unfold m_of at 1. simpl. destruct (mean_nth 1 x gamma L i _ (Mi i Hi)) as (_ & _ & E).
    rewrite E by lia. rewrite Gs by auto. rewrite Lx. unfold Rdiv. f_equal. apply sum_below_ext. intros j Hj. rewrite Gm by auto.
    unfold x. rewrite nth_samples by auto. reflexivity. }
  assert (Esi : forall i, (i < n)%nat -> s_of t' i =
     sum_below (length zs) (fun j => gg i j * ((nth j zs 0 - m_of t' i) * (nth j zs 0 - m_of t' i))) / sum_below (length zs) (gg i)).
  { intros i Hi. assert (Em : m_of t' i = nth 0 (nth i m []) 0) by (injection H as <-; reflexivity).
    assert (Es : s_of t' i = entry (nth i c []) 0 0) by (injection H as <-; reflexivity).
    rewrite Em, Es. destruct (cov_entry 1 x gamma L i _ _ (Ci i Hi)) as (_ & _ & E). rewrite E by lia.
    rewrite Gs by auto. rewrite Lx. unfold Rdiv. f_equal. apply sum_below_ext. intros j Hj. rewrite Gm by auto.
    unfold x. rewrite nth_samples by auto. reflexivity. }
  apply (ascent n (length zs) (a_of t) (a_of t') (fun i j => gauss (m_of t i) (s_of t i) (nth j zs 0))
           (fun i j => gauss (m_of t' i) (s_of t' i) (nth j zs 0))); auto.
  - change total with rsum in T. rewrite rsum_nth in T. destruct Sh as (_ & _ & S3). rewrite S3 in T. exact T.
  - intros i j Hi. now apply gauss_pos, Ps.
  - intros i j Hi. now apply gauss_pos, Ps'.
  - intros i Hi. injection H as <-. unfold a_of. simpl. destruct (mixture_spec n x gamma L F Hx) as (_ & E). rewrite E by auto.
    rewrite Gs, Lx by auto. reflexivity.
  - intros i Hi HS. apply (component_one (length zs) (fun j => nth j zs 0) (gg i)); auto.
Qed.

Lemma loop_one n zs tol epochs : zs <> [] -> forall t t', good n t -> one t ->
  gm_loop rnd 1 n (map (fun z => [z]) zs) tol epochs t = Ok t' ->
  (exists gamma, posterior rnd 1 t' (map (fun z => [z]) zs) = Ok gamma) ->
  good n t' /\ one t' /\ LL n zs t <= LL n zs t'.
Proof.
  intros Hz. induction epochs as [|epochs IH]; intros t t' G O H D; cbn [gm_loop] in H; [injection H as <-; split; auto; split; auto; lra|].
  apply bind_Ok in H. destruct H as (t1 & H1 & H). destruct (round_one n zs t t1 Hz G O H1) as (G1 & O1 & A1).
  destruct (moved tol t t1); [|injection H as <-; split; auto; split; auto; lra].
  destruct (IH t1 t' G1 O1 H D) as (G' & O' & A'). split; auto. split; auto. apply Rle_trans with (2 := A'). apply A1.
  assert (D1 : exists gamma, posterior rnd 1 t1 (map (fun z => [z]) zs) = Ok gamma).
  { destruct epochs; cbn [gm_loop] in H; [injection H as <-; auto|]. apply bind_Ok in H. destruct H as (t2 & H & _).
    unfold em_round in H. apply bind_Ok in H. destruct H as (gamma & H & _). eauto. }
  destruct D1 as (gamma & D1). destruct zs as [|z zs]; [congruence|].
  assert (R1 := mapM_nth _ _ _ 0%nat [] [] D1 ltac:(simpl; lia)). simpl in R1.
  apply (post_one n t1 z _ (proj1 G1) O1 R1).
Qed.

Lemma comps_nth n t : shaped n t -> one t -> forall z,
  total (map (fun c => fst c * gauss (fst (snd c)) (snd (snd c)) z) (components t)) = P_of n t z.
Proof.
  intros (S1 & S2 & S3) O z. change total with rsum. unfold components.
  assert (Lc : length (combine (map (fun m => nth 0 m 0) (mu t)) (map (fun s => entry s 0 0) (sigma t))) = n)
    by (rewrite combine_length, !map_length; lia).
  rewrite (rsum_combine 0 (0, 0)), S3 by lia.
  apply sum_below_ext. intros i Hi. cbn [fst snd]. rewrite combine_nth by (rewrite !map_length; lia). cbn [fst snd].
  unfold a_of, m_of, s_of. f_equal. f_equal.
  - replace 0 with (nth 0 (@nil R) 0) at 1 by reflexivity. now rewrite (map_nth (fun m => nth 0 m 0)).
  - replace 0 with (entry [] 0 0) at 1 by reflexivity. now rewrite (map_nth (fun s => entry s 0 0)).
Qed.
Lemma LL_spec n t zs : shaped n t -> one t -> log_likelihood zs (components t) = LL n zs t.
Proof.
  intros S O. unfold log_likelihood, LL. change total with rsum at 1. rewrite (rsum_map_nth 0). apply sum_below_ext. intros j _.
  now rewrite (comps_nth n t S O).
Qed.

Lemma fit_ascends randint zs n i_mu i_cov i_mix tol epochs t cl : valid_randint randint -> zs <> [] -> (1 <= n)%nat ->
  consistent i_mu -> nonneg_mixture n i_mix ->
  gm_fit rnd 1 randint (map (fun z => [z]) zs) n i_mu i_cov i_mix tol epochs = Ok (t, cl) ->
  exists t0, gm_init 1 randint (map (fun z => [z]) zs) n i_mu i_cov i_mix = Ok t0 /\
  log_likelihood zs (components t0) <= log_likelihood zs (components t).
Proof.
  intros V Hz Hn Cs Hm H. assert (Hx : map (fun z => [z]) zs <> []) by (destruct zs; [congruence|discriminate]).
  assert (Rx : rect 1 (map (fun z => [z]) zs)) by (apply Forall_forall; intros r I; apply in_map_iff in I; destruct I as (z & <- & _); reflexivity).
  unfold gm_fit in H. apply bind_Ok in H. destruct H as (t0 & H0 & H). exists t0. split; auto.
  apply bind_Ok in H. destruct H as (t1 & HL & H). apply bind_Ok in H. destruct H as (cl' & HP & H). injection H as <- <-.
  assert (G0 := init_good _ _ _ _ _ _ _ _ V Rx Hx Hn Cs Hm H0).
  assert (O0 : one t0).
  { unfold gm_init in H0. apply bind_Ok in H0. destruct H0 as (m & Em & H0). apply bind_Ok in H0. destruct H0 as (s & Es & H0).
    apply bind_Ok in H0. destruct H0 as (a & Ea & H0). injection H0 as <-. split; simpl.
    - now destruct (init_rect _ _ _ _ _ _ V Rx Hx Cs Em).
    - destruct i_cov; [| |discriminate].
      + injection Es as <-. apply Forall_forall. intros q I. apply in_map_iff in I. destruct I as (i & <- & _). split; [reflexivity|repeat constructor].
      + rewrite covariance_degenerate in Es by auto. discriminate. }
  unfold gm_predict in HP. apply bind_Ok in HP. destruct HP as (gamma & HP & _).
  destruct (loop_one n zs tol epochs Hz t0 t1 G0 O0 HL (ex_intro _ gamma HP)) as (G1 & O1 & A).
  rewrite (LL_spec n t0 zs (proj1 G0) O0), (LL_spec n t1 zs (proj1 G1) O1). exact A.
Qed.

(** ** Training on one feature with two different samples always returns *)
Lemma density_one_ok z m s : 0 < s -> normal_density rnd 1 [z] [m] [[s]] = Ok (gauss m s z).
Proof.
  intros P. destruct (normal_density rnd 1 [z] [m] [[s]]) as [p|e] eqn:E; [now apply density_one in E as (_ & ->)|]. exfalso.
  unfold normal_density in E. assert (D : det 1 [[s]] = s) by (simpl; unfold sign; simpl; lra). rewrite D in E.
  rewrite (proj2 (Rltb_false s 0)) in E by lra. unfold inverse in E. rewrite D, (proj2 (Reqb_false s 0)) in E by lra.
  cbn [bind] in E. cbv zeta in E. match type of E with (if ?b then _ else _) = _ => destruct b; discriminate end.
Qed.
Lemma mapM_all_ok {A B} (f : A -> result B) l : (forall a, In a l -> exists b, f a = Ok b) -> exists r, mapM f l = Ok r.
Proof. exact (mapM_exists f l). Qed.

Definition alive (n : nat) (t : params) : Prop := good n t /\ one t /\
  (forall i, (i < n)%nat -> 0 < a_of t i) /\ (forall i, (i < n)%nat -> 0 < s_of t i).
Lemma row_ok n t z : (1 <= n)%nat -> alive n t -> exists row, posterior_row rnd 1 t [z] = Ok row.
Proof.
  intros Hn (G & O & Pa & Ps). pose proof G as (Sh & _). pose proof Sh as (S1 & S2 & S3). unfold posterior_row.
  assert (D : exists ps, densities rnd 1 t [z] = Ok ps).
  { apply mapM_all_ok. intros c I. apply (In_nth _ _ ([], [])) in I. destruct I as (i & Hi & <-). rewrite combine_length in Hi.
    rewrite combine_nth by lia. cbn [fst snd]. destruct (one_row n t i Sh O ltac:(lia)) as (E1 & E2). rewrite E1, E2.
    eexists. apply density_one_ok. apply Ps. lia. }
  destruct D as (ps & HP). rewrite HP. cbn [bind]. cbv zeta.
  set (joint := map (fun c => fst c * snd c) (combine (alpha t) ps)).
  assert (Lp : length ps = n). { rewrite (mapM_length _ _ _ HP), combine_length. lia. }
  assert (J : 0 < rsum joint).
  { unfold joint. rewrite (rsum_combine 0 0), S3 by lia. apply (sum_below_pos n _ 0); [lia| |].
    - intros i Hi. apply Rmult_le_pos; [apply Rlt_le, Pa; auto|]. apply Rlt_le. cbn [snd].
      eapply (density_pos rnd 1 exact_sign). apply (mapM_nth _ _ _ i ([], []) 0 HP). rewrite combine_length. lia.
    - cbn [fst snd]. apply Rmult_lt_0_compat; [apply Pa; lia|]. eapply (density_pos rnd 1 exact_sign).
      apply (mapM_nth _ _ _ 0%nat ([], []) 0 HP). rewrite combine_length. lia. }
  rewrite (proj2 (Reqb_false (rsum joint) 0)) by lra. eauto.
Qed.

Lemma round_ok n zs t : (1 <= n)%nat -> (exists u v, In u zs /\ In v zs /\ u <> v) -> alive n t ->
  exists t', em_round rnd 1 n (map (fun z => [z]) zs) t = Ok t' /\ alive n t'.
Proof.
  intros Hn (u & v & Hu & Hv & Huv) AL. pose proof AL as (G & O & Pa & Ps).
  assert (Hz : zs <> []) by (intros ->; destruct Hu). set (x := map (fun z => [z]) zs).
  assert (Lx : length x = length zs) by (unfold x; now rewrite map_length).
  assert (Hx : x <> []) by (destruct zs; [congruence|discriminate]).
  assert (Eg : exists gamma, posterior rnd 1 t x = Ok gamma).
  { apply mapM_all_ok. intros r I. apply in_map_iff in I. destruct I as (z & <- & _). now apply (row_ok n). }
  destruct Eg as (gamma & Hg). destruct (good_pos n t G) as (A & P). pose proof G as (Sh & _).
  destruct (posterior_spec rnd 1 exact_sign n t x gamma Sh A P Hg) as (L & F & Gp).
  assert (Sp : forall i, (i < n)%nat -> 0 < rsum (column 0 gamma i)).
  { intros i Hi. rewrite col_sum with (x := x) by auto. apply (sum_below_pos (length x) _ 0).
    - destruct x; [congruence|simpl; lia].
    - intros j Hj. apply Rlt_le. apply Gp; auto. apply Pa; auto.
    - apply Gp; auto; [destruct x; [congruence|simpl; lia]|apply Pa; auto]. }
  assert (Em : exists m, calculate_means 1 n x gamma = Ok m).
  { apply mapM_all_ok. intros i I. apply in_seq in I. unfold weighted_mean. rewrite (proj2 (Reqb_false _ 0)) by (apply Rgt_not_eq, Sp; lia). eauto. }
  destruct Em as (m & Hm).
  assert (Ec : exists c, calculate_covariances 1 n x m gamma = Ok c).
  { apply mapM_all_ok. intros i I. apply in_seq in I. unfold weighted_cov. rewrite (proj2 (Reqb_false _ 0)) by (apply Rgt_not_eq, Sp; lia). eauto. }
  destruct Ec as (c & Hc).
  assert (HR : em_round rnd 1 n x t = Ok {| mu := m; sigma := c; alpha := calculate_mixture n (length x) gamma |}).
  { unfold em_round. rewrite Hg. cbn [bind]. rewrite Hm. cbn [bind]. rewrite Hc. reflexivity. }
  eexists. split; [exact HR|]. destruct (round_one n zs t _ Hz G O HR) as (G' & O' & _). split; auto. split; auto. split.
  - intros i Hi. unfold a_of. simpl. destruct (mixture_spec n x gamma L F Hx) as (_ & E). rewrite E by auto.
    apply Rdiv_lt_0_compat; [rewrite <- (col_sum x gamma L i); auto|apply INR_pos_length; auto].
  - intros i Hi. unfold s_of. simpl. pose proof (mapM_seq_nth _ n _ i [] Hc Hi) as Ci. simpl in Ci.
    destruct (cov_entry 1 x gamma L i _ _ Ci) as (_ & _ & E). rewrite E by lia.
    apply Rdiv_lt_0_compat; [|rewrite <- (col_sum x gamma L i); auto].
    set (mm := nth 0 (nth i m []) 0).
    assert (W : exists w, In w zs /\ w <> mm) by (destruct (Req_dec u mm) as [Eu|]; [exists v; split; auto; congruence|exists u; auto]).
    destruct W as (w & Hw & Nw). apply (In_nth _ _ 0) in Hw. destruct Hw as (j & Hj & Ej).
    apply (sum_below_pos (length x) _ j); [lia| |].
    + intros k Hk. apply Rmult_le_pos; [apply Rlt_le, Gp; auto; apply Pa; auto|apply (Rle_0_sqr (nth 0 (nth k x []) 0 - mm))].
    + apply Rmult_lt_0_compat; [apply Gp; auto; [lia|apply Pa; auto]|]. unfold x. rewrite nth_samples by auto. simpl nth at 1. fold mm.
      rewrite Ej. change (nth 0 [w] 0) with w. apply (Rsqr_pos_lt (w - mm)). lra.
Qed.

Lemma loop_ok n zs tol epochs : (1 <= n)%nat -> (exists u v, In u zs /\ In v zs /\ u <> v) -> forall t, alive n t ->
  exists t', gm_loop rnd 1 n (map (fun z => [z]) zs) tol epochs t = Ok t' /\ alive n t'.
Proof.
  intros Hn D. induction epochs as [|epochs IH]; intros t A; cbn [gm_loop]; [eauto|].
  destruct (round_ok n zs t Hn D A) as (t1 & -> & A1). cbn [bind]. destruct (moved tol t t1); eauto.
Qed.

Lemma fit_ok randint zs n tol epochs : valid_randint randint -> (1 <= n)%nat -> (exists u v, In u zs /\ In v zs /\ u <> v) ->
  exists t cl, gm_fit rnd 1 randint (map (fun z => [z]) zs) n InitRandom CovNone CovNone tol epochs = Ok (t, cl).
Proof.
  intros V Hn D. assert (Hz : zs <> []) by (destruct D as (u & v & Hu & _); intros ->; destruct Hu).
  assert (Hx : map (fun z => [z]) zs <> []) by (destruct zs; [congruence|discriminate]).
  assert (Rx : rect 1 (map (fun z => [z]) zs)) by (apply Forall_forall; intros r I; apply in_map_iff in I; destruct I as (z & <- & _); reflexivity).
  destruct (init_random randint 1 _ n V Hx) as (c & Ec & Lc & _).
  destruct (mixture_default n ltac:(lia)) as (a & Ea & La & Sa & Pa).
  assert (H0 : gm_init 1 randint (map (fun z => [z]) zs) n InitRandom CovNone CovNone =
    Ok {| mu := c; sigma := map (fun _ => diag_tenth 1) (seq 0 n); alpha := a |}).
  { unfold gm_init. rewrite Ec. cbn [bind]. change (init_covariances 1 n CovNone) with (Ok (map (fun _ => diag_tenth 1) (seq 0 n))). cbn [bind]. rewrite Ea. reflexivity. }
  assert (A : alive n {| mu := c; sigma := map (fun _ => diag_tenth 1) (seq 0 n); alpha := a |}).
  { split; [eapply (init_good randint 1 _ n InitRandom CovNone CovNone); simpl; eauto|]. split.
    - split; simpl; [now destruct (init_rect _ _ _ _ InitRandom _ V Rx Hx I Ec)|].
      apply Forall_forall. intros q I. apply in_map_iff in I. destruct I as (i & <- & _). split; [reflexivity|repeat constructor].
    - split; intros i Hi; unfold a_of, s_of; simpl.
      + apply Pa. apply nth_In. lia.
      + rewrite nth_map_seq by auto. unfold entry, diag_tenth. simpl. lra. }
  destruct (loop_ok n zs tol epochs Hn D _ A) as (t & HL & At).
  unfold gm_fit. rewrite H0. cbn [bind]. rewrite HL. cbn [bind]. unfold gm_predict.
  assert (Eg : exists gamma, posterior rnd 1 t (map (fun z => [z]) zs) = Ok gamma).
  { apply mapM_all_ok. intros r I. apply in_map_iff in I. destruct I as (z & <- & _). now apply (row_ok n). }
  destruct Eg as (gamma & Hg). rewrite Hg. cbn [bind].
  assert (Ek : exists cl, mapM (fun row => argmin Rltb (map Ropp row)) gamma = Ok cl).
  { apply mapM_all_ok. intros row I. apply argmin_total. destruct At as (G & _). destruct (good_pos n t G) as (B & C).
    destruct (posterior_spec rnd 1 exact_sign n t _ gamma (proj1 G) B C Hg) as (_ & F & _). rewrite Forall_forall in F.
    destruct (F row I) as (L & _). destruct row; [simpl in L; lia|discriminate]. }
  destruct Ek as (cl & ->). cbn [bind]. eauto.
Qed.
End One.

Lemma fit_good rnd d randint x n i_mu i_cov i_mix tol epochs t cl : sign_preserving rnd -> valid_randint randint -> rect d x -> x <> [] ->
  (1 <= n)%nat -> consistent i_mu -> nonneg_mixture n i_mix ->
  gm_fit rnd d randint x n i_mu i_cov i_mix tol epochs = Ok (t, cl) ->
  exists t0, gm_init d randint x n i_mu i_cov i_mix = Ok t0 /\
  length (mu t) = n /\ length (sigma t) = n /\ probability n (alpha t) /\
  (t = t0 \/ (Forall (within_samples d x) (mu t) /\
              Forall (fun c => square d c /\ symmetric_matrix d c /\ psd_matrix d c) (sigma t))) /\
  exists gamma, posterior rnd d t x = Ok gamma /\ Forall (probability n) gamma /\ Forall2 first_largest gamma cl.
Proof.
  intros Sr V Rx Hx Hn Cs Hm H. unfold gm_fit in H. apply bind_Ok in H. destruct H as (t0 & H0 & H). exists t0. split; auto.
  apply bind_Ok in H. destruct H as (t1 & HL & H). apply bind_Ok in H. destruct H as (cl' & HP & H). injection H as <- <-.
  assert (G0 := init_good _ _ _ _ _ _ _ _ V Rx Hx Hn Cs Hm H0).
  destruct (loop_good rnd d Sr n x tol epochs Hx t0 t1 G0 HL) as (G1 & A). pose proof G1 as ((S1 & S2 & _) & Pa).
  split; auto. split; auto. split; auto. split; auto.
  destruct (predict_largest rnd d n t1 x cl' G1 HP) as (gamma & Hg & F). exists gamma. split; auto. split; auto.
  destruct (good_pos n t1 G1) as (B & C). now apply (posterior_spec rnd d Sr n t1 x gamma (proj1 G1) B C Hg).
Qed.

Lemma random_within randint d x n c : valid_randint randint -> rect d x -> x <> [] ->
  init_centroids randint d x n InitRandom = Ok c -> Forall (within_samples d x) c.
Proof.
  intros V Rx Hx H. destruct (init_random randint d x n V Hx) as (c' & E & _ & I). rewrite E in H. injection H as <-.
  apply Forall_forall. intros r Hr. unfold rect in Rx. rewrite Forall_forall in Rx. split; [apply Rx; auto|].
  intros j _. exists r, r. split; auto. split; auto. lra.
Qed.
