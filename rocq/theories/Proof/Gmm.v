(** Proofs about the Gaussian mixture. *)
From Coq Require Import List ZArith Reals Lra Lia Bool Arith.
From Verif.Model Require Import Base Ops Matrix Gmm.
From Verif.Spec Require Import Common Ops Smo KMeans Gmm.
From Verif.Proof Require Import BaseLemmas Smo Kernels Ops KMeans KMeansMain.
Import ListNotations.
Local Open Scope R_scope.

Lemma rsum_nth l : rsum l = sum_below (length l) (fun i => nth i l 0).
Proof.
  unfold sum_below. change total with rsum. f_equal. apply nth_ext with 0 0; [now rewrite map_length, seq_length|].
  intros i Hi. now rewrite nth_map_seq.
Qed.
Lemma rsum_map_nth {A} (dflt : A) (f : A -> R) l : rsum (map f l) = sum_below (length l) (fun i => f (nth i l dflt)).
Proof.
  rewrite rsum_nth, map_length. apply sum_below_ext. intros i Hi.
  rewrite (nth_indep _ 0 (f dflt)) by now rewrite map_length. apply map_nth.
Qed.
Lemma rsum_combine {A B} (a0 : A) (b0 : B) (f : A * B -> R) a b : length a = length b ->
  rsum (map f (combine a b)) = sum_below (length a) (fun i => f (nth i a a0, nth i b b0)).
Proof.
  intros H. rewrite (rsum_map_nth (a0, b0)), combine_length, <- H, Nat.min_id.
  apply sum_below_ext. intros i Hi. now rewrite combine_nth.
Qed.
Lemma sum_below_pos n f i : (i < n)%nat -> (forall m, (m < n)%nat -> 0 <= f m) -> 0 < f i -> 0 < sum_below n f.
Proof.
  intros Hi H P. revert i Hi P. induction n as [|n IH]; intros i Hi P; [lia|]. rewrite sum_below_S.
  assert (0 <= sum_below n f) by (apply sum_below_nonneg; auto). pose proof (H n ltac:(lia)).
  destruct (Nat.eq_dec i n) as [->|N]; [lra|]. pose proof (IH ltac:(auto) i ltac:(lia) P). lra.
Qed.
Lemma sum_below_some n f : 0 < sum_below n f -> exists i, (i < n)%nat /\ 0 < f i.
Proof.
  induction n as [|n IH]; intros H; [unfold sum_below in H; simpl in H; lra|]. rewrite sum_below_S in H.
  destruct (Rlt_dec 0 (f n)) as [P|P]; [exists n; auto|].
  destruct IH as (i & Hi & Q); [lra|]. exists i. auto.
Qed.
Lemma mapM_length {A B} (f : A -> result B) l r : mapM f l = Ok r -> length r = length l.
Proof. intros H. apply mapM_Ok in H. symmetry. eapply Forall2_length; eauto. Qed.
Lemma mapM_nth {A B} (f : A -> result B) l r i a0 b0 : mapM f l = Ok r -> (i < length l)%nat -> f (nth i l a0) = Ok (nth i r b0).
Proof.
  intros H. apply mapM_Ok in H. revert i. induction H as [|a b l r E H IH]; intros [|i] Hi; simpl in *; try lia; auto. apply IH. lia.
Qed.
Lemma mapM_seq_nth {B} (f : nat -> result B) n r i b0 : mapM f (seq 0 n) = Ok r -> (i < n)%nat -> f i = Ok (nth i r b0).
Proof. intros H Hi. rewrite <- (mapM_nth f (seq 0 n) r i 0%nat b0 H); [now rewrite seq_nth|now rewrite seq_length]. Qed.

Definition shaped (n : nat) (t : params) : Prop := length (mu t) = n /\ length (sigma t) = n /\ length (alpha t) = n.

Section P.
Variables (rnd : R -> R) (d : nat).
Hypothesis Srnd : sign_preserving rnd.

Lemma density_pos r m s p : normal_density rnd d r m s = Ok p -> 0 < p.
Proof.
  unfold normal_density. destruct (Rltb (det d s) 0) eqn:N; [discriminate|]. apply Rltb_false in N.
  intros H. apply bind_Ok in H. destruct H as (inv & HI & H). unfold inverse in HI.
  destruct (Reqb (det d s) 0) eqn:Z; [discriminate|]. apply Reqb_false in Z. clear HI. cbv zeta in H.
  match type of H with (if Reqb (rnd ?q) 0 then _ else _) = _ => set (p0 := q) in *; assert (0 <= p0) end.
  { apply Rmult_le_pos; [|apply Rlt_le, exp_pos]. apply Rlt_le, Rdiv_lt_0_compat; [lra|].
    apply Rmult_lt_0_compat; [apply sqrt_lt_R0; lra|apply exp_pos]. }
  destruct (Reqb (rnd p0) 0) eqn:Q.
  - assert (0 < 10 ^ 36) by (apply pow_lt; lra). assert (E : p = 1 / 10 ^ 36) by congruence. rewrite E. apply Rdiv_lt_0_compat; [lra|assumption].
  - apply Reqb_false in Q. injection H as <-. pose proof (Srnd p0 ltac:(auto)). lra.
Qed.

Lemma row_spec n t r row : shaped n t -> Forall (fun a => 0 <= a) (alpha t) -> 0 < rsum (alpha t) ->
  posterior_row rnd d t r = Ok row ->
  probability n row /\ (forall i, (i < n)%nat -> 0 < nth i (alpha t) 0 -> 0 < nth i row 0).
Proof.
  intros (S1 & S2 & S3) Ha Hs H. unfold posterior_row in H. apply bind_Ok in H. destruct H as (ps & HP & H). cbv zeta in H.
  set (joint := map (fun c => fst c * snd c) (combine (alpha t) ps)) in *.
  destruct (Reqb (rsum joint) 0) eqn:Z; [discriminate|]. apply Reqb_false in Z. injection H as <-.
  assert (Lp : length ps = n). { rewrite (mapM_length _ _ _ HP), combine_length. lia. }
  assert (Lj : length joint = n) by (unfold joint; rewrite map_length, combine_length; lia).
  assert (Pp : forall i, (i < n)%nat -> 0 < nth i ps 0).
  { intros i Hi. eapply density_pos. apply (mapM_nth _ _ _ i ([], []) 0 HP). rewrite combine_length. lia. }
  assert (Nj : forall i, (i < n)%nat -> nth i joint 0 = nth i (alpha t) 0 * nth i ps 0).
  { intros i Hi. pose proof (map_nth (fun c : R * R => fst c * snd c) (combine (alpha t) ps) (0, 0) i) as E.
    rewrite combine_nth in E by lia. cbn [fst snd] in E. rewrite (nth_indep joint 0 (0 * 0)) by lia. exact E. }
  rewrite Forall_forall in Ha. assert (Ai : forall i, (i < n)%nat -> 0 <= nth i (alpha t) 0) by (intros; apply Ha, nth_In; lia).
  assert (Jn : forall i, (i < n)%nat -> 0 <= nth i joint 0) by (intros i Hi; rewrite Nj by auto; apply Rmult_le_pos; auto; apply Rlt_le; auto).
  assert (J : 0 < rsum joint).
  { rewrite rsum_nth, S3 in Hs. destruct (sum_below_some _ _ Hs) as (i & Hi & P). rewrite rsum_nth, Lj.
    apply (sum_below_pos n _ i); auto. rewrite Nj by auto. apply Rmult_lt_0_compat; auto. }
  assert (Nr : forall i, nth i (map (fun q => q / rsum joint) joint) 0 = nth i joint 0 / rsum joint).
  { intros i. replace 0 with ((fun q => q / rsum joint) 0) at 1 by (simpl; lra). apply (map_nth (fun q => q / rsum joint)). }
  split; [split; [now rewrite map_length|]; split|].
  - apply Forall_forall. intros q Hq. apply in_map_iff in Hq. destruct Hq as (w & <- & Hw).
    apply (In_nth _ _ 0) in Hw. destruct Hw as (i & Hi & <-). apply Rmult_le_pos; [apply Jn; lia|]. apply Rlt_le, Rinv_0_lt_compat; auto.
  - change total with rsum. unfold Rdiv. rewrite (rsum_map_scal_r (/ rsum joint) (fun q => q)), map_id. now apply Rinv_r.
  - intros i Hi P. rewrite Nr. apply Rdiv_lt_0_compat; auto. rewrite Nj by auto. apply Rmult_lt_0_compat; auto.
Qed.

Lemma posterior_spec n t x gamma : shaped n t -> Forall (fun a => 0 <= a) (alpha t) -> 0 < rsum (alpha t) ->
  posterior rnd d t x = Ok gamma ->
  length gamma = length x /\ Forall (probability n) gamma /\
  (forall i j, (i < n)%nat -> (j < length x)%nat -> 0 < nth i (alpha t) 0 -> 0 < nth i (nth j gamma []) 0).
Proof.
  intros S A P H. assert (L := mapM_length _ _ _ H). split; auto. split.
  - apply Forall_forall. intros row I. apply (In_nth _ _ []) in I. destruct I as (j & Hj & <-).
    eapply row_spec; eauto. apply (mapM_nth _ _ _ j [] [] H). lia.
  - intros i j Hi Hj Q. assert (E := mapM_nth _ _ _ j [] [] H Hj). destruct (row_spec n t _ _ S A P E) as (_ & G). auto.
Qed.

(** ** The M step for arbitrary responsibilities *)
Section M.
Variables (n : nat) (x gamma : list (list R)).
Hypothesis Lg : length gamma = length x.
Hypothesis Pg : Forall (probability n) gamma.
Let N := length x.
Let g i j := nth i (nth j gamma []) 0.
Let s i := sum_below N (fun j => g i j).

Lemma col_sum i : rsum (column 0 gamma i) = s i.
Proof. unfold column. rewrite (rsum_map_nth []), Lg. reflexivity. Qed.
Lemma g_nonneg i j : (j < N)%nat -> 0 <= g i j.
Proof.
  intros Hj. rewrite Forall_forall in Pg. unfold g. destruct (lt_dec i (length (nth j gamma []))) as [H|H].
  - destruct (Pg (nth j gamma [])) as (_ & F & _); [apply nth_In; unfold N in Hj; lia|]. rewrite Forall_forall in F. apply F. now apply nth_In.
  - rewrite nth_overflow by lia. lra.
Qed.
Lemma s_nonneg i : 0 <= s i.
Proof. apply sum_below_nonneg. intros. now apply g_nonneg. Qed.

Lemma mixture_spec : x <> [] -> probability n (calculate_mixture n (length x) gamma) /\
  forall i, (i < n)%nat -> nth i (calculate_mixture n (length x) gamma) 0 = s i / INR N.
Proof.
  intros Hx. assert (HN : 0 < INR N) by (apply INR_pos_length; auto).
  assert (E : forall i, (i < n)%nat -> nth i (calculate_mixture n (length x) gamma) 0 = s i / INR N).
  { intros i Hi. unfold calculate_mixture. rewrite nth_map_seq by auto. rewrite col_sum. unfold N. field. fold N. lra. }
  split; auto. assert (L : length (calculate_mixture n (length x) gamma) = n) by (unfold calculate_mixture; now rewrite map_length, seq_length).
  split; auto. split.
  - apply Forall_forall. intros q I. apply (In_nth _ _ 0) in I. destruct I as (i & Hi & <-). rewrite E by lia.
    apply Rmult_le_pos; [apply s_nonneg|]. apply Rlt_le, Rinv_0_lt_compat; auto.
  - change total with rsum. rewrite rsum_nth, L, (sum_below_ext _ _ (fun i => / INR N * s i)) by (intros; rewrite E by auto; unfold Rdiv; ring).
    rewrite sum_below_scal. unfold s. rewrite sum_below_swap.
    rewrite (sum_below_ext _ _ (fun _ => 1)).
    + replace (sum_below N (fun _ => 1)) with (INR N); [field; lra|]. unfold sum_below. change total with rsum. rewrite rsum_map_const, seq_length. lra.
    + intros j Hj. rewrite Forall_forall in Pg. destruct (Pg (nth j gamma [])) as (L' & _ & T); [apply nth_In; fold N in Lg; lia|].
      rewrite <- T. change total with rsum. rewrite rsum_nth, L'. reflexivity.
Qed.

Lemma mean_nth i m : weighted_mean d x gamma i = Ok m -> s i <> 0 /\ length m = d /\
  forall a, (a < d)%nat -> nth a m 0 = sum_below N (fun j => g i j * nth a (nth j x []) 0) / s i.
Proof.
  unfold weighted_mean. rewrite col_sum. destruct (Reqb (s i) 0) eqn:Z; [discriminate|]. apply Reqb_false in Z.
  intros H. injection H as <-. split; auto. split; [now rewrite map_length, seq_length|]. intros a Ha. rewrite nth_map_seq by auto.
  f_equal. rewrite (rsum_combine [] []) by auto. reflexivity.
Qed.

Lemma mean_within i m : weighted_mean d x gamma i = Ok m -> within_samples d x m.
Proof.
  intros H. destruct (mean_nth i m H) as (Z & L & E). split; auto. intros a Ha. rewrite E by auto.
  assert (P : 0 < s i) by (pose proof (s_nonneg i); lra). clear H E.
  set (f j := nth a (nth j x []) 0).
  assert (Lo : exists j, (j < N)%nat /\ f j <= sum_below N (fun j => g i j * f j) / s i).
  { destruct (Forall_Exists_dec (fun j => ~ f j <= sum_below N (fun j => g i j * f j) / s i)
      (fun j => match Rle_dec (f j) _ with left p => right (fun q => q p) | right q => left q end) (seq 0 N)) as [F|F].
    - exfalso. rewrite Forall_forall in F. set (A := sum_below N (fun j => g i j * f j) / s i) in *.
      destruct (sum_below_some N (fun j => g i j)) as (j0 & Hj & G); [exact P|].
      assert (0 < sum_below N (fun j => g i j * f j - A * g i j)).
      { apply (sum_below_pos N _ j0); auto.
        - intros j Hj'. pose proof (g_nonneg i j Hj') as G1. assert (G2 := Rnot_le_lt _ _ (F j ltac:(apply in_seq; lia))). clear - G1 G2. nra.
        - assert (G2 := Rnot_le_lt _ _ (F j0 ltac:(apply in_seq; lia))). clear - G G2. nra. }
      rewrite sum_below_minus, sum_below_scal in H.
      assert (EA : A * sum_below N (g i) = sum_below N (fun j => g i j * f j)) by (change (sum_below N (g i)) with (s i); unfold A; field; lra). lra.
    - apply Exists_exists in F. destruct F as (j & I & Q). apply in_seq in I. exists j. split; [lia|]. destruct (Rle_dec (f j) (sum_below N (fun j => g i j * f j) / s i)); tauto. }
  assert (Hi : exists j, (j < N)%nat /\ sum_below N (fun j => g i j * f j) / s i <= f j).
  { destruct (Forall_Exists_dec (fun j => ~ sum_below N (fun j => g i j * f j) / s i <= f j)
      (fun j => match Rle_dec _ (f j) with left p => right (fun q => q p) | right q => left q end) (seq 0 N)) as [F|F].
    - exfalso. rewrite Forall_forall in F. set (A := sum_below N (fun j => g i j * f j) / s i) in *.
      destruct (sum_below_some N (fun j => g i j)) as (j0 & Hj & G); [exact P|].
      assert (0 < sum_below N (fun j => A * g i j - g i j * f j)).
      { apply (sum_below_pos N _ j0); auto.
        - intros j Hj'. pose proof (g_nonneg i j Hj') as G1. assert (G2 := Rnot_le_lt _ _ (F j ltac:(apply in_seq; lia))). clear - G1 G2. nra.
        - assert (G2 := Rnot_le_lt _ _ (F j0 ltac:(apply in_seq; lia))). clear - G G2. nra. }
      rewrite sum_below_minus, sum_below_scal in H.
      assert (EA : A * sum_below N (g i) = sum_below N (fun j => g i j * f j)) by (change (sum_below N (g i)) with (s i); unfold A; field; lra). lra.
    - apply Exists_exists in F. destruct F as (j & I & Q). apply in_seq in I. exists j. split; [lia|]. destruct (Rle_dec (sum_below N (fun j => g i j * f j) / s i) (f j)); tauto. }
  destruct Lo as (j1 & H1 & B1), Hi as (j2 & H2 & B2). exists (nth j1 x []), (nth j2 x []).
  split; [now apply nth_In|]. split; [now apply nth_In|]. split; auto.
Qed.

Lemma cov_entry i mean c : weighted_cov d x gamma mean i = Ok c -> s i <> 0 /\ square d c /\
  forall a b, (a < d)%nat -> (b < d)%nat -> entry c a b =
    sum_below N (fun j => g i j * ((nth a (nth j x []) 0 - nth a mean 0) * (nth b (nth j x []) 0 - nth b mean 0))) / s i.
Proof.
  unfold weighted_cov. rewrite col_sum. destruct (Reqb (s i) 0) eqn:Z; [discriminate|]. apply Reqb_false in Z.
  intros H. injection H as <-. split; auto. split.
  - split; [now rewrite map_length, seq_length|]. apply Forall_forall. intros r Hr. apply in_map_iff in Hr. destruct Hr as (a & <- & _).
    now rewrite map_length, seq_length.
  - intros a b Ha Hb. unfold entry. rewrite (nth_map_seq _ d a) by auto. rewrite nth_map_seq by auto. f_equal.
    rewrite (rsum_combine [] []) by auto. reflexivity.
Qed.

Lemma cov_admissible i mean c : weighted_cov d x gamma mean i = Ok c -> square d c /\ symmetric_matrix d c /\ psd_matrix d c.
Proof.
  intros H. destruct (cov_entry i mean c H) as (Z & Sq & E). split; auto. split.
  - intros a b Ha Hb. rewrite !E by auto. f_equal. apply sum_below_ext. intros. ring.
  - intros v. assert (P : 0 < s i) by (pose proof (s_nonneg i); lra).
    set (z j a := nth a (nth j x []) 0 - nth a mean 0) in *.
    rewrite (sum_below_ext d _ (fun a => / s i * sum_below N (fun j => g i j * (v a * z j a * sum_below d (fun b => v b * z j b))))).
    + rewrite sum_below_scal, sum_below_swap. apply Rmult_le_pos; [apply Rlt_le, Rinv_0_lt_compat; auto|].
      apply sum_below_nonneg. intros j Hj. rewrite sum_below_scal. apply Rmult_le_pos; [now apply g_nonneg|].
      rewrite (sum_below_ext d _ (fun a => sum_below d (fun b => v b * z j b) * (v a * z j a))) by (intros; ring).
      rewrite sum_below_scal. apply (Rle_0_sqr (sum_below d (fun b => v b * z j b))).
    + intros a Ha. rewrite (sum_below_ext d _ (fun b => / s i * sum_below N (fun j => g i j * (v a * v b * (z j a * z j b))))).
      * rewrite sum_below_scal, sum_below_swap. f_equal. apply sum_below_ext. intros j _. rewrite <- !sum_below_scal.
        apply sum_below_ext. intros. ring.
      * intros b Hb. rewrite E by auto. unfold Rdiv. rewrite (Rmult_comm _ (/ s i)).
        rewrite (sum_below_ext N (fun j => g i j * (v a * v b * (z j a * z j b))) (fun j => v a * v b * (g i j * (z j a * z j b)))) by (intros; ring).
        rewrite sum_below_scal. unfold z. ring.
Qed.
End M.

(** ** One round *)
Definition good (n : nat) (t : params) : Prop := shaped n t /\ probability n (alpha t).
Definition admissible (n : nat) (x : list (list R)) (t : params) : Prop :=
  Forall (within_samples d x) (mu t) /\
  Forall (fun c => square d c /\ symmetric_matrix d c /\ psd_matrix d c) (sigma t).

Lemma good_pos n t : good n t -> Forall (fun a => 0 <= a) (alpha t) /\ 0 < rsum (alpha t).
Proof. intros (_ & _ & F & T). split; auto. change rsum with total. lra. Qed.

Lemma round_good n x t t' : x <> [] -> good n t -> em_round rnd d n x t = Ok t' -> good n t' /\ admissible n x t'.
Proof.
  intros Hx G H. destruct (good_pos n t G) as (A & P). unfold em_round in H.
  apply bind_Ok in H. destruct H as (gamma & Hg & H). apply bind_Ok in H. destruct H as (m & Hm & H).
  apply bind_Ok in H. destruct H as (c & Hc & H). injection H as <-. unfold good, shaped, admissible; simpl.
  destruct (posterior_spec n t x gamma (proj1 G) A P Hg) as (L & F & _).
  assert (Lm : length m = n) by (rewrite (mapM_length _ _ _ Hm); apply seq_length).
  assert (Lc : length c = n) by (rewrite (mapM_length _ _ _ Hc); apply seq_length).
  destruct (mixture_spec n x gamma L F Hx) as (M & _). split.
  - split; auto. split; auto. split; auto. apply M.
  - split; apply Forall_forall; intros q I; apply (In_nth _ _ []) in I; destruct I as (i & Hi & <-).
    + apply (mean_within n x gamma L F i). apply (mapM_seq_nth _ _ _ i [] Hm). lia.
    + eapply (cov_admissible n x gamma L F i). apply (mapM_seq_nth _ _ _ i [] Hc). lia.
Qed.

Lemma loop_good n x tol epochs : x <> [] -> forall t t', good n t -> gm_loop rnd d n x tol epochs t = Ok t' ->
  good n t' /\ (t' = t \/ admissible n x t').
Proof.
  intros Hx. induction epochs as [|epochs IH]; intros t t' G H; cbn [gm_loop] in H; [injection H as <-; auto|].
  apply bind_Ok in H. destruct H as (t1 & H1 & H). destruct (round_good n x t t1 Hx G H1) as (G1 & A1).
  destruct (moved tol t t1); [|injection H as <-; auto]. destruct (IH t1 t' G1 H) as (G' & [->|A']); auto.
Qed.

Lemma predict_largest n t x cl : good n t -> gm_predict rnd d t x = Ok cl ->
  exists gamma, posterior rnd d t x = Ok gamma /\ Forall2 first_largest gamma cl.
Proof.
  intros G H. unfold gm_predict in H. apply bind_Ok in H. destruct H as (gamma & Hg & H). exists gamma. split; auto.
  apply mapM_Ok in H. eapply Forall2_impl; [|exact H]. intros row k E. simpl in E.
  apply argmin_spec in E; [|intros; apply Rltb_false; lra|intros ? ? ?; rewrite !Rltb_false; lra|intros ? ? ?; rewrite Rltb_true, !Rltb_false; lra].
  destruct E as (m & E & A & B). assert (Hk : (k < length row)%nat).
  { assert (nth_error (map Ropp row) k <> None) by congruence. apply nth_error_Some in H0. now rewrite map_length in H0. }
  assert (Em : m = - nth k row 0).
  { rewrite (nth_error_nth' _ (-0)) in E by (now rewrite map_length). rewrite (map_nth Ropp) in E. congruence. }
  split; auto. intros j Hj.
  assert (Ej : nth_error (map Ropp row) j = Some (- nth j row 0)).
  { rewrite (nth_error_nth' _ (-0)) by (now rewrite map_length). f_equal. apply (map_nth Ropp). }
  pose proof (A j _ Ej) as A'. apply Rltb_false in A'. split; [lra|]. intros Lt. pose proof (B j _ Lt Ej) as B'. apply Rltb_true in B'. lra.
Qed.
End P.
