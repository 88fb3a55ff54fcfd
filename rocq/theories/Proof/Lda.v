(** Proofs for C47. *)
From Coq Require Import List ZArith Reals Bool Arith Lia Lra Psatz.
From Verif.Model Require Import Base Matrix Lda.
From Verif.Spec Require Import Common Smo Gmm Matrix Logistic Lda.
From Verif.Proof Require Import BaseLemmas Smo Kernels Gmm KMeans Determinant Logistic.
Import ListNotations.
Local Open Scope R_scope.

Lemma predict_rule m r : length r = length (lda_w m) -> length (lda_mu0 m) = length (lda_w m) -> length (lda_mu1 m) = length (lda_w m) ->
  (lda_predict m r = 1%Z \/ lda_predict m r = 0%Z) /\
  (lda_predict m r = 1%Z <-> Rabs (inner (lda_w m) r - inner (lda_w m) (lda_mu1 m)) < Rabs (inner (lda_w m) r - inner (lda_w m) (lda_mu0 m))).
Proof.
  intros Hr H0 H1. rewrite !inner_dot by lia. unfold lda_predict. rewrite (dot_comm r). destruct (Rltb _ _) eqn:E.
  - apply Rltb_true in E. split; [auto|]. split; auto.
  - apply Rltb_false in E. split; [auto|]. split; [discriminate|lra].
Qed.

Lemma closer_iff c a b : Rabs (c - b) < Rabs (c - a) <-> (a < b /\ a + b < 2 * c) \/ (b < a /\ 2 * c < a + b).
Proof.
  split.
  - unfold Rabs. destruct (Rcase_abs _), (Rcase_abs _); intros; destruct (Rtotal_order a b) as [|[|]]; try (left; split; lra); try (right; split; lra); exfalso; lra.
  - unfold Rabs. intros [[A B]|[A B]]; destruct (Rcase_abs _), (Rcase_abs _); lra.
Qed.

Lemma mean_row_ok d x mu : mean_row d x = Ok mu -> length mu = d /\ forall j, (j < d)%nat -> nth j mu 0 = class_mean j x.
Proof.
  unfold mean_row. destruct x as [|r x]; [discriminate|]. set (X := r :: x). intros E.
  assert (mu = map (fun j => rmean (column 0 X j)) (seq 0 d)) by congruence. subst mu. split; [now rewrite map_length, seq_length|].
  intros j Hj. rewrite nth_map_seq by auto. unfold class_mean, column, rmean. now rewrite map_length.
Qed.

Lemma scatter_entry d x0 x1 mu0 mu1 : mean_row d x0 = Ok mu0 -> mean_row d x1 = Ok mu1 -> forall j k, (j < d)%nat -> (k < d)%nat ->
  entry (within_class_scatter d x0 x1 mu0 mu1) j k = class_scatter x0 j k + class_scatter x1 j k.
Proof.
  intros E0 E1 j k Hj Hk. destruct (mean_row_ok _ _ _ E0) as [_ M0]. destruct (mean_row_ok _ _ _ E1) as [_ M1].
  unfold within_class_scatter, entry.
  assert (L : forall x mu, length (scatter_of d x mu) = d) by (intros; unfold scatter_of; now rewrite map_length, seq_length).
  rewrite (nth_map_in _ _ _ _ ([], [])) by (rewrite combine_length, !L; lia). rewrite combine_nth by now rewrite !L. cbn [fst snd].
  assert (N : forall x mu, nth j (scatter_of d x mu) [] = map (fun k => rsum (map (fun r => (nth j r 0 - nth j mu 0) * (nth k r 0 - nth k mu 0)) x)) (seq 0 d))
    by (intros; unfold scatter_of; now rewrite nth_map_seq).
  rewrite !N. unfold vadd. rewrite (nth_map_in _ _ _ _ (0, 0)) by (rewrite combine_length, !map_length, !seq_length; lia).
  rewrite combine_nth by now rewrite !map_length. cbn [fst snd]. rewrite !nth_map_seq by auto. rewrite M0, M1, M0, M1 by auto. reflexivity.
Qed.

Lemma scatter_square d x0 x1 mu0 mu1 : square d (within_class_scatter d x0 x1 mu0 mu1).
Proof.
  unfold within_class_scatter, square. rewrite map_length, combine_length. unfold scatter_of. rewrite !map_length, !seq_length. split; [lia|].
  apply Forall_forall. intros r Hr. apply in_map_iff in Hr. destruct Hr as ((a & b) & <- & Hin). simpl. unfold vadd. rewrite map_length, combine_length.
  pose proof (in_combine_l _ _ _ _ Hin) as A. pose proof (in_combine_r _ _ _ _ Hin) as B. apply in_map_iff in A, B.
  destruct A as (? & <- & _). destruct B as (? & <- & _). rewrite !map_length, !seq_length. lia.
Qed.

Lemma class_scatter_form d x (v : nat -> R) :
  sum_below d (fun i => sum_below d (fun k => v i * v k * class_scatter x i k)) =
  rsum (map (fun r => sum_below d (fun i => v i * (nth i r 0 - class_mean i x)) ^ 2) x).
Proof.
  transitivity (rsum (map (fun r => sum_below d (fun i => sum_below d (fun k => (v i * (nth i r 0 - class_mean i x)) * (v k * (nth k r 0 - class_mean k x))))) x)).
  - rewrite (rsum_sum_below d (fun r i => sum_below d (fun k => (v i * (nth i r 0 - class_mean i x)) * (v k * (nth k r 0 - class_mean k x))))).
    apply sum_below_ext. intros i _. rewrite (rsum_sum_below d (fun r k => (v i * (nth i r 0 - class_mean i x)) * (v k * (nth k r 0 - class_mean k x)))).
    apply sum_below_ext. intros k _. unfold class_scatter. change total with rsum. rewrite <- rsum_map_scal. apply rsum_ext. intros; ring.
  - apply rsum_ext. intros r _. rewrite <- sum_below_mult. ring.
Qed.

Lemma scatter_sym_psd d x0 x1 mu0 mu1 : mean_row d x0 = Ok mu0 -> mean_row d x1 = Ok mu1 ->
  symmetric_matrix d (within_class_scatter d x0 x1 mu0 mu1) /\ psd_matrix d (within_class_scatter d x0 x1 mu0 mu1).
Proof.
  intros E0 E1. split.
  - intros j k Hj Hk. rewrite !(scatter_entry _ _ _ _ _ E0 E1) by auto. unfold class_scatter. f_equal; change total with rsum; apply rsum_ext; intros; ring.
  - intros v. rewrite (sum_below_ext d _ (fun a => sum_below d (fun b => v a * v b * class_scatter x0 a b) + sum_below d (fun b => v a * v b * class_scatter x1 a b))).
    + rewrite sum_below_plus, !class_scatter_form.
      assert (P : forall x, 0 <= rsum (map (fun r => sum_below d (fun i => v i * (nth i r 0 - class_mean i x)) ^ 2) x)).
      { intros x. apply rsum_nonneg. intros z Hz. apply in_map_iff in Hz. destruct Hz as (r & <- & _). apply pow2_ge_0. }
      pose proof (P x0). pose proof (P x1). lra.
    + intros a Ha. rewrite <- sum_below_plus. apply sum_below_ext. intros b Hb. rewrite (scatter_entry _ _ _ _ _ E0 E1) by auto. ring.
Qed.

Lemma get_w_ok d s mu0 mu1 w : length mu0 = d -> length mu1 = d -> get_w d s mu0 mu1 = Ok w -> solves d s w (difference mu0 mu1).
Proof.
  intros L0 L1 E. unfold get_w in E. destruct (inverse d s) as [M|] eqn:EM; simpl in E; [|discriminate].
  assert (W : w = map (fun r => dot r (vsub mu0 mu1)) M) by congruence. destruct (inverse_ok EM) as ([LM RM] & P & _).
  set (v := difference mu0 mu1). change (vsub mu0 mu1) with v in W. assert (Lv : length v = d) by (unfold v; rewrite difference_length; lia).
  split; [rewrite W, map_length; lia|]. intros i Hi.
  rewrite (sum_below_ext _ _ (fun k => sum_below d (fun l => entry s i k * (entry M k l * nth l v 0)))).
  - rewrite sum_below_swap. rewrite (sum_below_ext _ _ (fun l => nth l v 0 * sum_below d (fun k => entry s i k * entry M k l))).
    + rewrite (sum_below_one d i); auto.
      * rewrite (P i i) by auto. rewrite Nat.eqb_refl. lra.
      * intros l Hl Ne. rewrite (P i l) by auto. destruct (Nat.eqb_spec i l); [congruence|lra].
    + intros l _. rewrite <- sum_below_scal. apply sum_below_ext. intros; ring.
  - intros k Hk. rewrite sum_below_scal. f_equal. rewrite W, (nth_map_in _ _ _ _ []) by lia.
    rewrite (dot_sum d) by (auto; rewrite Forall_forall in RM; apply RM, nth_In; lia). reflexivity.
Qed.

(** Cauchy-Schwarz for the form of a positive semidefinite matrix. *)
Definition bilinear (d : nat) (m : list (list R)) (a b : list R) : R := sum_below d (fun i => sum_below d (fun k => nth i a 0 * nth k b 0 * entry m i k)).

Lemma psd_cauchy d m a b : symmetric_matrix d m -> psd_matrix d m ->
  bilinear d m a b ^ 2 <= quadratic_form d m a * quadratic_form d m b.
Proof.
  intros Sy Ps. set (A := quadratic_form d m a). set (B := quadratic_form d m b). set (C := bilinear d m a b).
  assert (Cs : bilinear d m b a = C).
  { unfold C, bilinear. rewrite sum_below_swap. apply sum_below_ext. intros i Hi. apply sum_below_ext. intros k Hk. rewrite (Sy k i) by auto. ring. }
  assert (Q : forall s t, 0 <= s ^ 2 * A + 2 * s * t * C + t ^ 2 * B).
  { intros s t. pose proof (Ps (fun i => s * nth i a 0 + t * nth i b 0)) as P.
    replace (s ^ 2 * A + 2 * s * t * C + t ^ 2 * B) with (s ^ 2 * A + s * t * C + s * t * bilinear d m b a + t ^ 2 * B) by (rewrite Cs; ring).
    eapply Rle_trans; [exact P|]. apply Req_le. unfold A, B, C, quadratic_form, bilinear. rewrite <- !sum_below_scal, <- !sum_below_plus.
    apply sum_below_ext. intros i _. rewrite <- !sum_below_scal, <- !sum_below_plus. apply sum_below_ext. intros k _. ring. }
  assert (A0 : 0 <= A) by (pose proof (Q 1 0); lra). assert (B0 : 0 <= B) by (pose proof (Q 0 1); lra).
  destruct (Req_dec B 0) as [ZB|NB].
  - destruct (Req_dec C 0) as [->|NC]; [nra|]. exfalso. pose proof (Q 1 (- (A + 1) / (2 * C))) as H.
    replace (1 ^ 2 * A + 2 * 1 * (- (A + 1) / (2 * C)) * C + (- (A + 1) / (2 * C)) ^ 2 * B) with (-1) in H by (rewrite ZB; field; auto). lra.
  - pose proof (Q B (- C)) as H. replace (B ^ 2 * A + 2 * B * - C * C + (- C) ^ 2 * B) with (B * (A * B - C ^ 2)) in H by ring.
    assert (0 < B) by lra. nra.
Qed.

Lemma fisher_optimal d m w v delta : symmetric_matrix d m -> psd_matrix d m -> solves d m w delta -> length delta = d -> length v = d ->
  inner v delta ^ 2 <= quadratic_form d m v * inner w delta /\ 0 <= inner w delta.
Proof.
  intros Sy Ps [Lw S] Ld Lv.
  assert (K : forall a, length a = d -> inner a delta = bilinear d m a w).
  { intros a La. unfold inner, bilinear. rewrite La. apply sum_below_ext. intros i Hi. rewrite <- (S i Hi), <- sum_below_scal. apply sum_below_ext. intros; ring. }
  assert (W : inner w delta = quadratic_form d m w) by (apply K; auto). split.
  - rewrite W, (K v Lv). now apply psd_cauchy.
  - rewrite W. apply (Ps (fun i => nth i w 0)).
Qed.

(** ** What fit computes *)
Lemma diag_entry d v i j : (i < d)%nat -> (j < d)%nat -> entry (diag d v) i j = if (i =? j)%nat then nth i v 0 else 0.
Proof. intros Hi Hj. unfold entry, diag. rewrite !nth_map_seq by auto. reflexivity. Qed.

Lemma inverse_diag d v M : inverse d (diag d v) = Ok M -> forall i j, (i < d)%nat -> (j < d)%nat ->
  nth i v 0 <> 0 /\ entry M i j = if (i =? j)%nat then / nth i v 0 else 0.
Proof.
  intros E i j Hi Hj. destruct (inverse_ok E) as (_ & P & _).
  assert (K : forall j, (j < d)%nat -> nth i v 0 * entry M i j = if (i =? j)%nat then 1 else 0).
  { intros k Hk. rewrite <- (P i k Hi Hk). rewrite (sum_below_one d i); auto.
    - rewrite diag_entry, Nat.eqb_refl by auto. reflexivity.
    - intros l Hl Ne. rewrite diag_entry by auto. destruct (Nat.eqb_spec i l); [congruence|lra]. }
  assert (N : nth i v 0 <> 0). { intros Z. pose proof (K i Hi) as KK. rewrite Nat.eqb_refl, Z in KK. lra. }
  split; auto. pose proof (K j Hj) as KK. destruct (Nat.eqb_spec i j).
  - apply Rmult_eq_reg_l with (nth i v 0); auto. rewrite KK. now field.
  - apply Rmult_integral in KK. tauto.
Qed.

Lemma elementwise_entry d a b i j : square d a -> square d b -> (i < d)%nat -> (j < d)%nat -> entry (elementwise a b) i j = entry a i j * entry b i j.
Proof.
  intros [La Ra] [Lb Rb] Hi Hj. unfold entry, elementwise. rewrite (nth_map_in _ _ _ _ ([], [])) by (rewrite combine_length; lia).
  rewrite combine_nth by lia. cbn [fst snd]. rewrite Forall_forall in Ra, Rb.
  assert (A : length (nth i a []) = d) by (apply Ra, nth_In; lia). assert (B : length (nth i b []) = d) by (apply Rb, nth_In; lia).
  rewrite (nth_map_in _ _ _ _ (0, 0)) by (rewrite combine_length; lia). rewrite combine_nth by lia. reflexivity.
Qed.
Lemma elementwise_square d a b : square d a -> square d b -> square d (elementwise a b).
Proof.
  intros [La Ra] [Lb Rb]. unfold elementwise. split; [rewrite map_length, combine_length; lia|].
  apply Forall_forall. intros r Hr. apply in_map_iff in Hr. destruct Hr as ((p & q) & <- & Hin). simpl. rewrite map_length, combine_length.
  rewrite Forall_forall in Ra, Rb. rewrite (Ra p), (Rb q) by (eapply in_combine_l + eapply in_combine_r; eauto). lia.
Qed.
Lemma transposed_square d m : square d m -> square d (transposed d m).
Proof.
  intros [L _]. unfold transposed. split; [now rewrite map_length, seq_length|]. apply Forall_forall. intros r Hr. apply in_map_iff in Hr.
  destruct Hr as (j & <- & _). unfold column. now rewrite map_length.
Qed.
Lemma transposed_entry d m i j : square d m -> (i < d)%nat -> (j < d)%nat -> entry (transposed d m) i j = entry m j i.
Proof.
  intros [L _] Hi Hj. unfold entry, transposed. rewrite nth_map_seq by auto. unfold column. rewrite (nth_map_in _ _ _ _ []) by lia. reflexivity.
Qed.

Lemma get_w_v2_value svd d s mu0 mu1 w U Sg Vt : svd s = (U, Sg, Vt) -> square d U -> square d Vt ->
  length mu0 = d -> length mu1 = d -> get_w_v2 svd d s mu0 mu1 = Ok w ->
  length w = d /\ forall i, (i < d)%nat -> nth i Sg 0 <> 0 /\ nth i w 0 = entry Vt i i * entry U i i / nth i Sg 0 * (nth i mu0 0 - nth i mu1 0).
Proof.
  intros Es HU HV L0 L1 E. unfold get_w_v2 in E. rewrite Es in E. destruct (inverse d (diag d Sg)) as [M|] eqn:EM; simpl in E; [|discriminate].
  assert (HM : square d M) by (destruct (inverse_ok EM); auto).
  set (P := elementwise (elementwise (transposed d Vt) M) (transposed d U)) in *.
  assert (HP : square d P) by (apply elementwise_square; [apply elementwise_square|]; auto using transposed_square).
  assert (W : w = map (fun r => dot r (vsub mu0 mu1)) P) by congruence. destruct HP as [LP RP].
  split; [rewrite W, map_length; auto|]. intros i Hi.
  destruct (inverse_diag d Sg M EM i i Hi Hi) as [N _]. split; auto.
  rewrite W, (nth_map_in _ _ _ _ []) by lia. rewrite (dot_sum d); [|rewrite Forall_forall in RP; apply RP, nth_In; lia|rewrite vsub_length; lia].
  assert (PE : forall k, (k < d)%nat -> nth k (nth i P []) 0 = entry Vt k i * entry M i k * entry U k i).
  { intros k Hk. fold (entry P i k). unfold P. rewrite (elementwise_entry d) by (auto using transposed_square, elementwise_square).
    rewrite (elementwise_entry d) by (auto using transposed_square). rewrite !(transposed_entry d) by auto. reflexivity. }
  rewrite (sum_below_one d i); auto.
  - rewrite (PE i Hi). rewrite vsub_difference, nth_difference by lia. destruct (inverse_diag d Sg M EM i i Hi Hi) as [_ ->]. rewrite Nat.eqb_refl. field. auto.
  - intros k Hk Ne. rewrite (PE k Hk). destruct (inverse_diag d Sg M EM i k Hi Hk) as [_ ->]. destruct (Nat.eqb_spec i k); [congruence|]. lra.
Qed.

Lemma lda_fit_ok svd d x y m : lda_fit svd d x y = Ok m ->
  mean_row d (class_rows 0 x y) = Ok (lda_mu0 m) /\ mean_row d (class_rows 1 x y) = Ok (lda_mu1 m) /\
  get_w_v2 svd d (within_class_scatter d (class_rows 0 x y) (class_rows 1 x y) (lda_mu0 m) (lda_mu1 m)) (lda_mu0 m) (lda_mu1 m) = Ok (lda_w m).
Proof.
  unfold lda_fit. destruct (negb _); [discriminate|]. change (with_label 0 x y) with (class_rows 0 x y). change (with_label 1 x y) with (class_rows 1 x y).
  destruct (mean_row d (class_rows 0 x y)) as [mu0|] eqn:E0; simpl; [|discriminate].
  destruct (mean_row d (class_rows 1 x y)) as [mu1|] eqn:E1; simpl; [|discriminate].
  destruct (get_w_v2 _ _ _ _ _) as [w|] eqn:E2; simpl; [|discriminate]. intros E. injection E as <-. simpl. auto.
Qed.

Lemma lda_fit_spec svd d x y m : decomposes svd d x y ->
  lda_fit svd d x y = Ok m ->
  length (lda_mu0 m) = d /\ length (lda_mu1 m) = d /\ length (lda_w m) = d /\
  (forall j, (j < d)%nat -> nth j (lda_mu0 m) 0 = class_mean j (class_rows 0 x y) /\ nth j (lda_mu1 m) 0 = class_mean j (class_rows 1 x y)) /\
  exists s U Sg Vt, scatter_matrix d x y s /\ svd s = (U, Sg, Vt) /\ singular_value_decomposition d s U Sg Vt /\
    forall i, (i < d)%nat -> nth i Sg 0 <> 0 /\ nth i (lda_w m) 0 = entry Vt i i * entry U i i / nth i Sg 0 * (nth i (lda_mu0 m) 0 - nth i (lda_mu1 m) 0).
Proof.
  intros Hs E. destruct (lda_fit_ok _ _ _ _ _ E) as (E0 & E1 & E2). destruct (mean_row_ok _ _ _ E0) as [L0 M0]. destruct (mean_row_ok _ _ _ E1) as [L1 M1].
  set (s := within_class_scatter _ _ _ _ _) in *. assert (Sq : scatter_matrix d x y s) by (split; [apply scatter_square|now apply scatter_entry]). pose proof (Hs s Sq) as V.
  destruct (svd s) as [[U Sg] Vt] eqn:Es. destruct V as (HU & HV & V').
  destruct (get_w_v2_value _ _ _ _ _ _ _ _ _ Es HU HV L0 L1 E2) as [Lw W].
  split; auto. split; auto. split; auto. split; [auto|]. exists s, U, Sg, Vt. split; auto. split; auto. split; [split; auto|]. exact W.
Qed.

(** One feature: the weight solves the one-dimensional system. *)
Lemma lda_one_feature svd x y m : decomposes svd 1 x y ->
  lda_fit svd 1 x y = Ok m ->
  (class_scatter (class_rows 0 x y) 0 0 + class_scatter (class_rows 1 x y) 0 0) * nth 0 (lda_w m) 0 =
  class_mean 0 (class_rows 0 x y) - class_mean 0 (class_rows 1 x y).
Proof.
  intros Hs E. destruct (lda_fit_spec _ _ _ _ _ Hs E) as (_ & _ & _ & Mu & s & U & Sg & Vt & [_ Sc] & _ & Dec & W).
  destruct Dec as (_ & _ & _ & OU & OV & _ & _ & Pr). destruct (Mu 0%nat ltac:(lia)) as [M0 M1].
  rewrite <- (Sc 0%nat 0%nat) by lia. destruct (W 0%nat ltac:(lia)) as [N ->]. rewrite M0, M1.
  pose proof (OU 0%nat 0%nat ltac:(lia) ltac:(lia)) as A. pose proof (OV 0%nat 0%nat ltac:(lia) ltac:(lia)) as B. pose proof (Pr 0%nat 0%nat ltac:(lia) ltac:(lia)) as C.
  unfold sum_below, total in A, B, C. simpl in A, B, C.
  set (uu := entry U 0 0) in *. set (vv := entry Vt 0 0) in *. set (g := nth 0 Sg 0) in *. rewrite <- C.
  replace ((uu * g * vv + 0) * (vv * uu / g * (class_mean 0 (class_rows 0 x y) - class_mean 0 (class_rows 1 x y)))) with
    ((uu * uu + 0) * (vv * vv + 0) * (class_mean 0 (class_rows 0 x y) - class_mean 0 (class_rows 1 x y))) by (field; auto).
  rewrite A, B. ring.
Qed.

(** ** The witness against the general statement *)
Definition wit_x : list (list R) := [[0; 0]; [0; 2]; [4; 1]; [5; 1]].
Definition wit_y : list Z := [0%Z; 0%Z; 1%Z; 1%Z].

Lemma wit_zero svd m : decomposes svd 2 wit_x wit_y ->
  lda_fit svd 2 wit_x wit_y = Ok m -> lda_w m = [0; 0].
Proof.
  intros Hs E. destruct (lda_fit_spec _ _ _ _ _ Hs E) as (_ & _ & Lw & _ & s & U & Sg & Vt & [_ Sc] & _ & Dec & W).
  destruct Dec as (_ & _ & _ & OU & OV & Nn & Dc & Pr).
  pose proof (Sc 0%nat 0%nat ltac:(lia) ltac:(lia)) as S00. pose proof (Sc 0%nat 1%nat ltac:(lia) ltac:(lia)) as S01.
  pose proof (Sc 1%nat 0%nat ltac:(lia) ltac:(lia)) as S10. pose proof (Sc 1%nat 1%nat ltac:(lia) ltac:(lia)) as S11.
  unfold class_scatter, class_mean, total, wit_x, wit_y, class_rows in S00, S01, S10, S11. simpl in S00, S01, S10, S11.
  assert (T00 : entry s 0 0 = 1 / 2) by (rewrite S00; field). assert (T01 : entry s 0 1 = 0) by (rewrite S01; field).
  assert (T10 : entry s 1 0 = 0) by (rewrite S10; field). assert (T11 : entry s 1 1 = 2) by (rewrite S11; field).
  clear S00 S01 S10 S11 Sc.
  pose proof (OU 0%nat 0%nat ltac:(lia) ltac:(lia)) as U00. pose proof (OU 0%nat 1%nat ltac:(lia) ltac:(lia)) as U01. pose proof (OU 1%nat 1%nat ltac:(lia) ltac:(lia)) as U11.
  pose proof (OV 0%nat 0%nat ltac:(lia) ltac:(lia)) as V00. pose proof (OV 0%nat 1%nat ltac:(lia) ltac:(lia)) as V01. pose proof (OV 1%nat 1%nat ltac:(lia) ltac:(lia)) as V11.
  pose proof (Pr 0%nat 0%nat ltac:(lia) ltac:(lia)) as P00. pose proof (Pr 0%nat 1%nat ltac:(lia) ltac:(lia)) as P01.
  pose proof (Pr 1%nat 0%nat ltac:(lia) ltac:(lia)) as P10. pose proof (Pr 1%nat 1%nat ltac:(lia) ltac:(lia)) as P11.
  rewrite T00 in P00. rewrite T01 in P01. rewrite T10 in P10. rewrite T11 in P11.
  pose proof (Dc 0%nat 1%nat ltac:(lia) ltac:(lia)) as Ds. pose proof (Nn 1%nat ltac:(lia)) as N1.
  pose proof (proj2 (W 0%nat ltac:(lia))) as W0. pose proof (proj2 (W 1%nat ltac:(lia))) as W1. clear W OU OV Nn Dc Pr Hs E T00 T01 T10 T11.
  unfold sum_below, total in *. cbn [seq map fold_right Nat.eqb] in *.
  set (p := entry U 0 0) in *. set (q := entry U 0 1) in *. set (r := entry U 1 0) in *. set (t := entry U 1 1) in *.
  set (e := entry Vt 0 0) in *. set (f := entry Vt 0 1) in *. set (g := entry Vt 1 0) in *. set (h := entry Vt 1 1) in *.
  set (a := nth 0 Sg 0) in *. set (b := nth 1 Sg 0) in *.
  clearbody p q r t e f g h a b.
  (* U Sigma = S V and Sigma Vt = Ut S *)
  assert (A1 : p * a = 1 / 2 * e).
  { replace (p * a) with (p * a * (e * e + (f * f + 0)) + q * b * (e * g + (f * h + 0))) by (rewrite V00, V01; ring).
    transitivity (e * (p * a * e + (q * b * g + 0)) + f * (p * a * f + (q * b * h + 0))); [ring|rewrite P00, P01; ring]. }
  assert (A2 : r * a = 2 * f).
  { replace (r * a) with (r * a * (e * e + (f * f + 0)) + t * b * (e * g + (f * h + 0))) by (rewrite V00, V01; ring).
    transitivity (e * (r * a * e + (t * b * g + 0)) + f * (r * a * f + (t * b * h + 0))); [ring|rewrite P10, P11; ring]. }
  assert (A3 : a * e = 1 / 2 * p).
  { replace (a * e) with (a * e * (p * p + (r * r + 0)) + b * g * (p * q + (r * t + 0))) by (rewrite U00, U01; ring).
    transitivity (p * (p * a * e + (q * b * g + 0)) + r * (r * a * e + (t * b * g + 0))); [ring|rewrite P00, P10; ring]. }
  assert (A4 : a * f = 2 * r).
  { replace (a * f) with (a * f * (p * p + (r * r + 0)) + b * h * (p * q + (r * t + 0))) by (rewrite U00, U01; ring).
    transitivity (p * (p * a * f + (q * b * h + 0)) + r * (r * a * f + (t * b * h + 0))); [ring|rewrite P01, P11; ring]. }
  assert (A5 : t * b = 2 * h).
  { replace (t * b) with (r * a * (e * g + (f * h + 0)) + t * b * (g * g + (h * h + 0))) by (rewrite V01, V11; ring).
    transitivity (g * (r * a * e + (t * b * g + 0)) + h * (r * a * f + (t * b * h + 0))); [ring|rewrite P10, P11; ring]. }
  assert (A6 : b * h = 2 * t).
  { replace (b * h) with (a * f * (p * q + (r * t + 0)) + b * h * (q * q + (t * t + 0))) by (rewrite U01, U11; ring).
    transitivity (q * (p * a * f + (q * b * h + 0)) + t * (r * a * f + (t * b * h + 0))); [ring|rewrite P01, P11; ring]. }
  assert (B1 : (a * a - 1 / 4) * p = 0) by (replace ((a * a - 1 / 4) * p) with (a * (p * a) - 1 / 4 * p) by ring; rewrite A1; nra).
  assert (B2 : (a * a - 4) * r = 0) by (replace ((a * a - 4) * r) with (a * (r * a) - 4 * r) by ring; rewrite A2; nra).
  assert (B3 : (b * b - 4) * t = 0) by (replace ((b * b - 4) * t) with (b * (t * b) - 4 * t) by ring; rewrite A5; nra).
  assert (P0 : p = 0).
  { apply Rmult_integral in B1. destruct B1 as [B1|B1]; auto. exfalso.
    apply Rmult_integral in B2. destruct B2 as [B2|R0']; [lra|].
    apply Rmult_integral in B3. destruct B3 as [B3|T0]; [nra|]. subst r t. 
    assert (p * q = 0) by lra. assert (p * p = 1) by lra. assert (q * q = 1) by lra. assert ((p * q) * (p * q) = (p * p) * (q * q)) by ring. nra. }
  assert (R1 : r * r = 1) by nra.
  assert (T0 : t = 0). { assert (r * t = 0) by nra. apply Rmult_integral in H. destruct H as [H|H]; auto. subst r. lra. }
  destruct (lda_w m) as [|w0 [|w1 [|]]]; try discriminate. simpl in W0, W1. rewrite W0, W1, P0, T0. f_equal; [|f_equal]; unfold Rdiv; ring.
Qed.

Lemma wit_all_zero svd m : decomposes svd 2 wit_x wit_y -> lda_fit svd 2 wit_x wit_y = Ok m ->
  lda_w m = [0; 0] /\ forall r, length r = 2%nat -> lda_predict m r = 0%Z.
Proof.
  intros Hs E. pose proof (wit_zero svd m Hs E) as W. split; auto. intros r Hr. unfold lda_predict. rewrite W.
  assert (Z : forall v, dot [0; 0] v = 0) by (intros [|a [|b v]]; simpl; lra). rewrite (dot_comm r), !Z.
  destruct (Rltb _ _) eqn:Q; auto. apply Rltb_true in Q. lra.
Qed.

Lemma fisher_main d x0 x1 mu0 mu1 w v : mean_row d x0 = Ok mu0 -> mean_row d x1 = Ok mu1 ->
  let s := within_class_scatter d x0 x1 mu0 mu1 in let delta := difference mu0 mu1 in
  get_w d s mu0 mu1 = Ok w -> length v = d ->
  inner v delta ^ 2 <= quadratic_form d s v * inner w delta /\ quadratic_form d s w = inner w delta.
Proof.
  intros E0 E1 s delta E Lv. destruct (mean_row_ok _ _ _ E0) as [L0 _]. destruct (mean_row_ok _ _ _ E1) as [L1 _].
  destruct (scatter_sym_psd _ _ _ _ _ E0 E1) as [Sy Ps]. pose proof (get_w_ok _ _ _ _ _ L0 L1 E) as S.
  assert (Ld : length delta = d) by (unfold delta; rewrite difference_length; lia).
  split; [now apply fisher_optimal|]. destruct S as [Lw S]. unfold inner, quadratic_form. rewrite Lw. apply sum_below_ext. intros i Hi.
  fold delta in S. rewrite <- (S i Hi), <- sum_below_scal. apply sum_below_ext. intros; ring.
Qed.

Definition wit_s : list (list R) := [[1 / 2; 0]; [0; 2]].
Lemma wit_means : mean_row 2 (class_rows 0 wit_x wit_y) = Ok [0; 1] /\ mean_row 2 (class_rows 1 wit_x wit_y) = Ok [9 / 2; 1].
Proof.
  unfold class_rows, wit_x, wit_y, mean_row, column, rmean, rsum. simpl. split; f_equal; (f_equal; [field|f_equal; field]).
Qed.
Lemma wit_scatter s : scatter_matrix 2 wit_x wit_y s -> s = wit_s.
Proof.
  intros [[L F] Sc]. pose proof (Sc 0%nat 0%nat ltac:(lia) ltac:(lia)) as S00. pose proof (Sc 0%nat 1%nat ltac:(lia) ltac:(lia)) as S01.
  pose proof (Sc 1%nat 0%nat ltac:(lia) ltac:(lia)) as S10. pose proof (Sc 1%nat 1%nat ltac:(lia) ltac:(lia)) as S11.
  destruct s as [|r0 [|r1 [|]]]; try discriminate. inversion F as [|? ? A F']; subst. inversion F' as [|? ? B _]; subst.
  destruct r0 as [|a [|b [|]]]; try discriminate. destruct r1 as [|c [|e [|]]]; try discriminate.
  unfold entry, class_scatter, class_mean, total, wit_x, wit_y, class_rows in S00, S01, S10, S11. simpl in S00, S01, S10, S11.
  unfold wit_s. repeat f_equal; [rewrite S00|rewrite S01|rewrite S10|rewrite S11]; field.
Qed.
Lemma wit_scatter' : scatter_matrix 2 wit_x wit_y wit_s.
Proof.
  split; [split; [reflexivity|repeat constructor]|]. intros [|[|j]] [|[|k]] Hj Hk; try lia;
  unfold entry, class_scatter, class_mean, total, wit_x, wit_y, class_rows, wit_s; simpl; field.
Qed.

Definition wit_swap : list (list R) := [[0; 1]; [1; 0]].
Lemma wit_svd : exists svd m, decomposes svd 2 wit_x wit_y /\ lda_fit svd 2 wit_x wit_y = Ok m.
Proof.
  exists (fun _ => (wit_swap, [2; 1 / 2], wit_swap)). destruct wit_means as [M0 M1].
  unfold lda_fit. change (with_label 0 wit_x wit_y) with (class_rows 0 wit_x wit_y). change (with_label 1 wit_x wit_y) with (class_rows 1 wit_x wit_y).
  rewrite M0, M1. cbn [length Nat.eqb negb wit_x wit_y bind].
  assert (I : exists M, inverse 2 (diag 2 [2; 1 / 2]) = Ok M).
  { unfold inverse. destruct (Reqb _ 0) eqn:E; [|eauto]. apply Reqb_true in E. exfalso. unfold det, diag, minor, drop_nth, sign, rsum in E. simpl in E. lra. }
  destruct I as [M I]. unfold get_w_v2. rewrite I. cbn [bind]. eexists. split; [|reflexivity].
  intros s Hs. rewrite (wit_scatter s Hs). split; [split; [reflexivity|repeat constructor]|]. split; [split; [reflexivity|repeat constructor]|]. split; [reflexivity|].
  split; [intros [|[|i]] [|[|j]] Hi Hj; try lia; unfold sum_below, total, entry; simpl; lra|].
  split; [intros [|[|i]] [|[|j]] Hi Hj; try lia; unfold sum_below, total, entry; simpl; lra|].
  split; [intros [|[|i]] Hi; try lia; simpl; lra|].
  split; [intros [|[|i]] [|[|j]] Hi Hj; try lia; simpl; lra|].
  intros [|[|i]] [|[|j]] Hi Hj; try lia; unfold sum_below, total, entry; simpl; lra.
Qed.

Lemma wit_documented : exists s w mu0 mu1, scatter_matrix 2 wit_x wit_y s /\ mean_row 2 (class_rows 0 wit_x wit_y) = Ok mu0 /\ mean_row 2 (class_rows 1 wit_x wit_y) = Ok mu1 /\
  get_w 2 s mu0 mu1 = Ok w /\ map (lda_predict {| lda_w := w; lda_mu0 := mu0; lda_mu1 := mu1 |}) wit_x = wit_y.
Proof.
  exists wit_s, [-9; 0], [0; 1], [9 / 2; 1]. destruct wit_means as [M0 M1]. split; [exact wit_scatter'|]. split; [exact M0|]. split; [exact M1|]. split.
  - unfold get_w, inverse. assert (D : det 2 wit_s = 1) by (unfold det, wit_s, minor, drop_nth, sign, rsum; simpl; lra). rewrite D.
    destruct (Reqb 1 0) eqn:E; [apply Reqb_true in E; lra|]. cbn [bind]. unfold det, wit_s, minor, drop_nth, sign, rsum, vsub. simpl. f_equal. f_equal; [field|f_equal; field].
  - unfold wit_x, wit_y. cbn [map]. unfold lda_predict. cbn [lda_w lda_mu0 lda_mu1 dot].
    assert (T : forall a b, a < b -> (if Rltb a b then 1%Z else 0%Z) = 1%Z) by (intros a b H; apply Rltb_true in H; now rewrite H).
    assert (F : forall a b, b <= a -> (if Rltb a b then 1%Z else 0%Z) = 0%Z) by (intros a b H; apply Rltb_false in H; now rewrite H).
    repeat f_equal; [apply F|apply F|apply T|apply T]; unfold Rabs; destruct (Rcase_abs _); destruct (Rcase_abs _); lra.
Qed.
