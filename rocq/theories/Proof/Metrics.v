(** Proofs about the metrics. *)
From Coq Require Import List ZArith Reals Lra Lia Bool Arith Permutation.
From Verif.Model Require Import Base Metrics.
From Verif.Spec Require Import Common Metrics.
From Verif.Proof Require Import BaseLemmas Counting.
Import ListNotations.
Local Open Scope R_scope.

Lemma counted_wrong_iff p l : (l = 0 \/ l = 1 \/ l = -1)%Z -> (counted_wrong p l = false <-> right_side p l).
Proof.
  intros H. unfold counted_wrong, right_side, Rltb, Rleb.
  destruct (Rlt_dec p (/2)), (Rle_dec (/2) p); try lra; simpl;
  destruct H as [->|[->| ->]]; simpl; split; intros K; try discriminate; auto;
  try (split; intros; try lia; lra); try (destruct K as [K1 K2]);
  try (assert (1 / 2 <= p) by (apply K1; lia)); try lra; try (assert (0 = 1)%Z by (apply K2; lra)); try lia;
  try (assert (-1 = 1)%Z by (apply K2; lra)); try lia.
Qed.

Lemma counted_wrong_other p l : (l <> 0 -> l <> 1 -> l <> -1 -> counted_wrong p l = false)%Z.
Proof.
  intros H0 H1 H2. unfold counted_wrong.
  rewrite (proj2 (Z.eqb_neq l 1)), (proj2 (Z.eqb_neq l 0)), (proj2 (Z.eqb_neq l (-1))) by auto.
  now rewrite !andb_false_r.
Qed.

Lemma binary_accuracy_eq p y a : binary_accuracy p y = Ok a ->
  p <> [] /\ a = INR (length p - count (fun q => counted_wrong (fst q) (snd q)) (combine p y)) / INR (length p).
Proof.
  destruct p as [|x p]; intros H; [discriminate|]. split; [discriminate|].
  unfold binary_accuracy in H. injection H as <-. f_equal. rewrite minus_INR; auto.
  etransitivity; [apply count_le|]. rewrite combine_length. apply Nat.le_min_l.
Qed.

(** Samples without a label (predictions beyond the label array) count as correct. *)
Lemma binary_counts p y a n : binary_accuracy p y = Ok a -> (length y <= length p)%nat ->
  (forall l, In l y -> (l = 0 \/ l = 1 \/ l = -1)%Z) ->
  how_many (fun q => right_side (fst q) (snd q)) (combine p y) n ->
  a = INR (n + (length p - length y)) / INR (length p).
Proof.
  intros H Hl Hy Hn. destruct (binary_accuracy_eq _ _ _ H) as [_ ->]. f_equal. f_equal.
  assert (En : n = count (fun q => negb (counted_wrong (fst q) (snd q))) (combine p y)).
  { apply (hm_is_count (fun q => right_side (fst q) (snd q))); auto.
    intros [u l] Hin. simpl. rewrite negb_true_iff. apply counted_wrong_iff, Hy. eapply in_combine_r; eauto. }
  pose proof (count_negb (fun q => counted_wrong (fst q) (snd q)) (combine p y)) as E.
  rewrite combine_length, Nat.min_r in E by auto. lia.
Qed.

Lemma binary_main p y a n : binary_accuracy p y = Ok a -> length p = length y ->
  (forall l, In l y -> (l = 0 \/ l = 1 \/ l = -1)%Z) ->
  how_many (fun q => right_side (fst q) (snd q)) (combine p y) n ->
  a = INR n / INR (length p).
Proof.
  intros H Hl Hy Hn. rewrite (binary_counts _ _ _ n H); auto; [|lia].
  now rewrite Hl, Nat.sub_diag, Nat.add_0_r.
Qed.

Lemma frac_range n m : (n <= m)%nat -> m <> 0%nat -> 0 <= INR n / INR m <= 1.
Proof.
  intros H Hm. assert (0 < INR m) by (apply lt_0_INR; lia). split.
  - apply Rmult_le_pos; [apply pos_INR|]. apply Rlt_le, Rinv_0_lt_compat; auto.
  - apply Rmult_le_reg_r with (INR m); auto. unfold Rdiv. rewrite Rmult_assoc, Rinv_l, Rmult_1_r, Rmult_1_l by lra.
    apply le_INR; auto.
Qed.

Lemma binary_range p y a : binary_accuracy p y = Ok a -> 0 <= a <= 1.
Proof.
  intros H. destruct (binary_accuracy_eq _ _ _ H) as [Hp ->]. apply frac_range; [lia|]. destruct p; simpl; congruence.
Qed.

Lemma binary_total p y : p <> [] -> exists a, binary_accuracy p y = Ok a.
Proof. destruct p; [congruence|]. unfold binary_accuracy; eauto. Qed.

Lemma binary_perm p y p' y' : length p = length y -> length p' = length y' ->
  Permutation (combine p y) (combine p' y') -> binary_accuracy p y = binary_accuracy p' y'.
Proof.
  intros H H' P. pose proof (Permutation_length P) as L. rewrite !combine_length, H, H', !Nat.min_id in L.
  unfold binary_accuracy. destruct p as [|a p], p' as [|a' p']; auto.
  - simpl in *; lia.
  - simpl in *; lia.
  - f_equal. rewrite (count_perm _ _ _ P). now rewrite H, H', L.
Qed.

Lemma argmax_spec r k : argmax r = Ok k <-> first_max r k.
Proof.
  assert (S : forall k, argmax r = Ok k -> first_max r k).
  { intros k' H. unfold argmax in H. apply argmin_spec in H.
    - destruct H as (m & Hm & Hmax & Hfirst). assert (Hk : (k' < length r)%nat) by (apply nth_error_Some; congruence).
      assert (En : nth k' r 0 = m) by (apply nth_error_nth; auto). split; [exact Hk|]. split.
      + intros j Hj. destruct (nth_error r j) as [y|] eqn:E; [|apply nth_error_None in E; lia].
        specialize (Hmax _ _ E). apply Rltb_false in Hmax. rewrite (nth_error_nth _ _ _ E), En. lra.
      + intros j Hj. destruct (nth_error r j) as [y|] eqn:E; [|apply nth_error_None in E; lia].
        specialize (Hfirst _ _ Hj E). apply Rltb_true in Hfirst. rewrite (nth_error_nth _ _ _ E), En. lra.
    - intros x. apply Rltb_false; lra.
    - intros x y z. rewrite !Rltb_false. lra.
    - intros x y z. rewrite Rltb_true, !Rltb_false. lra. }
  split; [apply S|]. intros (Hk & Hmax & Hfirst).
  destruct (argmin_total (fun a b => Rltb b a) r) as [k' Hk']; [destruct r; simpl in *; [lia|discriminate]|].
  pose proof (S _ Hk') as (H1 & H2 & H3). unfold argmax. rewrite Hk'. f_equal.
  destruct (Nat.lt_trichotomy k' k) as [L|[L|L]]; auto.
  - specialize (Hfirst _ L). specialize (H2 _ Hk). lra.
  - specialize (H3 _ L). specialize (Hmax _ H1). lra.
Qed.

Lemma mapM_argmax_total m : (forall r, In r m -> r <> []) -> exists l, mapM argmax m = Ok l.
Proof.
  induction m as [|r m IH]; intros H; simpl; [eauto|].
  destruct (argmin_total (fun a b => Rltb b a) r) as [k Hk]; [apply H; simpl; auto|].
  destruct IH as [l Hl]; [intros; apply H; simpl; auto|]. unfold argmax at 1. rewrite Hk. simpl. rewrite Hl. simpl. eauto.
Qed.

Lemma categorical_counts_aux m m' p t : Forall2 (fun r k => first_max r k) m p -> Forall2 (fun r k => first_max r k) m' t ->
  forall n, how_many (fun q => same_first_max (fst q) (snd q)) (combine m m') n ->
  n = count (fun q => Nat.eqb (fst q) (snd q)) (combine p t).
Proof.
  intros H; revert m' t; induction H as [|r k m p Hr H IH]; intros m' t H' n Hn; simpl in *.
  - inversion Hn; reflexivity.
  - destruct H' as [|r' k' m' t Hr' H']; [inversion Hn; reflexivity|]. simpl in *. unfold count; simpl.
    assert (K : same_first_max r r' <-> k = k').
    { split; [intros (q & A & B)|intros ->; exists k'; auto].
      apply argmax_spec in A, B, Hr, Hr'. congruence. }
    inversion Hn as [|x l c Hx Hc|x l c Hx Hc]; subst; simpl in *.
    + rewrite (proj2 (Nat.eqb_eq k k')) by (apply K; auto). simpl. f_equal. apply (IH _ _ H' _ Hc).
    + rewrite (proj2 (Nat.eqb_neq k k')) by (rewrite <- K; auto). apply (IH _ _ H' _ Hc).
Qed.

Lemma categorical_main m m' a n : categorical_accuracy m m' = Ok a ->
  how_many (fun q => same_first_max (fst q) (snd q)) (combine m m') n -> a = INR n / INR (length m) /\ length m = length m'.
Proof.
  unfold categorical_accuracy. intros H Hn. apply bind_Ok in H as (p & Hp & H). apply bind_Ok in H as (t & Ht & H).
  destruct (Nat.eqb_spec (length p) (length t)) as [E|]; [|discriminate].
  apply mapM_Ok in Hp, Ht.
  assert (Hp' : Forall2 (fun r k => first_max r k) m p) by (eapply Forall2_impl; [|exact Hp]; intros; now apply argmax_spec).
  assert (Ht' : Forall2 (fun r k => first_max r k) m' t) by (eapply Forall2_impl; [|exact Ht]; intros; now apply argmax_spec).
  rewrite (Forall2_length _ _ _ Hp), (Forall2_length _ _ _ Ht). split; [|exact E].
  destruct p as [|k p]; [discriminate|]. injection H as <-. rewrite (categorical_counts_aux _ _ _ _ Hp' Ht' _ Hn). reflexivity.
Qed.

Lemma categorical_total m m' : length m = length m' -> m <> [] -> (forall r, In r m -> r <> []) -> (forall r, In r m' -> r <> []) ->
  exists a, categorical_accuracy m m' = Ok a.
Proof.
  intros L Hm H H'. destruct (mapM_argmax_total _ H) as [p Hp]. destruct (mapM_argmax_total _ H') as [t Ht].
  unfold categorical_accuracy. rewrite Hp, Ht. simpl. apply mapM_Ok in Hp, Ht.
  rewrite <- (Forall2_length _ _ _ Hp), <- (Forall2_length _ _ _ Ht), L, Nat.eqb_refl.
  destruct p; [|eauto]. apply Forall2_length in Hp. destruct m; [congruence|discriminate].
Qed.

Lemma first_max_unique r j k : first_max r j -> first_max r k -> j = k.
Proof. intros A B. apply argmax_spec in A, B. congruence. Qed.

Lemma same_first_max_dec r s : r <> [] -> s <> [] -> same_first_max r s \/ ~ same_first_max r s.
Proof.
  intros Hr Hs. destruct (argmin_total (fun a b => Rltb b a) r Hr) as [j Hj]. destruct (argmin_total (fun a b => Rltb b a) s Hs) as [k Hk].
  apply argmax_spec in Hj, Hk. destruct (Nat.eq_dec j k) as [->|N]; [left; exists k; auto|].
  right. intros (q & A & B). apply N. rewrite (first_max_unique _ _ _ Hj A). apply (first_max_unique _ _ _ B Hk).
Qed.

Lemma how_many_exists {A} (P : A -> Prop) l : (forall a, In a l -> P a \/ ~ P a) -> exists n, how_many P l n.
Proof.
  induction l as [|a l IH]; intros H; [exists 0%nat; constructor|].
  destruct IH as [n Hn]; [intros; apply H; simpl; auto|].
  destruct (H a); simpl; auto; [exists (S n); constructor; auto|exists n; apply hm_no; auto].
Qed.

Lemma categorical_nonempty_rows m m' a : categorical_accuracy m m' = Ok a -> m <> [] /\ (forall r, In r m -> r <> []) /\ (forall r, In r m' -> r <> []).
Proof.
  unfold categorical_accuracy. intros H. apply bind_Ok in H as (p & Hp & H). apply bind_Ok in H as (t & Ht & H).
  destruct (Nat.eqb_spec (length p) (length t)) as [E|]; [|discriminate].
  apply mapM_Ok in Hp, Ht. split.
  - destruct m; [|discriminate]. inversion Hp; subst. discriminate.
  - split; intros r Hr ->.
    + revert Hr. clear - Hp. induction Hp; simpl; [tauto|]; intros [->|Hr]; [discriminate|auto].
    + revert Hr. clear - Ht. induction Ht; simpl; [tauto|]; intros [->|Hr]; [discriminate|auto].
Qed.

Lemma categorical_range m m' a : categorical_accuracy m m' = Ok a -> 0 <= a <= 1.
Proof.
  intros H. destruct (categorical_nonempty_rows _ _ _ H) as (N & R1 & R2).
  destruct (how_many_exists (fun q => same_first_max (fst q) (snd q)) (combine m m')) as [n Hn].
  { intros [r s] Hin. apply same_first_max_dec; [apply R1; eapply in_combine_l; eauto|apply R2; eapply in_combine_r; eauto]. }
  destruct (categorical_main _ _ _ _ H Hn) as [-> L]. apply frac_range; [|destruct m; simpl; congruence].
  etransitivity; [apply (hm_le _ _ _ Hn)|]. rewrite combine_length. apply Nat.le_min_l.
Qed.

Lemma hm_perm {A} (P : A -> Prop) l m n : Permutation l m -> how_many P l n -> how_many P m n.
Proof.
  intros Pm; revert n; induction Pm; intros n H; auto.
  - inversion H; subst; constructor; auto.
  - inversion H as [|? ? ? ? H1|? ? ? ? H1]; subst; inversion H1; subst;
      repeat first [apply hm_yes; [assumption|]|apply hm_no; [assumption|]|assumption].
Qed.

Lemma in_combine_l_ex {A B} (l : list A) (m : list B) a : length l = length m -> In a l -> exists b, In (a, b) (combine l m).
Proof.
  revert m; induction l as [|x l IH]; intros [|y m] L; simpl in *; try contradiction; try lia.
  intros [->|H]; [eauto|]. destruct (IH m) as [b Hb]; auto. eauto.
Qed.
Lemma in_combine_r_ex {A B} (l : list A) (m : list B) b : length l = length m -> In b m -> exists a, In (a, b) (combine l m).
Proof.
  revert m; induction l as [|x l IH]; intros [|y m] L; simpl in *; try contradiction; try lia.
  intros [->|H]; [eauto|]. destruct (IH m) as [a Ha]; auto. eauto.
Qed.

Lemma categorical_perm m t m' t' a : length m = length t -> length m' = length t' ->
  Permutation (combine m t) (combine m' t') -> categorical_accuracy m t = Ok a -> categorical_accuracy m' t' = Ok a.
Proof.
  intros L L' P H. destruct (categorical_nonempty_rows _ _ _ H) as (N & R1 & R2).
  pose proof (Permutation_length P) as E. rewrite !combine_length, <- L, <- L', !Nat.min_id in E.
  destruct (how_many_exists (fun q => same_first_max (fst q) (snd q)) (combine m t)) as [n Hn].
  { intros [r s] Hin. apply same_first_max_dec; [apply R1; eapply in_combine_l; eauto|apply R2; eapply in_combine_r; eauto]. }
  destruct (categorical_main _ _ _ _ H Hn) as [-> _].
  destruct (categorical_total m' t') as [b Hb]; auto.
  - destruct m'; [destruct m; simpl in *; [congruence|lia]|discriminate].
  - intros r Hr. destruct (in_combine_l_ex _ _ _ L' Hr) as [s Hs]. apply R1.
    eapply in_combine_l. eapply Permutation_in; [apply Permutation_sym; exact P|exact Hs].
  - intros r Hr. destruct (in_combine_r_ex _ _ _ L' Hr) as [s Hs]. apply R2.
    eapply in_combine_r. eapply Permutation_in; [apply Permutation_sym; exact P|exact Hs].
  - rewrite Hb. f_equal. destruct (categorical_main _ _ _ _ Hb (hm_perm _ _ _ _ P Hn)) as [-> _]. now rewrite E.
Qed.

(** A vector of class numbers instead of one-hot rows is read as class 0 everywhere. *)
Lemma accuracy_labels w m l a n : w <> 1%nat -> accuracy w m (Labels l) = Ok a ->
  how_many (fun r => first_max r 0) m n -> a = INR n / INR (length m).
Proof.
  intros Hw H Hn. unfold accuracy in H. destruct (Nat.eqb_spec w 1); [contradiction|].
  assert (L : length m = length l).
  { destruct (categorical_nonempty_rows _ _ _ H) as (N & R1 & R2).
    destruct (how_many_exists (fun q => same_first_max (fst q) (snd q)) (combine m (map (fun z => [IZR z]) l))) as [k Hk].
    { intros [r s] Hin. apply same_first_max_dec; [apply R1; eapply in_combine_l; eauto|apply R2; eapply in_combine_r; eauto]. }
    destruct (categorical_main _ _ _ _ H Hk) as [_ ->]. apply map_length. }
  eapply categorical_main; [exact H|]. clear - Hn L. revert l L. induction Hn as [|r m n Hr Hn IH|r m n Hr Hn IH]; intros [|z l] L; simpl in *; try lia.
  - constructor.
  - apply hm_yes; [|apply IH; lia]. exists 0%nat. split; auto. split; [simpl; lia|]. split; intros; simpl in *; [destruct j; [lra|lia]|lia].
  - apply hm_no; [|apply IH; lia]. intros (k & A & (B & _)). simpl in B. assert (k = 0)%nat by lia. subst. contradiction.
Qed.
