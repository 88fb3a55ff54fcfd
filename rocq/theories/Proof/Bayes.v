(** Proofs about the Bayes classifiers. *)
From Coq Require Import List ZArith Reals Lra Lia Bool Sorted Permutation.
From Verif.Model Require Import Base Bayes.
From Verif.Spec Require Import Common Bayes.
From Verif.Proof Require Import BaseLemmas Counting.
Import ListNotations.
Local Open Scope R_scope.

(** ** Priors *)
Lemma nodup_le (l : list Z) : (length (nodup Z.eq_dec l) <= length l)%nat.
Proof. apply NoDup_incl_length; [apply NoDup_nodup|]. intros z Hz. now apply nodup_In in Hz. Qed.

Lemma nodup_pos (l : list Z) : l <> [] -> (1 <= length (nodup Z.eq_dec l))%nat.
Proof.
  destruct l as [|z l]; [congruence|]. intros _.
  assert (H : In z (nodup Z.eq_dec (z :: l))) by (apply nodup_In; simpl; auto).
  destruct (nodup Z.eq_dec (z :: l)); simpl in *; [contradiction|lia].
Qed.

Lemma distinct_nodup (l : list Z) k : num_distinct l k -> length (nodup Z.eq_dec l) = k.
Proof.
  intros (d & Hd & <- & Hi). apply Permutation_length, NoDup_Permutation; auto; [apply NoDup_nodup|].
  intros z. rewrite nodup_In, Hi. tauto.
Qed.

Lemma prior_spec y s p0 p1 : get_prior_probability (length y) y s = Ok (p0, p1) ->
  p0 + p1 = 1 /\ 0 <= p0 /\ 0 <= p1 /\
  forall n0 k, how_many (fun c => c = 0%Z) y n0 -> num_distinct y k ->
    p0 = if s then (INR n0 + 1) / (INR (length y) + INR k) else INR n0 / INR (length y).
Proof.
  unfold get_prior_probability.
  set (z := count _ y).
  assert (Hz : forall n0, how_many (fun c => c = 0%Z) y n0 -> n0 = z).
  { intros n0 H. eapply hm_is_count; eauto. intros a _; simpl. apply Z.eqb_eq. }
  assert (Hle : (z <= length y)%nat) by apply count_le.
  destruct s.
  - destruct (_ =? 0)%nat eqn:E; [discriminate|]. apply Nat.eqb_neq in E. intros H; injection H as <- <-.
    assert (Hy : y <> []) by (intros ->; simpl in E; lia).
    pose proof (nodup_pos y Hy) as Hp.
    assert (B : 0 < INR (length y + length (nodup Z.eq_dec y))) by (apply lt_0_INR; lia).
    assert (C : INR (z + 1) / INR (length y + length (nodup Z.eq_dec y)) <= 1).
    { apply Rmult_le_reg_r with (1 := B). field_simplify; [|lra]. apply le_INR. lia. }
    assert (D : 0 <= INR (z + 1) / INR (length y + length (nodup Z.eq_dec y))).
    { apply Rmult_le_pos; [apply pos_INR|]. apply Rlt_le, Rinv_0_lt_compat; auto. }
    repeat split; try lra. intros n0 k Hn Hk. rewrite (Hz _ Hn), <- (distinct_nodup _ _ Hk), !plus_INR. simpl. lra.
  - destruct (_ =? 0)%nat eqn:E; [discriminate|]. apply Nat.eqb_neq in E. intros H; injection H as <- <-.
    assert (B : 0 < INR (length y)) by (apply lt_0_INR; lia).
    assert (C : INR z / INR (length y) <= 1).
    { apply Rmult_le_reg_r with (1 := B). field_simplify; [|lra]. apply le_INR. lia. }
    assert (D : 0 <= INR z / INR (length y)).
    { apply Rmult_le_pos; [apply pos_INR|]. apply Rlt_le, Rinv_0_lt_compat; auto. }
    repeat split; try lra. intros n0 k Hn Hk. now rewrite (Hz _ Hn).
Qed.

Lemma prior_total y s : y <> [] -> exists p0 p1, get_prior_probability (length y) y s = Ok (p0, p1).
Proof.
  intros H. unfold get_prior_probability. destruct y as [|a y]; [congruence|].
  destruct s; simpl length; (destruct (_ =? 0)%nat eqn:E; [apply Nat.eqb_eq in E; simpl in E; lia|]); eauto.
Qed.

Lemma prior_smoothed y p0 p1 c : get_prior_probability (length y) y true = Ok (p0, p1) ->
  In c y -> c <> 0%Z -> 0 < p0 < 1 /\ 0 < p1 < 1.
Proof.
  unfold get_prior_probability. intros H Hc Hn. set (z := count _ y) in *.
  assert (Hz : (z < length y)%nat).
  { unfold z. pose proof (count_negb (fun c => (c =? 0)%Z) y) as E.
    assert (1 <= count (fun a => negb (a =? 0)%Z) y)%nat; [|lia].
    unfold count. assert (I : In c (filter (fun a => negb (a =? 0)%Z) y)).
    { apply filter_In. split; auto. apply Z.eqb_neq in Hn. now rewrite Hn. }
    destruct (filter _ y); simpl in *; [contradiction|lia]. }
  pose proof (nodup_pos y) as Hp. assert (Hy : y <> []) by (intros ->; contradiction). specialize (Hp Hy).
  destruct (_ =? 0)%nat eqn:E; [discriminate|]. injection H as <- <-.
  assert (B : 0 < INR (length y + length (nodup Z.eq_dec y))) by (apply lt_0_INR; lia).
  assert (C : INR (z + 1) / INR (length y + length (nodup Z.eq_dec y)) < 1).
  { apply Rmult_lt_reg_r with (1 := B). field_simplify; [|lra]. apply lt_INR. lia. }
  assert (D : 0 < INR (z + 1) / INR (length y + length (nodup Z.eq_dec y))).
  { apply Rmult_lt_0_compat; [apply lt_0_INR; lia|]. apply Rinv_0_lt_compat; auto. }
  lra.
Qed.

Lemma prior_single_class y : y <> [] -> Forall (fun c => c = 0%Z) y ->
  get_prior_probability (length y) y true = Ok (1, 0).
Proof.
  intros Hy F. unfold get_prior_probability.
  assert (Hz : count (fun c => (c =? 0)%Z) y = length y).
  { pose proof (count_ext (fun c => (c =? 0)%Z) (fun _ => true) y) as E. rewrite E.
    - unfold count. clear. induction y; simpl; auto.
    - intros a Ha. rewrite Forall_forall in F. apply Z.eqb_eq, F, Ha. }
  assert (Hk : length (nodup Z.eq_dec y) = 1%nat).
  { apply distinct_nodup. exists [0%Z]. split; [constructor; [simpl; tauto|constructor]|]. split; auto.
    rewrite Forall_forall in F. intros w. simpl. split; [|intros Hw; left; symmetry; auto].
    intros [<-|[]]. destruct y as [|a y]; [congruence|]. rewrite <- (F a); simpl; auto. }
  rewrite Hz, Hk. destruct (_ =? 0)%nat eqn:E; [apply Nat.eqb_eq in E; lia|].
  assert (INR (length y + 1) <> 0) by (apply not_0_INR; lia). f_equal. f_equal; field; auto.
Qed.

(** ** The order lists *)
Section Values.
Context {A : Type} (O : TotalOrder A).

Lemma mem_In v l : mem O v l = true <-> In v l.
Proof.
  unfold mem. rewrite existsb_exists. split.
  - intros (x & Hx & E). apply eqb_true in E. now subst.
  - intros H. exists v. split; auto. apply eqb_refl.
Qed.

Lemma mem_not v l : mem O v l = false <-> ~ In v l.
Proof. rewrite <- mem_In. destruct (mem O v l); split; congruence. Qed.

Lemma unique_from_In seen l v : In v (unique_from O seen l) <-> In v l /\ ~ In v seen.
Proof.
  revert seen; induction l as [|a l IH]; intros seen; simpl; [tauto|].
  destruct (mem O a seen) eqn:E.
  - apply mem_In in E. rewrite IH. split; [tauto|]. intros [[<-|H] N]; [contradiction|auto].
  - apply mem_not in E. simpl. rewrite IH. simpl. split.
    + intros [<-|[H N]]; tauto.
    + intros [[<-|H] N]; auto. destruct (eqb O a v) eqn:F.
      * apply eqb_true in F. auto.
      * apply eqb_false in F. right. tauto.
Qed.

Lemma unique_In l v : In v (unique O l) <-> In v l.
Proof. unfold unique. rewrite unique_from_In. simpl. tauto. Qed.

Lemma unique_from_NoDup seen l : NoDup (unique_from O seen l).
Proof.
  revert seen; induction l as [|a l IH]; intros seen; simpl; [constructor|].
  destruct (mem O a seen); auto. constructor; auto. rewrite unique_from_In. simpl. tauto.
Qed.

Lemma unique_NoDup l : NoDup (unique O l).
Proof. apply unique_from_NoDup. Qed.

Lemma unique_from_sorted seen l : StronglySorted (appears_before l) (unique_from O seen l).
Proof.
  revert seen; induction l as [|a l IH]; intros seen; simpl; [constructor|].
  assert (S : forall s, (forall v, v = a -> In v s) -> StronglySorted (appears_before (a :: l)) (unique_from O s l)).
  { intros s Hs. assert (G : forall w, In w (unique_from O s l) -> w <> a).
    { intros w Hw ->. apply unique_from_In in Hw. destruct Hw as [_ Hw]. apply Hw, Hs; auto. }
    specialize (IH s). induction IH as [|x t Ht IHt Hf]; constructor.
    - apply IHt. intros w Hw. apply G; simpl; auto.
    - rewrite Forall_forall in *. intros b Hb. destruct (Hf b Hb) as (i & Hi & Hj).
      exists (S i). split; auto. intros [|j] Hj'; simpl in Hj'.
      + injection Hj' as <-. exfalso. apply (G a); simpl; auto.
      + apply Hj in Hj'. lia. }
  destruct (mem O a seen) eqn:E.
  - apply S. intros v ->. now apply mem_In.
  - constructor; [apply S; simpl; auto|]. apply Forall_forall. intros b Hb.
    apply unique_from_In in Hb. destruct Hb as [_ Hb]. exists 0%nat. split; auto.
    intros [|j] Hj; [|lia]. injection Hj as <-. exfalso. apply Hb. simpl; auto.
Qed.

Lemma unique_appearance l : appearance_order l (unique O l).
Proof. repeat split; [apply unique_NoDup|apply unique_In|apply unique_In|apply unique_from_sorted]. Qed.

(** Two lists sorted by an asymmetric relation with the same elements. *)
Lemma strict_ext (lt : A -> A -> Prop) (asym : forall a b, lt a b -> lt b a -> False) l1 l2 :
  StronglySorted lt l1 -> StronglySorted lt l2 -> (forall x, In x l1 <-> In x l2) -> NoDup l1 -> NoDup l2 -> l1 = l2.
Proof.
  intros H1; revert l2; induction H1 as [|x t Hs IH Hf]; intros l2 H2 Hiff N1 N2.
  - destruct l2 as [|y l2]; auto. exfalso; apply (Hiff y); simpl; auto.
  - destruct H2 as [|y t2 Hs2 Hf2]; [exfalso; apply (Hiff x); simpl; auto|].
    rewrite Forall_forall in Hf, Hf2. inversion N1 as [|? ? Nx N1']; inversion N2 as [|? ? Ny N2']; subst.
    assert (x = y).
    { destruct (proj1 (Hiff x) (or_introl eq_refl)) as [|Hx]; auto.
      destruct (proj2 (Hiff y) (or_introl eq_refl)) as [|Hy]; auto.
      exfalso. apply (asym x y); auto. }
    subst y. f_equal. apply IH; auto. intros z. specialize (Hiff z). simpl in Hiff.
    split; intros Hz.
    + destruct (proj1 Hiff (or_intror Hz)) as [->|]; auto. contradiction.
    + destruct (proj2 Hiff (or_intror Hz)) as [->|]; auto. contradiction.
Qed.

Lemma appears_asym (l : list A) a b : appears_before l a b -> appears_before l b a -> False.
Proof.
  intros (i & Hi & Hi') (j & Hj & Hj'). apply Hi' in Hj. apply Hj' in Hi. lia.
Qed.

Lemma appearance_unique l u : appearance_order l u -> u = unique O l.
Proof.
  intros (N & I & S). apply (strict_ext (appears_before l)); auto.
  - apply appears_asym.
  - apply unique_from_sorted.
  - intros x. rewrite unique_In. apply I.
  - apply unique_NoDup.
Qed.

Lemma occ_hm v l : how_many (fun w => w = v) l (occurrences O v l).
Proof. apply hm_count. intros a _. rewrite eqb_true. split; auto. Qed.

Lemma frequency_is_unique l u : frequency_order l u -> StronglySorted (more_frequent l) (unique O l) -> u = unique O l.
Proof.
  intros (N & I & S) M.
  assert (E : StronglySorted (more_frequent l) u).
  { assert (T : forall a b, In a l -> In b l -> a <> b -> more_frequent l a b \/ more_frequent l b a).
    { intros a b Ha Hb Hne. apply (proj2 (unique_In l a)) in Ha. apply (proj2 (unique_In l b)) in Hb.
      induction M as [|x t Ht IHt Hf]; [contradiction|]. rewrite Forall_forall in Hf.
      destruct Ha as [<-|Ha], Hb as [<-|Hb]; auto; congruence. }
    assert (G : forall w, In w u -> In w l) by (intros; now apply I).
    clear I. induction S as [|x t Ht IHt Hf]; constructor.
    - apply IHt; [now inversion N|]. intros w Hw. apply G; simpl; auto.
    - rewrite Forall_forall in *. intros b Hb. inversion N as [|? ? Nx _]; subst.
      destruct (T x b) as [H|H]; auto; [apply G; simpl; auto|apply G; simpl; auto|intros ->; contradiction|].
      exfalso. specialize (Hf b Hb (occurrences O x l) (occurrences O b l) (occ_hm _ _) (occ_hm _ _)).
      specialize (H _ _ (occ_hm _ _) (occ_hm _ _)). lia. }
  apply (strict_ext (more_frequent l)); auto.
  - intros a b H1 H2. specialize (H1 _ _ (occ_hm _ _) (occ_hm _ _)). specialize (H2 _ _ (occ_hm _ _) (occ_hm _ _)). lia.
  - intros x. rewrite unique_In. apply I.
  - apply unique_NoDup.
Qed.

Lemma unique_length l k : num_distinct l k -> length (unique O l) = k.
Proof.
  intros (d & Hd & <- & Hi). apply Permutation_length, NoDup_Permutation; auto; [apply unique_NoDup|].
  intros z. rewrite unique_In, Hi. tauto.
Qed.

(** Counting by distinct values. *)
Lemma sum_occ (u sub : list A) : NoDup u -> incl sub u ->
  rsum (map (fun v => INR (occurrences O v sub)) u) = INR (length sub).
Proof.
  intros N. induction sub as [|a sub IH]; intros H.
  - simpl. clear. induction u; simpl; lra.
  - assert (Ha : In a u) by (apply H; simpl; auto).
    assert (IH' := IH (fun x Hx => H x (or_intror Hx))). simpl length. rewrite S_INR, <- IH'. clear IH IH'.
    assert (E : forall v, INR (occurrences O v (a :: sub)) = INR (occurrences O v sub) + if eqb O v a then 1 else 0).
    { intros v. unfold occurrences. rewrite count_cons'. destruct (eqb O v a); rewrite plus_INR; simpl; lra. }
    rewrite (rsum_ext _ _ _ (fun v _ => E v)), rsum_map_plus. f_equal.
    clear E H. induction N as [|x t Nx N IH]; [contradiction|]. simpl.
    destruct Ha as [->|Ha].
    + rewrite eqb_refl. assert (Z : rsum (map (fun v => if eqb O v a then 1 else 0) t) = 0); [|lra].
      clear -Nx. induction t as [|b t IH]; simpl; auto. rewrite IH by (simpl in Nx; tauto).
      destruct (eqb O b a) eqn:E; [|lra]. apply eqb_true in E. subst. exfalso. apply Nx; simpl; auto.
    + destruct (eqb O x a) eqn:E; [apply eqb_true in E; subst; contradiction|]. rewrite IH; auto; lra.
Qed.

Lemma of_class_incl y c (col : list A) : incl (of_class y c col) col.
Proof.
  intros v H. unfold of_class in H. apply in_map_iff in H. destruct H as ((w & z) & <- & H).
  apply filter_In in H. destruct H as [H _]. now apply in_combine_l in H.
Qed.

Lemma of_class_occ y c v (col : list A) : how_many (row_is v c) (combine col y) (occurrences O v (of_class y c col)).
Proof.
  unfold occurrences, of_class. rewrite count_map.
  assert (E : forall l : list (A * Z), count (fun a => eqb O v (fst a)) (filter (fun p => (snd p =? c)%Z) l) =
            count (fun p => eqb O v (fst p) && (snd p =? c)%Z) l).
  { unfold count. induction l as [|[w z] l IH]; simpl; auto.
    destruct (z =? c)%Z; simpl; [|now rewrite andb_false_r]. destruct (eqb O v w); simpl; rewrite IH; auto. }
  rewrite E. apply hm_count. intros [w z] _. unfold row_is. simpl.
  rewrite andb_true_iff, eqb_true, Z.eqb_eq. intuition.
Qed.

Lemma of_class_length y c (col : list A) : length col = length y ->
  how_many (fun z => z = c) y (length (of_class y c col)).
Proof.
  intros E. unfold of_class. rewrite map_length.
  revert y E; induction col as [|a col IH]; intros [|z y] E; simpl in *; try discriminate; [constructor|].
  destruct (Z.eqb_spec z c); simpl.
  - apply hm_yes; auto.
  - apply hm_no; auto.
Qed.

(** ** Dictionaries built from two lists *)
Lemma dict_combine_nth {B} (ks : list A) (vs : list B) i k v : NoDup ks ->
  nth_error ks i = Some k -> nth_error vs i = Some v -> dict_get O (combine ks vs) k = Some v.
Proof.
  intros N. revert vs i; induction N as [|x t Nx N IH]; intros vs i Hk Hv; [destruct i; discriminate|].
  destruct vs as [|w vs]; [destruct i; discriminate|]. destruct i as [|i]; simpl in *.
  - injection Hk as ->. injection Hv as ->. now rewrite eqb_refl.
  - destruct (eqb O k x) eqn:E; [|eauto]. apply eqb_true in E. subst. apply nth_error_In in Hk. contradiction.
Qed.

Lemma dict_map_get {B} (f : A -> B) (u : list A) v : In v u -> dict_get O (map (fun v => (v, f v)) u) v = Some (f v).
Proof.
  induction u as [|x u IH]; intros H; [contradiction|]. simpl.
  destruct (eqb O v x) eqn:E; [apply eqb_true in E; now subst|]. destruct H as [->|H]; auto.
  rewrite eqb_refl in E. discriminate.
Qed.

Lemma combine_map_self {B} (f : A -> B) u : combine u (map f u) = map (fun v => (v, f v)) u.
Proof. induction u; simpl; congruence. Qed.
End Values.

(** ** Naive Bayes tables *)
Section NB.
Context {A : Type} (O : TotalOrder A).
Variable num : A -> R.
Variable continuous : list A -> bool.
Variable vc : list A -> list A.
Variable rnd : R -> R.
Notation nb_attribute := (nb_attribute O num continuous vc).
Notation nb_fit := (nb_fit O num continuous vc).
Notation nb_term := (nb_term O num rnd).
Notation nb_scores := (nb_scores O num rnd).
Notation nb_predict := (nb_predict O num rnd).

Lemma nb_attribute_disc y col d0 d1 n0 n1 k : nb_attribute y col = Ok (NBDisc d0 d1 n0 n1 k) ->
  continuous col = false /\ length (unique O col) <> 1%nat /\
  d0 = combine (vc col) (map (fun v => occurrences O v (of_class y 0 col)) (unique O col)) /\
  d1 = combine (vc col) (map (fun v => occurrences O v (of_class y 1 col)) (unique O col)) /\
  n0 = length (of_class y 0 col) /\ n1 = length (of_class y 1 col) /\ k = length (unique O col).
Proof.
  unfold Bayes.nb_attribute. destruct (continuous col); [discriminate|].
  destruct (_ =? 1)%nat eqn:E; [discriminate|]. apply Nat.eqb_neq in E. intros H. injection H as <- <- <- <- <-. auto 10.
Qed.

(** The count stored for the i-th key is that of the i-th value to appear. *)
Lemma nb_counts_positional y col d0 d1 n0 n1 k u : frequency_order col (vc col) ->
  nb_attribute y col = Ok (NBDisc d0 d1 n0 n1 k) -> appearance_order col u ->
  length (vc col) = length u /\
  forall i v w, nth_error (vc col) i = Some v -> nth_error u i = Some w ->
    forall a b, how_many (row_is w 0%Z) (combine col y) a -> how_many (row_is w 1%Z) (combine col y) b ->
    dict_lookup O d0 v = Ok a /\ dict_lookup O d1 v = Ok b.
Proof.
  intros (N & I & _) H Hu. apply nb_attribute_disc in H. destruct H as (_ & _ & -> & -> & _).
  rewrite (appearance_unique O _ _ Hu). split.
  - apply Permutation_length, NoDup_Permutation; auto; [apply unique_NoDup|]. intros x. rewrite unique_In. auto.
  - intros i v w Hv Hw a b Ha Hb.
    rewrite (hm_unique _ _ _ _ Ha (of_class_occ O y 0 w col)), (hm_unique _ _ _ _ Hb (of_class_occ O y 1 w col)).
    unfold dict_lookup.
    rewrite (dict_combine_nth O _ _ i v (occurrences O w (of_class y 0 col)) N Hv).
    2: { now apply (map_nth_error (fun v => occurrences O v (of_class y 0 col))). }
    rewrite (dict_combine_nth O _ _ i v (occurrences O w (of_class y 1 col)) N Hv); auto.
    now apply (map_nth_error (fun v => occurrences O v (of_class y 1 col))).
Qed.

Lemma nb_counts_right y col d0 d1 n0 n1 k : length col = length y ->
  vc col = unique O col -> nb_attribute y col = Ok (NBDisc d0 d1 n0 n1 k) ->
  (forall v, In v col -> forall a b, how_many (row_is v 0%Z) (combine col y) a -> how_many (row_is v 1%Z) (combine col y) b ->
     dict_lookup O d0 v = Ok a /\ dict_lookup O d1 v = Ok b) /\
  how_many (fun z => z = 0%Z) y n0 /\ how_many (fun z => z = 1%Z) y n1 /\ num_distinct col k.
Proof.
  intros L E H. apply nb_attribute_disc in H. destruct H as (_ & _ & -> & -> & -> & -> & ->).
  split; [|split; [|split]].
  - intros v Hv a b Ha Hb.
    rewrite (hm_unique _ _ _ _ Ha (of_class_occ O y 0 v col)), (hm_unique _ _ _ _ Hb (of_class_occ O y 1 v col)).
    unfold dict_lookup. rewrite E, !combine_map_self, !dict_map_get by now apply unique_In. auto.
  - now apply of_class_length.
  - now apply of_class_length.
  - exists (unique O col). split; [apply unique_NoDup|]. split; auto. apply unique_In.
Qed.

(** Probabilities from a stored table add up to 1. *)
Definition prob (a n k : nat) (s : bool) : R :=
  if s then (INR a + 1) / (INR n + INR k) else INR a / INR n.

Lemma cond_prob a n k (s : bool) : ((if s then n + k else n) <> 0)%nat -> get_conditional_probability a n k s = Some (prob a n k s).
Proof.
  unfold get_conditional_probability, prob. intros H. destruct s.
  - destruct (n + k =? 0)%nat eqn:E; [apply Nat.eqb_eq in E; congruence|]. now rewrite !plus_INR.
  - destruct (n =? 0)%nat eqn:E; [apply Nat.eqb_eq in E; congruence|]. reflexivity.
Qed.

Lemma sum_prob (u : list A) (f : A -> nat) n (s : bool) : (0 < if s then n + length u else n)%nat ->
  rsum (map (fun v => INR (f v)) u) = INR n -> rsum (map (fun v => prob (f v) n (length u) s) u) = 1.
Proof.
  intros H E. unfold prob. destruct s.
  - assert (P : 0 < INR n + INR (length u)) by (rewrite <- plus_INR; now apply lt_0_INR).
    rewrite (rsum_ext _ (fun v => (INR (f v) + 1) * / (INR n + INR (length u))) u) by (intros; reflexivity).
    rewrite rsum_map_scal_r, rsum_map_plus, E, rsum_map_const. field. lra.
  - assert (P : 0 < INR n) by now apply lt_0_INR.
    rewrite (rsum_ext _ (fun v => INR (f v) * / INR n) u) by (intros; reflexivity).
    rewrite rsum_map_scal_r, E. field. lra.
Qed.

Lemma prob_pos a n k : (0 < n + k)%nat -> 0 < prob a n k true.
Proof.
  intros H. unfold prob. pose proof (pos_INR a). apply Rmult_lt_0_compat; [lra|].
  apply Rinv_0_lt_compat. rewrite <- plus_INR. now apply lt_0_INR.
Qed.

Lemma prob_nonneg a n k (s : bool) : (0 < if s then n + k else n)%nat -> 0 <= prob a n k s.
Proof.
  intros H. destruct s; [apply Rlt_le, prob_pos; auto|]. unfold prob. apply Rmult_le_pos; [apply pos_INR|].
  apply Rlt_le, Rinv_0_lt_compat, lt_0_INR; auto.
Qed.

Lemma dict_combine_map {B} (ks : list A) (vs : list B) : NoDup ks -> length ks = length vs ->
  map (dict_get O (combine ks vs)) ks = map Some vs.
Proof.
  intros N. revert vs; induction N as [|x t Nx N IH]; intros [|w vs] L; simpl in *; try discriminate; auto.
  rewrite eqb_refl. f_equal. rewrite <- (IH vs) by lia. apply map_ext_in. intros v Hv.
  destruct (eqb O v x) eqn:E; auto. apply eqb_true in E. subst. contradiction.
Qed.

Lemma table_sum (ks u : list A) (f : A -> nat) n s : NoDup ks -> length ks = length u ->
  (0 < if s : bool then n + length u else n)%nat -> rsum (map (fun v => INR (f v)) u) = INR n ->
  let d := combine ks (map f u) in
  exists P : A -> R,
    (forall v, In v ks -> exists a, dict_get O d v = Some a /\ get_conditional_probability a n (length u) s = Some (P v)) /\
    (forall v, 0 <= P v /\ (s = true -> 0 < P v)) /\ rsum (map P ks) = 1.
Proof.
  intros N L H E d.
  set (g := fun v => match dict_get O d v with Some a => a | None => 0%nat end).
  assert (G : map g ks = map f u).
  { transitivity (map (fun o => match o with Some a => a | None => 0%nat end) (map (dict_get O d) ks)).
    - now rewrite map_map.
    - unfold d. rewrite dict_combine_map; auto; [|now rewrite map_length]. rewrite map_map. apply map_id. }
  exists (fun v => prob (g v) n (length u) s). split; [|split].
  - intros v Hv. exists (g v). split.
    + unfold g. destruct (dict_get O d v) eqn:F; auto. exfalso.
      assert (I : In (dict_get O d v) (map (dict_get O d) ks)) by now apply in_map.
      unfold d in I at 2. rewrite dict_combine_map in I; auto; [|now rewrite map_length].
      rewrite F in I. apply in_map_iff in I. destruct I as (? & ? & _). discriminate.
    + apply cond_prob. destruct s; lia.
  - intros v. split; [now apply prob_nonneg|]. intros ->. now apply prob_pos.
  - rewrite <- L. apply sum_prob; [now rewrite L|]. rewrite <- E. rewrite <- (map_map g INR), <- (map_map f INR), G. reflexivity.
Qed.

Lemma in_of_class y c (col : list A) : length col = length y -> In c y -> (0 < length (of_class y c col))%nat.
Proof.
  intros L H. pose proof (of_class_length y c col L) as Hm. destruct (length (of_class y c col)); [|lia].
  exfalso. clear L. revert H. remember 0%nat as z. induction Hm; subst; simpl; try discriminate; try tauto. 
Qed.

Lemma vc_length col : frequency_order col (vc col) -> length (vc col) = length (unique O col).
Proof.
  intros (N & I & _). apply Permutation_length, NoDup_Permutation; auto; [apply unique_NoDup|].
  intros x. rewrite unique_In. auto.
Qed.

Lemma unique_pos (col : list A) : col <> [] -> (0 < length (unique O col))%nat.
Proof.
  destruct col as [|a l]; [congruence|]. intros _.
  assert (H : In a (unique O (a :: l))) by (apply unique_In; simpl; auto).
  destruct (unique O (a :: l)); [contradiction|simpl; lia].
Qed.

Lemma nb_conditionals y col d0 d1 n0 n1 k s : length col = length y -> col <> [] ->
  frequency_order col (vc col) -> nb_attribute y col = Ok (NBDisc d0 d1 n0 n1 k) ->
  s = true \/ (In 0%Z y /\ In 1%Z y) ->
  exists P0 P1 : A -> R,
    (forall v, In v col -> nb_term s (NBDisc d0 d1 n0 n1 k) v = Ok (elog (Some (P0 v)), elog (Some (P1 v)))) /\
    (forall v, 0 <= P0 v /\ 0 <= P1 v /\ (s = true -> 0 < P0 v /\ 0 < P1 v)) /\
    forall u, NoDup u -> (forall v, In v u <-> In v col) -> rsum (map P0 u) = 1 /\ rsum (map P1 u) = 1.
Proof.
  intros L Hc F H Hs. pose proof (nb_attribute_disc _ _ _ _ _ _ _ H) as (_ & _ & E0 & E1 & -> & -> & ->).
  pose proof (vc_length col F) as Lv. destruct F as (N & I & _). pose proof (unique_pos col Hc) as Up.
  assert (T : forall c, s = true \/ In c y ->
     exists P : A -> R,
     (forall v, In v (vc col) -> exists a, dict_get O (combine (vc col) (map (fun v => occurrences O v (of_class y c col)) (unique O col))) v = Some a /\
        get_conditional_probability a (length (of_class y c col)) (length (unique O col)) s = Some (P v)) /\
     (forall v, 0 <= P v /\ (s = true -> 0 < P v)) /\ rsum (map P (vc col)) = 1).
  { intros c Hcs. apply table_sum; auto.
    - destruct s; [lia|]. destruct Hcs as [|Hcs]; [discriminate|]. now apply in_of_class.
    - apply sum_occ; [apply unique_NoDup|]. intros x Hx. apply unique_In. eapply of_class_incl; eauto. }
  destruct (T 0%Z) as (P0 & A0 & B0 & C0); [tauto|]. destruct (T 1%Z) as (P1 & A1 & B1 & C1); [tauto|].
  exists P0, P1. split; [|split].
  - intros v Hv. apply I in Hv. destruct (A0 v Hv) as (a & Ha & Qa). destruct (A1 v Hv) as (b & Hb & Qb).
    unfold Bayes.nb_term, dict_lookup. rewrite E0, E1, Ha, Hb. simpl. now rewrite Qa, Qb.
  - intros v. destruct (B0 v), (B1 v). repeat split; auto.
  - intros u Nu Iu. assert (Pm : Permutation u (vc col)).
    { apply NoDup_Permutation; auto. intros x. rewrite Iu, I. tauto. }
    split; (erewrite rsum_perm; [|apply Permutation_map; exact Pm]); auto.
Qed.

(** ** Scores are logarithms of products *)
Notation prod := product.
Definition step2 (s : bool) (a : ext * ext) (p : nb_info * A) : result (ext * ext) :=
  t <- nb_term s (fst p) (snd p) ;; Ok (eadd (fst a) (fst t), eadd (snd a) (snd t)).

Lemma fold_enum {I S} (g : S -> I * A -> result S) (l : list I) pre q s : length q = length l ->
  foldM (fun s p => v <- get_at (pre ++ q) (fst p) ;; g s (snd p, v)) (combine (seq (length pre) (length l)) l) s =
  foldM g (combine l q) s.
Proof.
  revert pre q s; induction l as [|i l IH]; intros pre [|v q] s L; simpl in *; try discriminate; auto.
  unfold get_at. rewrite nth_error_app2, Nat.sub_diag by lia. simpl.
  destruct (g s (i, v)) as [s'|e]; simpl; auto.
  specialize (IH (pre ++ [v]) q s'). rewrite app_length in IH. simpl in IH. rewrite Nat.add_1_r in IH.
  rewrite <- IH by lia. rewrite <- app_assoc. reflexivity.
Qed.

Lemma scores_fold m q : length q = length (nb_pi m) ->
  nb_scores m q = foldM (step2 (nb_smoothing m)) (combine (nb_pi m) q) (elog (Some (nb_p0 m)), elog (Some (nb_p1 m))).
Proof.
  intros L. unfold Bayes.nb_scores, enumerate.
  exact (fold_enum (step2 (nb_smoothing m)) (nb_pi m) [] q _ L).
Qed.

Lemma elog_pos p : 0 < p -> elog (Some p) = Fin (ln p).
Proof. intros H. unfold elog. apply Rltb_true in H. now rewrite H. Qed.

Lemma fold_prod s l fs : Forall2 (fun p f => 0 < fst f /\ 0 < snd f /\
    nb_term s (fst p) (snd p) = Ok (elog (Some (fst f)), elog (Some (snd f)))) l fs ->
  forall a b, 0 < a -> 0 < b ->
  foldM (step2 s) l (Fin (ln a), Fin (ln b)) =
    Ok (Fin (ln (a * prod (map fst fs))), Fin (ln (b * prod (map snd fs)))) /\
  0 < prod (map fst fs) /\ 0 < prod (map snd fs).
Proof.
  induction 1 as [|p f l fs (P1 & P2 & E) F IH]; intros a b Ha Hb; simpl.
  - rewrite !Rmult_1_r. split; auto. lra.
  - unfold step2 at 1. rewrite E. simpl. apply Rltb_true in P1 as Q1. apply Rltb_true in P2 as Q2.
    rewrite Q1, Q2. simpl. rewrite <- !ln_mult by auto.
    destruct (IH (a * fst f) (b * snd f)) as (-> & X & Y); [apply Rmult_lt_0_compat; auto..|].
    rewrite !Rmult_assoc. repeat split; auto; apply Rmult_lt_0_compat; auto.
Qed.

Lemma ln_lt_iff a b : 0 < a -> 0 < b -> (ln a < ln b <-> a < b).
Proof. intros Ha Hb. split; [apply ln_lt_inv; auto|apply ln_increasing; auto]. Qed.

Lemma predict_product m q fs : length q = length (nb_pi m) -> 0 < nb_p0 m -> 0 < nb_p1 m ->
  Forall2 (fun p f => 0 < fst f /\ 0 < snd f /\
    nb_term (nb_smoothing m) (fst p) (snd p) = Ok (elog (Some (fst f)), elog (Some (snd f)))) (combine (nb_pi m) q) fs ->
  nb_predict m q = Ok (if Rlt_dec (nb_p1 m * prod (map snd fs)) (nb_p0 m * prod (map fst fs)) then 0%Z else 1%Z).
Proof.
  intros L P0 P1 F. unfold Bayes.nb_predict. rewrite scores_fold by auto.
  rewrite !elog_pos by auto. destruct (fold_prod _ _ _ F _ _ P0 P1) as (-> & X & Y). simpl.
  unfold nb_label. simpl. unfold Rltb.
  assert (Z0 : 0 < nb_p0 m * prod (map fst fs)) by now apply Rmult_lt_0_compat.
  assert (Z1 : 0 < nb_p1 m * prod (map snd fs)) by now apply Rmult_lt_0_compat.
  pose proof (ln_lt_iff _ _ Z1 Z0) as E.
  destruct (Rlt_dec _ _), (Rlt_dec _ _); auto; tauto.
Qed.

(** The whole classifier on discrete data whose values appear in order of
    frequency. *)
Lemma laplace_terms y cols q r0 r1 : likelihood y 0 cols q r0 -> likelihood y 1 cols q r1 ->
  Forall (fun col => length col = length y /\ col <> [] /\ vc col = unique O col) cols ->
  Forall2 (fun v col => In v col) q cols -> forall infos, mapM (nb_attribute y) cols = Ok infos ->
  Forall (fun col => continuous col = false) cols ->
  length q = length infos /\
  exists fs, Forall2 (fun p f => 0 < fst f /\ 0 < snd f /\
    nb_term true (fst p) (snd p) = Ok (elog (Some (fst f)), elog (Some (snd f)))) (combine infos q) fs /\
    prod (map fst fs) = r0 /\ prod (map snd fs) = r1.
Proof.
  intros H0. revert r1. induction H0 as [|col v cols q r nv nc k Hv Hn Hk H0 IH]; intros r1 H1 F M infos E D.
  - simpl in E. injection E as <-. inversion H1; subst. split; auto. exists []. split; [constructor|auto].
  - inversion H1 as [|? ? ? ? r' nv' nc' k' Hv' Hn' Hk' H1']; subst.
    inversion F as [|? ? (Fl & Fn & Fu) F']; inversion M as [|? ? ? ? Mv M']; inversion D as [|? ? Dc D']; subst.
    simpl in E. destruct (nb_attribute y col) as [i|] eqn:Ei; [|discriminate]. simpl in E.
    destruct (mapM _ cols) as [is|] eqn:Es; [|discriminate]. simpl in E. injection E as <-.
    destruct (IH r' H1' F' M' is eq_refl D') as (L & fs & Ff & Q0 & Q1).
    split; [simpl; congruence|].
    assert (Ei' := Ei). unfold Bayes.nb_attribute in Ei'. rewrite Dc in Ei'.
    destruct (_ =? 1)%nat; [discriminate|]. destruct i as [|d0 d1 n0 n1 k0]; [discriminate|]. clear Ei'.
    destruct (nb_counts_right y col _ _ _ _ _ Fl Fu Ei) as (C & N0 & N1 & K).
    destruct (C v Mv nv nv' Hv Hv') as [C0 C1].
    assert (n0 = nc) by (eapply hm_unique; eauto). assert (n1 = nc') by (eapply hm_unique; eauto).
    assert (k0 = k).
    { rewrite <- (unique_length O _ _ K). now apply unique_length. }
    assert (k' = k).
    { rewrite <- (unique_length O _ _ Hk'). now apply unique_length. }
    subst n0 n1 k0 k'.
    assert (Kp : (0 < k)%nat) by (rewrite <- (unique_length O _ _ K); now apply unique_pos).
    exists ((prob nv nc k true, prob nv' nc' k true) :: fs). split; [constructor; auto|].
    + cbn [fst snd]. split; [apply prob_pos; lia|]. split; [apply prob_pos; lia|].
      unfold Bayes.nb_term. rewrite C0, C1. cbn [bind]. rewrite !cond_prob by lia. reflexivity.
    + simpl. rewrite Q0, Q1. auto.
Qed.

End NB.
