(** Proofs about two-level trees. *)
From Coq Require Import List ZArith Reals Lra Lia Bool Arith Permutation.
From Verif.Model Require Import Base Stump.
From Verif.Spec Require Import Common Stump.
From Verif.Proof Require Import BaseLemmas Counting Stump.
Import ListNotations.
Local Open Scope R_scope.

(** ** Masses *)
Lemma weight_cons s D : weight (s :: D) = s_w s + weight D.
Proof. reflexivity. Qed.
Lemma weight_perm D E : Permutation D E -> weight D = weight E.
Proof. intros H. apply rsum_perm. now apply Permutation_map. Qed.
Lemma filter_perm {A} (f : A -> bool) D E : Permutation D E -> Permutation (filter f D) (filter f E).
Proof.
  induction 1; simpl; auto.
  - destruct (f x); auto.
  - destruct (f x), (f y); auto. apply perm_swap.
  - etransitivity; eauto.
Qed.

Lemma mass_filter P f D : (forall s, In s D -> (f s = true <-> P (fst s))) -> mass P D (weight (filter f D)).
Proof.
  induction D as [|[s w] D IH]; intros H; simpl; [constructor|].
  specialize (IH (fun s' Hs => H s' (or_intror Hs))). specialize (H (s, w) (or_introl eq_refl)). simpl in H.
  destruct (f (s, w)) eqn:E.
  - rewrite weight_cons. apply mass_in; auto. now apply H.
  - apply mass_out; auto. intros K. apply H in K. congruence.
Qed.
Lemma mass_unique P D a b : mass P D a -> mass P D b -> a = b.
Proof.
  intros H; revert b; induction H; intros b Hb; inversion Hb; subst; auto; try contradiction. f_equal; auto.
Qed.
Lemma mass_is P f D m : (forall s, In s D -> (f s = true <-> P (fst s))) -> mass P D m -> m = weight (filter f D).
Proof. intros H Hm. eapply mass_unique; eauto. now apply mass_filter. Qed.

Lemma weight_nonneg D : (forall s, In s D -> 0 < s_w s) -> 0 <= weight D.
Proof. intros H. apply rsum_nonneg. intros x Hx. apply in_map_iff in Hx. destruct Hx as (s & <- & Hs). apply Rlt_le; auto. Qed.
Lemma weight_pos D : D <> [] -> (forall s, In s D -> 0 < s_w s) -> 0 < weight D.
Proof.
  intros Hn H. apply rsum_pos; [destruct D; [congruence|discriminate]|].
  intros x Hx. apply in_map_iff in Hx. destruct Hx as (s & <- & Hs). auto.
Qed.
Lemma weight_split (f : sample -> bool) D : weight D = weight (filter f D) + weight (filter (fun s => negb (f s)) D).
Proof.
  induction D as [|s D IH]; simpl; [unfold weight; simpl; lra|]. rewrite weight_cons, IH.
  destruct (f s); simpl; rewrite weight_cons; lra.
Qed.

Definition lab_is (l : Z) (s : sample) : bool := Z.eqb (s_lab s) l.
Definition wpos D := weight (filter (lab_is 1) D).
Definition wneg D := weight (filter (lab_is (-1)) D).

Lemma filter_none {A} (f : A -> bool) l : (forall a, In a l -> f a = false) -> filter f l = [].
Proof. induction l as [|a l IH]; simpl; intros H; auto. rewrite (H a) by auto. apply IH. auto. Qed.

Lemma pos_neg D : weighted_plus_minus D -> wpos D + wneg D = weight D.
Proof.
  intros H. rewrite (weight_split (lab_is 1) D). unfold wpos, wneg. f_equal. f_equal. apply filter_ext_in.
  intros s Hs. unfold lab_is. destruct (H s Hs) as [[->| ->] _]; reflexivity.
Qed.

Lemma sum_labels (f : Z -> R) (L : list Z) : (forall l, In l L -> (l = 1 \/ l = -1)%Z) ->
  (~ In 1%Z L -> f 1%Z = 0) -> (~ In (-1)%Z L -> f (-1)%Z = 0) ->
  rsum (map f (nodup Z.eq_dec L)) = f 1%Z + f (-1)%Z.
Proof.
  intros H H1 H2. pose proof (NoDup_nodup Z.eq_dec L) as N. pose proof (fun l => nodup_In Z.eq_dec L l) as I.
  assert (H' : forall l, In l (nodup Z.eq_dec L) -> (l = 1 \/ l = -1)%Z) by (intros l Hl; apply H, I; auto).
  assert (H1' : ~ In 1%Z (nodup Z.eq_dec L) -> f 1%Z = 0) by (rewrite I; auto).
  assert (H2' : ~ In (-1)%Z (nodup Z.eq_dec L) -> f (-1)%Z = 0) by (rewrite I; auto).
  clear H H1 H2 I. generalize dependent (nodup Z.eq_dec L). intros M N HM H1 H2.
  destruct M as [|a [|b [|c M]]]; simpl.
  - rewrite H1, H2 by auto. lra.
  - destruct (HM a (or_introl eq_refl)) as [->| ->].
    + rewrite H2; [lra|]. simpl. intuition lia.
    + rewrite H1; [lra|]. simpl. intuition lia.
  - inversion N as [|? ? Na _]; subst. simpl in Na.
    destruct (HM a (or_introl eq_refl)) as [->| ->], (HM b (or_intror (or_introl eq_refl))) as [->| ->]; try tauto; lra.
  - exfalso. inversion N as [|? ? Na N']; subst. inversion N' as [|? ? Nb _]; subst. simpl in Na, Nb.
    pose proof (HM a). pose proof (HM b). pose proof (HM c). simpl in *. intuition congruence.
Qed.

Lemma gini_value D : weighted_plus_minus D -> D <> [] ->
  weighted_gini D = Some (1 - ((wpos D / weight D) ^ 2 + (wneg D / weight D) ^ 2)).
Proof.
  intros H Hne. assert (W : 0 < weight D) by (apply weight_pos; auto; intros; now apply H).
  unfold weighted_gini. destruct D as [|s D]; [congruence|]. remember (s :: D) as E.
  destruct (Reqb (weight E) 0) eqn:Ew; [apply Reqb_true in Ew; lra|]. f_equal. f_equal.
  rewrite (sum_labels (fun l => (weight (filter (fun s => Z.eqb (s_lab s) l) E) / weight E) ^ 2)).
  - reflexivity.
  - intros l Hl. apply in_map_iff in Hl. destruct Hl as (x & <- & Hx). now apply H.
  - intros N. rewrite filter_none; [unfold weight at 1; simpl; unfold Rdiv; rewrite Rmult_0_l; ring|].
    intros a Ha. apply Z.eqb_neq. intros E1. apply N. rewrite <- E1. now apply in_map.
  - intros N. rewrite filter_none; [unfold weight at 1; simpl; unfold Rdiv; rewrite Rmult_0_l; ring|].
    intros a Ha. apply Z.eqb_neq. intros E1. apply N. rewrite <- E1. now apply in_map.
Qed.

Lemma gini_mass D : weighted_plus_minus D -> exists g, weighted_gini D = Some g /\
  weight D * g = impure_mass (wpos D) (wneg D).
Proof.
  intros H. destruct D as [|s D].
  - exists 1. split; auto. unfold impure_mass, wpos, wneg, weight. simpl. destruct (Req_EM_T _ _); lra.
  - remember (s :: D) as E. assert (Hne : E <> []) by (subst; discriminate).
    eexists. split; [apply gini_value; auto|].
    assert (W : 0 < weight E) by (apply weight_pos; auto; intros; now apply H).
    pose proof (pos_neg E H) as PN. unfold impure_mass. rewrite PN. destruct (Req_EM_T _ _); [lra|].
    apply Rmult_eq_reg_r with (weight E); [|lra]. field_simplify; [|lra|lra]. rewrite <- PN. ring.
Qed.

Lemma wpm_filter f D : weighted_plus_minus D -> weighted_plus_minus (filter f D).
Proof. intros H s Hs. apply filter_In in Hs. now apply H. Qed.
Lemma wpm_perm D E : Permutation D E -> weighted_plus_minus D -> weighted_plus_minus E.
Proof. intros P H s Hs. apply H. eapply Permutation_in; [apply Permutation_sym; eauto|auto]. Qed.

Definition cost (j : nat) (t : R) (D : list sample) : R :=
  impure_mass (wpos (up j t D)) (wneg (up j t D)) + impure_mass (wpos (low j t D)) (wneg (low j t D)).

Lemma cost_perm j t D E : Permutation D E -> cost j t D = cost j t E.
Proof. intros P. unfold cost, wpos, wneg, up, low. f_equal; f_equal; apply weight_perm; repeat apply filter_perm; auto. Qed.

Lemma threshold_cost j t D : weighted_plus_minus D -> D <> [] ->
  threshold_value j D t = Some (cost j t D / weight D).
Proof.
  intros H Hne. unfold threshold_value.
  destruct (gini_mass (up j t D)) as (a & -> & Ea); [now apply wpm_filter|].
  destruct (gini_mass (low j t D)) as (b & -> & Eb); [now apply wpm_filter|].
  assert (W : 0 < weight D) by (apply weight_pos; auto; intros; now apply H).
  destruct (Reqb (weight D) 0) eqn:Ew; [apply Reqb_true in Ew; lra|]. rewrite Ea, Eb. reflexivity.
Qed.

(** ** The chosen split *)
Definition thr_val j D (t : R) : option (R * R) := match threshold_value j D t with None => None | Some v => Some (v, t) end.

Lemma get_value_pick j D : gini_get_value j D =
  let D := sort_by (fun s => feat j (s_row s)) D in
  fold_left (pick_step (thr_val j D)) (neighbour_midpoints (map (fun s => feat j (s_row s)) D)) None.
Proof.
  unfold gini_get_value. cbv zeta. generalize (neighbour_midpoints (map (fun s : sample => feat j (s_row s)) (sort_by (fun s : sample => feat j (s_row s)) D))).
  intros l. generalize (@None (R * R)). induction l as [|t l IH]; intros b; simpl; auto.
  rewrite IH. f_equal. unfold pick_step, thr_val. destruct (threshold_value _ _ _); auto.
Qed.

Lemma get_value_spec j D : weighted_plus_minus D -> (2 <= length D)%nat ->
  exists t, gini_get_value j D = Some (cost j t D / weight D, t) /\
    forall t', (exists s, In s D /\ feat j (s_row s) < t') -> (exists s, In s D /\ t' <= feat j (s_row s)) ->
      cost j t D <= cost j t' D.
Proof.
  intros H HD. rewrite get_value_pick. cbv zeta. set (E := sort_by _ D).
  assert (P : Permutation E D) by apply sort_perm.
  assert (HE : weighted_plus_minus E) by (eapply wpm_perm; [apply Permutation_sym; eauto|auto]).
  assert (NE : E <> []). { intros Z0. rewrite Z0 in P. apply Permutation_nil in P. rewrite P in HD. simpl in HD. lia. }
  assert (W : 0 < weight D). { apply weight_pos; [destruct D; simpl in HD; [lia|discriminate]|]. intros; now apply H. }
  assert (V : forall t, thr_val j E t = Some (cost j t D / weight D, t)).
  { intros t. unfold thr_val. rewrite threshold_cost by auto. now rewrite (cost_perm _ _ _ _ P), (weight_perm _ _ P). }
  set (ms := neighbour_midpoints _). pose proof (pick_spec (thr_val j E) ms) as S.
  destruct (fold_left _ ms None) as [[v t]|].
  - destruct S as [(t0 & Ht0 & E0) S]. rewrite V in E0. injection E0 as <- ->. exists t. split; auto.
    intros t' (s & Hs & Hlt) (s' & Hs' & Hge).
    assert (L : forall x, In x D -> In (feat j (s_row x)) (map (fun s => feat j (s_row s)) E)).
    { intros x Hx. apply (in_map (fun s => feat j (s_row s))). eapply Permutation_in; [apply Permutation_sym; eauto|auto]. }
    destruct (midpoints_separate (map (fun s => feat j (s_row s)) E) t') as (m & Hm & He); eauto.
    specialize (S m _ _ Hm (V m)).
    assert (C : cost j m D = cost j t' D).
    { assert (Eu : up j m D = up j t' D).
      { apply filter_ext_in. intros x Hx. specialize (He _ (L x Hx)).
        destruct (Rleb m _) eqn:E1, (Rleb t' _) eqn:E2; auto.
        - apply Rleb_true in E1. apply Rleb_false in E2. apply He in E1. lra.
        - apply Rleb_false in E1. apply Rleb_true in E2. apply He in E2. lra. }
      assert (El : low j m D = low j t' D).
      { apply filter_ext_in. intros x Hx. specialize (He _ (L x Hx)).
        destruct (Rltb _ m) eqn:E1, (Rltb _ t') eqn:E2; auto.
        - apply Rltb_true in E1. apply Rltb_false in E2. apply He in E2. lra.
        - apply Rltb_false in E1. apply Rltb_true in E2. apply He in E1. lra. }
      unfold cost. now rewrite Eu, El. }
    rewrite C in S. apply Rmult_le_reg_r with (/ weight D); auto. now apply Rinv_0_lt_compat.
  - exfalso. assert (Hm : ms <> []).
    { apply midpoints_nonempty. rewrite map_length, (Permutation_length P). auto. }
    destruct ms as [|m ms]; [congruence|]. specialize (S m (or_introl eq_refl)). rewrite V in S. discriminate.
Qed.

Definition feat_val D j : option (R * (nat * R)) := match gini_get_value j D with None => None | Some (v, t) => Some (v, (j, t)) end.
Lemma choose_pick w D : choose_feature w D =
  match fold_left (pick_step (feat_val D)) (seq 0 w) None with None => None | Some (_, r) => Some r end.
Proof.
  unfold choose_feature. match goal with |- match ?a with _ => _ end = match ?b with _ => _ end => replace a with b; [reflexivity|] end.
  generalize (@None (R * (nat * R))). induction (seq 0 w) as [|j l IH]; intros b; simpl; auto.
  rewrite IH. f_equal. unfold pick_step, feat_val. destruct (gini_get_value j D) as [[v t]|]; auto.
Qed.

Lemma choose_spec w D : weighted_plus_minus D -> (2 <= length D)%nat -> (1 <= w)%nat ->
  exists j t, choose_feature w D = Some (j, t) /\ (j < w)%nat /\
    forall j' t', (j' < w)%nat -> (exists s, In s D /\ feat j' (s_row s) < t') -> (exists s, In s D /\ t' <= feat j' (s_row s)) ->
      cost j t D <= cost j' t' D.
Proof.
  intros H HD Hw. rewrite choose_pick. pose proof (pick_spec (feat_val D) (seq 0 w)) as S.
  assert (W : 0 < weight D). { apply weight_pos; [destruct D; simpl in HD; [lia|discriminate]|]. intros; now apply H. }
  destruct (fold_left _ _ None) as [[v [j t]]|].
  - destruct S as [(j0 & Hj & E) S]. unfold feat_val in E.
    destruct (get_value_spec j0 D H HD) as (t0 & E0 & Ht0). rewrite E0 in E. injection E as Ev -> ->.
    exists j, t. split; auto. apply in_seq in Hj. split; [lia|].
    intros j' t' Hj' A B. destruct (get_value_spec j' D H HD) as (t1 & E1 & Ht1).
    specialize (S j' (cost j' t1 D / weight D) (j', t1)). rewrite in_seq in S. unfold feat_val in S. rewrite E1 in S.
    specialize (S ltac:(lia) eq_refl). rewrite <- Ev in S. specialize (Ht1 t' A B).
    assert (cost j t D <= cost j' t1 D); [|lra].
    apply Rmult_le_reg_r with (/ weight D); auto. now apply Rinv_0_lt_compat.
  - exfalso. specialize (S 0%nat). unfold feat_val in S. destruct (get_value_spec 0 D H HD) as (t0 & E0 & _).
    rewrite E0 in S. rewrite in_seq in S. specialize (S ltac:(lia)). discriminate.
Qed.

(** ** The tree *)
Lemma tl_total w : (1 <= w)%nat -> forall n D, weighted_plus_minus D -> exists t, tl_generate n w D = Ok t.
Proof.
  intros Hw n; induction n as [|n IH]; intros D H; simpl; [eauto|].
  destruct (Nat.leb_spec (length D) 2); [eauto|].
  destruct (choose_spec w D H) as (j & t & -> & _); auto; [lia|].
  destruct (IH (up j t D)) as (u & ->); [now apply wpm_filter|].
  destruct (IH (low j t D)) as (l & ->); [now apply wpm_filter|]. simpl. eauto.
Qed.

Lemma tl_shape w n D t : tl_generate n w D = Ok t -> (tl_depth t <= n)%nat /\ (tl_leaves t <= 2 ^ n)%nat.
Proof.
  revert D t; induction n as [|n IH]; intros D t H; simpl in H.
  - injection H as <-. simpl. auto.
  - assert (P : (1 <= 2 ^ n)%nat) by (clear; induction n; simpl; lia).
    destruct (length D <=? 2)%nat; [injection H as <-; simpl; split; lia|].
    destruct (choose_feature w D) as [[j p]|]; [|discriminate].
    apply bind_Ok in H as (u & Hu & H). apply bind_Ok in H as (l & Hl & H). injection H as <-.
    destruct (IH _ _ Hu), (IH _ _ Hl). simpl. split; lia.
Qed.

(** Rows of a region, as a Boolean filter. *)
Definition region_of (G : list R -> Prop) (g : list R -> bool) := forall r, g r = true <-> G r.

Lemma filter_filter {A} (f g : A -> bool) l : filter f (filter g l) = filter (fun a => g a && f a) l.
Proof. induction l as [|a l IH]; simpl; auto. destruct (g a); simpl; [destruct (f a)|]; rewrite IH; auto. Qed.

Lemma tl_nodes w n : forall D t, tl_generate n w D = Ok t -> forall d G s, tl_at t d G s ->
  exists g, region_of G g /\ (d <= n)%nat /\
    tl_generate (n - d) w (filter (fun x => g (s_row x)) D) = Ok s.
Proof.
  induction n as [|n IH]; intros D t H d G s A.
  - simpl in H. injection H as <-. inversion A; subst. exists (fun _ => true). split; [split; auto|]. split; auto.
    simpl. f_equal. f_equal. f_equal. clear. induction D; simpl; congruence.
  - pose proof H as H0. simpl in H. destruct (Nat.leb_spec (length D) 2) as [L|L].
    { injection H as <-. inversion A; subst. exists (fun _ => true). split; [split; auto|]. split; [lia|].
      rewrite Nat.sub_0_r. replace (filter (fun _ => true) D) with D by (clear; induction D; simpl; congruence). exact H0. }
    destruct (choose_feature w D) as [[j p]|] eqn:Ec; [|discriminate].
    apply bind_Ok in H as (u & Hu & H). apply bind_Ok in H as (l & Hl & H). injection H as <-.
    inversion A as [|? ? ? ? d' G' ? A'|? ? ? ? d' G' ? A']; subst.
    + exists (fun _ => true). split; [split; auto|]. split; [lia|].
      rewrite Nat.sub_0_r. replace (filter (fun _ => true) D) with D by (clear; induction D; simpl; congruence). exact H0.
    + destruct (IH _ _ Hu _ _ _ A') as (g & Hg & Hd & E).
      exists (fun r => Rleb p (feat j r) && g r). split.
      { intros r. rewrite andb_true_iff, Rleb_true, (Hg r). reflexivity. }
      split; [lia|]. simpl. unfold up in E. rewrite filter_filter in E. exact E.
    + destruct (IH _ _ Hl _ _ _ A') as (g & Hg & Hd & E).
      exists (fun r => Rltb (feat j r) p && g r). split.
      { intros r. rewrite andb_true_iff, Rltb_true, (Hg r). reflexivity. }
      split; [lia|]. simpl. unfold low in E. rewrite filter_filter in E. exact E.
Qed.

Lemma generate_leaf w n D l : tl_generate n w D = Ok (TLeaf l) -> l = leaf_label D /\ (n = 0 \/ length D <= 2)%nat.
Proof.
  destruct n; simpl; intros H; [injection H as <-; auto|].
  destruct (Nat.leb_spec (length D) 2); [injection H as <-; auto|].
  destruct (choose_feature w D) as [[j p]|]; [|discriminate].
  apply bind_Ok in H as (u & Hu & H). apply bind_Ok in H as (v & Hv & H). discriminate.
Qed.

Lemma generate_node w n D j p u l : tl_generate n w D = Ok (TNode j p u l) ->
  (2 < length D)%nat /\ choose_feature w D = Some (j, p).
Proof.
  destruct n; simpl; intros H; [discriminate|].
  destruct (Nat.leb_spec (length D) 2); [discriminate|]. split; auto.
  destruct (choose_feature w D) as [[j' p']|]; [|discriminate].
  apply bind_Ok in H as (u' & Hu & H). apply bind_Ok in H as (v & Hv & H). injection H as -> -> _ _. auto.
Qed.

Lemma tl_leaf_main w D t d G l : tl_fit w D = Ok t -> tl_at t d G (TLeaf l) ->
  forall p n k, mass (fun s => snd s = 1%Z /\ G (fst s)) D p -> mass (fun s => snd s = (-1)%Z /\ G (fst s)) D n ->
  how_many (fun s => G (s_row s)) D k ->
  (l = 1%Z /\ n < p \/ l = (-1)%Z /\ p <= n) /\ (d = 2 \/ d < 2 /\ k <= 2)%nat.
Proof.
  intros H A p n k Hp Hn Hk. destruct (tl_nodes _ _ _ _ H _ _ _ A) as (g & Hg & Hd & E).
  apply generate_leaf in E. destruct E as [-> E].
  apply (mass_is _ (fun s => g (s_row s) && lab_is 1 s)) in Hp;
    [|intros [[r y] w0] _; unfold lab_is, s_lab, s_row; simpl; rewrite andb_true_iff, (Hg r), Z.eqb_eq; tauto].
  apply (mass_is _ (fun s => g (s_row s) && lab_is (-1) s)) in Hn;
    [|intros [[r y] w0] _; unfold lab_is, s_lab, s_row; simpl; rewrite andb_true_iff, (Hg r), Z.eqb_eq; tauto].
  apply (hm_is_count _ (fun s => g (s_row s))) in Hk; [|intros s _; apply Hg]. unfold count in Hk.
  rewrite <- filter_filter in Hp, Hn. split.
  - unfold leaf_label.
    assert (Lp : weight (filter (fun s => Z.eqb (s_lab s) 1) (filter (fun x => g (s_row x)) D)) = p) by (rewrite Hp; reflexivity).
    assert (Ln : weight (filter (fun s => Z.eqb (s_lab s) (-1)) (filter (fun x => g (s_row x)) D)) = n) by (rewrite Hn; reflexivity).
    rewrite Lp, Ln. destruct (Rltb n p) eqn:L; [apply Rltb_true in L|apply Rltb_false in L]; auto.
  - destruct E as [E|E]; [left; lia|]. destruct (Nat.eq_dec d 2); [left; auto|right; lia].
Qed.

Lemma tl_node_main w D t d G j p u l : weighted_plus_minus D -> (1 <= w)%nat -> tl_fit w D = Ok t -> tl_at t d G (TNode j p u l) ->
  (j < w)%nat /\ (forall k, how_many (fun s => G (s_row s)) D k -> (2 < k)%nat) /\
  forall j' p' c c', (j' < w)%nat -> separates_region D G j' p' -> split_cost D G j p c -> split_cost D G j' p' c' -> c <= c'.
Proof.
  intros Hpm Hw H A. destruct (tl_nodes _ _ _ _ H _ _ _ A) as (g & Hg & Hd & E).
  apply generate_node in E. destruct E as [EL EC]. set (D' := filter (fun x => g (s_row x)) D) in *.
  destruct (choose_spec w D') as (j0 & t0 & E0 & Hj & Hbest); [now apply wpm_filter|lia|auto|].
  rewrite EC in E0. injection E0 as <- <-. split; auto. split.
  { intros k Hk. apply (hm_is_count _ (fun s => g (s_row s))) in Hk; [|intros s _; apply Hg]. subst k. exact EL. }
  assert (SC : forall i q c, split_cost D G i q c -> c = cost i q D').
  { intros i q c (p1 & n1 & p0 & n0 & H1 & H2 & H3 & H4 & ->). unfold cost, wpos, wneg, up, low, D'. rewrite !filter_filter.
    f_equal; f_equal.
    - refine (mass_is _ _ _ _ _ H1). intros [[r y] w0] _; unfold lab_is, s_lab, s_row, feat; simpl; rewrite !andb_true_iff, (Hg r), Z.eqb_eq, ?Rleb_true, ?Rltb_true; tauto.
    - refine (mass_is _ _ _ _ _ H2). intros [[r y] w0] _; unfold lab_is, s_lab, s_row, feat; simpl; rewrite !andb_true_iff, (Hg r), Z.eqb_eq, ?Rleb_true, ?Rltb_true; tauto.
    - refine (mass_is _ _ _ _ _ H3). intros [[r y] w0] _; unfold lab_is, s_lab, s_row, feat; simpl; rewrite !andb_true_iff, (Hg r), Z.eqb_eq, ?Rleb_true, ?Rltb_true; tauto.
    - refine (mass_is _ _ _ _ _ H4). intros [[r y] w0] _; unfold lab_is, s_lab, s_row, feat; simpl; rewrite !andb_true_iff, (Hg r), Z.eqb_eq, ?Rleb_true, ?Rltb_true; tauto.
}
  intros j' p' c c' Hj' [(s & Hs & Gs & Ls) (s' & Hs' & Gs' & Ls')] Hc Hc'.
  rewrite (SC _ _ _ Hc), (SC _ _ _ Hc'). apply Hbest; auto.
  - exists s. split; auto. apply filter_In. split; auto. now apply Hg.
  - exists s'. split; auto. apply filter_In. split; auto. now apply Hg.
Qed.

(** ** Training error *)
Definition bad t (s : sample) : bool := negb (Z.eqb (tl_predict t (s_row s)) (s_lab s)).

Lemma filter_app_weight (f h : sample -> bool) D : weight (filter h D) =
  weight (filter h (filter f D)) + weight (filter h (filter (fun s => negb (f s)) D)).
Proof.
  rewrite (weight_split f (filter h D)). rewrite !filter_filter. f_equal; f_equal; apply filter_ext; intros a; apply andb_comm.
Qed.

Lemma low_negb j t D : low j t D = filter (fun s => negb (Rleb t (feat j (s_row s)))) D.
Proof.
  apply filter_ext. intros s. unfold Rltb, Rleb. destruct (Rlt_dec _ _), (Rle_dec _ _); auto; lra.
Qed.

Lemma tl_error w n : forall D t, (forall s, In s D -> (s_lab s = 1 \/ s_lab s = -1)%Z) -> tl_generate n w D = Ok t ->
  weight (filter (bad t) D) <= wpos D /\ weight (filter (bad t) D) <= wneg D.
Proof.
  assert (LF : forall D, (forall s, In s D -> (s_lab s = 1 \/ s_lab s = -1)%Z) ->
    weight (filter (bad (TLeaf (leaf_label D))) D) <= wpos D /\ weight (filter (bad (TLeaf (leaf_label D))) D) <= wneg D).
  { intros D HD. unfold leaf_label.
    change (fun s : sample => Z.eqb (s_lab s) (-1)) with (lab_is (-1)). change (fun s : sample => Z.eqb (s_lab s) 1) with (lab_is 1).
    fold (wpos D). fold (wneg D). destruct (Rltb (wneg D) (wpos D)) eqn:E; [apply Rltb_true in E|apply Rltb_false in E].
    - assert (K : weight (filter (bad (TLeaf 1)) D) = wneg D).
      { unfold wneg. f_equal. apply filter_ext_in. intros s Hs. unfold bad, lab_is, tl_predict. destruct (HD s Hs) as [->| ->]; reflexivity. }
      rewrite K. lra.
    - assert (K : weight (filter (bad (TLeaf (-1))) D) = wpos D).
      { unfold wpos. f_equal. apply filter_ext_in. intros s Hs. unfold bad, lab_is, tl_predict. destruct (HD s Hs) as [->| ->]; reflexivity. }
      rewrite K. lra. }
  induction n as [|n IH]; intros D t HD H; simpl in H.
  - injection H as <-. auto.
  - destruct (length D <=? 2)%nat; [injection H as <-; auto|].
    destruct (choose_feature w D) as [[j p]|]; [|discriminate].
    apply bind_Ok in H as (u & Hu & H). apply bind_Ok in H as (l & Hl & H). injection H as <-.
    assert (HU : forall s, In s (up j p D) -> (s_lab s = 1 \/ s_lab s = -1)%Z) by (intros s Hs; apply filter_In in Hs; apply HD; tauto).
    assert (HL : forall s, In s (low j p D) -> (s_lab s = 1 \/ s_lab s = -1)%Z) by (intros s Hs; apply filter_In in Hs; apply HD; tauto).
    destruct (IH _ _ HU Hu) as [U1 U2]. destruct (IH _ _ HL Hl) as [L1 L2].
    set (f := fun s => Rleb p (feat j (s_row s))).
    assert (B : weight (filter (bad (TNode j p u l)) D) = weight (filter (bad u) (up j p D)) + weight (filter (bad l) (low j p D))).
    { rewrite low_negb, (filter_app_weight f). f_equal; f_equal; apply filter_ext_in; intros s Hs; apply filter_In in Hs; destruct Hs as [_ Hs];
        unfold bad; simpl.
      - unfold f in Hs. now rewrite Hs.
      - apply negb_true_iff in Hs. unfold f in Hs. now rewrite Hs. }
    assert (P : wpos D = wpos (up j p D) + wpos (low j p D)) by (unfold wpos; rewrite low_negb, (filter_app_weight f); reflexivity).
    assert (N : wneg D = wneg (up j p D) + wneg (low j p D)) by (unfold wneg; rewrite low_negb, (filter_app_weight f); reflexivity).
    rewrite B, P, N. lra.
Qed.

Lemma tl_error_main w D t e p n : (forall s, In s D -> (s_lab s = 1 \/ s_lab s = -1)%Z) -> tl_fit w D = Ok t ->
  mass (fun s => tl_predict t (fst s) <> snd s) D e -> mass (fun s => snd s = 1%Z) D p -> mass (fun s => snd s = (-1)%Z) D n ->
  e <= p /\ e <= n.
Proof.
  intros HD H He Hp Hn. destruct (tl_error _ _ _ _ HD H) as [A B].
  apply (mass_is _ (bad t)) in He; [|intros [[r y] w0] _; unfold bad, s_row, s_lab; simpl; rewrite negb_true_iff, Z.eqb_neq; tauto].
  apply (mass_is _ (lab_is 1)) in Hp; [|intros [[r y] w0] _; unfold lab_is, s_lab; simpl; apply Z.eqb_eq].
  apply (mass_is _ (lab_is (-1))) in Hn; [|intros [[r y] w0] _; unfold lab_is, s_lab; simpl; apply Z.eqb_eq].
  subst. unfold wpos, wneg in *. auto.
Qed.

(** Without weight there is no candidate. *)
Lemma tl_zero w D : (1 <= w)%nat -> (2 < length D)%nat -> (forall s, In s D -> s_w s = 0) -> tl_fit w D = Err TypeError.
Proof.
  intros Hw HD H0. unfold tl_fit. cbn [tl_generate]. destruct (Nat.leb_spec (length D) 2); [lia|].
  assert (Z0 : forall E, (forall s, In s E -> s_w s = 0) -> weight E = 0).
  { clear. induction E as [|s E IH]; intros H; [reflexivity|]. rewrite weight_cons, (H s (or_introl eq_refl)), IH by (intros; apply H; simpl; auto). lra. }
  assert (C : choose_feature w D = None).
  { rewrite choose_pick. pose proof (pick_spec (feat_val D) (seq 0 w)) as S.
    destruct (fold_left _ _ None) as [[v r]|]; auto. destruct S as [(j & _ & E) _]. exfalso.
    unfold feat_val in E. rewrite get_value_pick in E. cbv zeta in E. set (E' := sort_by _ D) in E.
    assert (P : Permutation E' D) by apply sort_perm.
    pose proof (pick_spec (thr_val j E') (neighbour_midpoints (map (fun s => feat j (s_row s)) E'))) as S.
    destruct (fold_left _ _ None) as [[v' t']|]; [|discriminate]. destruct S as [(t & _ & S) _].
    unfold thr_val, threshold_value in S.
    assert (W : weight E' = 0) by (rewrite (weight_perm _ _ P); apply Z0; auto).
    rewrite W in S. destruct (Reqb 0 0) eqn:Q; [|apply Reqb_false in Q; lra].
    destruct (weighted_gini (up j t E')); [|discriminate]. destruct (weighted_gini (low j t E')); discriminate. }
  rewrite C. destruct (Nat.eqb_spec w 0); [lia|auto].
Qed.
