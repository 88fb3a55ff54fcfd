(** Proofs about training rows that are given several times: the Bayes classifiers
    (C110). *)
From Coq Require Import List ZArith Reals Lra Lia Bool Arith Permutation.
From Verif.Model Require Import Base Bayes.
From Verif.Spec Require Import Common Bayes RowOrder Copies.
From Verif.Proof Require Import BaseLemmas Counting Bayes BayesMain RowOrder RowOrderBayes Copies.
Import ListNotations.
Local Open Scope R_scope.

Section BayesCopies.
Context {A : Type} (O : TotalOrder A).
Variable num : A -> R.
Variable continuous : list A -> bool.
Variable vc : list A -> list A.
Variable rnd : R -> R.
Variable k : nat.
Hypothesis Hk : (0 < k)%nat.

Lemma unique_from_known l : forall seen m, (forall a, In a m -> In a seen \/ In a l) ->
  unique_from O seen (l ++ m) = unique_from O seen l.
Proof.
  induction l as [|b l IH]; intros seen m H; cbn [app unique_from].
  - induction m as [|a m IH]; cbn [unique_from]; auto. destruct (mem O a seen) eqn:E.
    + apply IH. intros; apply H; now right.
    + apply mem_not in E. destruct (H a (or_introl eq_refl)) as [|[]]. tauto.
  - destruct (mem O b seen) eqn:E.
    + apply IH. intros a Ha. destruct (H a Ha) as [|[->|]]; auto. left. now apply mem_In in E.
    + f_equal. apply IH. intros a Ha. destruct (H a Ha) as [|[->|]]; cbn; auto.
Qed.
Lemma unique_copies l : unique O (copies k l) = unique O l.
Proof.
  destruct k as [|n]; [lia|]. rewrite copies_S. apply unique_from_known. intros a Ha. right.
  destruct n; [destruct Ha|]. apply copies_In in Ha; auto. lia.
Qed.
Lemma occurrences_copies v l : occurrences O v (copies k l) = (k * occurrences O v l)%nat.
Proof. apply count_copies. Qed.
Lemma mean_var_copies l : mean_var (copies k l) = mean_var l.
Proof.
  destruct l as [|a l]; [now rewrite copies_nil|]. pose proof (rmean_copies k (a :: l) Hk) as M. pose proof (rvar_copies k (a :: l) Hk) as V.
  destruct (copies_cons k a l Hk) as (m & E). rewrite E in *. cbn [mean_var]. now rewrite M, V.
Qed.
Lemma of_class_copies y c (col : list A) : length col = length y -> of_class (copies k y) c (copies k col) = copies k (of_class y c col).
Proof. intros L. unfold of_class. now rewrite copies_combine, copies_filter, copies_map. Qed.
Lemma prior_copies y : get_prior_probability (length (copies k y)) (copies k y) false = get_prior_probability (length y) y false.
Proof.
  unfold get_prior_probability. cbv zeta. rewrite copies_length, count_copies, zero_copies, !mult_INR, ratio_copies by auto. reflexivity.
Qed.
Lemma conditional_copies a n c c' : get_conditional_probability (k * a) (k * n) c' false = get_conditional_probability a n c false.
Proof. unfold get_conditional_probability. now rewrite zero_copies, !mult_INR, ratio_copies by auto. Qed.
Lemma dependent_copies a n c c' : get_dependent_prior_probability (k * a) (k * n) c' false = get_dependent_prior_probability a n c false.
Proof. unfold get_dependent_prior_probability. now rewrite zero_copies, !mult_INR, ratio_copies by auto. Qed.
Lemma dict_times (ks : list A) (f : A -> nat) : forall us v,
  dict_get O (combine ks (map (fun v => k * f v)%nat us)) v = option_map (Nat.mul k) (dict_get O (combine ks (map f us)) v).
Proof. induction ks as [|x ks IH]; intros [|u us] v; cbn; auto. destruct (eqb O v x); auto. Qed.

(** The kind of a column and the order of its values do not depend on how often the
    column is repeated. *)
Definition steady (col : list A) : Prop := continuous (copies k col) = continuous col /\ vc (copies k col) = vc col.

Lemma nb_attribute_copies y col : length col = length y -> steady col ->
  ends_related (fun i i' => forall v, nb_term O num rnd false i v = nb_term O num rnd false i' v)
    (nb_attribute O num continuous vc y col) (nb_attribute O num continuous vc (copies k y) (copies k col)).
Proof.
  intros L [C V]. unfold nb_attribute. cbv zeta. rewrite C, V, !of_class_copies, unique_copies by auto. destruct (continuous col).
  - cbn [ends_related]. intros v. rewrite !copies_map, !mean_var_copies. reflexivity.
  - destruct (_ =? 1)%nat; [exact I|]. cbn [ends_related nb_term]. intros v. unfold dict_lookup. rewrite !copies_length.
    rewrite (map_ext (fun v => occurrences O v (copies k (of_class y 0 col))) (fun v => k * occurrences O v (of_class y 0 col))%nat) by (intros; apply occurrences_copies).
    rewrite (map_ext (fun v => occurrences O v (copies k (of_class y 1 col))) (fun v => k * occurrences O v (of_class y 1 col))%nat) by (intros; apply occurrences_copies).
    rewrite !dict_times. destruct (dict_get O (combine (vc col) (map (fun v => occurrences O v (of_class y 0 col)) (unique O col))) v); cbn [option_map bind]; auto.
    destruct (dict_get O (combine (vc col) (map (fun v => occurrences O v (of_class y 1 col)) (unique O col))) v); cbn [option_map bind]; auto.
    rewrite !(conditional_copies _ _ (length (unique O col))). reflexivity.
Qed.
Lemma nb_copies cols y : Forall (fun c => length c = length y /\ steady c) cols ->
  ends_related (fun m m' => forall q, ends_related eq (nb_predict O num rnd m q) (nb_predict O num rnd m' q))
    (nb_fit O num continuous vc cols y false) (nb_fit O num continuous vc (map (copies k) cols) (copies k y) false).
Proof.
  intros F. unfold nb_fit. rewrite prior_copies. destruct (get_prior_probability (length y) y false) as [[p0 p1]|]; cbn [bind]; [|exact I].
  assert (M : ends_related (fun l l' => Forall2 (fun i i' => forall v, nb_term O num rnd false i v = nb_term O num rnd false i' v) l l')
    (mapM (nb_attribute O num continuous vc y) cols) (mapM (nb_attribute O num continuous vc (copies k y)) (map (copies k) cols))).
  { apply (mapM_pointwise (fun c c' => c' = copies k c /\ length c = length y /\ steady c)).
    - induction F; cbn; constructor; auto.
    - intros c c' _ (-> & L & S). now apply nb_attribute_copies. }
  destruct (mapM _ cols) as [pi|], (mapM _ (map (copies k) cols)) as [pi'|]; cbn [bind ends_related] in *; auto.
  intros q. unfold nb_predict.
  pose proof (nb_scores_rel O num rnd {| nb_p0 := p0; nb_p1 := p1; nb_pi := pi; nb_smoothing := false |}
    {| nb_p0 := p0; nb_p1 := p1; nb_pi := pi'; nb_smoothing := false |} q eq_refl eq_refl eq_refl M) as K. cbn [fst snd].
  destruct (nb_scores _ _ _ _ q), (nb_scores _ _ _ {| nb_p0 := p0; nb_p1 := p1; nb_pi := pi'; nb_smoothing := false |} q); cbn in *; auto. now subst.
Qed.

(** ** One-dependence estimators of discrete attributes *)
Section Table.
Variable y : list Z.
Variable cols : list (list A).
Hypothesis F : Forall (fun c => length c = length y /\ continuous c = false /\ continuous (copies k c) = false) cols.

Lemma selected_copies c v parent : length parent = length y ->
  selected O (copies k y) c v (copies k parent) = copies k (selected O y c v parent).
Proof. intros L. unfold selected. now rewrite copies_combine, copies_map. Qed.
Lemma pick_copies sel (col : list A) : length col = length sel -> pick (copies k sel) (copies k col) = copies k (pick sel col).
Proof. intros L. unfold pick. now rewrite copies_combine, copies_filter, copies_map. Qed.
Lemma sp_attribute_copies c sel col : length col = length sel -> continuous col = false -> continuous (copies k col) = false ->
  forall v, sp_info_log O num rnd (sp_attribute O num continuous y false c sel col) v =
            sp_info_log O num rnd (sp_attribute O num continuous (copies k y) false c (copies k sel) (copies k col)) v.
Proof.
  intros L C C' v. unfold sp_attribute. cbv zeta. rewrite C, C', pick_copies, unique_copies, copies_length by auto. cbn [sp_info_log]. unfold dict_lookup.
  assert (E : forall us, dict_get O (map (fun v => (v, occurrences O v (copies k (pick sel col)))) us) v =
     option_map (Nat.mul k) (dict_get O (map (fun v => (v, occurrences O v (pick sel col))) us) v)).
  { induction us as [|u us IH]; cbn; auto. rewrite occurrences_copies. destruct (eqb O v u); auto. }
  rewrite E. destruct (dict_get O _ v); cbn [option_map bind]; auto. now rewrite (conditional_copies _ _ (length (unique O col))).
Qed.
Lemma zsort_copies : zsort (copies k y) = zsort y.
Proof. unfold zsort. apply np_unique_ext. intros x. now apply copies_In. Qed.
Lemma sp_table_copies parent : length parent = length y ->
  ends_related (same_state O num rnd) (sp_table O num continuous cols y false parent)
    (sp_table O num continuous (map (copies k) cols) (copies k y) false (copies k parent)).
Proof.
  intros L. unfold sp_table. rewrite zsort_copies, unique_copies.
  assert (M : ends_related (fun u v => Forall2 (same_entry O num rnd) u v)
    (sp_table O num continuous cols y false parent) (sp_table O num continuous (map (copies k) cols) (copies k y) false (copies k parent))).
  { unfold sp_table. rewrite zsort_copies, unique_copies. apply (mapM_pointwise eq).
    - generalize (flat_map (fun c => map (fun v => (c, v)) (unique O parent)) (zsort y)). intros l. induction l; constructor; auto.
    - intros [c v] b _ <-. cbv zeta. cbn [fst snd]. rewrite selected_copies, count_copies, copies_length by auto.
      rewrite (dependent_copies _ _ (length (unique O parent))). destruct (get_dependent_prior_probability _ _ _ false) as [pr|]; cbn [bind ends_related]; auto.
      split; [reflexivity|]. split; [reflexivity|]. intros q. apply entry_log_rel; [reflexivity|]. cbn [infos].
      assert (Ls : length (selected O y c v parent) = length y) by now apply selected_length.
      clear -F Ls Hk vc rnd num O. induction F as [|x xs (Lx & C & C') F' IH]; cbn [map]; constructor; auto.
      intros w. apply sp_attribute_copies; auto. congruence. }
  unfold sp_table in M. rewrite zsort_copies, unique_copies in M.
  destruct (mapM _ _) as [t|], (mapM _ _) as [t'|]; cbn [ends_related] in *; auto. exists t. split; auto.
Qed.
Lemma sp_fit_copies i st st' : same_state O num rnd st st' ->
  ends_related (same_state O num rnd) (sp_fit O num continuous st cols y false i)
    (sp_fit O num continuous st' (map (copies k) cols) (copies k y) false i).
Proof.
  intros S. unfold sp_fit.
  assert (G : ends_related (fun c c' => c' = copies k c /\ length c = length y) (get_at cols i) (get_at (map (copies k) cols) i)).
  { apply get_at_rel. clear -F. induction F as [|x xs (Lx & _) F' IH]; cbn; constructor; auto. }
  destruct (get_at cols i) as [c|], (get_at (map (copies k) cols) i) as [c'|]; cbn [bind ends_related] in *; auto; try contradiction.
  destruct G as [-> L]. pose proof (sp_table_copies c L) as T.
  destruct (sp_table O num continuous cols y false c), (sp_table O num continuous (map (copies k) cols) (copies k y) false (copies k c)); cbn in *; auto.
  now apply same_state_app.
Qed.
Lemma eligible_copies m c : continuous c = false -> continuous (copies k c) = false ->
  ao_eligible O continuous (k * m) (copies k c) = ao_eligible O continuous m c.
Proof.
  intros C C'. unfold ao_eligible. rewrite C, C', unique_copies. cbn [negb andb]. generalize (unique O c). intros l. induction l as [|a l IH]; cbn [forallb]; auto.
  rewrite IH, occurrences_copies. f_equal. apply eq_true_iff_eq. rewrite !Nat.ltb_lt. split; intros H; nia.
Qed.
Lemma ao_fit_copies m st st' : same_state O num rnd st st' ->
  ends_related (fun r r' => same_state O num rnd (fst r) (fst r') /\ Forall2 (same_state O num rnd) (snd r) (snd r'))
    (ao_fit O num continuous st cols y false m) (ao_fit O num continuous st' (map (copies k) cols) (copies k y) false (k * m)).
Proof.
  intros S. unfold ao_fit. cbn zeta.
  set (L0 := filter (fun q => ao_eligible O continuous m (snd q)) (enumerate cols)).
  set (L1 := filter (fun q => ao_eligible O continuous (k * m) (snd q)) (enumerate (map (copies k) cols))).
  assert (PL : Forall2 (fun a b => fst a = fst b) L0 L1).
  { unfold L0, L1.
    assert (E : Forall2 (fun c c' => c' = copies k c /\ continuous c = false /\ continuous c' = false) cols (map (copies k) cols)).
    { clear -F. induction F as [|x xs (_ & C & C') F' IH]; cbn; constructor; auto. }
    apply enumerate_rel in E. induction E as [|[i c] [j c'] l l' [Ei (Ec & C & C')] E IH]; cbn; [constructor|]. cbn in Ei, Ec, C, C'. subst j c'.
    rewrite eligible_copies by auto. destruct (ao_eligible O continuous m c); [constructor|]; auto. }
  assert (K : forall st st', same_state O num rnd st st' -> ends_related (same_state O num rnd)
     (foldM (fun st q => sp_fit O num continuous st cols y false (fst q)) L0 st)
     (foldM (fun st q => sp_fit O num continuous st (map (copies k) cols) (copies k y) false (fst q)) L1 st')).
  { clear S st st'. induction PL as [|a b l l' E PL IH]; intros st st' S; cbn; auto. rewrite <- E.
    pose proof (sp_fit_copies (fst a) _ _ S) as T.
    destruct (sp_fit O num continuous st cols y false (fst a)), (sp_fit O num continuous st' (map (copies k) cols) (copies k y) false (fst a)); cbn in *; auto; contradiction. }
  specialize (K st st' S). destruct (foldM _ L0 st) as [fin|], (foldM _ L1 st') as [fin'|]; cbn in *; auto.
  split; auto. clear -PL K. induction PL; cbn; constructor; auto.
Qed.
Lemma sp_copies i : ends_related (fun t t' => forall q, ends_related eq (sp_predict O num rnd t q) (sp_predict O num rnd t' q))
    (sp_fit O num continuous [] cols y false i) (sp_fit O num continuous [] (map (copies k) cols) (copies k y) false i).
Proof.
  pose proof (sp_fit_copies i [] [] (same_state_nil O num rnd)) as K.
  destruct (sp_fit _ _ _ [] cols y false i), (sp_fit _ _ _ [] (map (copies k) cols) (copies k y) false i); cbn in *; auto. intros q. now apply sp_predict_perm.
Qed.
Lemma ao_copies m : ends_related (fun t t' => forall q, ends_related eq (ao_predict O num rnd (snd t) q) (ao_predict O num rnd (snd t') q))
    (ao_fit O num continuous [] cols y false m) (ao_fit O num continuous [] (map (copies k) cols) (copies k y) false (k * m)).
Proof.
  pose proof (ao_fit_copies m [] [] (same_state_nil O num rnd)) as K.
  destruct (ao_fit _ _ _ [] cols y false m), (ao_fit _ _ _ [] (map (copies k) cols) (copies k y) false (k * m)); cbn in *; auto. intros q. now apply ao_predict_perm.
Qed.
End Table.
End BayesCopies.
