(** Proofs about the order of the training rows: the Bayes classifiers (C90). *)
From Coq Require Import List ZArith Reals Lra Lia Bool Arith Permutation.
From Verif.Model Require Import Base Bayes.
From Verif.Spec Require Import Common Bayes RowOrder.
From Verif.Proof Require Import BaseLemmas Counting Bayes BayesMain RowOrder.
Import ListNotations.
Local Open Scope R_scope.

Lemma filter_perm {A} (f : A -> bool) D E : Permutation D E -> Permutation (filter f D) (filter f E).
Proof. apply TwoLevel.filter_perm. Qed.

(** ** Reordered lists *)
Lemma reordered_combine {A B} p : forall (l l' : list A) (m m' : list B), reordered p l l' -> reordered p m m' ->
  reordered p (combine l m) (combine l' m').
Proof.
  unfold reordered. induction p as [|i p IH]; intros l l' m m' H K; cbn in *.
  - destruct l'; [reflexivity|discriminate].
  - destruct l' as [|a l']; [discriminate|]. destruct m' as [|b m']; [discriminate|]. cbn in *.
    injection H as Ha H. injection K as Kb K. rewrite (IH l l' m m' H K). f_equal.
    clear -Ha Kb. revert l m Ha Kb. induction i as [|i IH]; intros [|u l] [|w m] Ha Kb; cbn in *; try discriminate; try congruence.
    now apply IH.
Qed.
Lemma reordered_map {A B} (f : A -> B) p l l' : reordered p l l' -> reordered p (map f l) (map f l').
Proof.
  unfold reordered. intros H. rewrite map_map. transitivity (map (option_map f) (map Some l')); [now rewrite map_map|].
  rewrite H, map_map. apply map_ext. clear H. intros i. revert i. induction l; intros [|i]; cbn; auto.
Qed.
Lemma reordered_perm {A} p (l l' : list A) : Permutation p (seq 0 (length l)) -> reordered p l l' -> Permutation l l'.
Proof.
  unfold reordered. intros P H. apply (Permutation_map (nth_error l)) in P. rewrite <- H in P.
  assert (E : map (nth_error l) (seq 0 (length l)) = map Some l).
  { clear. induction l as [|a l IH]; cbn; auto. f_equal. rewrite <- seq_shift, map_map. exact IH. }
  rewrite E in P. apply (Permutation_flat_map (fun o => match o with Some a => [a] | None => [] end)) in P.
  assert (F : forall k : list A, flat_map (fun o => match o with Some a => [a] | None => [] end) (map Some k) = k).
  { induction k; cbn; congruence. }
  rewrite !F in P. now symmetry.
Qed.
Lemma Forall2_weaken {A B} (P Q : A -> B -> Prop) l m : (forall a b, P a b -> Q a b) -> Forall2 P l m -> Forall2 Q l m.
Proof. intros H. induction 1; constructor; auto. Qed.

Section Order.
Context {A : Type} (O : TotalOrder A).
Variable num : A -> R.
Variable continuous : list A -> bool.
Hypothesis kind : kind_of_values continuous.
Variable rnd : R -> R.

Lemma unique_perm l m : Permutation l m -> Permutation (unique O l) (unique O m).
Proof.
  intros P. apply NoDup_Permutation; auto using unique_NoDup. intros x. rewrite !unique_In. split; apply Permutation_in; auto. now symmetry.
Qed.
Lemma occurrences_perm v l m : Permutation l m -> occurrences O v l = occurrences O v m.
Proof. apply count_perm. Qed.
Lemma mean_var_perm l m : Permutation l m -> mean_var l = mean_var m.
Proof.
  intros P. destruct l, m; auto; try (apply Permutation_nil in P; discriminate); try (symmetry in P; apply Permutation_nil in P; discriminate).
  cbn [mean_var]. f_equal. f_equal; [now apply rmean_perm|]. unfold rvar. rewrite (rmean_perm _ _ P). now apply rmean_perm, Permutation_map.
Qed.
Lemma of_class_perm y c (col : list A) y' col' : Permutation (combine col y) (combine col' y') ->
  Permutation (of_class y c col) (of_class y' c col').
Proof. intros P. unfold of_class. now apply Permutation_map, filter_perm. Qed.

(** ** Naive Bayes *)
Variable vc : list A -> list A.
(** What an attribute adds to the scores does not depend on the order of the rows if
    it is continuous, or if its values appear in order of frequency. *)
Definition settled (col : list A) : Prop := continuous col = true \/ vc col = unique O col.
Lemma dict_unique_perm {B} (f : A -> B) l m v : Permutation l m ->
  dict_get O (map (fun v => (v, f v)) (unique O l)) v = dict_get O (map (fun v => (v, f v)) (unique O m)) v.
Proof.
  intros P.
  assert (N : forall u, ~ In v u -> dict_get O (map (fun v => (v, f v)) u) v = None).
  { induction u as [|x u IH]; intros H; cbn; auto. destruct (eqb O v x) eqn:E; [apply eqb_true in E; subst; cbn in H; tauto|]. apply IH. cbn in H. tauto. }
  destruct (mem O v l) eqn:E.
  - apply mem_In in E. rewrite !dict_map_get; auto; rewrite unique_In; auto. eapply Permutation_in; eauto.
  - apply mem_not in E. rewrite !N; auto; rewrite unique_In; auto. intros H. apply E. eapply Permutation_in; [symmetry; exact P|exact H].
Qed.
Lemma nb_attribute_perm y col y' col' s : length col = length y -> Permutation (combine col y) (combine col' y') -> length col' = length y' ->
  settled col -> settled col' ->
  ends_related (fun i i' => forall v, nb_term O num rnd s i v = nb_term O num rnd s i' v)
    (nb_attribute O num continuous vc y col) (nb_attribute O num continuous vc y' col').
Proof.
  intros L P L' S S'. unfold nb_attribute.
  pose proof (of_class_perm y 0 _ _ _ P) as P0. pose proof (of_class_perm y 1 _ _ _ P) as P1.
  assert (Pc : Permutation col col') by (apply (same_rows_fst col y col' y'); repeat split; auto).
  rewrite <- (kind _ _ Pc). destruct (continuous col) eqn:K.
  - cbn. intros v. rewrite (mean_var_perm _ _ (Permutation_map num P0)), (mean_var_perm _ _ (Permutation_map num P1)). reflexivity.
  - destruct S as [S|S]; [congruence|]. destruct S' as [S'|S']; [rewrite <- (kind _ _ Pc) in S'; congruence|].
    rewrite <- (Permutation_length (unique_perm _ _ Pc)). destruct (length (unique O col) =? 1)%nat; [exact I|].
    cbn [ends_related]. intros v. rewrite S, S', !combine_map_self. cbn [nb_term].
    rewrite <- (Permutation_length P0), <- (Permutation_length P1).
    unfold dict_lookup.
    assert (E : forall c, Permutation (of_class y c col) (of_class y' c col') ->
      dict_get O (map (fun v => (v, occurrences O v (of_class y c col))) (unique O col)) v =
      dict_get O (map (fun v => (v, occurrences O v (of_class y' c col'))) (unique O col')) v).
    { intros c Q. rewrite (dict_unique_perm _ _ _ v Pc). f_equal. apply map_ext. intros w. f_equal. now apply occurrences_perm. }
    rewrite (E _ P0), (E _ P1). reflexivity.
Qed.

Lemma prior_perm (y y' : list Z) s : Permutation y y' ->
  get_prior_probability (length y) y s = get_prior_probability (length y') y' s.
Proof.
  intros P. unfold get_prior_probability.
  now rewrite (Permutation_length P), (count_perm _ _ _ P), (Permutation_length (nodup_perm Z.eq_dec _ _ P)).
Qed.

Lemma foldM_pointwise {X Y S} (R : X -> Y -> Prop) (f : S -> X -> result S) (g : S -> Y -> result S) l m :
  Forall2 R l m -> (forall s a b, R a b -> ends_related eq (f s a) (g s b)) -> forall s, ends_related eq (foldM f l s) (foldM g m s).
Proof.
  intros F H. induction F as [|a b l m Hab F IH]; intros s; cbn; auto.
  pose proof (H s a b Hab) as K. destruct (f s a), (g s b); cbn in *; auto; try contradiction. subst. apply IH.
Qed.
Lemma enumerate_rel {X Y} (R : X -> Y -> Prop) l m : Forall2 R l m ->
  Forall2 (fun a b => fst a = fst b /\ R (snd a) (snd b)) (enumerate l) (enumerate m).
Proof.
  intros F. unfold enumerate. assert (L : length l = length m) by (clear -F; induction F; cbn; auto). rewrite <- L. clear L. generalize 0%nat.
  induction F; intros k; cbn; constructor; auto.
Qed.
Lemma ends_refl {X} (r : result X) : ends_related eq r r.
Proof. destruct r; cbn; auto. Qed.

Lemma nb_scores_rel m m' q : nb_p0 m = nb_p0 m' -> nb_p1 m = nb_p1 m' -> nb_smoothing m = nb_smoothing m' ->
  Forall2 (fun i i' => forall v, nb_term O num rnd (nb_smoothing m) i v = nb_term O num rnd (nb_smoothing m) i' v) (nb_pi m) (nb_pi m') ->
  ends_related eq (nb_scores O num rnd m q) (nb_scores O num rnd m' q).
Proof.
  intros E0 E1 Es F. unfold nb_scores. rewrite <- E0, <- E1, <- Es. eapply foldM_pointwise; [apply (enumerate_rel _ _ _ F)|].
  intros s [i a] [j b] [E H]. cbn in E, H. subst j. cbn. destruct (get_at q i); cbn; auto. rewrite H. apply ends_refl.
Qed.

Lemma nb_perm cols y cols' y' s : same_table cols y cols' y' -> Forall settled cols -> Forall settled cols' ->
  ends_related (fun m m' => forall q, ends_related eq (nb_predict O num rnd m q) (nb_predict O num rnd m' q))
    (nb_fit O num continuous vc cols y s) (nb_fit O num continuous vc cols' y' s).
Proof.
  intros (p & P & Py & F) S S'. unfold nb_fit. rewrite <- (prior_perm _ _ s (reordered_perm _ _ _ P Py)).
  destruct (get_prior_probability (length y) y s) as [[p0 p1]|]; cbn [bind]; [|exact I].
  assert (M : ends_related (fun l l' => Forall2 (fun i i' => forall v, nb_term O num rnd s i v = nb_term O num rnd s i' v) l l')
    (mapM (nb_attribute O num continuous vc y) cols) (mapM (nb_attribute O num continuous vc y') cols')).
  { induction F as [|c c' cs cs' [L Rc] F IH]; cbn; [constructor|].
    inversion S as [|? ? S1 S2]; subst. inversion S' as [|? ? S1' S2']; subst.
    pose proof (reordered_combine _ _ _ _ _ Rc Py) as Rcy.
    assert (Pcy : Permutation (combine c y) (combine c' y')).
    { eapply reordered_perm; [|exact Rcy]. rewrite combine_length, L, Nat.min_id. exact P. }
    assert (L' : length c' = length y').
    { assert (Q1 : Permutation c c') by (eapply reordered_perm; [|exact Rc]; now rewrite L).
      rewrite <- (Permutation_length Q1), <- (Permutation_length (reordered_perm _ _ _ P Py)). exact L. }
    pose proof (nb_attribute_perm y c y' c' s L Pcy L' S1 S1') as E. specialize (IH S2 S2').
    destruct (nb_attribute O num continuous vc y c), (nb_attribute O num continuous vc y' c'); cbn [bind ends_related] in *; auto; try contradiction.
    destruct (mapM _ cs), (mapM _ cs'); cbn in *; auto; contradiction. }
  destruct (mapM _ cols) as [pi|], (mapM _ cols') as [pi'|]; cbn [bind ends_related] in *; auto.
  intros q. unfold nb_predict.
  pose proof (nb_scores_rel {| nb_p0 := p0; nb_p1 := p1; nb_pi := pi; nb_smoothing := s |}
    {| nb_p0 := p0; nb_p1 := p1; nb_pi := pi'; nb_smoothing := s |} q eq_refl eq_refl eq_refl M) as K. cbn [fst snd].
  destruct (nb_scores _ _ _ _ q), (nb_scores _ _ _ {| nb_p0 := p0; nb_p1 := p1; nb_pi := pi'; nb_smoothing := s |} q); cbn in *; auto. now subst.
Qed.

(** ** One-dependence estimators *)
(** Entries that add the same to every score. *)
Definition same_entry (e e' : @sp_entry A) : Prop :=
  category e = category e' /\ sp_value e = sp_value e' /\ forall q, sp_entry_log O num rnd q e = sp_entry_log O num rnd q e'.
Definition same_state (st st' : list (@sp_entry A)) : Prop := exists m, Permutation st m /\ Forall2 same_entry m st'.

Lemma sp_attribute_perm y s c y' sel sel' (col col' : list A) :
  Permutation (combine col sel) (combine col' sel') -> Permutation (combine col y) (combine col' y') -> Permutation col col' ->
  forall v, sp_info_log O num rnd (sp_attribute O num continuous y s c sel col) v =
            sp_info_log O num rnd (sp_attribute O num continuous y' s c sel' col') v.
Proof.
  intros Ps Py Pc v. unfold sp_attribute.
  assert (Pk : Permutation (pick sel col) (pick sel' col')) by (unfold pick; now apply Permutation_map, filter_perm).
  rewrite <- (kind _ _ Pc), <- (Permutation_length Pk). destruct (continuous col).
  - f_equal. f_equal. destruct (_ <=? 2)%nat.
    + now apply mean_var_perm, Permutation_map, of_class_perm.
    + now apply mean_var_perm, Permutation_map.
  - cbn [sp_info_log]. unfold dict_lookup. rewrite <- (Permutation_length (unique_perm _ _ Pc)), (dict_unique_perm _ _ _ v Pc).
    rewrite (map_ext (fun v => (v, occurrences O v (pick sel col))) (fun v => (v, occurrences O v (pick sel' col')))); auto.
    intros w. f_equal. now apply occurrences_perm.
Qed.

Lemma entry_log_rel q e e' : p_c_xi e = p_c_xi e' ->
  Forall2 (fun i i' => forall v, sp_info_log O num rnd i v = sp_info_log O num rnd i' v) (infos e) (infos e') ->
  sp_entry_log O num rnd q e = sp_entry_log O num rnd q e'.
Proof.
  intros E F. unfold sp_entry_log. rewrite <- E. apply enumerate_rel in F. generalize (elog (Some (p_c_xi e))).
  induction F as [|[i a] [j b] l m [Ei H] F IH]; intros s; cbn; auto. cbn in Ei, H. subst j.
  destruct (get_at q i) as [v|]; cbn; auto. rewrite <- H. destruct (sp_info_log O num rnd a v); cbn; auto.
Qed.

Lemma zsort_perm y y' : Permutation y y' -> zsort y = zsort y'.
Proof. intros P. unfold zsort. apply np_unique_ext. intros x. split; apply Permutation_in; auto. now symmetry. Qed.

Lemma mapM_pointwise {X Y C D} (R : X -> Y -> Prop) (S : C -> D -> Prop) (f : X -> result C) (g : Y -> result D) l m :
  Forall2 R l m -> (forall a b, In a l -> R a b -> ends_related S (f a) (g b)) ->
  ends_related (fun u v => Forall2 S u v) (mapM f l) (mapM g m).
Proof.
  induction 1 as [|a b l m Hab HF IH]; intros H; cbn; [constructor|].
  pose proof (H a b (or_introl eq_refl) Hab) as K.
  destruct (f a), (g b); cbn in *; auto; try contradiction.
  assert (K2 : ends_related (fun u v => Forall2 S u v) (mapM f l) (mapM g m)) by (apply IH; auto).
  destruct (mapM f l), (mapM g m); cbn in *; auto; contradiction.
Qed.

Section Table.
Variable p : list nat.
Variables y y' : list Z.
Hypothesis P : Permutation p (seq 0 (length y)).
Hypothesis Py : reordered p y y'.
Variables cols cols' : list (list A).
Hypothesis F : Forall2 (fun c c' => length c = length y /\ reordered p c c') cols cols'.

Lemma sp_table_perm s parent parent' : length parent = length y -> reordered p parent parent' ->
  ends_related same_state (sp_table O num continuous cols y s parent) (sp_table O num continuous cols' y' s parent').
Proof.
  intros L Pp. unfold sp_table.
  assert (Pyy : Permutation y y') by now apply (reordered_perm p).
  assert (Ppp : Permutation parent parent') by (apply (reordered_perm p); [now rewrite L|auto]).
  set (L0 := flat_map (fun c => map (fun v => (c, v)) (unique O parent)) (zsort y)).
  set (L1 := flat_map (fun c => map (fun v => (c, v)) (unique O parent')) (zsort y')).
  assert (PL : Permutation L0 L1).
  { unfold L0, L1. rewrite <- (zsort_perm _ _ Pyy). apply NoDup_Permutation.
    - apply pairs_NoDup; [apply zsort_NoDup|apply unique_NoDup].
    - apply pairs_NoDup; [apply zsort_NoDup|apply unique_NoDup].
    - intros [c v]. rewrite !pairs_In, !unique_In. split; intros [H1 H2]; (split; [exact H1|]); [exact (Permutation_in _ Ppp H2)|exact (Permutation_in _ (Permutation_sym Ppp) H2)]. }
  set (f := fun cv : Z * A => let sel := selected O y (fst cv) (snd cv) parent in
     q <- get_dependent_prior_probability (count (fun b => b) sel) (length y) (length (unique O parent)) s ;;
     Ok {| category := fst cv; sp_value := snd cv; p_c_xi := q; infos := map (sp_attribute O num continuous y s (fst cv) sel) cols |}).
  set (f' := fun cv : Z * A => let sel := selected O y' (fst cv) (snd cv) parent' in
     q <- get_dependent_prior_probability (count (fun b => b) sel) (length y') (length (unique O parent')) s ;;
     Ok {| category := fst cv; sp_value := snd cv; p_c_xi := q; infos := map (sp_attribute O num continuous y' s (fst cv) sel) cols' |}).
  assert (E : forall cv, ends_related same_entry (f cv) (f' cv)).
  { intros [c v]. unfold f, f'. cbn zeta. cbn [fst snd].
    assert (Rs : reordered p (selected O y c v parent) (selected O y' c v parent')).
    { unfold selected. apply reordered_map. now apply reordered_combine. }
    assert (Ls : length (selected O y c v parent) = length y) by now apply selected_length.
    assert (Ps : Permutation (selected O y c v parent) (selected O y' c v parent')) by (apply (reordered_perm p); [now rewrite Ls|auto]).
    rewrite <- (count_perm _ _ _ Ps), <- (Permutation_length Pyy), <- (Permutation_length (unique_perm _ _ Ppp)).
    destruct (get_dependent_prior_probability _ _ _ s) as [pr|]; cbn [bind ends_related]; auto.
    split; [reflexivity|]. split; [reflexivity|]. intros q. apply entry_log_rel; [reflexivity|]. cbn [infos].
    clear -F P Py Rs Ls kind vc rnd. induction F as [|k k' ks ks' [Lk Rk] F' IH]; cbn; constructor; auto.
    intros w. apply sp_attribute_perm.
    - apply (reordered_perm p); [rewrite combine_length, Lk, Ls, Nat.min_id; exact P|]. now apply reordered_combine.
    - apply (reordered_perm p); [rewrite combine_length, Lk, Nat.min_id; exact P|]. now apply reordered_combine.
    - apply (reordered_perm p); [now rewrite Lk|auto]. }
  pose proof (mapM_perm_related f _ _ PL) as M1.
  assert (M2 : ends_related (fun u w => Forall2 same_entry u w) (mapM f L1) (mapM f' L1)).
  { apply (mapM_pointwise eq); [clear; induction L1; constructor; auto|]. intros a b _ <-. apply E. }
  fold f. fold f'. change (ends_related same_state (mapM f L0) (mapM f' L1)).
  destruct (mapM f L0) as [t|], (mapM f L1) as [t1|], (mapM f' L1) as [t'|]; cbn in *; auto; try contradiction.
  exists t1. split; [eapply same_rows_snd; eauto|auto].
Qed.

Lemma same_state_app a a' b b' : same_state a a' -> same_state b b' -> same_state (a ++ b) (a' ++ b').
Proof.
  intros (m & P1 & F1) (n & P2 & F2). exists (m ++ n). split; [now apply Permutation_app|now apply Forall2_app].
Qed.
Lemma get_at_rel {X Y} (R : X -> Y -> Prop) l m : Forall2 R l m -> forall i, ends_related R (get_at l i) (get_at m i).
Proof. unfold get_at. induction 1; intros [|i]; cbn; auto. Qed.
Lemma sp_fit_perm s i st st' : same_state st st' ->
  ends_related same_state (sp_fit O num continuous st cols y s i) (sp_fit O num continuous st' cols' y' s i).
Proof.
  intros S. unfold sp_fit. pose proof (get_at_rel _ _ _ F i) as G.
  destruct (get_at cols i) as [c|], (get_at cols' i) as [c'|]; cbn [bind ends_related] in *; auto; try contradiction.
  destruct G as [L Rc]. pose proof (sp_table_perm s c c' L Rc) as T.
  destruct (sp_table O num continuous cols y s c), (sp_table O num continuous cols' y' s c'); cbn in *; auto.
  now apply same_state_app.
Qed.

Lemma eligible_perm m c c' : length c = length y -> reordered p c c' -> ao_eligible O continuous m c = ao_eligible O continuous m c'.
Proof.
  intros L Rc. assert (Pc : Permutation c c') by (apply (reordered_perm p); [now rewrite L|auto]).
  unfold ao_eligible. rewrite <- (kind _ _ Pc). f_equal.
  assert (E : forall u u', Permutation u u' -> forallb (fun v => (m <? occurrences O v c)%nat) u = forallb (fun v => (m <? occurrences O v c)%nat) u').
  { generalize (fun v => (m <? occurrences O v c)%nat). intros g. induction 1 as [|a u u' _ IH|a b u|u1 u2 u3 _ IH1 _ IH2]; cbn [forallb]; auto.
    - now rewrite IH.
    - destruct (g a), (g b); reflexivity.
    - congruence. }
  rewrite (E _ _ (unique_perm _ _ Pc)). generalize (unique O c'). clear -Pc vc rnd. induction l as [|a l IH]; cbn [forallb]; auto. now rewrite IH, (occurrences_perm a _ _ Pc).
Qed.
Lemma ao_fit_perm s m st st' : same_state st st' ->
  ends_related (fun r r' => same_state (fst r) (fst r') /\ Forall2 same_state (snd r) (snd r'))
    (ao_fit O num continuous st cols y s m) (ao_fit O num continuous st' cols' y' s m).
Proof.
  intros S. unfold ao_fit. cbn zeta.
  set (L0 := filter (fun q => ao_eligible O continuous m (snd q)) (enumerate cols)).
  set (L1 := filter (fun q => ao_eligible O continuous m (snd q)) (enumerate cols')).
  assert (PL : Forall2 (fun a b => fst a = fst b) L0 L1).
  { unfold L0, L1. pose proof (enumerate_rel _ _ _ F) as E.
    induction E as [|[i c] [j c'] l k [Ei [L Rc]] E IH]; cbn; [constructor|]. cbn in Ei, L, Rc. subst j.
    rewrite <- (eligible_perm m c c' L Rc). destruct (ao_eligible O continuous m c); [constructor|]; auto. }
  assert (K : forall st st', same_state st st' -> ends_related same_state
     (foldM (fun st q => sp_fit O num continuous st cols y s (fst q)) L0 st) (foldM (fun st q => sp_fit O num continuous st cols' y' s (fst q)) L1 st')).
  { clear S st st'. induction PL as [|a b l k E PL IH]; intros st st' S; cbn; auto. rewrite <- E.
    pose proof (sp_fit_perm s (fst a) _ _ S) as T.
    destruct (sp_fit O num continuous st cols y s (fst a)), (sp_fit O num continuous st' cols' y' s (fst a)); cbn in *; auto; contradiction. }
  specialize (K st st' S). destruct (foldM _ L0 st) as [fin|], (foldM _ L1 st') as [fin'|]; cbn in *; auto.
  split; auto. clear -PL K. induction PL; cbn; constructor; auto.
Qed.
End Table.

(** ** Scores *)
Definition pair_add (s t : ext * ext) : ext * ext := (eadd (fst s) (fst t), eadd (snd s) (snd t)).
Lemma eadd_comm a b : eadd a b = eadd b a.
Proof. destruct a, b; cbn; auto. now rewrite Rplus_comm. Qed.
Lemma pair_swap a b c : pair_add a (pair_add b c) = pair_add b (pair_add a c).
Proof. unfold pair_add; cbn. now rewrite !eadd_assoc, (eadd_comm (fst a)), (eadd_comm (snd a)). Qed.
Lemma scores_as_sum q st : sp_scores O num rnd st q =
  (l <- mapM (sp_step O num rnd q (Fin 0, Fin 0)) st ;; Ok (fold_right pair_add (Fin 0, Fin 0) l)).
Proof.
  induction st as [|e st IH]; [reflexivity|]. change (e :: st) with ([e] ++ st). rewrite scores_app, IH. cbn [mapM app].
  unfold sp_scores at 1. cbn [foldM]. destruct (sp_step O num rnd q (Fin 0, Fin 0) e) as [u|]; cbn [bind]; auto.
  destruct (mapM _ st); cbn; auto.
Qed.
Lemma scores_perm q st st' : same_state st st' -> ends_related eq (sp_scores O num rnd st q) (sp_scores O num rnd st' q).
Proof.
  intros (m & P & F). rewrite !scores_as_sum.
  pose proof (mapM_perm_related (sp_step O num rnd q (Fin 0, Fin 0)) _ _ P) as M1.
  assert (M2 : mapM (sp_step O num rnd q (Fin 0, Fin 0)) m = mapM (sp_step O num rnd q (Fin 0, Fin 0)) st').
  { clear -F. induction F as [|e e' l k (Ec & _ & El) F IH]; cbn; auto. rewrite IH.
    assert (E : sp_step O num rnd q (Fin 0, Fin 0) e = sp_step O num rnd q (Fin 0, Fin 0) e') by (unfold sp_step; now rewrite Ec, El).
    now rewrite E. }
  rewrite <- M2. destruct (mapM _ st) as [l|], (mapM _ m) as [k|]; cbn in *; auto.
  apply same_rows_snd in M1. clear -M1. induction M1; cbn; auto; [now rewrite IHM1|apply pair_swap|congruence].
Qed.
Lemma sp_predict_perm q st st' : same_state st st' -> ends_related eq (sp_predict O num rnd st q) (sp_predict O num rnd st' q).
Proof.
  intros S. unfold sp_predict. pose proof (scores_perm q _ _ S) as K.
  destruct (sp_scores O num rnd st q), (sp_scores O num rnd st' q); cbn in *; auto. now subst.
Qed.
Lemma same_state_filter v st st' : same_state st st' ->
  same_state (filter (fun e => eqb O (sp_value e) v) st) (filter (fun e => eqb O (sp_value e) v) st').
Proof.
  intros (m & P & F). exists (filter (fun e => eqb O (sp_value e) v) m). split; [now apply filter_perm|].
  clear P. induction F as [|e e' l k E F IH]; cbn; auto. destruct E as (E1 & E2 & E3). rewrite <- E2.
  destruct (eqb O (sp_value e) v); auto. constructor; auto. repeat split; auto.
Qed.
Lemma ao_predict_perm q ls ls' : Forall2 same_state ls ls' -> ends_related eq (ao_predict O num rnd ls q) (ao_predict O num rnd ls' q).
Proof.
  intros F. unfold ao_predict.
  assert (K : ends_related eq (ao_scores O num rnd ls q) (ao_scores O num rnd ls' q)).
  { unfold ao_scores. eapply foldM_pointwise; [apply (enumerate_rel _ _ _ F)|].
    intros s [i a] [j b] [E S]. cbn in E, S. subst j. cbn [fst snd]. destruct (get_at q i) as [v|]; cbn [bind]; [|exact I].
    rewrite !fold_filter. pose proof (scores_perm q _ _ (same_state_filter v _ _ S)) as T. unfold sp_scores in T.
    destruct (foldM _ (filter _ a) _), (foldM _ (filter _ b) _); cbn in *; auto. now subst. }
  destruct (ao_scores O num rnd ls q), (ao_scores O num rnd ls' q); cbn in *; auto. now subst.
Qed.

Lemma same_state_nil : same_state [] [].
Proof. exists []. split; auto. Qed.
Lemma sp_order cols y cols' y' s i : same_table cols y cols' y' ->
  ends_related (fun t t' => forall q, ends_related eq (sp_predict O num rnd t q) (sp_predict O num rnd t' q))
    (sp_fit O num continuous [] cols y s i) (sp_fit O num continuous [] cols' y' s i).
Proof.
  intros (p & P & Py & F). pose proof (sp_fit_perm p y y' P Py cols cols' F s i [] [] same_state_nil) as K.
  destruct (sp_fit _ _ _ [] cols y s i), (sp_fit _ _ _ [] cols' y' s i); cbn in *; auto. intros q. now apply sp_predict_perm.
Qed.
Lemma ao_order cols y cols' y' s m : same_table cols y cols' y' ->
  ends_related (fun t t' => forall q, ends_related eq (ao_predict O num rnd (snd t) q) (ao_predict O num rnd (snd t') q))
    (ao_fit O num continuous [] cols y s m) (ao_fit O num continuous [] cols' y' s m).
Proof.
  intros (p & P & Py & F). pose proof (ao_fit_perm p y y' P Py cols cols' F s m [] [] same_state_nil) as K.
  destruct (ao_fit _ _ _ [] cols y s m), (ao_fit _ _ _ [] cols' y' s m); cbn in *; auto. intros q. now apply ao_predict_perm.
Qed.
End Order.
