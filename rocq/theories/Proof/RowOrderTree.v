(** Proofs about the order of the training rows: decision trees (C90). *)
From Coq Require Import List ZArith Reals Lra Lia Bool Arith Permutation String.
From Verif.Model Require Import Base Tree Pruner.
From Verif.Spec Require Import Common Tree RowOrder.
From Verif.Proof Require Import BaseLemmas Counting Impurity Tree TreeGen Pruner RowOrder.
Import ListNotations.
Local Open Scope R_scope.
Local Notation length := List.length.

Lemma filter_perm {A} (f : A -> bool) D E : Permutation D E -> Permutation (filter f D) (filter f E).
Proof. apply TwoLevel.filter_perm. Qed.
Lemma forallb_perm {A} (f : A -> bool) l m : Permutation l m -> forallb f l = forallb f m.
Proof.
  induction 1; cbn; auto; try congruence. rewrite !andb_assoc. f_equal. apply andb_comm.
Qed.
Lemma existsb_perm {A} (f : A -> bool) l m : Permutation l m -> existsb f l = existsb f m.
Proof.
  induction 1; cbn; auto; try congruence. rewrite !orb_assoc. f_equal. apply orb_comm.
Qed.
Lemma pd_unique_perm {A} dec (l m : list A) : Permutation l m -> Permutation (pd_unique dec l) (pd_unique dec m).
Proof.
  intros P. apply NoDup_Permutation; auto using pd_unique_NoDup. intros x. rewrite !pd_unique_In.
  split; apply Permutation_in; auto. now symmetry.
Qed.
Lemma continuous_perm X X' D D' j : Permutation X X' -> Permutation D D' -> is_continuous X D j = is_continuous X' D' j.
Proof.
  intros P Q. unfold is_continuous. now rewrite (forallb_perm _ _ _ (Permutation_map _ P)), (existsb_perm _ _ _ Q).
Qed.
Lemma split_value_perm c D D' t : Permutation D D' -> split_value (impurity c) D t = split_value (impurity c) D' t.
Proof.
  intros P. unfold split_value.
  pose proof (Permutation_map snd (filter_perm (fun p => Rleb t (fst p)) _ _ P)) as U.
  pose proof (Permutation_map snd (filter_perm (fun p => Rltb (fst p) t) _ _ P)) as L.
  now rewrite (Permutation_length U), (Permutation_length L), (Permutation_length P), (impurity_perm c _ _ U), (impurity_perm c _ _ L).
Qed.
Lemma continuous_value_perm c D D' : Permutation D D' -> get_value_continuous (impurity c) D = get_value_continuous (impurity c) D'.
Proof.
  intros P. unfold get_value_continuous.
  rewrite (np_unique_ext ROrder (map fst D) (map fst D')).
  - unfold best_threshold. apply fold_left_ext. intros b t _. now rewrite (split_value_perm c _ _ t P).
  - intros x. split; apply Permutation_in, Permutation_map; auto. now symmetry.
Qed.
Lemma discrete_value_perm c D D' : Permutation D D' -> get_value_discrete (impurity c) D = get_value_discrete (impurity c) D'.
Proof.
  intros P. unfold get_value_discrete.
  rewrite (map_ext _ (fun v => let Dv := map snd (filter (fun p => if cell_eq_dec v (fst p) then true else false) D') in
    INR (length Dv) / INR (length D') * impurity c Dv)).
  - apply rsum_map_perm, pd_unique_perm, Permutation_map, P.
  - intros v. cbn zeta. pose proof (Permutation_map snd (filter_perm (fun p => if cell_eq_dec v (fst p) then true else false) _ _ P)) as U.
    now rewrite (Permutation_length U), (Permutation_length P), (impurity_perm c _ _ U).
Qed.
Lemma attribute_value_perm c X X' D D' j : Permutation X X' -> Permutation D D' -> attribute_value c X D j = attribute_value c X' D' j.
Proof.
  intros P Q. unfold attribute_value. rewrite (continuous_perm _ _ _ _ j P (Permutation_map fst Q)).
  rewrite (continuous_value_perm c _ _ (Permutation_map _ Q)), (discrete_value_perm c _ _ (Permutation_map _ Q)).
  now rewrite (entropy_perm _ _ (Permutation_map snd Q)).
Qed.
Lemma optimal_division_perm c X X' D D' cols : Permutation X X' -> Permutation D D' ->
  optimal_division c X D cols = optimal_division c X' D' cols.
Proof.
  intros P Q. unfold optimal_division. apply fold_left_ext. intros b j _. now rewrite (attribute_value_perm c _ _ _ _ j P Q).
Qed.

(** ** Sequences of results *)
Lemma mapM_pointwise {A B C D} (R : A -> B -> Prop) (S : C -> D -> Prop) (f : A -> result C) (g : B -> result D) l m :
  Forall2 R l m -> (forall a b, In a l -> R a b -> ends_related S (f a) (g b)) ->
  ends_related (fun u v => Forall2 S u v) (mapM f l) (mapM g m).
Proof.
  induction 1 as [|a b l m Hab HF IH]; intros H; cbn; [constructor|].
  pose proof (H a b (or_introl eq_refl) Hab) as K.
  destruct (f a), (g b); cbn in *; auto; try contradiction.
  assert (K2 : ends_related (fun u v => Forall2 S u v) (mapM f l) (mapM g m)) by (apply IH; auto).
  destruct (mapM f l), (mapM g m); cbn in *; auto; contradiction.
Qed.
Lemma mapM_fst {A B} (f : A -> result (A * B)) l ks : (forall a k, f a = Ok k -> fst k = a) -> mapM f l = Ok ks -> map fst ks = l.
Proof.
  intros H. revert ks. induction l as [|a l IH]; intros ks E; cbn in E; [injection E as <-; auto|].
  apply bind_Ok in E. destruct E as (k & Ek & E). apply bind_Ok in E. destruct E as (bs & Eb & E). injection E as <-.
  cbn. rewrite (H _ _ Ek), (IH _ Eb). reflexivity.
Qed.

(** ** Trees that differ in the order of the branches *)
Section Same.
Variable st : Prop.

Lemma same_leaves t t' : same_branches st t t' -> num_of_leaves t = num_of_leaves t'.
Proof. destruct 1; reflexivity. Qed.
Lemma same_height t t' : st -> same_branches st t t' -> height t = height t'.
Proof. intros S [l|j v p n h h' g g' l l' E|j v n h h' k k' k'' E]; cbn; auto. Qed.
Lemma same_is_leaf t t' : same_branches st t t' -> is_leaf t = is_leaf t'.
Proof. destruct 1; reflexivity. Qed.

Lemma kid_perm {A} (kids kids' : list (cell * A)) a : NoDup (map fst kids) -> Permutation kids kids' -> kid kids a = kid kids' a.
Proof.
  intros N P. assert (N' : NoDup (map fst kids')) by (eapply Permutation_NoDup; [apply Permutation_map, P|exact N]).
  assert (U : forall (ks : list (cell * A)) k, NoDup (map fst ks) -> In (a, k) ks -> kid ks a = Some k).
  { clear. induction ks as [|[b v] ks IH]; intros k N I; [destruct I|]. cbn in *. inversion N as [|? ? Nb Nk]; subst.
    destruct I as [E|I].
    - injection E as -> ->. destruct (cell_eq_dec a a); congruence.
    - destruct (cell_eq_dec a b) as [->|]; [|now apply IH]. exfalso. apply Nb. change b with (fst (b, k)). now apply in_map. }
  destruct (kid kids a) as [k|] eqn:E.
  - apply kid_In in E. symmetry. apply U; auto. eapply Permutation_in; eauto.
  - destruct (kid kids' a) as [k|] eqn:E'; auto. apply kid_In in E'. apply Permutation_sym in P.
    apply (Permutation_in _ P) in E'. rewrite (U _ _ N E') in E. discriminate.
Qed.
Lemma same_predict t : forall t' r, same_branches st t t' -> predict t r = predict t' r.
Proof.
  induction t as [l|j v p n h g l IHg IHl|j v n h kids IHk] using tree_ind'; intros t' r H.
  - inversion H; subst. reflexivity.
  - inversion H; subst. cbn. destruct (get_at r j) as [[x|s]|]; cbn; auto. rewrite (IHg g' r), (IHl l' r); auto.
  - inversion H as [| |? ? ? ? ? ? kids' kids'' E N P F]; subst. rewrite !predict_disc. destruct (get_at r j) as [a|]; cbn; auto.
    rewrite (kid_perm _ _ a N P).
    assert (K : forall b k, In (b, k) kids' -> forall t', same_branches st k t' -> predict k r = predict t' r).
    { intros b k I t' S. apply (IHk b); auto. eapply Permutation_in; [apply Permutation_sym, P|exact I]. }
    clear -F K. induction F as [|[b k] [b' k'] ks ks' [E S] F IH]; cbn; auto. cbn in E, S. subst b'.
    destruct (cell_eq_dec a b); [apply (K b); cbn; auto|]. apply IH. intros; eapply K; cbn; eauto.
Qed.

Definition rel_kids (kids kids'' : list (cell * tree)) : Prop := exists kids', Permutation kids kids' /\
  Forall2 (fun k k' => fst k = fst k' /\ same_branches st (snd k) (snd k')) kids' kids''.

Lemma fold_left_perm {A B} (f : B -> A -> B) l m : (forall b x y, f (f b x) y = f (f b y) x) -> Permutation l m ->
  forall b, fold_left f l b = fold_left f m b.
Proof. intros C. induction 1; intros b; cbn; auto; [now rewrite C|]. now rewrite IHPermutation1, IHPermutation2. Qed.
Lemma kids_leaves kids kids'' : rel_kids kids kids'' ->
  fold_left (fun n k => n + num_of_leaves (snd k))%nat kids 0%nat = fold_left (fun n k => n + num_of_leaves (snd k))%nat kids'' 0%nat.
Proof.
  intros (kids' & P & F). rewrite (fold_left_perm _ kids kids'); [|intros; lia|exact P].
  generalize 0%nat. clear P. induction F as [|k k' ks ks' [_ S] F IH]; intros n; cbn; auto. now rewrite (same_leaves _ _ S), IH.
Qed.
Lemma kids_height kids kids'' : st -> rel_kids kids kids'' ->
  fold_left (fun m k => if (m <? height (snd k))%Z then height (snd k) else m) kids (-1)%Z =
  fold_left (fun m k => if (m <? height (snd k))%Z then height (snd k) else m) kids'' (-1)%Z.
Proof.
  intros Hs (kids' & P & F). rewrite (fold_left_perm _ kids kids').
  - generalize (-1)%Z. clear P. induction F as [|k k' ks ks' [_ S] F IH]; intros n; cbn; auto. now rewrite (same_height _ _ Hs S), IH.
  - assert (M : forall a b, (if (a <? b)%Z then b else a) = Z.max a b) by (intros a b; destruct (Z.ltb_spec a b); lia).
    intros b x y. rewrite !M. lia.
  - exact P.
Qed.
Lemma kids_forall_leaf kids kids'' : rel_kids kids kids'' -> forallb (fun k => is_leaf (snd k)) kids = forallb (fun k => is_leaf (snd k)) kids''.
Proof.
  intros (kids' & P & F). rewrite (forallb_perm _ _ _ P). clear P.
  induction F as [|k k' ks ks' [_ S] F IH]; cbn; auto. now rewrite (same_is_leaf _ _ S), IH.
Qed.
Lemma kids_refl kids : (forall a k, In (a, k) kids -> same_branches st k k) -> rel_kids kids kids.
Proof.
  intros H. exists kids. split; auto. induction kids as [|[a k] ks IH]; constructor.
  - split; auto. apply (H a). now left.
  - apply IH. intros b k' I. apply (H b). now right.
Qed.
End Same.

(** ** Growing *)
Section Grow.
Variable top : list Z -> Z.
Hypothesis Htop : order_blind top.
Variable rnd : R -> R.
Variable c : criterion.
Variable X X' : list row.
Hypothesis HX : Permutation X X'.

Lemma most_common_perm y y' : Permutation y y' -> most_common top y = most_common top y'.
Proof.
  intros P. destruct y, y'; auto; try (apply Permutation_nil in P; discriminate); try (symmetry in P; apply Permutation_nil in P; discriminate).
  cbn. now rewrite (Htop _ _ P).
Qed.

Lemma generate_perm f : forall xe cols D D', Permutation D D' ->
  ends_related (same_branches True) (generate top rnd c X f xe cols D) (generate top rnd c X' f xe cols D').
Proof.
  induction f as [|f IH]; intros xe cols D D' P; [exact I|]. rewrite !generate_unfold. cbn zeta.
  pose proof (Permutation_map snd P) as Py.
  rewrite <- (Permutation_length (nodup_perm Z.eq_dec _ _ Py)).
  destruct (Nat.eqb_spec (length (nodup Z.eq_dec (map snd D))) 1) as [E1|_].
  { assert (A : forall a b, In a (map snd D) -> In b (map snd D) -> a = b).
    { intros a b Ha Hb. apply (nodup_In Z.eq_dec) in Ha, Hb. destruct (nodup Z.eq_dec (map snd D)) as [|u [|]]; cbn in E1; try lia.
      destruct Ha as [<-|[]], Hb as [<-|[]]. reflexivity. }
    destruct (map snd D) as [|u y], (map snd D') as [|u' y']; try exact I;
      try (apply Permutation_nil in Py; discriminate); try (symmetry in Py; apply Permutation_nil in Py; discriminate).
    cbn. rewrite (A u' u); [constructor| |now left]. eapply Permutation_in; [symmetry; exact Py|now left]. }
  rewrite <- (Permutation_length P), <- (most_common_perm _ _ Py).
  destruct (xe || (length cols =? 0)%nat || (length D =? 0)%nat).
  { destruct (most_common top (map snd D)); cbn; [constructor|exact I]. }
  rewrite <- (optimal_division_perm c _ _ _ _ cols HX P).
  destruct (optimal_division c X D cols) as [[j [v [t0|]]]|]; [| |exact I].
  - pose proof (IH false cols _ _ (filter_perm (fun p => cell_ge (rnd t0) (cell_at j (fst p))) _ _ P)) as G.
    pose proof (IH false cols _ _ (filter_perm (fun p => cell_lt (rnd t0) (cell_at j (fst p))) _ _ P)) as L.
    destruct (generate top rnd c X f false cols (filter (fun p => cell_ge (rnd t0) (cell_at j (fst p))) D)) as [g|],
             (generate top rnd c X' f false cols (filter (fun p => cell_ge (rnd t0) (cell_at j (fst p))) D')) as [g'|];
      cbn [bind ends_related] in *; auto; try contradiction.
    destruct (generate top rnd c X f false cols (filter (fun p => cell_lt (rnd t0) (cell_at j (fst p))) D)) as [l|],
             (generate top rnd c X' f false cols (filter (fun p => cell_lt (rnd t0) (cell_at j (fst p))) D')) as [l'|];
      cbn [bind ends_related] in *; auto; try contradiction.
    rewrite (same_leaves _ _ _ G), (same_leaves _ _ _ L). constructor; auto.
    intros _. rewrite (same_height True _ _ I G), (same_height True _ _ I L). reflexivity.
  - set (F := fun a => let Da := filter (fun p => if cell_eq_dec (cell_at j (fst p)) a then true else false) D in
              k <- (if (length Da =? 0)%nat then generate top rnd c X f true (remove Nat.eq_dec j cols) D
                    else generate top rnd c X f false (remove Nat.eq_dec j cols) Da) ;; Ok (a, k)).
    set (F' := fun a => let Da := filter (fun p => if cell_eq_dec (cell_at j (fst p)) a then true else false) D' in
              k <- (if (length Da =? 0)%nat then generate top rnd c X' f true (remove Nat.eq_dec j cols) D'
                    else generate top rnd c X' f false (remove Nat.eq_dec j cols) Da) ;; Ok (a, k)).
    assert (HF : forall a, ends_related (fun k k' => fst k = fst k' /\ same_branches True (snd k) (snd k')) (F a) (F' a)).
    { intros a. unfold F, F'. cbn zeta. pose proof (filter_perm (fun p => if cell_eq_dec (cell_at j (fst p)) a then true else false) _ _ P) as Q.
      rewrite <- (Permutation_length Q). destruct (_ =? 0)%nat.
      - pose proof (IH true (remove Nat.eq_dec j cols) _ _ P) as G.
        destruct (generate top rnd c X f true _ D), (generate top rnd c X' f true _ D'); cbn in *; auto.
      - pose proof (IH false (remove Nat.eq_dec j cols) _ _ Q) as G.
        destruct (generate top rnd c X f false _ _), (generate top rnd c X' f false _ _); cbn in *; auto. }
    pose proof (mapM_perm_related F _ _ (pd_unique_perm cell_eq_dec _ _ (Permutation_map (cell_at j) HX))) as M1.
    assert (M2 : ends_related (fun u w => Forall2 (fun k k' => fst k = fst k' /\ same_branches True (snd k) (snd k')) u w)
                   (mapM F (pd_unique cell_eq_dec (map (cell_at j) X'))) (mapM F' (pd_unique cell_eq_dec (map (cell_at j) X')))).
    { apply (mapM_pointwise eq).
      - generalize (pd_unique cell_eq_dec (map (cell_at j) X')). intros l. induction l; constructor; auto.
      - intros a b _ <-. apply HF. }
    destruct (mapM F (pd_unique cell_eq_dec (map (cell_at j) X))) as [kids|] eqn:EK,
             (mapM F (pd_unique cell_eq_dec (map (cell_at j) X'))) as [kids'|],
             (mapM F' (pd_unique cell_eq_dec (map (cell_at j) X'))) as [kids''|];
      cbn [bind ends_related] in *; auto; try contradiction.
    assert (RK : rel_kids True kids kids'') by (exists kids'; split; [eapply same_rows_snd; eauto|auto]).
    rewrite (kids_leaves _ _ _ RK). destruct RK as (km & Pk & Fk). econstructor; [|  |exact Pk|exact Fk].
    + intros _. f_equal. apply (kids_height True); [exact I|]. exists km. auto.
    + rewrite (mapM_fst F _ _ (fun a k E => ltac:(unfold F in E; cbn zeta in E; apply bind_Ok in E; destruct E as (k0 & _ & E); injection E as <-; reflexivity)) EK).
      apply pd_unique_NoDup.
Qed.
End Grow.

Lemma fit_tree_perm top rnd c w D D' : order_blind top -> Permutation D D' ->
  ends_related (same_branches True) (fit_tree top rnd c w D) (fit_tree top rnd c w D').
Proof.
  intros Ht P. unfold fit_tree. rewrite (Permutation_length P). apply generate_perm; auto. now apply Permutation_map.
Qed.

(** ** Pruning *)
Lemma same_weaken t : forall t', same_branches True t t' -> same_branches False t t'.
Proof.
  induction t as [l|j v p n h g l IHg IHl|j v n h kids IHk] using tree_ind'; intros t' H.
  - inversion H; subst. constructor.
  - inversion H; subst. constructor; auto; tauto.
  - inversion H as [| |? ? ? ? ? ? kids' kids'' E N P F]; subst. econstructor; eauto; try tauto.
    assert (K : forall b k, In (b, k) kids' -> forall t', same_branches True k t' -> same_branches False k t').
    { intros b k I. apply (IHk b). eapply Permutation_in; [apply Permutation_sym, P|exact I]. }
    clear -F K. induction F as [|[b k] [b' k'] ks ks' [E S] F IH]; constructor.
    + split; auto. apply (K b); cbn; auto.
    + apply IH. intros b2 k2 I2. apply (K b2). now right.
Qed.
Lemma rows_ge_perm p j D D' : Permutation D D' -> Permutation (rows_ge p j D) (rows_ge p j D').
Proof. apply filter_perm. Qed.
Lemma rows_lt_perm p j D D' : Permutation D D' -> Permutation (rows_lt p j D) (rows_lt p j D').
Proof. apply filter_perm. Qed.
Lemma rows_eq_perm p j D D' : Permutation D D' -> Permutation (rows_eq p j D) (rows_eq p j D').
Proof. apply filter_perm. Qed.
Lemma numeric_perm j D D' : Permutation D D' -> numeric_column j D = numeric_column j D'.
Proof. apply forallb_perm. Qed.
Lemma leaf_correct_perm l V V' : Permutation V V' -> correct_as_leaf l V = correct_as_leaf l V'.
Proof. apply count_perm. Qed.
Lemma mapM_congr {A B} (f g : A -> result B) l : (forall a, f a = g a) -> mapM f l = mapM g l.
Proof. intros E. induction l as [|a l IH]; cbn; auto. now rewrite E, IH. Qed.
Lemma node_correct_perm st t t' V V' : same_branches st t t' -> Permutation V V' ->
  ends_related eq (correct_of_node t V) (correct_of_node t' V').
Proof.
  intros S P. unfold correct_of_node.
  rewrite (mapM_congr (fun q => l <- predict t' (fst q);; Ok (snd q =? l)%Z) (fun q => l <- predict t (fst q);; Ok (snd q =? l)%Z) V')
    by (intros; now rewrite (same_predict st t t' _ S)).
  pose proof (mapM_perm_related (fun q => l <- predict t (fst q);; Ok (snd q =? l)%Z) _ _ P) as M.
  destruct (mapM _ V), (mapM _ V'); cbn in *; auto. apply count_perm. eapply same_rows_snd; eauto.
Qed.
Lemma pre_accuracy_perm top p j D D' V V' : order_blind top -> Permutation D D' -> Permutation V V' ->
  ends_related eq (pre_accuracy top p j D V) (pre_accuracy top p j D' V').
Proof.
  intros Ht P Q.
  assert (E : ends_related eq (correct_after_split top j D V) (correct_after_split top j D' V')).
  { unfold correct_after_split.
    set (F := fun D (q : row * Z) => match rows_eq (cell_at j (fst q)) j D with [] => Err KeyError | Dq => Ok (Z.eqb (snd q) (top (map snd Dq))) end).
    change (ends_related eq (oks <- mapM (F D) V ;; Ok (count (fun b => b) oks)) (oks <- mapM (F D') V' ;; Ok (count (fun b => b) oks))).
    rewrite (mapM_congr (F D') (F D)).
    - pose proof (mapM_perm_related (F D) _ _ Q) as M. destruct (mapM _ V), (mapM _ V'); cbn in *; auto.
      apply count_perm. eapply same_rows_snd; eauto.
    - intros q. unfold F. pose proof (rows_eq_perm (cell_at j (fst q)) j _ _ P) as W.
      destruct (rows_eq (cell_at j (fst q)) j D) eqn:E1, (rows_eq (cell_at j (fst q)) j D') eqn:E2; auto;
        try (apply Permutation_nil in W; discriminate); try (symmetry in W; apply Permutation_nil in W; discriminate).
      now rewrite (Ht _ _ (Permutation_map snd W)). }
  unfold pre_accuracy. destruct p as [p|]; auto. destruct (Reqb p 0); auto. exact I.
Qed.
Lemma prune_kids_mapM f j D V ks : prune_kids f j D V ks =
  mapM (fun q => k <- f (snd q) (rows_eq (fst q) j D) (rows_eq (fst q) j V) ;; Ok (fst q, k)) ks.
Proof.
  induction ks as [|[a k] ks IH]; cbn; auto. destruct (f k _ _); cbn; auto. now rewrite IH.
Qed.
Lemma prune_kids_perm (f : tree -> list (row * Z) -> list (row * Z) -> result tree) j D V D' V' kids kids' kids'' :
  NoDup (map fst kids) -> Permutation kids kids' ->
  Forall2 (fun k k' => fst k = fst k' /\ same_branches False (snd k) (snd k')) kids' kids'' ->
  (forall a k k', In (a, k) kids -> same_branches False k k' ->
     ends_related (same_branches False) (f k (rows_eq a j D) (rows_eq a j V)) (f k' (rows_eq a j D') (rows_eq a j V'))) ->
  ends_related (fun l l' => NoDup (map fst l) /\ rel_kids False l l') (prune_kids f j D V kids) (prune_kids f j D' V' kids'').
Proof.
  intros N P F H. rewrite !prune_kids_mapM.
  set (g := fun q => k <- f (snd q) (rows_eq (fst q) j D) (rows_eq (fst q) j V) ;; Ok (fst q, k)).
  set (g' := fun q => k <- f (snd q) (rows_eq (fst q) j D') (rows_eq (fst q) j V') ;; Ok (fst q, k)).
  pose proof (mapM_perm_related g _ _ P) as M1.
  assert (M2 : ends_related (fun u w => Forall2 (fun k k' => fst k = fst k' /\ same_branches False (snd k) (snd k')) u w)
                 (mapM g kids') (mapM g' kids'')).
  { apply (mapM_pointwise _ _ _ _ _ _ F). intros [a k] [a' k'] I [E S]. cbn in E, S. subst a'. unfold g, g'. cbn [fst snd].
    apply Permutation_sym in P. pose proof (H a k k' (Permutation_in _ P I) S) as K.
    destruct (f k _ _), (f k' _ _); cbn in *; auto. }
  destruct (mapM g kids) as [l|] eqn:E1, (mapM g kids') as [l1|], (mapM g' kids'') as [l2|]; cbn in *; auto; try contradiction.
  split; [|exists l1; split; [eapply same_rows_snd; eauto|auto]].
  assert (Em : map fst l = map fst kids).
  { clear -E1. revert l E1. induction kids as [|q ks IH]; intros l E; cbn in E; [injection E as <-; auto|].
    apply bind_Ok in E. destruct E as (k & Ek & E). apply bind_Ok in E. destruct E as (bs & Eb & E). injection E as <-.
    unfold g in Ek. apply bind_Ok in Ek. destruct Ek as (k0 & _ & Ek). injection Ek as <-. cbn. now rewrite (IH _ Eb). }
  now rewrite Em.
Qed.

Section Pruning.
Variable top : list Z -> Z.
Hypothesis Htop : order_blind top.

Lemma post_prune_perm t : forall t' D D' V V', same_branches False t t' -> Permutation D D' -> Permutation V V' ->
  ends_related (same_branches False) (post_prune top t D V) (post_prune top t' D' V').
Proof.
  induction t as [l|j v p n h g l IHg IHl|j v n h kids IHk] using tree_ind'; intros t' D D' V V' H PD PV.
  - inversion H; subst. cbn. constructor.
  - inversion H; subst. cbn [post_prune]. rewrite <- (Permutation_length PV). destruct (length V =? 0)%nat; [exact H|].
    rewrite <- (most_common_perm top Htop _ _ (Permutation_map snd PD)).
    destruct (most_common top (map snd D)) as [cur|]; cbn [bind]; [|exact I].
    rewrite <- (numeric_perm j _ _ PD), <- (numeric_perm j _ _ PV). destruct (negb _); [exact I|].
    pose proof (IHg g' _ _ _ _ ltac:(eassumption) (rows_ge_perm p j _ _ PD) (rows_ge_perm p j _ _ PV)) as G.
    pose proof (IHl l' _ _ _ _ ltac:(eassumption) (rows_lt_perm p j _ _ PD) (rows_lt_perm p j _ _ PV)) as L.
    destruct (post_prune top g (rows_ge p j D) (rows_ge p j V)) as [g1|], (post_prune top g' _ _) as [g1'|];
      cbn [bind ends_related] in *; auto; try contradiction.
    destruct (post_prune top l (rows_lt p j D) (rows_lt p j V)) as [l1|], (post_prune top l' _ _) as [l1'|];
      cbn [bind ends_related] in *; auto; try contradiction.
    rewrite (same_is_leaf _ _ _ G), (same_is_leaf _ _ _ L). rewrite (same_leaves _ _ _ G), (same_leaves _ _ _ L).
    match goal with |- ends_related _ (if _ then _ <- correct_of_node ?t1 _ ;; _ else _) (if _ then _ <- correct_of_node ?t2 _ ;; _ else _) =>
      assert (T : same_branches False t1 t2) by (constructor; auto; tauto) end.
    destruct (is_leaf g1' && is_leaf l1'); [|exact T].
    pose proof (node_correct_perm _ _ _ _ _ T PV) as C.
    destruct (correct_of_node _ V) as [cc|], (correct_of_node _ V') as [cc'|]; cbn [bind ends_related] in *; auto; try contradiction.
    subst cc'. rewrite <- (leaf_correct_perm cur _ _ PV). destruct (_ <? _)%nat; [constructor|exact T].
  - inversion H as [| |? ? ? ? ? ? kids' kids'' E N P F]; subst. rewrite !post_disc.
    rewrite <- (Permutation_length PV). destruct (length V =? 0)%nat; [exact H|].
    rewrite <- (most_common_perm top Htop _ _ (Permutation_map snd PD)).
    destruct (most_common top (map snd D)) as [cur|]; cbn [bind]; [|exact I].
    pose proof (prune_kids_perm (post_prune top) j D V D' V' kids kids' kids'' N P F
      (fun a k k' Hi S => IHk a k Hi k' _ _ _ _ S (rows_eq_perm a j _ _ PD) (rows_eq_perm a j _ _ PV))) as K.
    destruct (prune_kids (post_prune top) j D V kids) as [ks|], (prune_kids (post_prune top) j D' V' kids'') as [ks'|];
      cbn [bind ends_related] in *; auto; try contradiction. destruct K as [Nk RK].
    cbn zeta. rewrite (kids_forall_leaf _ _ _ RK).
    assert (T : same_branches False (Disc j v (leaves_sum ks) (loop_height ks) ks) (Disc j v (leaves_sum ks') (loop_height ks') ks')).
    { unfold leaves_sum. rewrite (kids_leaves _ _ _ RK). destruct RK as (km & Pk & Fk). econstructor; eauto. tauto. }
    destruct (forallb _ ks'); [|exact T]. pose proof (node_correct_perm _ _ _ _ _ T PV) as C.
    destruct (correct_of_node _ V) as [cc|], (correct_of_node _ V') as [cc'|]; cbn [bind ends_related] in *; auto; try contradiction.
    subst cc'. rewrite <- (leaf_correct_perm cur _ _ PV). destruct (_ <? _)%nat; [constructor|exact T].
Qed.

Lemma pre_prune_perm t : forall t' D D' V V', same_branches False t t' -> Permutation D D' -> Permutation V V' ->
  ends_related (same_branches False) (pre_prune top t D V) (pre_prune top t' D' V').
Proof.
  induction t as [l|j v p n h g l IHg IHl|j v n h kids IHk] using tree_ind'; intros t' D D' V V' H PD PV.
  - inversion H; subst. cbn. constructor.
  - inversion H; subst. cbn [pre_prune]. rewrite <- (Permutation_length PV). destruct (length V =? 0)%nat; [exact H|].
    rewrite <- (most_common_perm top Htop _ _ (Permutation_map snd PD)).
    destruct (most_common top (map snd D)) as [cur|]; cbn [bind]; [|exact I].
    pose proof (pre_accuracy_perm top (Some p) j _ _ _ _ Htop PD PV) as A.
    destruct (pre_accuracy top (Some p) j D V) as [af|], (pre_accuracy top (Some p) j D' V') as [af'|]; cbn [bind ends_related] in *; auto; try contradiction.
    subst af'. rewrite <- (leaf_correct_perm cur _ _ PV). destruct (_ <=? _)%nat; [constructor|].
    rewrite <- (numeric_perm j _ _ PD), <- (numeric_perm j _ _ PV). destruct (negb _); [exact I|].
    pose proof (IHg g' _ _ _ _ ltac:(eassumption) (rows_ge_perm p j _ _ PD) (rows_ge_perm p j _ _ PV)) as G.
    pose proof (IHl l' _ _ _ _ ltac:(eassumption) (rows_lt_perm p j _ _ PD) (rows_lt_perm p j _ _ PV)) as L.
    destruct (pre_prune top l (rows_lt p j D) (rows_lt p j V)) as [l1|], (pre_prune top l' _ _) as [l1'|];
      cbn [bind ends_related] in *; auto; try contradiction.
    destruct (pre_prune top g (rows_ge p j D) (rows_ge p j V)) as [g1|], (pre_prune top g' _ _) as [g1'|];
      cbn [bind ends_related] in *; auto; try contradiction.
    rewrite (same_leaves _ _ _ G), (same_leaves _ _ _ L). constructor; auto; tauto.
  - inversion H as [| |? ? ? ? ? ? kids' kids'' E N P F]; subst. rewrite !pre_disc.
    rewrite <- (Permutation_length PV). destruct (length V =? 0)%nat; [exact H|].
    rewrite <- (most_common_perm top Htop _ _ (Permutation_map snd PD)).
    destruct (most_common top (map snd D)) as [cur|]; cbn [bind]; [|exact I].
    pose proof (pre_accuracy_perm top None j _ _ _ _ Htop PD PV) as A.
    destruct (pre_accuracy top None j D V) as [af|], (pre_accuracy top None j D' V') as [af'|]; cbn [bind ends_related] in *; auto; try contradiction.
    subst af'. rewrite <- (leaf_correct_perm cur _ _ PV). destruct (_ <=? _)%nat; [constructor|].
    pose proof (prune_kids_perm (pre_prune top) j D V D' V' kids kids' kids'' N P F
      (fun a k k' Hi S => IHk a k Hi k' _ _ _ _ S (rows_eq_perm a j _ _ PD) (rows_eq_perm a j _ _ PV))) as K.
    destruct (prune_kids (pre_prune top) j D V kids) as [ks|], (prune_kids (pre_prune top) j D' V' kids'') as [ks'|];
      cbn [bind ends_related] in *; auto; try contradiction. destruct K as [Nk RK].
    unfold leaves_sum. rewrite (kids_leaves _ _ _ RK). destruct RK as (km & Pk & Fk). econstructor; eauto. tauto.
Qed.
End Pruning.

Lemma fit_pruned_perm top rnd c how w D D' V V' : order_blind top -> Permutation D D' ->
  match V, V' with Some a, Some b => Permutation a b | None, None => True | _, _ => False end ->
  ends_related (fun t t' => same_branches False t t' /\ forall r, predict t r = predict t' r)
    (fit_pruned top rnd c how w D V) (fit_pruned top rnd c how w D' V').
Proof.
  intros Ht P PV. pose proof (fit_tree_perm top rnd c w D D' Ht P) as F.
  assert (Fin : forall r r', ends_related (same_branches False) r r' ->
    ends_related (fun t t' => same_branches False t t' /\ forall r, predict t r = predict t' r) r r').
  { intros [t|] [t'|] S; cbn in *; auto. split; auto. intros r. now apply (same_predict False). }
  apply Fin. destruct how; cbn [fit_pruned].
  - destruct (fit_tree top rnd c w D), (fit_tree top rnd c w D'); cbn [ends_related] in *; auto using same_weaken.
  - destruct V as [V|], V' as [V'|]; try contradiction; [|exact I].
    destruct (fit_tree top rnd c w D), (fit_tree top rnd c w D'); cbn [bind ends_related] in *; auto; try contradiction.
    apply pre_prune_perm; auto using same_weaken.
  - destruct V as [V|], V' as [V'|]; try contradiction; [|exact I].
    destruct (fit_tree top rnd c w D), (fit_tree top rnd c w D'); cbn [bind ends_related] in *; auto; try contradiction.
    apply post_prune_perm; auto using same_weaken.
Qed.
