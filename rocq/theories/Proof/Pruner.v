(** Lemmas for C21 and C22. *)
From Coq Require Import List ZArith Reals Lra Lia Bool Arith String.
From Verif.Model Require Import Base Tree Pruner.
From Verif.Spec Require Import Common Tree Pruner.
From Verif.Proof Require Import BaseLemmas Tree TreeGen TreeMain.
Import ListNotations.
Local Open Scope R_scope.
Local Notation length := List.length.

(** ** Named forms of the inner loops *)
Definition prune_kids (f : tree -> list (row * Z) -> list (row * Z) -> result tree) j D V :=
  fix go (ks : list (cell * tree)) : result (list (cell * tree)) :=
    match ks with
    | [] => Ok []
    | (a, k) :: ks' => k' <- f k (rows_eq a j D) (rows_eq a j V) ;; r <- go ks' ;; Ok ((a, k') :: r)
    end.

Lemma prune_kids_Ok f j D V ks : forall ks', prune_kids f j D V ks = Ok ks' <->
  Forall2 (fun k k' => fst k = fst k' /\ f (snd k) (rows_eq (fst k) j D) (rows_eq (fst k) j V) = Ok (snd k')) ks ks'.
Proof.
  induction ks as [|[a k] ks IH]; intros ks'; simpl.
  - split; [intros H; injection H as <-; constructor|inversion 1; auto].
  - split.
    + intros H. apply bind_Ok in H. destruct H as (k' & Hk & H). apply bind_Ok in H. destruct H as (r & Hr & H).
      injection H as <-. constructor; [simpl; auto|]. now apply IH.
    + intros H. inversion H as [|? [a' k'] ? r [E Hk] HF]; subst. simpl in E, Hk. subst a'. rewrite Hk. simpl.
      apply IH in HF. rewrite HF. reflexivity.
Qed.

Definition leaves_sum (kids : list (cell * tree)) := fold_left (fun n k => n + num_of_leaves (snd k))%nat kids 0%nat.
Definition loop_height (kids : list (cell * tree)) :=
  fold_left (fun m k => if (m <? height (snd k))%Z then (height (snd k) + 1)%Z else m) kids (-1)%Z.

Lemma post_disc top j v n h kids D V :
  post_prune top (Disc j v n h kids) D V =
  if (length V =? 0)%nat then Ok (Disc j v n h kids) else
  cur <- most_common top (map snd D) ;;
  kids' <- prune_kids (post_prune top) j D V kids ;;
  let t' := Disc j v (leaves_sum kids') (loop_height kids') kids' in
  if forallb (fun k => is_leaf (snd k)) kids' then
    c <- correct_of_node t' V ;; Ok (if (c <? correct_as_leaf cur V)%nat then Leaf cur else t')
  else Ok t'.
Proof. reflexivity. Qed.

Lemma pre_disc top j v n h kids D V :
  pre_prune top (Disc j v n h kids) D V =
  if (length V =? 0)%nat then Ok (Disc j v n h kids) else
  cur <- most_common top (map snd D) ;;
  after <- pre_accuracy top None j D V ;;
  if (after <=? correct_as_leaf cur V)%nat then Ok (Leaf cur) else
  kids' <- prune_kids (pre_prune top) j D V kids ;;
  Ok (Disc j v (leaves_sum kids') (loop_height kids' + 1)%Z kids').
Proof. reflexivity. Qed.

(** ** Counting *)
Definition hit (t : tree) (p : row * Z) : bool := match predict t (fst p) with Ok l => Z.eqb l (snd p) | Err _ => false end.

Lemma correct_count t V : correct t V = count (hit t) V.
Proof.
  unfold count. induction V as [|[r l] V IH]; simpl; auto. unfold hit at 1. simpl.
  destruct (predict t r) as [l'|]; [destruct (Z.eqb l' l)|]; simpl; rewrite IH; auto.
Qed.

Lemma count_cons {A} (p : A -> bool) a l : count p (a :: l) = ((if p a then 1 else 0) + count p l)%nat.
Proof. unfold count. simpl. destruct (p a); reflexivity. Qed.

Lemma correct_leaf cur V : correct (Leaf cur) V = correct_as_leaf cur V.
Proof. rewrite correct_count. unfold correct_as_leaf, count. f_equal. apply filter_ext_In. intros p _. unfold hit. simpl. apply Z.eqb_sym. Qed.

Lemma correct_node t V c : correct_of_node t V = Ok c -> c = correct t V.
Proof.
  unfold correct_of_node. intros H. apply bind_Ok in H. destruct H as (oks & Ho & H). injection H as <-.
  rewrite correct_count. revert oks Ho. induction V as [|p V IH]; intros oks Ho; simpl in Ho.
  - injection Ho as <-. reflexivity.
  - apply bind_Ok in Ho. destruct Ho as (b & Hb & Ho). apply bind_Ok in Ho. destruct Ho as (bs & Hbs & Ho). injection Ho as <-.
    apply bind_Ok in Hb. destruct Hb as (l & Hl & Hb). injection Hb as <-.
    rewrite !count_cons, (IH bs Hbs). f_equal. unfold hit. rewrite Hl, Z.eqb_sym. reflexivity.
Qed.

Lemma correct_node_total t V : (forall p, In p V -> exists l, predict t (fst p) = Ok l) -> exists c, correct_of_node t V = Ok c.
Proof.
  intros H. unfold correct_of_node.
  assert (E : exists bs, mapM (fun q => l <- predict t (fst q) ;; Ok (Z.eqb (snd q) l)) V = Ok bs).
  { induction V as [|p V IH]; simpl; [eauto|]. destruct (H p (or_introl eq_refl)) as (l & El). rewrite El. simpl.
    destruct IH as (bs & E); [intros q Hq; apply H; simpl; auto|]. rewrite E. simpl. eauto. }
  destruct E as (bs & E). rewrite E. simpl. eauto.
Qed.

Lemma count_filter {A} (p f : A -> bool) l : count p (filter f l) = count (fun a => f a && p a) l.
Proof. unfold count. induction l as [|a l IH]; simpl; auto. destruct (f a) eqn:E; simpl; [destruct (p a); simpl|]; auto. Qed.

Lemma count_ext {A} (p q : A -> bool) l : (forall a, In a l -> p a = q a) -> count p l = count q l.
Proof. intros H. unfold count. f_equal. now apply filter_ext_In. Qed.

Definition wide (w : nat) (V : list (row * Z)) := forall r l, In (r, l) V -> length r = w.

Lemma correct_cont j v p n h g l w V : (j < w)%nat -> rectangular w V ->
  correct (Cont j v p n h g l) V = (correct g (rows_ge p j V) + correct l (rows_lt p j V))%nat.
Proof.
  intros Hj Hw. rewrite !correct_count. unfold rows_ge, rows_lt. rewrite !count_filter.
  induction V as [|[r y] V IH]; [reflexivity|]. rewrite !count_cons.
  rewrite IH by (intros r' l' H; apply (Hw r' l'); simpl; auto).
  assert (E : get_at r j = Ok (cell_at j r)) by (apply (get_at_cell r j w); auto; apply (Hw r y); simpl; auto).
  unfold hit at 1. simpl fst. simpl snd. cbn [predict]. rewrite E. simpl.
  destruct (cell_at j r) as [x|s]; simpl; [|lia].
  rewrite Rltb_negb. change (hit g (r, y)) with (match predict g r with Ok l => Z.eqb l y | Err _ => false end).
  change (hit l (r, y)) with (match predict l r with Ok l => Z.eqb l y | Err _ => false end).
  destruct (Rleb p x); cbn [andb negb]; [destruct (match predict g r with Ok l => _ | _ => _ end)|destruct (match predict l r with Ok l => _ | _ => _ end)]; lia.
Qed.

Lemma correct_disc j v n h kids w V : (j < w)%nat -> rectangular w V -> NoDup (map fst kids) ->
  correct (Disc j v n h kids) V = list_sum (map (fun k => correct (snd k) (rows_eq (fst k) j V)) kids).
Proof.
  intros Hj Hw Hnd. induction V as [|[r y] V IH].
  - simpl. clear. induction kids; simpl; auto.
  - specialize (IH (fun r' l' H => Hw r' l' (or_intror H))).
    assert (E : get_at r j = Ok (cell_at j r)) by (apply (get_at_cell r j w); auto; apply (Hw r y); simpl; auto).
    cbn [correct]. rewrite IH, predict_disc, E. cbn [bind]. clear IH E Hw.
    set (one := fun k : tree => match predict k r with Ok l' => if Z.eqb l' y then 1 else 0 | Err _ => 0 end%nat).
    assert (Hk : forall a k, correct k (rows_eq a j ((r, y) :: V)) =
      ((if cell_eq_dec (cell_at j r) a then one k else 0) + correct k (rows_eq a j V))%nat).
    { intros a k. unfold rows_eq. cbn [filter fst]. destruct (cell_eq_dec (cell_at j r) a); reflexivity. }
    transitivity ((match kid kids (cell_at j r) with None => 0 | Some k => one k end) +
                  list_sum (map (fun k => correct (snd k) (rows_eq (fst k) j V)) kids))%nat.
    { f_equal. destruct (kid kids (cell_at j r)); reflexivity. }
    induction kids as [|[a k] kids IH]; [reflexivity|]. cbn [kid map fst snd]. cbn [list_sum fold_right].
    inversion Hnd as [|? ? Hna Hnd']; subst. rewrite Hk.
    fold (list_sum (map (fun k => correct (snd k) (rows_eq (fst k) j ((r, y) :: V))) kids)).
    rewrite <- (IH Hnd'). fold (list_sum (map (fun k => correct (snd k) (rows_eq (fst k) j V)) kids)).
    destruct (cell_eq_dec (cell_at j r) a) as [<-|Hne].
    + assert (Hn : kid kids (cell_at j r) = None) by now apply kid_None. rewrite Hn. lia.
    + lia.
Qed.

(** ** Well-formedness *)
Lemma wf_cont w j v p n h g l : well_formed w (Cont j v p n h g l) -> (j < w)%nat /\ well_formed w g /\ well_formed w l.
Proof.
  intros H. split; [exact (H _ (sub_refl _))|]. split; intros s Hs; apply H; [now apply sub_ge|now apply sub_lt].
Qed.
Lemma wf_disc w j v n h kids : well_formed w (Disc j v n h kids) ->
  (j < w)%nat /\ NoDup (map fst kids) /\ kids <> [] /\ forall a k, In (a, k) kids -> well_formed w k.
Proof.
  intros H. destruct (H _ (sub_refl _)) as (H1 & H2 & H3). repeat split; auto.
  intros a k Hin s Hs. apply H. eapply sub_kid; eauto.
Qed.

Lemma generate_wf top rnd c X w : X <> [] -> forall f e cols D t, (forall p, In p D -> In (fst p) X) ->
  (forall j, In j cols -> (j < w)%nat) -> generate top rnd c X f e cols D = Ok t -> well_formed w t.
Proof.
  intros HX0. induction f as [|f IH]; intros e cols D t HX Hc H; [discriminate|].
  apply generate_step in H. inversion H as [l|Hne|j v t0 g l He Hne Ho Hg Hl|j v kids He Hne Ho HF]; subst;
    [intros s Hs; inversion Hs; subst; exact I|intros s Hs; inversion Hs; subst; exact I| |];
    pose proof (optimal_division_spec c X D cols Hne HX) as Hspec; rewrite Ho in Hspec; destruct Hspec as (Hj & _).
  - intros s Hs. inversion Hs as [|s' ? ? ? ? ? ? ? Hs'|s' ? ? ? ? ? ? ? Hs'|]; subst; [now apply Hc| |].
    + exact (IH _ _ _ _ (fun p Hp => HX p (part_sub _ _ _ Hp)) Hc Hg s Hs').
    + exact (IH _ _ _ _ (fun p Hp => HX p (part_sub _ _ _ Hp)) Hc Hl s Hs').
  - assert (Hmap : map fst kids = pd_unique cell_eq_dec (map (cell_at j) X)).
    { clear -HF. induction HF as [|b k l1 l2 [E _] _ IHl]; simpl; auto. congruence. }
    assert (Hc' : forall j', In j' (remove Nat.eq_dec j cols) -> (j' < w)%nat).
    { intros j' Hj'. apply In_remove in Hj'. apply Hc. tauto. }
    intros s Hs. inversion Hs as [|?|?|s' j' v' n' h' kids' b k Hin Hsub]; subst.
    + split; [now apply Hc|]. rewrite Hmap. split; [apply pd_unique_NoDup|]. intros ->. simpl in Hmap.
      destruct X as [|r0 X']; [congruence|].
      assert (Hin : In (cell_at j r0) (pd_unique cell_eq_dec (map (cell_at j) (r0 :: X')))) by (apply pd_unique_In; simpl; auto).
      rewrite <- Hmap in Hin. contradiction.
    + destruct (Forall2_In_r _ _ _ _ HF Hin) as (b' & _ & _ & [[_ Hg]|[_ Hg]]).
      * exact (IH _ _ _ _ HX Hc' Hg s Hsub).
      * exact (IH _ _ _ _ (fun p Hp => HX p (part_sub _ _ _ Hp)) Hc' Hg s Hsub).
Qed.

Lemma fit_wf top rnd c w D t : fit_tree top rnd c w D = Ok t -> well_formed w t.
Proof.
  intros E. pose proof (fit_nonempty _ _ _ _ _ _ E) as Hne. unfold fit_tree in E.
  eapply (generate_wf top rnd c (map fst D) w); [| | |exact E].
  - intros H. apply map_eq_nil in H. auto.
  - intros p Hp. now apply in_map.
  - intros j Hj. apply in_seq in Hj. lia.
Qed.

Lemma rect_filter w (f : row * Z -> bool) V : rectangular w V -> rectangular w (filter f V).
Proof. intros H r l Hin. apply filter_In in Hin. eapply H. apply Hin. Qed.

Lemma collapsed_refl t : collapsed t t.
Proof.
  induction t as [l|j v p n h g l IHg IHl|j v n h kids IHk] using tree_ind'.
  - constructor.
  - now constructor.
  - constructor. induction kids as [|[a k] kids IH]; constructor.
    + split; auto. apply (IHk a). simpl; auto.
    + apply IH. intros b k' Hin. apply (IHk b). simpl; auto.
Qed.

Lemma leaf_count_pos w t : well_formed w t -> (1 <= leaf_count t)%nat.
Proof.
  induction t as [l|j v p n h g l IHg IHl|j v n h kids IHk] using tree_ind'; intros H; simpl; auto.
  - apply wf_cont in H. destruct H as (_ & H & _). specialize (IHg H). lia.
  - apply wf_disc in H. destruct H as (_ & _ & Hne & H). destruct kids as [|[a k] kids]; [congruence|].
    simpl. specialize (IHk a k (or_introl eq_refl) (H a k (or_introl eq_refl))). lia.
Qed.

Lemma collapsed_leaves w t : forall t', well_formed w t -> collapsed t t' -> (leaf_count t' <= leaf_count t)%nat.
Proof.
  induction t as [l|j v p n h g l IHg IHl|j v n h kids IHk] using tree_ind'; intros t' Hw H.
  - inversion H; subst; simpl; lia.
  - pose proof (leaf_count_pos _ _ Hw) as Hp. apply wf_cont in Hw. destruct Hw as (_ & Wg & Wl).
    inversion H; subst; [simpl in *; lia|]. simpl.
    specialize (IHg _ Wg ltac:(eassumption)). specialize (IHl _ Wl ltac:(eassumption)). lia.
  - pose proof (leaf_count_pos _ _ Hw) as Hp. apply wf_disc in Hw. destruct Hw as (_ & _ & _ & Wk).
    inversion H as [| |? ? ? ? n' h' ? kids' HF]; subst; [simpl in *; lia|]. simpl. clear H Hp.
    induction HF as [|[a k] [a' k'] ks ks' [E Hk] HF IHF]; simpl; auto. simpl in E, Hk.
    assert (H1 : (leaf_count k' <= leaf_count k)%nat) by (apply (IHk a); simpl; auto; apply (Wk a); simpl; auto).
    assert (H2 := IHF (fun b kb Hb => IHk b kb (or_intror Hb)) (fun b kb Hb => Wk b kb (or_intror Hb))).
    unfold list_sum in *. lia.
Qed.

(** ** C21 *)
Lemma post_main top w : forall t D V t', well_formed w t -> rectangular w V ->
  post_prune top t D V = Ok t' -> collapsed t t' /\ (correct t V <= correct t' V)%nat.
Proof.
  induction t as [l|j v p n h g l IHg IHl|j v n h kids IHk] using tree_ind'; intros D V t' Hwf Hw H.
  - injection H as <-. split; [constructor|lia].
  - cbn [post_prune] in H. destruct (length V =? 0)%nat; [injection H as <-; split; [apply collapsed_refl|lia]|].
    apply bind_Ok in H. destruct H as (cur & _ & H).
    destruct (negb _); [discriminate|].
    apply bind_Ok in H. destruct H as (g' & Hg & H). apply bind_Ok in H. destruct H as (l' & Hl & H).
    apply wf_cont in Hwf. destruct Hwf as (Hj & Wg & Wl).
    destruct (IHg _ _ _ Wg (rect_filter _ _ _ Hw) Hg) as [Cg Eg]. destruct (IHl _ _ _ Wl (rect_filter _ _ _ Hw) Hl) as [Cl El].
    cbv zeta in H. set (t1 := Cont j v p _ _ g' l') in H.
    assert (C1 : collapsed (Cont j v p n h g l) t1) by (constructor; auto).
    assert (E1 : (correct (Cont j v p n h g l) V <= correct t1 V)%nat).
    { unfold t1. rewrite !(correct_cont j v p _ _ _ _ w V Hj Hw). unfold rows_ge, rows_lt in *. lia. }
    destruct (is_leaf g' && is_leaf l').
    + apply bind_Ok in H. destruct H as (c & Hc & H). apply correct_node in Hc.
      destruct (Nat.ltb_spec c (correct_as_leaf cur V)) as [Hlt|_]; injection H as <-; auto.
      split; [constructor|]. rewrite correct_leaf. lia.
    + injection H as <-. auto.
  - rewrite post_disc in H. destruct (length V =? 0)%nat; [injection H as <-; split; [apply collapsed_refl|lia]|].
    apply bind_Ok in H. destruct H as (cur & _ & H). apply bind_Ok in H. destruct H as (kids' & Hk & H).
    apply prune_kids_Ok in Hk. apply wf_disc in Hwf. destruct Hwf as (Hj & Hnd & _ & Wk).
    cbv zeta in H. set (t1 := Disc j v _ _ kids') in H.
    assert (Hall : Forall2 (fun k k' => fst k = fst k' /\ collapsed (snd k) (snd k') /\
        (correct (snd k) (rows_eq (fst k) j V) <= correct (snd k') (rows_eq (fst k) j V))%nat) kids kids').
    { clear H t1 Hnd. induction Hk as [|[a k] [a' k'] ks ks' [E Hf] HF IHF]; constructor.
      - simpl in *. split; auto. apply (IHk a k (or_introl eq_refl) (rows_eq a j D) (rows_eq a j V)); auto.
        + apply (Wk a). simpl; auto.
        + now apply rect_filter.
      - apply IHF; intros b kb Hb; [apply (IHk b)|apply (Wk b)]; simpl; auto. }
    assert (C1 : collapsed (Disc j v n h kids) t1).
    { constructor. eapply Forall2_impl; [|exact Hall]. simpl. tauto. }
    assert (E1 : (correct (Disc j v n h kids) V <= correct t1 V)%nat).
    { assert (Hm : map fst kids' = map fst kids).
      { clear -Hall. induction Hall as [|k k' ks ks' [E _] _ IH]; simpl; congruence. }
      unfold t1. rewrite !(correct_disc j v _ _ _ w V Hj Hw) by (rewrite ?Hm; auto).
      clear -Hall. induction Hall as [|k k' ks ks' (E & _ & Hle) _ IH]; simpl; auto.
      rewrite <- E. unfold list_sum in *. lia. }
    destruct (forallb _ kids').
    + apply bind_Ok in H. destruct H as (c & Hc & H). apply correct_node in Hc.
      destruct (Nat.ltb_spec c (correct_as_leaf cur V)) as [Hlt|_]; injection H as <-; auto.
      split; [constructor|]. rewrite correct_leaf. lia.
    + injection H as <-. auto.
Qed.

(** Pruning a grown tree succeeds when the validation values are known. *)
Definition covers (X : list row) (w : nat) (V : list (row * Z)) : Prop :=
  forall r l j, In (r, l) V -> (j < w)%nat -> exists r', In r' X /\ cell_at j r' = cell_at j r.

Lemma covers_filter X w f V : covers X w V -> covers X w (filter f V).
Proof. intros H r l j Hin. apply filter_In in Hin. apply (H r l j). tauto. Qed.

Lemma numeric_covered X w j V : (j < w)%nat -> covers X w V -> (forall r, In r X -> exists x, cell_at j r = Num x) ->
  numeric_column j V = true.
Proof.
  intros Hj Hc Hn. apply forallb_forall. intros [r l] Hin. destruct (Hc r l j Hin Hj) as (r' & Hr' & E).
  destruct (Hn r' Hr') as (x & Ex). simpl. rewrite <- E, Ex. reflexivity.
Qed.

Lemma post_total top rnd c X w : forall f e cols D t V,
  (forall p, In p D -> In (fst p) X) -> (forall j, In j cols -> (j < w)%nat) -> covers X w V -> rectangular w V -> rectangular w D ->
  generate top rnd c X f e cols D = Ok t -> forall D', (D' = D \/ e = true) -> exists t', post_prune top t D' V = Ok t'.
Proof.
  induction f as [|f IH]; intros e cols D t V HX Hc HV HwV HwD H D' HD'; [discriminate|].
  apply generate_step in H.
  inversion H as [l|Hne|j v t0 g l He Hne Ho Hg Hl|j v kids He Hne Ho HF]; subst; [eexists; reflexivity|eexists; reflexivity| |];
    destruct HD' as [->|]; try discriminate;
    pose proof (optimal_division_spec c X D cols Hne HX) as Hspec; rewrite Ho in Hspec; destruct Hspec as (Hj & Ha & _);
    assert (Hcur : most_common top (map snd D) = Ok (top (map snd D))) by (destruct D; [congruence|reflexivity]).
  - cbn [post_prune]. destruct (length V =? 0)%nat; [eauto|]. rewrite Hcur. simpl.
    unfold attribute_value in Ha. destruct (is_continuous X (map fst D) j) eqn:Ec; [|discriminate].
    destruct (is_continuous_spec X D j Ec HX) as [Hnum _].
    assert (HD : covers X w D) by (intros r y i Hin _; exists r; split; auto; apply (HX (r, y) Hin)).
    rewrite (numeric_covered X w j D (Hc j Hj) HD Hnum), (numeric_covered X w j V (Hc j Hj) HV Hnum). simpl.
    destruct (IH _ _ _ _ (rows_ge (rnd t0) j V) (fun p Hp => HX p (part_sub _ _ _ Hp)) Hc (covers_filter _ _ _ _ HV)
                 (rect_filter _ _ _ HwV) (rect_filter _ _ _ HwD) Hg _ (or_introl eq_refl)) as (g' & Eg).
    destruct (IH _ _ _ _ (rows_lt (rnd t0) j V) (fun p Hp => HX p (part_sub _ _ _ Hp)) Hc (covers_filter _ _ _ _ HV)
                 (rect_filter _ _ _ HwV) (rect_filter _ _ _ HwD) Hl _ (or_introl eq_refl)) as (l' & El).
    unfold part_ge in Eg. unfold part_lt in El. unfold rows_ge at 1. unfold rows_lt at 1. rewrite Eg. simpl. rewrite El. simpl.
    destruct (is_leaf g' && is_leaf l') eqn:E2; [|eauto].
    set (t1 := Cont j v _ _ _ g' l'). destruct (correct_node_total t1 V) as (cc & Ecc); [|rewrite Ecc; simpl; eauto].
    intros [r y] Hin. unfold t1. simpl. rewrite (get_at_cell r j w (HwV _ _ Hin) (Hc j Hj)). simpl.
    destruct (HV r y j Hin (Hc j Hj)) as (r' & Hr' & E). destruct (Hnum r' Hr') as (x & Ex). rewrite <- E, Ex.
    apply andb_true_iff in E2. destruct E2 as [E2 E3]. destruct g'; try discriminate. destruct l'; try discriminate.
    destruct (Rleb (rnd t0) x); simpl; eauto.
  - rewrite post_disc. destruct (length V =? 0)%nat; [eauto|]. rewrite Hcur. cbn [bind].
    assert (Hc' : forall j', In j' (remove Nat.eq_dec j cols) -> (j' < w)%nat).
    { intros j' Hj'. apply In_remove in Hj'. apply Hc. tauto. }
    assert (Hks : exists kids', prune_kids (post_prune top) j D V kids = Ok kids').
    { clear H. induction HF as [|a [a' k] us ks [E Hk] HF IHF]; [exists []; reflexivity|]. simpl in E, Hk. subst a'.
      destruct IHF as (ks' & Eks).
      assert (Ek : exists k', post_prune top k (rows_eq a j D) (rows_eq a j V) = Ok k').
      { destruct Hk as [[Hemp Hk]|[Hn Hk]].
        - apply (IH _ _ _ _ (rows_eq a j V) HX Hc' (covers_filter _ _ _ _ HV) (rect_filter _ _ _ HwV) HwD Hk (rows_eq a j D)); auto.
        - apply (IH _ _ _ _ (rows_eq a j V) (fun p Hp => HX p (part_sub _ _ _ Hp)) Hc' (covers_filter _ _ _ _ HV)
                   (rect_filter _ _ _ HwV) (rect_filter _ _ _ HwD) Hk (rows_eq a j D)); auto. }
      destruct Ek as (k' & Ek). exists ((a, k') :: ks'). simpl. rewrite Ek. simpl. rewrite Eks. reflexivity. }
    destruct Hks as (kids' & Eks). rewrite Eks. cbn [bind]. cbv zeta.
    destruct (forallb (fun k => is_leaf (snd k)) kids') eqn:E2; [|eauto].
    set (t1 := Disc j v _ _ kids'). destruct (correct_node_total t1 V) as (cc & Ecc); [|rewrite Ecc; simpl; eauto].
    intros [r y] Hin. unfold t1. simpl fst. rewrite predict_disc, (get_at_cell r j w (HwV _ _ Hin) (Hc j Hj)). simpl.
    assert (Hmap : map fst kids = pd_unique cell_eq_dec (map (cell_at j) X)).
    { clear -HF. induction HF as [|b k l1 l2 [E _] _ IHl]; simpl; auto. congruence. }
    assert (Hmap' : map fst kids' = map fst kids).
    { apply prune_kids_Ok in Eks. clear -Eks. induction Eks as [|k k' ks ks' [E _] _ IHl]; simpl; congruence. }
    destruct (kid kids' (cell_at j r)) as [k|] eqn:Ek.
    + apply kid_In in Ek. rewrite forallb_forall in E2. specialize (E2 _ Ek). simpl in E2.
      destruct k; try discriminate. simpl. eauto.
    + exfalso. apply kid_None in Ek. apply Ek. rewrite Hmap', Hmap, pd_unique_In.
      destruct (HV r y j Hin (Hc j Hj)) as (r' & Hr' & E). rewrite <- E. now apply in_map.
Qed.

Lemma fit_post_total top rnd c w D V t : rectangular w D -> rectangular w V -> known_values w D V ->
  fit_tree top rnd c w D = Ok t -> exists t', fit_pruned top rnd c Post w D (Some V) = Ok t'.
Proof.
  intros HwD HwV HV E. unfold fit_pruned. rewrite E. simpl. unfold fit_tree in E.
  eapply (post_total top rnd c (map fst D) w); [| | | | |exact E|left; reflexivity]; auto.
  - intros p Hp. now apply in_map.
  - intros j Hj. apply in_seq in Hj. lia.
  - intros r l j Hin Hj. destruct (HV r l j Hin Hj) as (r' & l' & Hr & Hl). exists r'. split; auto. apply (in_map fst _ _ Hr).
Qed.

Lemma fit_post_main top rnd c w D V t' : rectangular w V -> fit_pruned top rnd c Post w D (Some V) = Ok t' ->
  exists t, fit_tree top rnd c w D = Ok t /\ collapsed t t' /\
    (correct t V <= correct t' V)%nat /\ (leaf_count t' <= leaf_count t)%nat.
Proof.
  intros Hw H. unfold fit_pruned in H. apply bind_Ok in H. destruct H as (t & Ht & H). exists t. split; auto.
  pose proof (fit_wf _ _ _ _ _ _ Ht) as Hwf. destruct (post_main top w t D V t' Hwf Hw H) as [Hc Hle].
  split; auto. split; auto. eapply collapsed_leaves; eauto.
Qed.

(** Recorded numbers *)
Definition counts_ok (t : tree) : Prop := forall s, subtree s t -> num_of_leaves s = leaf_count s.

Lemma counts_kids kids : (forall a k, In (a, k) kids -> counts_ok k) ->
  leaves_sum kids = list_sum (map (fun k => leaf_count (snd k)) kids).
Proof.
  intros H. unfold leaves_sum. rewrite fold_leaves; auto. intros a k Hin. apply (H a k Hin). apply sub_refl.
Qed.

Lemma counts_cont j v p h g l : counts_ok g -> counts_ok l -> counts_ok (Cont j v p (num_of_leaves g + num_of_leaves l) h g l).
Proof.
  intros Hg Hl s Hs. inversion Hs as [|s' ? ? ? ? ? ? ? Hs'|s' ? ? ? ? ? ? ? Hs'|]; subst; auto.
  simpl. rewrite (Hg g (sub_refl g)), (Hl l (sub_refl l)). reflexivity.
Qed.
Lemma counts_disc j v h kids : (forall a k, In (a, k) kids -> counts_ok k) -> counts_ok (Disc j v (leaves_sum kids) h kids).
Proof.
  intros H s Hs. inversion Hs as [|?|?|s' j' v' n' h' kids' b k Hin Hsub]; subst.
  - simpl. now apply counts_kids.
  - exact (H b k Hin s Hsub).
Qed.
Lemma counts_leaf l : counts_ok (Leaf l).
Proof. intros s Hs. inversion Hs; reflexivity. Qed.
Lemma counts_sub t s : counts_ok t -> subtree s t -> counts_ok s.
Proof. intros H Hs s' Hs'. apply H. eapply subtree_trans; eauto. Qed.

Lemma kids_In_r {P : cell * tree -> cell * tree -> Prop} ks ks' a k' : Forall2 P ks ks' -> In (a, k') ks' ->
  exists k, In k ks /\ P k (a, k').
Proof. intros H Hin. destruct (Forall2_In_r _ _ _ _ H Hin) as (k & Hk & HP). eauto. Qed.

Lemma post_counts top : forall t D V t', counts_ok t -> post_prune top t D V = Ok t' -> counts_ok t'.
Proof.
  induction t as [l|j v p n h g l IHg IHl|j v n h kids IHk] using tree_ind'; intros D V t' Hc H.
  - injection H as <-. auto.
  - cbn [post_prune] in H. destruct (length V =? 0)%nat; [injection H as <-; auto|].
    apply bind_Ok in H. destruct H as (cur & _ & H). destruct (negb _); [discriminate|].
    apply bind_Ok in H. destruct H as (g' & Hg & H). apply bind_Ok in H. destruct H as (l' & Hl & H).
    assert (Cg : counts_ok g') by (eapply IHg; [|exact Hg]; eapply counts_sub; [exact Hc|apply sub_ge, sub_refl]).
    assert (Cl : counts_ok l') by (eapply IHl; [|exact Hl]; eapply counts_sub; [exact Hc|apply sub_lt, sub_refl]).
    pose proof (counts_cont j v p (Z.max (height g') (height l') + 1)%Z g' l' Cg Cl) as C1. cbv zeta in H.
    destruct (is_leaf g' && is_leaf l').
    + apply bind_Ok in H. destruct H as (c & _ & H). destruct (c <? _)%nat; injection H as <-; auto. apply counts_leaf.
    + injection H as <-. auto.
  - rewrite post_disc in H. destruct (length V =? 0)%nat; [injection H as <-; auto|].
    apply bind_Ok in H. destruct H as (cur & _ & H). apply bind_Ok in H. destruct H as (kids' & Hk & H).
    apply prune_kids_Ok in Hk.
    assert (C1 : counts_ok (Disc j v (leaves_sum kids') (loop_height kids') kids')).
    { apply counts_disc. intros a k' Hin. destruct (kids_In_r _ _ _ _ Hk Hin) as ([b k] & Hink & _ & Hp). simpl in Hp.
      eapply (IHk b k Hink); [|exact Hp]. eapply counts_sub; [exact Hc|]. eapply sub_kid; [exact Hink|apply sub_refl]. }
    cbv zeta in H. destruct (forallb _ kids').
    + apply bind_Ok in H. destruct H as (c & _ & H). destruct (c <? _)%nat; injection H as <-; auto. apply counts_leaf.
    + injection H as <-. auto.
Qed.

Lemma pre_counts top : forall t D V t', counts_ok t -> pre_prune top t D V = Ok t' -> counts_ok t'.
Proof.
  induction t as [l|j v p n h g l IHg IHl|j v n h kids IHk] using tree_ind'; intros D V t' Hc H.
  - injection H as <-. auto.
  - cbn [pre_prune] in H. destruct (length V =? 0)%nat; [injection H as <-; auto|].
    apply bind_Ok in H. destruct H as (cur & _ & H). apply bind_Ok in H. destruct H as (after & _ & H).
    destruct (after <=? _)%nat; [injection H as <-; apply counts_leaf|]. destruct (negb _); [discriminate|].
    apply bind_Ok in H. destruct H as (l' & Hl & H). apply bind_Ok in H. destruct H as (g' & Hg & H). injection H as <-.
    apply counts_cont.
    + eapply IHg; [|exact Hg]; eapply counts_sub; [exact Hc|apply sub_ge, sub_refl].
    + eapply IHl; [|exact Hl]; eapply counts_sub; [exact Hc|apply sub_lt, sub_refl].
  - rewrite pre_disc in H. destruct (length V =? 0)%nat; [injection H as <-; auto|].
    apply bind_Ok in H. destruct H as (cur & _ & H). apply bind_Ok in H. destruct H as (after & _ & H).
    destruct (after <=? _)%nat; [injection H as <-; apply counts_leaf|].
    apply bind_Ok in H. destruct H as (kids' & Hk & H). injection H as <-. apply prune_kids_Ok in Hk.
    apply counts_disc. intros a k' Hin. destruct (kids_In_r _ _ _ _ Hk Hin) as ([b k] & Hink & _ & Hp). simpl in Hp.
    eapply (IHk b k Hink); [|exact Hp]. eapply counts_sub; [exact Hc|]. eapply sub_kid; [exact Hink|apply sub_refl].
Qed.

Lemma pre_collapsed top : forall t D V t', pre_prune top t D V = Ok t' -> collapsed t t'.
Proof.
  induction t as [l|j v p n h g l IHg IHl|j v n h kids IHk] using tree_ind'; intros D V t' H.
  - injection H as <-. constructor.
  - cbn [pre_prune] in H. destruct (length V =? 0)%nat; [injection H as <-; apply collapsed_refl|].
    apply bind_Ok in H. destruct H as (cur & _ & H). apply bind_Ok in H. destruct H as (after & _ & H).
    destruct (after <=? _)%nat; [injection H as <-; constructor|]. destruct (negb _); [discriminate|].
    apply bind_Ok in H. destruct H as (l' & Hl & H). apply bind_Ok in H. destruct H as (g' & Hg & H). injection H as <-.
    constructor; eauto.
  - rewrite pre_disc in H. destruct (length V =? 0)%nat; [injection H as <-; apply collapsed_refl|].
    apply bind_Ok in H. destruct H as (cur & _ & H). apply bind_Ok in H. destruct H as (after & _ & H).
    destruct (after <=? _)%nat; [injection H as <-; constructor|].
    apply bind_Ok in H. destruct H as (kids' & Hk & H). injection H as <-. apply prune_kids_Ok in Hk.
    constructor. clear -Hk IHk. induction Hk as [|[a k] [a' k'] ks ks' [E Hf] HF IHF]; constructor.
    + simpl in *. split; auto. apply (IHk a k (or_introl eq_refl) _ _ _ Hf).
    + apply IHF. intros b kb Hb. apply (IHk b). simpl; auto.
Qed.

Lemma loop_height_ge (kids : list (cell * tree)) : forall m, let r := fold_left (fun m k => if (m <? height (snd k))%Z then (height (snd k) + 1)%Z else m) kids m in
  (m <= r)%Z /\ forall a k, In (a, k) kids -> (height k <= r)%Z.
Proof.
  induction kids as [|[a k] kids IH]; intros m; simpl; [split; [lia|contradiction]|].
  set (m' := if (m <? height k)%Z then (height k + 1)%Z else m). destruct (IH m') as [H1 H2].
  assert (Hm : (m <= m')%Z /\ (height k <= m')%Z) by (unfold m'; destruct (Z.ltb_spec m (height k)); lia).
  split; [lia|]. intros b k' [E|Hin]; [injection E as <- <-; lia|]. apply (H2 b k' Hin).
Qed.

Definition deep_ok (t : tree) : Prop := forall s, subtree s t -> (Z.of_nat (depth s) <= height s)%Z.
Lemma deep_sub t s : deep_ok t -> subtree s t -> deep_ok s.
Proof. intros H Hs s' Hs'. apply H. eapply subtree_trans; eauto. Qed.

Lemma pre_height top w : forall t D V t', well_formed w t -> deep_ok t -> pre_prune top t D V = Ok t' -> deep_ok t'.
Proof.
  induction t as [l|j v p n h g l IHg IHl|j v n h kids IHk] using tree_ind'; intros D V t' Hw Hd H.
  - injection H as <-. auto.
  - cbn [pre_prune] in H. destruct (length V =? 0)%nat; [injection H as <-; auto|].
    apply bind_Ok in H. destruct H as (cur & _ & H). apply bind_Ok in H. destruct H as (after & _ & H).
    destruct (after <=? _)%nat; [injection H as <-; intros s Hs; inversion Hs; simpl; lia|]. destruct (negb _); [discriminate|].
    apply bind_Ok in H. destruct H as (l' & Hl & H). apply bind_Ok in H. destruct H as (g' & Hg & H). injection H as <-.
    apply wf_cont in Hw. destruct Hw as (_ & Wg & Wl).
    assert (Cg : deep_ok g') by (eapply IHg; [exact Wg| |exact Hg]; eapply deep_sub; [exact Hd|apply sub_ge, sub_refl]).
    assert (Cl : deep_ok l') by (eapply IHl; [exact Wl| |exact Hl]; eapply deep_sub; [exact Hd|apply sub_lt, sub_refl]).
    intros s Hs. inversion Hs as [|s' ? ? ? ? ? ? ? Hs'|s' ? ? ? ? ? ? ? Hs'|]; subst; auto.
    pose proof (Cg g' (sub_refl _)). pose proof (Cl l' (sub_refl _)). simpl depth. simpl height. lia.
  - rewrite pre_disc in H. destruct (length V =? 0)%nat; [injection H as <-; auto|].
    apply bind_Ok in H. destruct H as (cur & _ & H). apply bind_Ok in H. destruct H as (after & _ & H).
    destruct (after <=? _)%nat; [injection H as <-; intros s Hs; inversion Hs; simpl; lia|].
    apply bind_Ok in H. destruct H as (kids' & Hk & H). injection H as <-. apply prune_kids_Ok in Hk.
    apply wf_disc in Hw. destruct Hw as (_ & _ & Hne & Wk).
    assert (C : forall a k', In (a, k') kids' -> deep_ok k').
    { intros a k' Hin. destruct (kids_In_r _ _ _ _ Hk Hin) as ([b k] & Hink & _ & Hp). simpl in Hp.
      eapply (IHk b k Hink); [exact (Wk b k Hink)| |exact Hp]. eapply deep_sub; [exact Hd|]. eapply sub_kid; [exact Hink|apply sub_refl]. }
    intros s Hs. inversion Hs as [|?|?|s' j' v' n' h' ks' b k Hin Hsub]; subst; [|exact (C b k Hin s Hsub)].
    simpl depth. simpl height. destruct (loop_height_ge kids' (-1)) as [L1 L2]. fold (loop_height kids') in L1, L2.
    assert (Hne' : map (fun k => depth (snd k)) kids' <> []).
    { intros E. apply map_eq_nil in E. subst kids'. inversion Hk; subst. congruence. }
    pose proof (list_max_in _ Hne') as Hin. apply in_map_iff in Hin. destruct Hin as ([a k] & Ek & Hin).
    rewrite <- Ek. simpl. pose proof (L2 a k Hin). pose proof (C a k Hin k (sub_refl k)). lia.
Qed.

(** ** The decision of the pre-pruner *)
Lemma how_many_count {A} (P : A -> Prop) (f : A -> bool) l : (forall a, In a l -> (f a = true <-> P a)) -> how_many P l (count f l).
Proof.
  induction l as [|a l IH]; intros H; [constructor|]. rewrite count_cons.
  assert (IH' := IH (fun b Hb => H b (or_intror Hb))). specialize (H a (or_introl eq_refl)).
  destruct (f a); [apply hm_yes|apply hm_no]; auto; [now apply H|]. intros HP. apply H in HP. discriminate.
Qed.

Lemma rows_eq_labels j a D : labels_where (fun r => cell_at j r = a) D (map snd (rows_eq a j D)).
Proof.
  apply (labels_where_filter (fun r => cell_at j r = a) (fun r => if cell_eq_dec (cell_at j r) a then true else false)); auto.
  intros r _. destruct (cell_eq_dec (cell_at j r) a); split; congruence.
Qed.

Lemma labels_where_fun {A} (P : A -> Prop) D p q : labels_where P D p -> labels_where P D q -> p = q.
Proof.
  intros H. revert q. induction H; intros q Hq; inversion Hq; subst; auto; try contradiction. f_equal. auto.
Qed.

Lemma branch_label_iff top j D a l : branch_label top j D a l <-> rows_eq a j D <> [] /\ l = top (map snd (rows_eq a j D)).
Proof.
  split.
  - intros (part & Hp & Hne & ->). pose proof (labels_where_fun _ _ _ _ Hp (rows_eq_labels j a D)) as ->.
    split; auto. intros E. rewrite E in Hne. auto.
  - intros [Hne ->]. exists (map snd (rows_eq a j D)). split; [apply rows_eq_labels|]. split; auto.
    intros E. apply map_eq_nil in E. auto.
Qed.

Lemma after_split_spec top j D V m : correct_after_split top j D V = Ok m ->
  how_many (fun p => branch_label top j D (cell_at j (fst p)) (snd p)) V m.
Proof.
  unfold correct_after_split. intros H. apply bind_Ok in H. destruct H as (oks & Ho & H). injection H as <-.
  revert oks Ho. induction V as [|p V IH]; intros oks Ho; simpl in Ho; [injection Ho as <-; constructor|].
  apply bind_Ok in Ho. destruct Ho as (b & Hb & Ho). apply bind_Ok in Ho. destruct Ho as (bs & Hbs & Ho). injection Ho as <-.
  rewrite count_cons. specialize (IH bs Hbs). destruct (rows_eq (cell_at j (fst p)) j D) as [|q Q] eqn:E; [discriminate|].
  injection Hb as <-. cbn [map]. destruct (Z.eqb_spec (snd p) (top (snd q :: map snd Q))) as [E2|E2].
  - apply hm_yes; auto. apply branch_label_iff. rewrite E. split; auto. discriminate.
  - apply hm_no; auto. intros H. apply branch_label_iff in H. rewrite E in H. tauto.
Qed.

Lemma pre_decision top j v n h kids D V t' : D <> [] -> V <> [] ->
  pre_prune top (Disc j v n h kids) D V = Ok t' ->
  exists before after, how_many (fun p => snd p = top (map snd D)) V before /\
    how_many (fun p => branch_label top j D (cell_at j (fst p)) (snd p)) V after /\
    ((after <= before)%nat /\ t' = Leaf (top (map snd D)) \/
     (before < after)%nat /\ exists n' h' kids', t' = Disc j v n' h' kids' /\ map fst kids' = map fst kids).
Proof.
  intros HD HV H. rewrite pre_disc in H. destruct V as [|q V]; [congruence|]. cbn [length Nat.eqb] in H. set (W := q :: V) in *.
  assert (Hcur : most_common top (map snd D) = Ok (top (map snd D))) by (destruct D; [congruence|reflexivity]).
  rewrite Hcur in H. cbn [bind] in H. apply bind_Ok in H. destruct H as (after & Ha & H). simpl in Ha.
  exists (correct_as_leaf (top (map snd D)) W), after. split.
  { apply how_many_count. intros p _. apply Z.eqb_eq. }
  split; [now apply after_split_spec|].
  destruct (Nat.leb_spec after (correct_as_leaf (top (map snd D)) W)) as [Hle|Hlt].
  - left. injection H as <-. auto.
  - right. split; auto. apply bind_Ok in H. destruct H as (kids' & Hk & H). injection H as <-.
    do 3 eexists. split; [reflexivity|]. apply prune_kids_Ok in Hk. clear -Hk.
    induction Hk as [|k k' ks ks' [E _] _ IH]; simpl; congruence.
Qed.

Lemma pre_unknown top j v n h kids D V r l : D <> [] -> In (r, l) V ->
  (forall r' l', In (r', l') D -> cell_at j r' <> cell_at j r) ->
  pre_prune top (Disc j v n h kids) D V = Err KeyError.
Proof.
  intros HD Hin Hn. rewrite pre_disc. destruct V as [|q V]; [contradiction|]. cbn [length Nat.eqb]. set (W := q :: V) in *.
  assert (Hcur : most_common top (map snd D) = Ok (top (map snd D))) by (destruct D; [congruence|reflexivity]).
  rewrite Hcur. cbn [bind pre_accuracy].
  assert (E : correct_after_split top j D W = Err KeyError); [|rewrite E; reflexivity]. unfold correct_after_split.
  match goal with |- (_ <- ?m ;; _) = _ => assert (E : m = Err KeyError); [|rewrite E; reflexivity] end.
  revert Hin. generalize W. clear -Hn. induction W as [|p W IH]; cbn [mapM In]; [contradiction|].
  intros [->|Hin].
  - assert (E : rows_eq (cell_at j (fst (r, l))) j D = []).
    { destruct (rows_eq (cell_at j (fst (r, l))) j D) as [|[r' l'] Q] eqn:E; auto. exfalso.
      assert (H : In (r', l') (rows_eq (cell_at j r) j D)) by (simpl in E; rewrite E; simpl; auto).
      unfold rows_eq in H. apply filter_In in H. destruct H as [H1 H2]. simpl in H2.
      destruct (cell_eq_dec (cell_at j r') (cell_at j r)); [|discriminate]. eapply Hn; eauto. }
    rewrite E. reflexivity.
  - destruct (rows_eq (cell_at j (fst p)) j D); [reflexivity|]. cbn [bind]. rewrite (IH Hin). reflexivity.
Qed.

Lemma pre_continuous_fails top j v p n h g l D V : D <> [] -> V <> [] -> p <> 0 ->
  pre_prune top (Cont j v p n h g l) D V = Err IndexingError.
Proof.
  intros HD HV Hp. cbn [pre_prune]. destruct V as [|q V]; [congruence|]. cbn [length Nat.eqb].
  destruct D as [|d D]; [congruence|]. cbn [map most_common bind].
  unfold pre_accuracy. replace (Reqb p 0) with false; [reflexivity|]. symmetry. unfold Reqb. destruct (Req_EM_T p 0); [contradiction|reflexivity].
Qed.

(** ** Fits with pruning *)
Lemma fit_pre_main top rnd c w D V t' : fit_pruned top rnd c Pre w D (Some V) = Ok t' ->
  exists t, fit_tree top rnd c w D = Ok t /\ collapsed t t' /\ (leaf_count t' <= leaf_count t)%nat /\
    (forall s, subtree s t' -> num_of_leaves s = leaf_count s) /\
    (forall s, subtree s t' -> (Z.of_nat (depth s) <= height s)%Z).
Proof.
  intros H. unfold fit_pruned in H. apply bind_Ok in H. destruct H as (t & Ht & H). exists t. split; auto.
  pose proof (fit_wf _ _ _ _ _ _ Ht) as Hwf. pose proof (pre_collapsed _ _ _ _ _ H) as Hc.
  split; auto. split; [eapply collapsed_leaves; eauto|]. split.
  - apply (pre_counts top t D V t'); auto. intros s Hs. eapply fit_leaves; eauto.
  - apply (pre_height top w t D V t'); auto. intros s Hs. eapply fit_height_ge; eauto.
Qed.

Lemma fit_post_counts top rnd c w D V t' : fit_pruned top rnd c Post w D (Some V) = Ok t' ->
  forall s, subtree s t' -> num_of_leaves s = leaf_count s.
Proof.
  intros H. unfold fit_pruned in H. apply bind_Ok in H. destruct H as (t & Ht & H).
  apply (post_counts top t D V t'); auto. intros s Hs. eapply fit_leaves; eauto.
Qed.

(** The pre-pruner cannot handle [ladder], whose root is continuous. *)
Lemma ladder_pre_fails top : fit_pruned top (fun x => x) Gain Pre 1 ladder (Some ladder) = Err IndexingError.
Proof.
  destruct (ladder_height top) as (t & E & Hh & _). unfold fit_pruned. rewrite E. cbn [bind].
  unfold fit_tree in E. apply generate_step in E.
  assert (Hne : ladder <> []) by discriminate.
  assert (HXD : forall p, In p ladder -> In (fst p) (map fst ladder)) by (intros p Hp; now apply in_map).
  inversion E as [l _ Hall|_ [He|He] _|j v t0 g l He _ Ho Hg Hl|j v kids He _ Ho HF]; subst; try discriminate.
  - apply pre_continuous_fails; auto.
    destruct (threshold_midpoint _ _ _ _ _ _ _ Hne HXD Ho) as (p & q & a & b & Hp & Hq & Ea & Eb & Hab & -> & _).
    assert (Hpos : forall p a, In p ladder -> cell_at j (fst p) = Num a -> 0 < a).
    { clear. intros p a Hp. simpl in Hp. destruct j as [|j]; [|destruct j; destruct Hp as [<-|[<-|[<-|[<-|[]]]]]; discriminate].
      destruct Hp as [<-|[<-|[<-|[<-|[]]]]]; intros H; injection H as <-; lra. }
    pose proof (Hpos _ _ Hp Ea). pose proof (Hpos _ _ Hq Eb). lra.
  - exfalso. pose proof (optimal_division_spec Gain (map fst ladder) ladder (seq 0 1) Hne HXD) as Hs. rewrite Ho in Hs.
    destruct Hs as ([<-|[]] & Hat & _). unfold attribute_value in Hat. rewrite numeric_continuous in Hat; auto.
    + destruct (get_value_continuous _ _) as [[? ?]|]; discriminate.
    + intros r Hr. simpl in Hr. destruct Hr as [<-|[<-|[<-|[<-|[]]]]]; [exists 0%Z|exists 1%Z|exists 2%Z|exists 3%Z]; reflexivity.
Qed.

(** ** A fit whose tree is known *)
Definition boxes : list (row * Z) :=
  [([Txt "a"; Txt "x"], 0%Z); ([Txt "a"; Txt "y"], 0%Z); ([Txt "b"; Txt "x"], 0%Z); ([Txt "b"; Txt "y"], 1%Z)]%string.

Lemma generate_unfold top rnd c X f xempty cols D : generate top rnd c X (S f) xempty cols D =
    let y := map snd D in
    if (length (nodup Z.eq_dec y) =? 1)%nat then
      match y with [] => Err IndexError | l :: _ => Ok (Leaf l) end
    else if xempty || (length cols =? 0)%nat || (length D =? 0)%nat then
      l <- most_common top y ;; Ok (Leaf l)
    else
      match optimal_division c X D cols with
      | None => Err ValueError
      | Some (j, (v, Some t0)) =>
          let t := rnd t0 in
          g <- generate top rnd c X f false cols (filter (fun p => cell_ge t (cell_at j (fst p))) D) ;;
          l <- generate top rnd c X f false cols (filter (fun p => cell_lt t (cell_at j (fst p))) D) ;;
          Ok (Cont j v t (num_of_leaves g + num_of_leaves l) (height g + height l + 1)%Z g l)
      | Some (j, (v, None)) =>
          let cols' := remove Nat.eq_dec j cols in
          kids <- mapM (fun a =>
              let Da := filter (fun p => if cell_eq_dec (cell_at j (fst p)) a then true else false) D in
              k <- (if (length Da =? 0)%nat then generate top rnd c X f true cols' D else generate top rnd c X f false cols' Da) ;;
              Ok (a, k)) (pd_unique cell_eq_dec (map (cell_at j) X)) ;;
          Ok (Disc j v (fold_left (fun n k => n + num_of_leaves (snd k))%nat kids 0%nat)
                (fold_left (fun m k => if (m <? height (snd k))%Z then height (snd k) else m) kids (-1) + 1)%Z kids)
      end.
Proof. reflexivity. Qed.

Lemma boxes_tree top rnd : exists v0 v1, fit_tree top rnd Gini 2 boxes =
  Ok (Disc 0 v0 3 2 [(Txt "a", Leaf 0); (Txt "b", Disc 1 v1 2 1 [(Txt "x", Leaf 0); (Txt "y", Leaf 1)])])%string.
Proof.
  unfold fit_tree. set (X := map fst boxes).
  assert (O : optimal_division Gini X boxes (seq 0 2) =
    Some (0%nat, (get_value_discrete gini (map (fun p => (cell_at 0 (fst p), snd p)) boxes), None))).
  { cbn [seq optimal_division fold_left attribute_value]. unfold attribute_value. cbn [X].
    replace (is_continuous X (map fst boxes) 0) with false by reflexivity.
    replace (is_continuous X (map fst boxes) 1) with false by reflexivity.
    cbv beta iota. cbn [better].
    assert (E : get_value_discrete (impurity Gini) (map (fun p => (cell_at 1 (fst p), snd p)) boxes) =
                get_value_discrete (impurity Gini) (map (fun p => (cell_at 0 (fst p), snd p)) boxes)) by (cbn; lra).
    rewrite E. replace (Rltb _ _) with false; [reflexivity|]. symmetry. apply Rltb_false. lra. }
  change (length boxes + 2)%nat with 6%nat. do 2 eexists.
  rewrite generate_unfold. cbv zeta. rewrite O. lazy -[get_value_discrete]. reflexivity.
Qed.

(** Post-pruning keeps this tree but reports height 1. *)
Lemma boxes_post top rnd : exists t', fit_pruned top rnd Gini Post 2 boxes (Some [([Txt "b"; Txt "y"]%string, 1%Z)]) = Ok t' /\
  height t' = 1%Z /\ depth t' = 2%nat.
Proof.
  destruct (boxes_tree top rnd) as (v0 & v1 & E). unfold fit_pruned. rewrite E. cbn [bind].
  exists (Disc 0 v0 3 1 [(Txt "a", Leaf 0); (Txt "b", Disc 1 v1 2 1 [(Txt "x", Leaf 0); (Txt "y", Leaf 1)])])%string.
  split; [|split; reflexivity].
  cbn. destruct (match top [0%Z; 1%Z] with Z.pos q => (1 =? q)%positive | _ => false end); reflexivity.
Qed.

Definition few_zeros (y : list Z) : Z := if (2 <? count_occ Z.eq_dec y 0%Z)%nat then 0%Z else last y 0%Z.
Lemma boxes_pre rnd : exists v t', fit_pruned few_zeros rnd Gini Pre 2 boxes (Some [([Txt "b"; Txt "y"]%string, 1%Z)]) = Ok t' /\
  t' = Disc 0 v 2 2 [(Txt "a", Leaf 0); (Txt "b", Leaf 1)]%string.
Proof.
  destruct (boxes_tree few_zeros rnd) as (v0 & v1 & E). unfold fit_pruned. rewrite E. cbn [bind].
  exists v0, (Disc 0 v0 2 2 [(Txt "a", Leaf 0); (Txt "b", Leaf 1)])%string. split; reflexivity.
Qed.

(** ** Post-pruning only acts when it helps, and leaves nothing to gain at the bottom *)
Lemma same_shape_refl t : same_shape t t.
Proof.
  induction t as [l|j v p n h g l IHg IHl|j v n h kids IHk] using tree_ind'.
  - constructor.
  - now constructor.
  - constructor. induction kids as [|[a k] kids IH]; constructor.
    + split; auto. apply (IHk a). simpl; auto.
    + apply IH. intros b k' Hin. apply (IHk b). simpl; auto.
Qed.

Lemma post_strict top w : forall t D V t', well_formed w t -> rectangular w V ->
  post_prune top t D V = Ok t' -> same_shape t t' \/ (correct t V < correct t' V)%nat.
Proof.
  induction t as [l|j v p n h g l IHg IHl|j v n h kids IHk] using tree_ind'; intros D V t' Hwf Hw H.
  - injection H as <-. left. constructor.
  - pose proof (post_main _ _ _ _ _ _ Hwf Hw H) as [_ Hmain].
    cbn [post_prune] in H. destruct (length V =? 0)%nat; [injection H as <-; left; apply same_shape_refl|].
    apply bind_Ok in H. destruct H as (cur & _ & H).
    destruct (negb _); [discriminate|].
    apply bind_Ok in H. destruct H as (g' & Hg & H). apply bind_Ok in H. destruct H as (l' & Hl & H).
    apply wf_cont in Hwf. destruct Hwf as (Hj & Wg & Wl).
    pose proof (IHg _ _ _ Wg (rect_filter _ _ _ Hw) Hg) as Sg. pose proof (IHl _ _ _ Wl (rect_filter _ _ _ Hw) Hl) as Sl.
    pose proof (post_main _ _ _ _ _ _ Wg (rect_filter _ _ _ Hw) Hg) as [_ Eg].
    pose proof (post_main _ _ _ _ _ _ Wl (rect_filter _ _ _ Hw) Hl) as [_ El].
    cbv zeta in H. set (t1 := Cont j v p _ _ g' l') in H.
    assert (E1 : same_shape (Cont j v p n h g l) t1 \/ (correct (Cont j v p n h g l) V < correct t1 V)%nat).
    { destruct Sg as [Sg|Sg], Sl as [Sl|Sl]; [left; now constructor|right..];
      unfold t1; rewrite !(correct_cont j v p _ _ _ _ w V Hj Hw); unfold rows_ge, rows_lt in *; lia. }
    assert (E2 : (correct (Cont j v p n h g l) V <= correct t1 V)%nat).
    { unfold t1. rewrite !(correct_cont j v p _ _ _ _ w V Hj Hw). unfold rows_ge, rows_lt in *. lia. }
    destruct (is_leaf g' && is_leaf l').
    + apply bind_Ok in H. destruct H as (c & Hc & H). apply correct_node in Hc.
      destruct (Nat.ltb_spec c (correct_as_leaf cur V)) as [Hlt|_]; injection H as <-; auto.
      right. rewrite correct_leaf. lia.
    + injection H as <-. auto.
  - rewrite post_disc in H. destruct (length V =? 0)%nat; [injection H as <-; left; apply same_shape_refl|].
    apply bind_Ok in H. destruct H as (cur & _ & H). apply bind_Ok in H. destruct H as (kids' & Hk & H).
    apply prune_kids_Ok in Hk. apply wf_disc in Hwf. destruct Hwf as (Hj & Hnd & _ & Wk).
    cbv zeta in H. set (t1 := Disc j v _ _ kids') in H.
    assert (Hall : Forall2 (fun k k' => fst k = fst k' /\
        (correct (snd k) (rows_eq (fst k) j V) <= correct (snd k') (rows_eq (fst k) j V))%nat /\
        (same_shape (snd k) (snd k') \/ (correct (snd k) (rows_eq (fst k) j V) < correct (snd k') (rows_eq (fst k) j V))%nat)) kids kids').
    { clear H t1 Hnd. induction Hk as [|[a k] [a' k'] ks ks' [E Hf] HF IHF]; constructor.
      - simpl in *. split; auto.
        assert (W : well_formed w k) by (apply (Wk a); simpl; auto).
        assert (R : rectangular w (rows_eq a j V)) by now apply rect_filter. split.
        + apply (post_main top w k _ _ _ W R Hf).
        + apply (IHk a k (or_introl eq_refl) _ _ _ W R Hf).
      - apply IHF; intros b kb Hb; [apply (IHk b)|apply (Wk b)]; simpl; auto. }
    assert (Hm : map fst kids' = map fst kids).
    { clear -Hall. induction Hall as [|k k' ks ks' [E _] _ IH]; simpl; congruence. }
    assert (E1 : (same_shape (Disc j v n h kids) t1 \/ (correct (Disc j v n h kids) V < correct t1 V)%nat) /\
                 (correct (Disc j v n h kids) V <= correct t1 V)%nat).
    { unfold t1. rewrite !(correct_disc j v _ _ _ w V Hj Hw) by (rewrite ?Hm; auto).
      assert (G : (Forall2 (fun k k' => fst k = fst k' /\ same_shape (snd k) (snd k')) kids kids' \/
        (list_sum (map (fun k => correct (snd k) (rows_eq (fst k) j V)) kids) <
         list_sum (map (fun k => correct (snd k) (rows_eq (fst k) j V)) kids'))%nat) /\
        (list_sum (map (fun k => correct (snd k) (rows_eq (fst k) j V)) kids) <=
         list_sum (map (fun k => correct (snd k) (rows_eq (fst k) j V)) kids'))%nat).
      { clear -Hall. induction Hall as [|k k' ks ks' (E & Hle & Hs) _ IH]; simpl; [split; auto; left; constructor|].
        rewrite <- E. unfold list_sum in *. destruct IH as [[IH|IH] IH2]; (split; [|lia]).
        - destruct Hs as [Hs|Hs]; [left; constructor; auto|right; lia].
        - right; lia. }
      destruct G as [[G|G] G2]; split; auto. left. now constructor. }
    destruct E1 as [E1 E2]. destruct (forallb _ kids').
    + apply bind_Ok in H. destruct H as (c & Hc & H). apply correct_node in Hc.
      destruct (Nat.ltb_spec c (correct_as_leaf cur V)) as [Hlt|_]; injection H as <-; auto.
      right. rewrite correct_leaf. lia.
    + injection H as <-. auto.
Qed.

Lemma most_common_top top y c : most_common top y = Ok c -> c = top y.
Proof. destruct y; simpl; [discriminate|]. congruence. Qed.

Lemma arrives_nil t D V s D' V' : arrives t D V s D' V' -> V = [] -> V' = [].
Proof. induction 1; intros; subst; auto; apply IHarrives; reflexivity. Qed.

Lemma post_optimal top : forall t D V t', post_prune top t D V = Ok t' ->
  forall s D' V', arrives t' D V s D' V' -> bottom_split s -> V' <> [] ->
  (correct (Leaf (top (map snd D'))) V' <= correct s V')%nat.
Proof.
  induction t as [l|j v p n h g l IHg IHl|j v n h kids IHk] using tree_ind'; intros D V t' H s D' V' Ha Hb HV'.
  - injection H as <-. inversion Ha; subst. contradiction.
  - cbn [post_prune] in H. destruct (Nat.eqb_spec (length V) 0) as [E0|_].
    { exfalso. apply HV'. eapply arrives_nil; eauto. now apply length_zero_iff_nil. }
    apply bind_Ok in H. destruct H as (cur & Hcur & H). apply most_common_top in Hcur.
    destruct (negb _); [discriminate|].
    apply bind_Ok in H. destruct H as (g' & Hg & H). apply bind_Ok in H. destruct H as (l' & Hl & H).
    cbv zeta in H. set (t1 := Cont j v p _ _ g' l') in H.
    assert (K : t' = Leaf cur \/ t' = t1 /\ (is_leaf g' && is_leaf l' = true -> (correct_as_leaf cur V <= correct t1 V)%nat)).
    { destruct (is_leaf g' && is_leaf l').
      + apply bind_Ok in H. destruct H as (c & Hc & H). apply correct_node in Hc.
        destruct (Nat.ltb_spec c (correct_as_leaf cur V)) as [Hlt|Hge]; injection H as <-; auto. right. split; auto. intros _. lia.
      + injection H as <-. right. split; auto. discriminate. }
    destruct K as [->|[-> K]]; [inversion Ha; subst; contradiction|].
    inversion Ha as [|? ? ? ? ? ? ? ? ? ? ? ? Ha'|? ? ? ? ? ? ? ? ? ? ? ? Ha'|]; subst.
    + rewrite correct_leaf. apply K. destruct Hb as [[a ->] [b ->]]. reflexivity.
    + eapply IHg; eauto.
    + eapply IHl; eauto.
  - rewrite post_disc in H. destruct (Nat.eqb_spec (length V) 0) as [E0|_].
    { exfalso. apply HV'. eapply arrives_nil; eauto. now apply length_zero_iff_nil. }
    apply bind_Ok in H. destruct H as (cur & Hcur & H). apply most_common_top in Hcur.
    apply bind_Ok in H. destruct H as (kids' & Hk & H). apply prune_kids_Ok in Hk.
    cbv zeta in H. set (t1 := Disc j v _ _ kids') in H.
    assert (K : t' = Leaf cur \/ t' = t1 /\ (forallb (fun k => is_leaf (snd k)) kids' = true -> (correct_as_leaf cur V <= correct t1 V)%nat)).
    { destruct (forallb _ kids').
      + apply bind_Ok in H. destruct H as (c & Hc & H). apply correct_node in Hc.
        destruct (Nat.ltb_spec c (correct_as_leaf cur V)) as [Hlt|Hge]; injection H as <-; auto. right. split; auto. intros _. lia.
      + injection H as <-. right. split; auto. discriminate. }
    destruct K as [->|[-> K]]; [inversion Ha; subst; contradiction|].
    inversion Ha as [| | |? ? ? ? ? a k ? ? ? ? ? Hin Ha']; subst.
    + rewrite correct_leaf. apply K. apply forallb_forall. intros [a k] Hin. destruct (Hb a k Hin) as [b ->]. reflexivity.
    + destruct (Forall2_In_r _ _ _ _ Hk Hin) as ([a0 k0] & Hin0 & E & Hf). simpl in E, Hf. subst a0.
      eapply (IHk a k0 Hin0); eauto.
Qed.

Lemma fit_post_strict top rnd c w D V t' : rectangular w V -> fit_pruned top rnd c Post w D (Some V) = Ok t' ->
  exists t, fit_tree top rnd c w D = Ok t /\ (same_shape t t' \/ (correct t V < correct t' V)%nat).
Proof.
  intros Hw H. cbn [fit_pruned] in H. apply bind_Ok in H. destruct H as (t & Et & H). exists t. split; auto.
  eapply post_strict; eauto. eapply fit_wf; eauto.
Qed.

Lemma fit_post_optimal top rnd c w D V t' : fit_pruned top rnd c Post w D (Some V) = Ok t' ->
  forall s D' V', arrives t' D V s D' V' -> bottom_split s -> V' <> [] ->
  (correct (Leaf (top (map snd D'))) V' <= correct s V')%nat.
Proof.
  intros H. cbn [fit_pruned] in H. apply bind_Ok in H. destruct H as (t & Et & H). eapply post_optimal; eauto.
Qed.
