(** C17-C20 and C65 for whole fits. *)
From Coq Require Import List ZArith Reals Lra Lia Bool Arith Permutation Sorted String.
From Verif.Model Require Import Base Tree.
From Verif.Spec Require Import Common Tree.
From Verif.Proof Require Import BaseLemmas Impurity Tree TreeGen.
Import ListNotations.
Local Open Scope R_scope.
Local Notation length := List.length.

(** ** C65: splitting never increases the impurity *)
Lemma weighted_grp {G} (dec : forall x y : G, {x = y} + {x <> y}) imp (D : list (G * Z)) u : D <> [] -> NoDup u ->
  (forall p, In p D -> In (fst p) u) ->
  weighted_impurity imp (map (fun v => grp dec v D) u) =
  rsum (map (fun v => INR (length (grp dec v D)) / INR (length D) * imp (grp dec v D)) u).
Proof.
  intros Hne Hu Hc. unfold weighted_impurity. change (fold_right Rplus 0) with rsum. rewrite !map_map.
  rewrite sum_part_sizes; auto. unfold Rdiv. rewrite <- rsum_map_scal_r. apply rsum_ext. intros; ring.
Qed.

Lemma impurity_split {G} (dec : forall x y : G, {x = y} + {x <> y}) c (D : list (G * Z)) u : D <> [] -> NoDup u ->
  (forall p, In p D -> In (fst p) u) ->
  weighted_impurity (impurity c) (map (fun v => grp dec v D) u) <= impurity c (map snd D).
Proof.
  intros Hne Hu Hc. rewrite weighted_grp by auto.
  destruct c; simpl; [apply gini_split|apply entropy_split|apply entropy_split]; auto.
Qed.

Lemma split_lowers c X (D : list (row * Z)) j pt parts : D <> [] -> split_on X D j pt parts ->
  weighted_impurity (impurity c) parts <= impurity c (map snd D).
Proof.
  intros Hne H. inversion H as [vals parts' Hn Hnd Hv HF|t up down Hcn Hu Hd Hup Hdn]; subst.
  - apply by_value_parts in HF. subst parts.
    replace (map snd D) with (map snd (map (fun p => (cell_at j (fst p), snd p)) D)) by (rewrite map_map; reflexivity).
    apply impurity_split; auto.
    + intros E. apply map_eq_nil in E. auto.
    + intros p Hp. apply in_map_iff in Hp. destruct Hp as (q & <- & Hq). simpl. apply Hv. eauto.
  - apply up_filter in Hu. apply down_filter in Hd. subst up down.
    set (E := map (fun p : row * Z => (Rleb t (num_of (cell_at j (fst p))), snd p)) D).
    replace (map snd D) with (map snd E) by (unfold E; rewrite map_map; reflexivity).
    assert (Hg : forall b, grp Bool.bool_dec b E = map snd (filter (fun p => Bool.eqb b (Rleb t (num_of (cell_at j (fst p))))) D)).
    { intros b. unfold grp, E. clear. induction D as [|p D IH]; [reflexivity|]. cbn [map filter fst snd].
      destruct (Bool.bool_dec b (Rleb t (num_of (cell_at j (fst p))))) as [E|E].
      - rewrite <- E, Bool.eqb_reflx. cbn [map]. f_equal. exact IH.
      - apply Bool.eqb_false_iff in E. rewrite E. exact IH. }
    replace [map snd (filter (fun p : row * Z => Rleb t (num_of (cell_at j (fst p)))) D);
             map snd (filter (fun p : row * Z => Rltb (num_of (cell_at j (fst p))) t) D)]
      with (map (fun b => grp Bool.bool_dec b E) [true; false]).
    + apply impurity_split.
      * unfold E. intros H0. apply map_eq_nil in H0. auto.
      * repeat constructor; simpl; intuition congruence.
      * intros [[|] l] _; simpl; auto.
    + simpl. rewrite !Hg. f_equal. { f_equal. apply filter_ext_In. intros p _. now destruct (Rleb t (num_of (cell_at j (fst p)))). }
      f_equal. f_equal. apply filter_ext_In. intros p _. rewrite Rltb_negb. now destruct (Rleb t (num_of (cell_at j (fst p)))).
Qed.

Lemma chosen_gain c X D cols j v pt : D <> [] -> (forall p, In p D -> In (fst p) X) ->
  optimal_division c X D cols = Some (j, (v, pt)) ->
  match c with Gain => 0 <= v | _ => v <= impurity c (map snd D) end.
Proof.
  intros Hne HX E. pose proof (optimal_division_spec c X D cols Hne HX) as H. rewrite E in H.
  destruct H as (_ & _ & parts & Hs & Hv & _). pose proof (split_lowers c X D j pt parts Hne Hs) as Hl.
  destruct c; simpl in *; subst v; lra.
Qed.

(** ** Fits *)
Lemma fit_node rnd w D : D <> [] -> rectangular w D -> keeps_sides rnd D -> node rnd (map fst D) w (seq 0 w) D.
Proof.
  intros Hne Hw Hr. constructor; auto.
  - intros p Hp. now apply in_map.
  - intros j Hj. apply in_seq in Hj. lia.
  - intros p q j _ _ Hj Hn. exfalso. apply Hn. apply in_seq. lia.
Qed.

Lemma fit_outcome top rnd c w D : D <> [] -> rectangular w D -> keeps_sides rnd D ->
  (exists t, fit_tree top rnd c w D = Ok t) \/ (fit_tree top rnd c w D = Err ValueError /\ ~ consistent D).
Proof.
  intros Hne Hw Hr. unfold fit_tree. apply (generate_total top rnd c (map fst D) w).
  - rewrite seq_length. lia.
  - now apply fit_node.
Qed.

Lemma fit_empty top rnd c w : fit_tree top rnd c w [] = Err IndexError.
Proof. unfold fit_tree. simpl. rewrite orb_true_r. reflexivity. Qed.

Lemma fit_correct top rnd c w D : D <> [] -> rectangular w D -> keeps_sides rnd D -> consistent D ->
  exists t, fit_tree top rnd c w D = Ok t /\ forall r l, In (r, l) D -> predict t r = Ok l.
Proof.
  intros Hne Hw Hr Hc. destruct (fit_outcome top rnd c w D Hne Hw Hr) as [(t & E)|[_ H]]; [|contradiction].
  exists t. split; auto. eapply generate_correct; [apply fit_node; eauto|auto|exact E].
Qed.

Lemma fit_labels top rnd c w D t r l : (forall y, y <> [] -> In (top y) y) ->
  fit_tree top rnd c w D = Ok t -> predict t r = Ok l -> exists r', In (r', l) D.
Proof.
  intros Ht E Hp. pose proof (generate_labels top rnd c (map fst D) Ht _ _ _ _ _ _ _ E Hp) as H.
  apply in_map_iff in H. destruct H as ([r' l'] & <- & H). exists r'. auto.
Qed.

Lemma fit_nonempty top rnd c w D t : fit_tree top rnd c w D = Ok t -> D <> [].
Proof. intros H ->. rewrite fit_empty in H. discriminate. Qed.

Lemma fit_counts top rnd c w D t : fit_tree top rnd c w D = Ok t ->
  forall s, subtree s t -> node_counts s /\ (0 <= height s)%Z.
Proof.
  intros E. pose proof (fit_nonempty _ _ _ _ _ _ E) as Hne.
  apply (grown_counts top rnd c (map fst D)) with (f := S (length D + w)) (e := false) (cols := seq 0 w) (D := D); auto.
  intros H. apply map_eq_nil in H. auto.
Qed.

Lemma subtree_trans a b c : subtree a b -> subtree b c -> subtree a c.
Proof.
  intros H1 H2. revert a H1. induction H2; intros a0 H1; auto.
  - now apply sub_ge, IHsubtree.
  - now apply sub_lt, IHsubtree.
  - eapply sub_kid; eauto.
Qed.

Lemma fit_leaves top rnd c w D t : fit_tree top rnd c w D = Ok t -> forall s, subtree s t -> num_of_leaves s = leaf_count s.
Proof. intros E s Hs. apply (fit_counts _ _ _ _ _ _ E s Hs). Qed.

Lemma fit_height_ge top rnd c w D t : fit_tree top rnd c w D = Ok t ->
  forall s, subtree s t -> (Z.of_nat (depth s) <= height s)%Z.
Proof. intros E s Hs. apply depth_le_height. intros s' Hs'. eapply fit_counts; eauto using subtree_trans. Qed.

Lemma fit_height_discrete top rnd c w D t : fit_tree top rnd c w D = Ok t ->
  forall s, subtree s t -> (forall s', subtree s' s -> ~ is_cont s') -> height s = Z.of_nat (depth s).
Proof. intros E s Hs Hn. apply depth_eq_height; auto. intros s' Hs'. eapply fit_counts; eauto using subtree_trans. Qed.

Lemma fit_height_node top rnd c w D t : fit_tree top rnd c w D = Ok t ->
  forall s, subtree s t ->
  match s with
  | Leaf _ => True
  | Cont _ _ _ _ h g l => h = (height g + height l + 1)%Z
  | Disc _ _ _ h kids => (forall a k, In (a, k) kids -> (height k < h)%Z) /\
      exists a k, In (a, k) kids /\ (height k + 1 = h)%Z
  end.
Proof. intros E s Hs. destruct (fit_counts _ _ _ _ _ _ E s Hs) as [[_ H] _]. destruct s; auto. Qed.

(** Rows whose values all occur in training get a label. *)
Lemma known_generate top rnd c X w r : length r = w ->
  (forall j, (j < w)%nat -> exists r', In r' X /\ cell_at j r' = cell_at j r) ->
  forall f e cols D t, (forall p, In p D -> In (fst p) X) -> (forall j, In j cols -> (j < w)%nat) ->
  generate top rnd c X f e cols D = Ok t -> exists l, predict t r = Ok l.
Proof.
  intros Hw Hk. induction f as [|f IH]; intros e cols D t HX Hc H; [discriminate|].
  apply generate_step in H. inversion H as [l|Hne|j v t0 g l He Hne Ho Hg Hl|j v kids He Hne Ho HF]; subst; [simpl; eauto|simpl; eauto| |];
    pose proof (optimal_division_spec c X D cols Hne HX) as Hspec; rewrite Ho in Hspec; destruct Hspec as (Hj & Ha & _).
  - simpl. rewrite (get_at_cell r j (length r) eq_refl (Hc j Hj)). simpl.
    destruct (Hk j (Hc j Hj)) as (r' & Hr' & E). unfold attribute_value in Ha.
    destruct (is_continuous X (map fst D) j) eqn:Ec; [|discriminate].
    destruct (is_continuous_spec X D j Ec HX) as [Hnum _]. destruct (Hnum r' Hr') as (x & Ex). rewrite <- E, Ex.
    destruct (Rleb (rnd t0) x).
    + apply (IH _ _ _ _ (fun p Hp => HX p (part_sub _ _ _ Hp)) Hc Hg).
    + apply (IH _ _ _ _ (fun p Hp => HX p (part_sub _ _ _ Hp)) Hc Hl).
  - rewrite predict_disc, (get_at_cell r j (length r) eq_refl (Hc j Hj)). simpl.
    destruct (kid kids (cell_at j r)) as [k|] eqn:Ek.
    + apply kid_In in Ek. assert (Hc' : forall j', In j' (remove Nat.eq_dec j cols) -> (j' < length r)%nat).
      { intros j' Hj'. apply In_remove in Hj'. apply Hc. tauto. }
      destruct (Forall2_In_r _ _ _ _ HF Ek) as (b & _ & _ & [[_ Hg]|[_ Hg]]).
      * apply (IH _ _ _ _ HX Hc' Hg).
      * apply (IH _ _ _ _ (fun p Hp => HX p (part_sub _ _ _ Hp)) Hc' Hg).
    + exfalso. apply kid_None in Ek. apply Ek. assert (Hmap : map fst kids = pd_unique cell_eq_dec (map (cell_at j) X)).
      { clear -HF. induction HF as [|b k l1 l2 [E _] _ IHl]; simpl; auto. congruence. }
      rewrite Hmap, pd_unique_In. destruct (Hk j (Hc j Hj)) as (r' & Hr' & E). rewrite <- E. now apply in_map.
Qed.

Lemma fit_known top rnd c w D t r : fit_tree top rnd c w D = Ok t -> length r = w ->
  (forall j, (j < w)%nat -> exists r' l, In (r', l) D /\ cell_at j r' = cell_at j r) -> exists l, predict t r = Ok l.
Proof.
  intros E Hw Hk. unfold fit_tree in E. eapply (known_generate top rnd c (map fst D) w r Hw); eauto.
  - intros j Hj. destruct (Hk j Hj) as (r' & l & Hin & He). exists r'. split; auto. apply (in_map fst _ _ Hin).
  - intros p Hp. now apply in_map.
  - intros j Hj. apply in_seq in Hj. lia.
Qed.

(** Discrete nodes know exactly the training values of their column. *)
Lemma disc_values top rnd c X : forall f e cols D t, generate top rnd c X f e cols D = Ok t ->
  forall j v n h kids, subtree (Disc j v n h kids) t -> forall a, In a (map fst kids) <-> exists r, In r X /\ cell_at j r = a.
Proof.
  induction f as [|f IH]; intros e cols D t H j0 v0 n0 h0 kids0 Hs a; [discriminate|].
  apply generate_step in H. inversion H as [l|Hne|j v t0 g l He Hne Ho Hg Hl|j v kids He Hne Ho HF]; subst.
  - inversion Hs.
  - inversion Hs.
  - inversion Hs; subst; [eapply (IH _ _ _ _ Hg); eauto|eapply (IH _ _ _ _ Hl); eauto].
  - inversion Hs as [|?|?|s j' v' n' h' kids' b k Hin Hsub]; subst.
    + assert (Hmap : map fst kids = pd_unique cell_eq_dec (map (cell_at j) X)).
      { clear -HF. induction HF as [|b k l1 l2 [E _] _ IHl]; simpl; auto. congruence. }
      rewrite Hmap, pd_unique_In, in_map_iff. split; intros (r & H1 & H2); exists r; auto.
    + destruct (Forall2_In_r _ _ _ _ HF Hin) as (b' & _ & _ & [[_ Hg]|[_ Hg]]); eapply (IH _ _ _ _ Hg); eauto.
Qed.

Lemma fit_unseen top rnd c w D t : fit_tree top rnd c w D = Ok t ->
  forall j v n h kids r a, subtree (Disc j v n h kids) t -> nth_error r j = Some a ->
  (forall r' l, In (r', l) D -> cell_at j r' <> a) -> predict (Disc j v n h kids) r = Err KeyError.
Proof.
  intros E j v n h kids r a Hs Hr Hn. rewrite predict_disc. unfold get_at. rewrite Hr. simpl.
  destruct (kid kids a) eqn:Ek; auto. exfalso. apply kid_In in Ek. apply (in_map fst) in Ek. simpl in Ek.
  apply (disc_values _ _ _ _ _ _ _ _ _ E _ _ _ _ _ Hs) in Ek. destruct Ek as (r' & Hin & Ea).
  apply in_map_iff in Hin. destruct Hin as ([r'' l] & E' & Hin). simpl in E'. subst r''. apply (Hn r' l); auto.
Qed.

Lemma fit_gain_entropy top rnd w D :
  match fit_tree top rnd Gain w D, fit_tree top rnd Entropy w D with
  | Ok t, Ok t' => same_shape t t' /\ forall r, predict t r = predict t' r
  | Err e, Err e' => e = e'
  | _, _ => False
  end.
Proof.
  unfold fit_tree. pose proof (gain_entropy top rnd (map fst D) (S (length D + w)) false (seq 0 w) D) as H.
  unfold same_outcome in H. destruct (generate top rnd Gain _ _ _ _ _), (generate top rnd Entropy _ _ _ _ _); auto.
  split; auto. now apply same_predict.
Qed.

Lemma id_keeps_sides D : keeps_sides (fun x => x) D.
Proof. intros j r1 l1 r2 l2 a b _ _ _ _ H. lra. Qed.

(** ** Contradictory continuous rows *)
Lemma half_frac n : forall z : Z, IZR n + / 2 <> IZR z.
Proof.
  intros z H. assert (E : IZR (2 * n + 1) = IZR (2 * z)) by (rewrite plus_IZR, !mult_IZR; lra).
  apply eq_IZR in E. lia.
Qed.

Definition clash : list (row * Z) := [([Num (IZR 0 + / 2)], 0%Z); ([Num (IZR 0 + / 2)], 1%Z)].

Lemma numeric_continuous X (D : list (row * Z)) j : D <> [] -> (forall r, In r X -> exists n, cell_at j r = Num (IZR n + / 2)) ->
  (forall p, In p D -> In (fst p) X) -> is_continuous X (map fst D) j = true.
Proof.
  intros Hne HX Hs. destruct (is_continuous X (map fst D) j) eqn:E; auto. exfalso.
  apply (is_continuous_false X D j E). split.
  - intros r Hr. destruct (HX r Hr) as (n & En). eauto.
  - destruct D as [|p D]; [congruence|]. destruct (HX (fst p) (Hs p (or_introl eq_refl))) as (n & En).
    exists p, (IZR n + / 2). split; [simpl; auto|]. split; auto. apply half_frac.
Qed.

Lemma clash_fails top rnd c : fit_tree top rnd c 1 clash = Err ValueError.
Proof.
  unfold fit_tree. cbn [length clash Nat.add generate].
  replace (length (nodup Z.eq_dec (map snd clash)) =? 1)%nat with false by reflexivity. cbn [orb length clash seq Nat.eqb].
  fold clash. assert (E : attribute_value c (map fst clash) clash 0 = None).
  { unfold attribute_value. rewrite numeric_continuous.
    - destruct (get_value_continuous (impurity c) _) as [[v t]|] eqn:G; auto. exfalso.
      assert (N : get_value_continuous (impurity c) (map (fun p => (num_of (cell_at 0 (fst p)), snd p)) clash) = None).
      { apply get_value_continuous_none. intros p q Hp Hq. simpl in Hp, Hq.
        destruct Hp as [<-|[<-|[]]], Hq as [<-|[<-|[]]]; reflexivity. }
      congruence.
    - discriminate.
    - intros r [<-|[<-|[]]]; exists 0%Z; reflexivity.
    - intros p Hp. now apply in_map. }
  unfold optimal_division. cbn [seq fold_left]. rewrite E. reflexivity.
Qed.

(** ** A continuous tree whose reported height is wrong *)
Definition ladder : list (row * Z) :=
  [([Num (IZR 0 + / 2)], 0%Z); ([Num (IZR 1 + / 2)], 1%Z); ([Num (IZR 2 + / 2)], 2%Z); ([Num (IZR 3 + / 2)], 3%Z)].

Lemma log2_half : log2 (1 / 2) = - 1.
Proof. unfold log2, Rdiv. rewrite Rmult_1_l, ln_Rinv by lra. pose proof ln2_pos. field. lra. Qed.

Lemma entropy_two a b : a <> b -> entropy [a; b] = 1.
Proof.
  intros H. unfold entropy, frequencies. simpl. destruct (Z.eq_dec b a) as [E|_]; [congruence|].
  simpl. destruct (Z.eq_dec a a), (Z.eq_dec b b), (Z.eq_dec a b), (Z.eq_dec b a); try congruence. simpl.
  unfold count. simpl. repeat match goal with |- context [Z.eqb ?x ?y] => destruct (Z.eqb_spec x y); try congruence end. simpl.
  replace (1 / (1 + 1)) with (1 / 2) by lra. rewrite log2_half. lra.
Qed.

Lemma log2_third : log2 (1 / 3) = - log2 3.
Proof. unfold log2, Rdiv. rewrite Rmult_1_l, ln_Rinv by lra. pose proof ln2_pos. field. lra. Qed.

Lemma entropy_three a b c : a <> b -> a <> c -> b <> c -> entropy [a; b; c] = log2 3.
Proof.
  intros H1 H2 H3. unfold entropy, frequencies. simpl.
  repeat match goal with |- context [Z.eq_dec ?x ?y] => destruct (Z.eq_dec x y); try congruence end.
  simpl. repeat match goal with |- context [Z.eq_dec ?x ?y] => destruct (Z.eq_dec x y); try congruence end.
  unfold count. simpl. repeat match goal with |- context [Z.eqb ?x ?y] => destruct (Z.eqb_spec x y); try congruence end. simpl.
  replace (1 / (1 + 1 + 1)) with (1 / 3) by lra. rewrite log2_third. lra.
Qed.

Lemma entropy_one a : entropy [a] = 0.
Proof. apply entropy_zero; [discriminate|]. intros x y [<-|[]] [<-|[]]; auto. Qed.

Lemma log2_3 : 3 / 4 * log2 3 > 1.
Proof.
  unfold log2. pose proof ln2_pos as H.
  assert (E : ln 16 < ln 27) by (apply ln_increasing; lra).
  replace 16 with (2 * (2 * (2 * 2))) in E by lra. replace 27 with (3 * (3 * 3)) in E by lra.
  rewrite !ln_mult in E by lra.
  apply Rmult_lt_reg_r with (r := ln 2); auto. unfold Rdiv. rewrite !Rmult_assoc, Rinv_l by lra. lra.
Qed.

Lemma pair_grown top f X a b m n : a < b -> m <> n ->
  (forall r, In r X -> exists n, cell_at 0 r = Num (IZR n + / 2)) -> In [Num a] X -> In [Num b] X ->
  forall t, generate top (fun x => x) Gain X f false [0%nat] [([Num a], m); ([Num b], n)] = Ok t ->
  depth t = 1%nat /\ height t = 1%Z.
Proof.
  intros Hab Hmn HX Ha Hb t H. set (D := [([Num a], m); ([Num b], n)]) in *.
  destruct f as [|f]; [discriminate|]. apply generate_step in H.
  assert (Hne : D <> []) by discriminate.
  assert (HXD : forall p, In p D -> In (fst p) X) by (intros p [<-|[<-|[]]]; auto).
  assert (Hc : is_continuous X (map fst D) 0 = true) by (apply numeric_continuous; auto).
  inversion H as [l _ Hall|_ [He|He] _|j v t0 g l He _ Ho Hg Hl|j v kids He _ Ho HF]; subst; try discriminate.
  - exfalso. apply Hmn. transitivity l; [|symmetry]; [apply (Hall ([Num a], m))|apply (Hall ([Num b], n))]; simpl; auto.
  - pose proof (optimal_division_spec Gain X D [0%nat] Hne HXD) as Hs. rewrite Ho in Hs.
    destruct Hs as ([<-|[]] & Hat & _).
    destruct (cont_split (fun x => x) Gain X D 0 v t0 Hne HXD (id_keeps_sides D) Hat) as (_ & p & q & Hp & Hq & G1 & G2 & _).
    assert (Ht : a < t0 <= b).
    { simpl in Hp, Hq. destruct Hp as [<-|[<-|[]]], Hq as [<-|[<-|[]]]; cbn in G1, G2;
        rewrite ?Rleb_true, ?Rleb_false in *; lra. }
    unfold part_ge, D in Hg. unfold part_lt, D in Hl. cbn in Hg, Hl.
    replace (Rleb t0 a) with false in Hg by (symmetry; apply Rleb_false; lra).
    replace (Rleb t0 b) with true in Hg by (symmetry; apply Rleb_true; lra).
    replace (Rltb a t0) with true in Hl by (symmetry; apply Rltb_true; lra).
    replace (Rltb b t0) with false in Hl by (symmetry; apply Rltb_false; lra).
    destruct f as [|f]; [discriminate|]. cbn in Hg, Hl. injection Hg as <-. injection Hl as <-. split; reflexivity.
  - exfalso. pose proof (optimal_division_spec Gain X D [0%nat] Hne HXD) as Hs. rewrite Ho in Hs.
    destruct Hs as ([<-|[]] & Hat & _). unfold attribute_value in Hat. unfold row in *. rewrite Hc in Hat.
    destruct (get_value_continuous _ _) as [[? ?]|]; discriminate.
Qed.

Lemma ladder_height top : exists t, fit_tree top (fun x => x) Gain 1 ladder = Ok t /\ height t = 3%Z /\ depth t = 2%nat.
Proof.
  assert (Hne : ladder <> []) by discriminate.
  assert (Hw : rectangular 1 ladder) by (intros r l H; simpl in H; repeat destruct H as [H|H]; try contradiction; now injection H as <- _).
  assert (Hc : consistent ladder).
  { intros r l l' H H'. simpl in H, H'.
    repeat destruct H as [H|H]; try contradiction; repeat destruct H' as [H'|H']; try contradiction;
      injection H as Hr <-; injection H' as Hr' <-; auto; exfalso; rewrite <- Hr' in Hr; injection Hr; lra. }
  destruct (fit_correct top (fun x => x) Gain 1 ladder Hne Hw (id_keeps_sides _) Hc) as (t & E & _).
  exists t. split; auto. unfold fit_tree in E. apply generate_step in E.
  set (X := map fst ladder) in *.
  assert (HXD : forall p, In p ladder -> In (fst p) X) by (intros p Hp; now apply in_map).
  assert (HX : forall r, In r X -> exists n, cell_at 0 r = Num (IZR n + / 2)).
  { intros r H. simpl in H. destruct H as [<-|[<-|[<-|[<-|[]]]]]; [exists 0%Z|exists 1%Z|exists 2%Z|exists 3%Z]; reflexivity. }
  assert (Hcn : is_continuous X (map fst ladder) 0 = true) by (apply numeric_continuous; auto).
  change (seq 0 1) with [0%nat] in E.
  pose proof (optimal_division_spec Gain X ladder [0%nat] Hne HXD) as Hs.
  inversion E as [l _ Hall|_ [He|He] _|j v t0 g l He _ Ho Hg Hl|j v kids He _ Ho HF]; subst; try discriminate.
  - exfalso. pose proof (Hall ([Num (IZR 0 + / 2)], 0%Z)) as H0. pose proof (Hall ([Num (IZR 1 + / 2)], 1%Z)) as H1.
    simpl in H0, H1. rewrite <- H0 in H1 by auto. specialize (H1 (or_intror (or_introl eq_refl))). discriminate.
  - rewrite Ho in Hs. destruct Hs as ([<-|[]] & Hat & parts & Hsp & Hv & Hmin).
    assert (Hmid : weighted_impurity entropy parts <= 1).
    { replace 1 with (weighted_impurity entropy [[2%Z; 3%Z]; [0%Z; 1%Z]]).
      - apply (Hmin 0%nat (Some 2) [[2%Z; 3%Z]; [0%Z; 1%Z]]); [simpl; auto|]. constructor; try discriminate.
        + now apply is_continuous_spec.
        + unfold ladder. apply lw_out; [cbn; lra|]. apply lw_out; [cbn; lra|]. apply lw_in; [cbn; lra|]. apply lw_in; [cbn; lra|]. constructor.
        + unfold ladder. apply lw_in; [cbn; lra|]. apply lw_in; [cbn; lra|]. apply lw_out; [cbn; lra|]. apply lw_out; [cbn; lra|]. constructor.
      - rewrite weighted_two by (simpl; lia). rewrite !entropy_two by discriminate. simpl. lra. }
    inversion Hsp as [|t up down Hcn' Hu Hd Hup Hdn]; subst.
    apply up_filter in Hu. apply down_filter in Hd. subst up down.
    pose proof log2_3 as H3. unfold ladder in Hmid, Hup, Hdn. cbn in Hmid, Hup, Hdn.
    assert (HgE : exists f, generate top (fun x => x) Gain X f false [0%nat] (part_ge t0 0 ladder) = Ok g) by (eexists; exact Hg).
    assert (HlE : exists f, generate top (fun x => x) Gain X f false [0%nat] (part_lt t0 0 ladder) = Ok l) by (eexists; exact Hl).
    clear Hg Hl. destruct HgE as (fg & Hg), HlE as (fl & Hl). unfold part_ge, ladder in Hg. unfold part_lt, ladder in Hl.
    cbn [filter fst cell_at nth cell_ge cell_lt] in Hg, Hl.
    destruct (Rleb t0 (0 + / 2)) eqn:E0.
    { exfalso. apply Rleb_true in E0.
      repeat (rewrite (proj2 (Rltb_false _ _)) in Hdn by lra). apply Hdn. reflexivity. }
    apply Rleb_false in E0. rewrite (proj2 (Rltb_true (0 + / 2) t0)) in Hl, Hmid by lra.
    destruct (Rleb t0 (1 + / 2)) eqn:E1.
    { exfalso. apply Rleb_true in E1. repeat (rewrite (proj2 (Rltb_false _ _)) in Hmid by lra).
      repeat (rewrite (proj2 (Rleb_true _ _)) in Hmid by lra). cbn [map snd] in Hmid.
      rewrite weighted_two, entropy_one, entropy_three in Hmid by (simpl; try lia; discriminate). simpl in Hmid. lra. }
    apply Rleb_false in E1. rewrite (proj2 (Rltb_true (1 + / 2) t0)) in Hl, Hmid by lra.
    destruct (Rleb t0 (2 + / 2)) eqn:E2.
    2:{ exfalso. apply Rleb_false in E2. rewrite (proj2 (Rltb_true (2 + / 2) t0)) in Hmid by lra.
        destruct (Rleb t0 (3 + / 2)) eqn:E3; [|apply Hup; reflexivity].
        apply Rleb_true in E3. repeat (rewrite (proj2 (Rltb_false _ _)) in Hmid by lra). cbn [map snd] in Hmid.
        rewrite weighted_two, entropy_one, entropy_three in Hmid by (simpl; try lia; discriminate). simpl in Hmid. lra. }
    apply Rleb_true in E2. rewrite (proj2 (Rleb_true t0 (3 + / 2))) in Hg by lra.
    repeat (rewrite (proj2 (Rltb_false _ t0)) in Hl by lra).
    apply pair_grown in Hg; [|lra|discriminate|exact HX|simpl; tauto|simpl; tauto].
    apply pair_grown in Hl; [|lra|discriminate|exact HX|simpl; tauto|simpl; tauto].
    destruct Hg as [G1 G2], Hl as [L1 L2]. simpl. rewrite G1, G2, L1, L2. split; reflexivity.
  - exfalso. rewrite Ho in Hs.
    destruct Hs as ([<-|[]] & Hat & _). unfold attribute_value in Hat. rewrite Hcn in Hat.
    destruct (get_value_continuous _ _) as [[? ?]|]; discriminate.
Qed.

(** ** Statements used by the property file *)
Lemma entropy_mean_surprisal y : y <> [] ->
  entropy y = fold_right Rplus 0 (map (fun l => - (ln (INR (count_occ Z.eq_dec y l) / INR (length y)) / ln 2)) y) / INR (length y).
Proof.
  intros Hy. rewrite (entropy_samples y Hy). f_equal. change (fold_right Rplus 0) with rsum. apply rsum_ext.
  intros l _. unfold log2. replace (cnt Z.eq_dec l y) with (count_occ Z.eq_dec y l); auto.
  clear. induction y as [|a y IH]; simpl; auto. rewrite cnt_cons, <- IH.
  destruct (Z.eq_dec a l), (Z.eq_dec l a); try congruence; auto.
Qed.

Lemma optimal_division_main c X D cols : D <> [] -> (forall p, In p D -> In (fst p) X) ->
  match optimal_division c X D cols with
  | None => forall j pt parts, In j cols -> ~ split_on X D j pt parts
  | Some (j, (v, pt)) => In j cols /\ exists parts, split_on X D j pt parts /\
      v = match c with
          | Gain => entropy (map snd D) - weighted_impurity entropy parts
          | Gini => weighted_impurity gini parts
          | Entropy => weighted_impurity entropy parts
          end /\
      forall j' pt' parts', In j' cols -> split_on X D j' pt' parts' ->
        weighted_impurity (impurity c) parts <= weighted_impurity (impurity c) parts'
  end.
Proof.
  intros Hne HX. pose proof (optimal_division_spec c X D cols Hne HX) as H.
  destruct (optimal_division c X D cols) as [[j [v pt]]|]; auto. destruct H as (Hj & _ & parts & Hs & Hv & Hm).
  split; auto. exists parts. split; auto. split; auto. destruct c; exact Hv.
Qed.

Lemma threshold_midpoint c X D cols j v t : D <> [] -> (forall p, In p D -> In (fst p) X) ->
  optimal_division c X D cols = Some (j, (v, Some t)) ->
  exists p q a b, In p D /\ In q D /\ cell_at j (fst p) = Num a /\ cell_at j (fst q) = Num b /\ a < b /\
    t = (a + b) / 2 /\ forall s x, In s D -> cell_at j (fst s) = Num x -> x <= a \/ b <= x.
Proof.
  intros Hne HX E. pose proof (optimal_division_spec c X D cols Hne HX) as H. rewrite E in H.
  destruct H as (_ & Hat & _). unfold attribute_value in Hat.
  destruct (is_continuous X (map fst D) j) eqn:Ec; [|discriminate].
  destruct (is_continuous_spec X D j Ec HX) as [Hnum _].
  destruct (get_value_continuous _ _) as [[v' t']|] eqn:G; [|discriminate]. injection Hat as _ ->.
  destruct (get_value_continuous_spec _ _ _ _ G) as (_ & (a & b & Ha & Hb & Hab & Ht & Hgap) & _).
  rewrite map_map in Ha, Hb. simpl in Ha, Hb. apply in_map_iff in Ha, Hb.
  destruct Ha as (q & Ea & Hq), Hb as (p & Eb & Hp).
  destruct (Hnum _ (HX q Hq)) as (x & Ex). destruct (Hnum _ (HX p Hp)) as (y & Ey).
  rewrite Ex in Ea. rewrite Ey in Eb. simpl in Ea, Eb. subst x y.
  exists q, p, a, b. repeat (split; auto). intros s x Hs Hx.
  assert (Hin : In x (map fst (map (fun p => (num_of (cell_at j (fst p)), snd p)) D))).
  { rewrite map_map. apply in_map_iff. exists s. simpl. rewrite Hx. auto. }
  apply Hgap in Hin. exact Hin.
Qed.
