From Coq Require Import List ZArith Reals Bool Arith Lia Lra Sorting.Sorted String.
From Verif.Model Require Import Base Preprocessing Dataset.
From Verif.Spec Require Import Common Preprocessing Dataset.
From Verif.Proof Require Import BaseLemmas Preprocessing.
Import ListNotations.
Local Notation length := List.length.

(** ** A total order on strings (code point order on UTF-8 texts) *)
Fixpoint str_leb (a b : string) : bool :=
  match a, b with
  | EmptyString, _ => true
  | String _ _, EmptyString => false
  | String x a', String y b' =>
      let i := Ascii.nat_of_ascii x in let j := Ascii.nat_of_ascii y in
      if i <? j then true else if j <? i then false else str_leb a' b'
  end.

Lemma nat_of_ascii_inj x y : Ascii.nat_of_ascii x = Ascii.nat_of_ascii y -> x = y.
Proof. intros H. rewrite <- (Ascii.ascii_nat_embedding x), <- (Ascii.ascii_nat_embedding y). now f_equal. Qed.

Program Definition stringOrder : TotalOrder string := {| leb := str_leb |}.
Next Obligation.
  revert y; induction x as [|a x IH]; intros [|b y]; simpl; auto.
  destruct (Nat.ltb_spec (Ascii.nat_of_ascii a) (Ascii.nat_of_ascii b)); auto.
  destruct (Nat.ltb_spec (Ascii.nat_of_ascii b) (Ascii.nat_of_ascii a)); auto.
Defined.
Next Obligation.
  revert x z H H0; induction y as [|b y IH]; intros [|a x] [|c z]; simpl; auto; try discriminate.
  repeat match goal with |- context [?p <? ?q] => destruct (Nat.ltb_spec p q) end;
    auto; try discriminate; try lia.
Defined.
Next Obligation.
  revert y H H0; induction x as [|a x IH]; intros [|b y]; simpl; auto; try discriminate.
  repeat match goal with |- context [?p <? ?q] => destruct (Nat.ltb_spec p q) end;
    auto; try discriminate; try lia.
  intros H1 H2. f_equal; [apply nat_of_ascii_inj; lia|auto].
Defined.

(** ** Sequential replacement *)
Section Rep.
Context {A : Type} (O : TotalOrder A).

Definition rep1 (x w t : A) : A := if eqb O x w then t else x.

Lemma rep1_neq x w t : x <> w -> rep1 x w t = x.
Proof. intros H; unfold rep1. apply (eqb_false O) in H. now rewrite H. Qed.
Lemma rep1_eq x t : rep1 x x t = t.
Proof. unfold rep1. now rewrite eqb_refl. Qed.

Lemma fold_replace_map {B} (ps : list B) (src tgt : B -> A) l :
  fold_left (fun l p => replace_all O (src p) (tgt p) l) ps l =
  map (fun x => fold_left (fun x p => rep1 x (src p) (tgt p)) ps x) l.
Proof.
  revert l; induction ps as [|p ps IH]; intros l; simpl.
  - now rewrite map_id.
  - rewrite IH. unfold replace_all. rewrite map_map. reflexivity.
Qed.

Lemma rep_words ws t x : ~ In t ws ->
  fold_left (fun x w => rep1 x w t) ws x = if in_dec (eq_dec_of_order O) x ws then t else x.
Proof.
  intros Ht. revert x. induction ws as [|w ws IH]; intros x; [reflexivity|].
  cbn [fold_left]. rewrite IH by (simpl in Ht; tauto). simpl in Ht.
  destruct (eq_dec_of_order O x w) as [->|Hne].
  - rewrite rep1_eq. destruct (in_dec (eq_dec_of_order O) t ws); [tauto|].
    destruct (in_dec (eq_dec_of_order O) w (w :: ws)) as [|nn]; auto. exfalso; apply nn; simpl; auto.
  - rewrite rep1_neq by auto.
    destruct (in_dec (eq_dec_of_order O) x ws) as [i|i];
    destruct (in_dec (eq_dec_of_order O) x (w :: ws)) as [i'|i']; auto.
    + exfalso; apply i'; simpl; auto.
    + destruct i' as [->|]; [congruence|tauto].
Qed.

Variable put : nat -> A.
Lemma rep_untouched s l x : ~ In x l ->
  fold_left (fun x p => rep1 x (snd p) (put (fst p))) (combine (seq s (length l)) l) x = x.
Proof.
  revert s x; induction l as [|a l IH]; intros s x Hn; simpl; auto.
  rewrite rep1_neq by (simpl in Hn; intuition). apply IH. simpl in Hn; tauto.
Qed.

Lemma rep_rank l : NoDup l ->
  forall s k x, (forall i j y, i < j -> nth_error l j = Some y -> put (s + i) <> y) ->
  nth_error l k = Some x ->
  fold_left (fun x p => rep1 x (snd p) (put (fst p))) (combine (seq s (length l)) l) x = put (s + k).
Proof.
  induction 1 as [|a l Hna Hnd IH]; intros s k x Hput Hk; [destruct k; discriminate|].
  cbn [length seq combine fold_left snd fst]. destruct k as [|k].
  - injection Hk as ->. rewrite rep1_eq. rewrite rep_untouched; [now rewrite Nat.add_0_r|].
    intros Hin. apply In_nth_error in Hin. destruct Hin as (j & Hj).
    apply (Hput 0 (S j) (put s)); [lia|exact Hj|now rewrite Nat.add_0_r].
  - rewrite rep1_neq.
    + rewrite (IH (S s) k x); auto.
      * f_equal; lia.
      * intros i j y Hij Hy. replace (S s + i) with (s + S i) by lia. apply (Hput (S i) (S j)); auto. lia.
    + intros ->. apply Hna. eapply nth_error_In; eauto.
Qed.

Lemma fold_pair {B S T} (f : S -> B -> S) (g : T -> B -> T) l s t :
  fold_left (fun st b => (f (fst st) b, g (snd st) b)) l (s, t) = (fold_left f l s, fold_left g l t).
Proof. revert s t; induction l; simpl; auto. Qed.

Variable int_of : A -> option Z.
Lemma categorical_spec labels :
  labels <> [] ->
  (forall i, int_of (put i) = Some (Z.of_nat i)) ->
  (forall i j l, i < j -> is_rank O labels l j -> In l labels -> put i <> l) ->
  exists y ci, categorical O put int_of [] labels = Ok (y, ci) /\
    Forall2 (fun l c => exists k, is_rank O labels l k /\ c = Z.of_nat k /\ dict_get O ci l = Some c) labels y /\
    (forall l v, dict_get O ci l = Some v -> In l labels) /\ NoDup (map fst ci).
Proof.
  intros Hne Hint Hput. unfold categorical.
  assert (Hget : exists h, get_at labels 0 = Ok h) by (destruct labels; [congruence|eexists; reflexivity]).
  destruct Hget as (h & Hh). rewrite Hh. cbn [bind].
  set (raw := np_unique O labels).
  rewrite (fold_pair (fun l p => replace_all O (snd p) (put (fst p)) l)
                     (fun d p => dict_set O d (snd p) (Z.of_nat (fst p)))).
  rewrite (fold_replace_map (enumerate raw) snd (fun p => put (fst p))).
  set (ci := fold_left (fun d p => dict_set O d (snd p) (Z.of_nat (fst p))) (enumerate raw) (@nil (A * Z))).
  assert (Hci : ci = dict_update O [] (map (fun p => (fst p, Z.of_nat (snd p))) (index_pairs raw))).
  { unfold ci, dict_update, index_pairs. rewrite map_map.
    generalize (@nil (A * Z)) as d. generalize (enumerate raw) as e. induction e; simpl; auto. }
  assert (Hnd : NoDup (map fst (map (fun p : A * nat => (fst p, Z.of_nat (snd p))) (index_pairs raw)))).
  { rewrite map_map. cbn [fst].
    replace (map (fun x : A * nat => fst x) (index_pairs raw)) with raw; [apply np_unique_NoDup|].
    symmetry. apply map_fst_index_pairs. }
  assert (Hdg : forall l v, dict_get O ci l = Some v <-> exists k, nth_error raw k = Some l /\ v = Z.of_nat k).
  { intros l v. rewrite Hci, dict_update_fresh by exact Hnd. rewrite in_map_iff. split.
    - intros ([l' k] & E & Hin). simpl in E. injection E as <- <-. apply index_pairs_In in Hin. eauto.
    - intros (k & Hk & ->). exists (l, k). split; auto. now apply index_pairs_In. }
  assert (Hnth : forall i j y, i < j -> nth_error raw j = Some y -> put (0 + i) <> y).
  { intros i j y Hij Hy. simpl. apply (Hput i j y Hij).
    - apply (is_rank_ext O raw); [apply np_unique_In|]. apply sorted_nth_rank; auto. apply np_unique_sorted.
    - apply nth_error_In in Hy. now apply np_unique_In in Hy. }
  assert (Hrep : forall l k, nth_error raw k = Some l ->
     fold_left (fun x p => rep1 x (snd p) (put (fst p))) (enumerate raw) l = put k).
  { intros l k Hk. unfold enumerate. rewrite (rep_rank raw (np_unique_NoDup O labels) 0 k l Hnth Hk). reflexivity. }
  assert (G : forall ls, incl ls labels -> exists y,
     mapM (fun s => match int_of s with Some z => Ok z | None => Err ValueError end)
       (map (fun x => fold_left (fun x p => rep1 x (snd p) (put (fst p))) (enumerate raw) x) ls) = Ok y /\
     Forall2 (fun l c => exists k, is_rank O labels l k /\ c = Z.of_nat k /\ dict_get O ci l = Some c) ls y).
  { induction ls as [|l ls IH]; intros Hincl.
    - exists []; split; constructor.
    - destruct IH as (y & Hy & Hf); [intros z Hz; apply Hincl; simpl; auto|].
      destruct (rank_exists O labels l) as (k & Hk & Hr & _); [apply Hincl; simpl; auto|].
      exists (Z.of_nat k :: y). split.
      + cbn [map mapM]. rewrite (Hrep l k Hk), Hint. cbn [bind]. rewrite Hy. reflexivity.
      + constructor; auto. exists k. split; auto. split; auto. apply Hdg. eauto. }
  destruct (G labels (incl_refl _)) as (y & Hy & Hf).
  exists y, ci. rewrite Hy. cbn [bind]. split; [reflexivity|]. split; auto. split.
  - intros l v Hl. apply Hdg in Hl. destruct Hl as (k & Hk & _). apply nth_error_In in Hk.
    now apply np_unique_In in Hk.
  - rewrite Hci. clear -Hnd. unfold dict_update.
    assert (H : forall kvs (d : dict A Z), NoDup (map fst d) ->
       NoDup (map fst (fold_left (fun d kv => dict_set O d (fst kv) (snd kv)) kvs d))).
    { induction kvs as [|[k v] kvs IH]; simpl; auto. intros d Hd. apply IH.
      clear -Hd. induction d as [|[k' v'] d IH]; simpl; [repeat constructor; auto|].
      inversion Hd; subst. destruct (eqb O k k') eqn:E; simpl; constructor; auto.
      intros Hin. apply H1. clear -Hin E. induction d as [|[k2 v2] d IH]; simpl in *.
      - destruct Hin as [->|[]]. rewrite eqb_refl in E; discriminate.
      - destruct (eqb O k k2) eqn:E2; simpl in *; [auto|]. destruct Hin; auto. }
    apply H. constructor.
Qed.
End Rep.

(** ** Encoding after the preprocessing of labels *)
Section EncLabel.
Context {A : Type} (OA : TotalOrder A) (OZ : TotalOrder Z).

Lemma set_real_ok {B} (enc : dict Z B) (pre : dict A Z) d0 :
  NoDup (map fst pre) ->
  (forall k v, In (k, v) pre -> exists b, dict_get OZ enc v = Some b) ->
  exists d, foldM (fun d kv => v <- dict_lookup OZ enc (snd kv) ;; Ok (dict_set OA d (fst kv) v)) pre d0 = Ok d /\
    (forall k v, In (k, v) pre -> dict_get OA d k = dict_get OZ enc v) /\
    (forall k, ~ In k (map fst pre) -> dict_get OA d k = dict_get OA d0 k).
Proof.
  revert d0; induction pre as [|[k v] pre IH]; intros d0 Hnd Hall.
  - exists d0. split; [reflexivity|]. split; [intros ? ? []|auto].
  - inversion Hnd; subst. destruct (Hall k v) as (b & Hb); [simpl; auto|].
    destruct (IH (dict_set OA d0 k b)) as (d & Hd & H3 & H4); auto.
    { intros; eapply Hall; simpl; eauto. }
    exists d. split; [|split].
    + cbn [foldM]. unfold dict_lookup at 1. cbn [snd fst]. rewrite Hb. cbn [bind]. exact Hd.
    + intros k' v' [E|Hin]; [injection E as <- <-|auto].
      rewrite (H4 k H1). rewrite dict_get_set_eq. auto.
    + intros k' Hn. simpl in Hn. rewrite H4 by tauto. apply dict_get_set_neq. intuition.
Qed.

Lemma dict_get_In {B} (d : dict A B) k v : dict_get OA d k = Some v -> In (k, v) d.
Proof.
  induction d as [|[k' v'] d IH]; simpl; [discriminate|].
  destruct (eqb OA k k') eqn:E.
  - intros H; injection H as <-. apply eqb_true in E; subst. auto.
  - auto.
Qed.
Lemma dict_In_get {B} (d : dict A B) k v : NoDup (map fst d) -> In (k, v) d -> dict_get OA d k = Some v.
Proof.
  induction d as [|[k' v'] d IH]; simpl; [contradiction|]. intros Hnd Hin. inversion Hnd; subst.
  destruct Hin as [E|Hin]; [injection E as <- <-; now rewrite eqb_refl|].
  destruct (eqb OA k k') eqn:E; [|auto]. apply eqb_true in E; subst k'.
  exfalso; apply H1. apply in_map_iff. exists (k, v); auto.
Qed.
Lemma dict_get_map {B C} (f : B -> C) (d : dict A B) k :
  dict_get OA (map (fun kv => (fst kv, f (snd kv))) d) k = option_map f (dict_get OA d k).
Proof. induction d as [|[k' v'] d IH]; simpl; auto. destruct (eqb OA k k'); auto. Qed.

Lemma encoder_agree mode labels y ci :
  Forall2 (fun l c => dict_get OA ci l = Some c) labels y ->
  (forall l v, dict_get OA ci l = Some v -> In l labels) -> NoDup (map fst ci) ->
  exists y' ci', encoder_label OA OZ mode y ci = Ok (y', ci') /\ indices_agree OA labels y' ci'.
Proof.
  intros Hf Hin Hnd.
  assert (Hkeys : forall k v, In (k, v) ci -> In v y).
  { intros k v Hkv. pose proof (dict_In_get _ _ _ Hnd Hkv) as Hg. pose proof (Hin _ _ Hg) as Hl.
    apply In_nth_error in Hl. destruct Hl as (i & Hi).
    destruct (nth_error y i) as [c|] eqn:E.
    - pose proof (Forall2_nth_error _ _ _ _ _ _ Hf Hi E) as Hc. simpl in Hc. rewrite Hg in Hc.
      injection Hc as ->. eapply nth_error_In; eauto.
    - apply nth_error_None in E. rewrite <- (Forall2_length _ _ _ Hf) in E.
      assert (i < length labels) by (apply nth_error_Some; congruence). lia. }
  assert (Hi : forall i l, nth_error labels i = Some l -> exists c, nth_error y i = Some c /\ dict_get OA ci l = Some c).
  { intros i l Hl. destruct (nth_error y i) as [c|] eqn:E.
    - exists c. split; auto. apply (Forall2_nth_error _ _ _ _ _ _ Hf Hl E).
    - apply nth_error_None in E. rewrite <- (Forall2_length _ _ _ Hf) in E.
      assert (i < length labels) by (apply nth_error_Some; congruence). lia. }
  destruct mode; unfold encoder_label.
  - eexists _, _; split; [reflexivity|]. intros i l Hl. destruct (Hi i l Hl) as (c & Hc & Hg).
    rewrite (dict_get_map CodeInt), Hg. simpl. rewrite Hc. simpl. split; congruence.
  - destruct (onehot_spec OZ [] y) as (rows & enc & n & Hcall & _ & Hrows). rewrite Hcall. cbn [bind].
    assert (Henc : forall i c, nth_error y i = Some c -> exists row, nth_error rows i = Some row /\ dict_get OZ enc c = Some row).
    { intros i c Hc. destruct (nth_error rows i) as [row|] eqn:E.
      - destruct (Forall2_nth_error _ _ _ _ _ _ Hrows Hc E) as (k & _ & _ & _ & Hd). eauto.
      - apply nth_error_None in E. rewrite <- (Forall2_length _ _ _ Hrows) in E.
        assert (i < length y) by (apply nth_error_Some; congruence). lia. }
    destruct (set_real_ok enc ci [] Hnd) as (d & Hd & H1 & _).
    { intros k v Hkv. apply Hkeys in Hkv. apply In_nth_error in Hkv. destruct Hkv as (i & Hv).
      destruct (Henc i v Hv) as (row & _ & Hr). eauto. }
    unfold set_real. cbn [snd fst]. rewrite Hd. cbn [bind].
    eexists _, _; split; [reflexivity|]. intros i l Hl. destruct (Hi i l Hl) as (c & Hc & Hg).
    destruct (Henc i c Hc) as (row & Hr1 & Hr2).
    rewrite (dict_get_map CodeVec), (H1 l c (dict_get_In _ _ _ Hg)), Hr2. simpl. rewrite Hr1. simpl.
    split; congruence.
  - destruct (maxmargin_spec OZ [] y) as (rows & enc & Hcall & Hrows). rewrite Hcall. cbn [bind].
    assert (Henc : forall i c, nth_error y i = Some c -> exists row, nth_error rows i = Some row /\ dict_get OZ enc c = Some row).
    { intros i c Hc. destruct (nth_error rows i) as [row|] eqn:E.
      - destruct (Forall2_nth_error _ _ _ _ _ _ Hrows Hc E) as (_ & _ & Hd). eauto.
      - apply nth_error_None in E. rewrite <- (Forall2_length _ _ _ Hrows) in E.
        assert (i < length y) by (apply nth_error_Some; congruence). lia. }
    destruct (set_real_ok enc ci [] Hnd) as (d & Hd & H1 & _).
    { intros k v Hkv. apply Hkeys in Hkv. apply In_nth_error in Hkv. destruct Hkv as (i & Hv).
      destruct (Henc i v Hv) as (row & _ & Hr). eauto. }
    unfold set_real. cbn [snd fst]. rewrite Hd. cbn [bind].
    eexists _, _; split; [reflexivity|]. intros i l Hl. destruct (Hi i l Hl) as (c & Hc & Hg).
    destruct (Henc i c Hc) as (row & Hr1 & Hr2).
    rewrite (dict_get_map CodeInt), (H1 l c (dict_get_In _ _ _ Hg)), Hr2. simpl. rewrite Hr1. simpl.
    split; congruence.
Qed.
End EncLabel.

(** ** C09 on integers and texts *)
Lemma sorted_nonneg_ge (l : list Z) j x :
  StronglySorted (slt ZOrder) l -> (forall z, In z l -> (0 <= z)%Z) ->
  nth_error l j = Some x -> (Z.of_nat j <= x)%Z.
Proof.
  intros Hs. assert (G : forall b, (forall z, In z l -> (b <= z)%Z) ->
     forall j x, nth_error l j = Some x -> (b + Z.of_nat j <= x)%Z).
  { induction Hs as [|a t Ht IH Hf]; intros b Hb j' x' Hj; [destruct j'; discriminate|].
    destruct j' as [|j']; simpl in Hj.
    - injection Hj as <-. specialize (Hb a (or_introl eq_refl)). lia.
    - assert (E : (b + 1 + Z.of_nat j' <= x')%Z); [|lia].
      apply (IH (b + 1)%Z); auto. intros z Hz. rewrite Forall_forall in Hf. specialize (Hf z Hz).
      unfold slt in Hf. apply (ltb_true ZOrder) in Hf. destruct Hf as [H1 H2]. simpl in H1.
      apply Z.leb_le in H1. specialize (Hb a (or_introl eq_refl)). lia. }
  intros Hn Hj. specialize (G 0%Z Hn j x Hj). lia.
Qed.

Lemma int_put_ok labels : (forall z, In z labels -> (0 <= z)%Z) ->
  forall i j l, i < j -> is_rank ZOrder labels l j -> In l labels -> Z.of_nat i <> l.
Proof.
  intros Hnn i j l Hij Hr Hl. destruct (rank_exists ZOrder labels l Hl) as (k & Hk & Hr' & _).
  rewrite (is_rank_fun ZOrder _ _ _ _ Hr Hr') in Hij.
  pose proof (sorted_nonneg_ge _ _ _ (np_unique_sorted ZOrder labels)
     (fun z Hz => Hnn z (proj1 (np_unique_In ZOrder labels z) Hz)) Hk). lia.
Qed.

Lemma length_unique_distinct {A} (O : TotalOrder A) labels n :
  num_distinct labels n -> length (np_unique O labels) = n.
Proof.
  intros (d & Hnd & <- & Hd). apply Nat.le_antisymm; apply NoDup_incl_length; auto.
  - apply np_unique_NoDup.
  - intros x Hx. apply Hd. now apply np_unique_In in Hx.
  - intros x Hx. apply np_unique_In. now apply Hd.
Qed.

(** Class numbers stored by the categorical path. *)
Lemma categorical_ints labels :
  labels <> [] -> (forall z, In z labels -> (0 <= z)%Z) ->
  exists y ci, categorical ZOrder Z.of_nat Some [] labels = Ok (y, ci) /\
    Forall2 (fun l c => exists k, is_rank ZOrder labels l k /\ c = Z.of_nat k /\ dict_get ZOrder ci l = Some c) labels y.
Proof.
  intros Hne Hnn.
  destruct (categorical_spec ZOrder Z.of_nat Some labels Hne (fun i => eq_refl) (int_put_ok labels Hnn))
    as (y & ci & H & Hf & _). eauto.
Qed.

Lemma categorical_texts (O : TotalOrder string) put int_of labels :
  labels <> [] -> (forall i, int_of (put i) = Some (Z.of_nat i)) ->
  (forall i l, In l labels -> put i <> l) ->
  exists y ci, categorical O put int_of [] labels = Ok (y, ci) /\
    Forall2 (fun l c => exists k, is_rank O labels l k /\ c = Z.of_nat k /\ dict_get O ci l = Some c) labels y.
Proof.
  intros Hne Hint Hp.
  destruct (categorical_spec O put int_of labels Hne Hint (fun i j l _ _ Hl => Hp i l Hl)) as (y & ci & H & Hf & _).
  eauto.
Qed.

Lemma dataframe_ints_agree mode labels n :
  num_distinct labels n -> n <> 0 -> n <> 2 -> (forall z, In z labels -> (0 <= z)%Z) ->
  exists y ci, dataframe_int_labels ZOrder mode labels = Ok (y, ci) /\ indices_agree ZOrder labels y ci.
Proof.
  intros Hd H0 H2 Hnn. unfold dataframe_int_labels. rewrite (length_unique_distinct ZOrder _ _ Hd).
  destruct (Nat.eqb_spec n 2); [contradiction|].
  assert (Hne : labels <> []).
  { intros ->. destruct Hd as (d & _ & Hl & Hd). destruct d; [simpl in Hl; congruence|]. apply (Hd z); simpl; auto. }
  destruct (categorical_spec ZOrder Z.of_nat Some labels Hne (fun i => eq_refl) (int_put_ok labels Hnn))
    as (y & ci & H & Hf & Hk & Hnd). rewrite H. cbn [bind fst snd].
  apply encoder_agree; auto. eapply Forall2_impl; [|exact Hf]. intros l c (k & _ & _ & Hc). exact Hc.
Qed.

Lemma dataframe_texts_agree (O : TotalOrder string) OZ put int_of mode labels n :
  num_distinct labels n -> n <> 0 -> n <> 2 -> (forall i, int_of (put i) = Some (Z.of_nat i)) ->
  (forall i l, In l labels -> put i <> l) ->
  exists y ci, dataframe_text_labels O OZ put int_of mode labels = Ok (y, ci) /\ indices_agree O labels y ci.
Proof.
  intros Hd H0 H2 Hint Hp. unfold dataframe_text_labels. rewrite (length_unique_distinct O _ _ Hd).
  destruct (Nat.eqb_spec n 2); [contradiction|].
  assert (Hne : labels <> []).
  { intros ->. destruct Hd as (d & _ & Hl & Hd). destruct d; [simpl in Hl; congruence|]. apply (Hd s); simpl; auto. }
  destruct (categorical_spec O put int_of labels Hne Hint (fun i j l _ _ Hl => Hp i l Hl))
    as (y & ci & H & Hf & Hk & Hnd). rewrite H. cbn [bind fst snd].
  apply encoder_agree; auto. eapply Forall2_impl; [|exact Hf]. intros l c (k & _ & _ & Hc). exact Hc.
Qed.

(** ** C08 *)
Lemma kw_disjoint w : In w positive_key_words -> In w negative_key_words -> False.
Proof.
  intros H1 H2. simpl in H1, H2.
  repeat (destruct H1 as [<-|H1]; [repeat (destruct H2 as [H2|H2]; [discriminate H2|]); exact H2|]). exact H1.
Qed.
Lemma one_not_pos : ~ In "1"%string positive_key_words.
Proof. simpl. intros H. repeat (destruct H as [H|H]; [discriminate H|]). exact H. Qed.
Lemma one_not_neg : ~ In "1"%string negative_key_words.
Proof. simpl. intros H. repeat (destruct H as [H|H]; [discriminate H|]). exact H. Qed.
Lemma zero_not_neg : ~ In "0"%string negative_key_words.
Proof. simpl. intros H. repeat (destruct H as [H|H]; [discriminate H|]). exact H. Qed.

Section Bin.
Variable O : TotalOrder string.
Variable int_of : string -> option Z.
Hypothesis int_one : int_of "1"%string = Some 1%Z.
Hypothesis int_zero : int_of "0"%string = Some 0%Z.

Definition kw_map (l : list string) : list string :=
  fold_left (fun l w => replace_all O w "0"%string l) negative_key_words
   (fold_left (fun l w => replace_all O w "1"%string l) positive_key_words l).

Definition kw1 (x : string) : string :=
  if in_dec (eq_dec_of_order O) x positive_key_words then "1"%string
  else if in_dec (eq_dec_of_order O) x negative_key_words then "0"%string else x.

Lemma kw_map_eq l : kw_map l = map kw1 l.
Proof.
  unfold kw_map.
  rewrite (fold_replace_map O positive_key_words (fun w => w) (fun _ => "1"%string)).
  rewrite (fold_replace_map O negative_key_words (fun w => w) (fun _ => "0"%string)).
  rewrite map_map. apply map_ext. intros x. unfold kw1.
  rewrite (rep_words O positive_key_words "1"%string x one_not_pos).
  rewrite (rep_words O negative_key_words "0"%string _ zero_not_neg).
  destruct (in_dec (eq_dec_of_order O) x positive_key_words).
  - destruct (in_dec (eq_dec_of_order O) "1"%string negative_key_words) as [H|]; auto.
    destruct (one_not_neg H).
  - reflexivity.
Qed.

Lemma two_distinct_unique labels a b :
  In a labels -> In b labels -> (forall x, In x labels -> x = a \/ x = b) -> ltb O a b = true ->
  np_unique O labels = [a; b].
Proof.
  intros Ha Hb Hall Hlt. apply (sorted_ext O).
  - apply np_unique_sorted.
  - repeat constructor. exact Hlt.
  - intros x. rewrite np_unique_In. split.
    + intros Hx; destruct (Hall x Hx); simpl; auto.
    + intros [<-|[<-|[]]]; auto.
Qed.

Lemma unique_two labels : num_distinct labels 2 ->
  exists a b, np_unique O labels = [a; b] /\ ltb O a b = true /\ In a labels /\ In b labels /\
     (forall x, In x labels -> x = a \/ x = b).
Proof.
  intros Hd. pose proof (length_unique_distinct O _ _ Hd) as Hl. pose proof (np_unique_sorted O labels) as Hs.
  destruct (np_unique O labels) as [|a [|b [|]]] eqn:E; try discriminate. exists a, b. split; auto.
  assert (HI : forall x, In x labels <-> In x [a; b]) by (intros; rewrite <- E; symmetry; apply np_unique_In).
  split; [inversion Hs as [|? ? ? Hf]; subst; inversion Hf; auto|].
  split; [apply HI; simpl; auto|]. split; [apply HI; simpl; auto|].
  intros x Hx. apply HI in Hx. simpl in Hx. intuition.
Qed.

(** Stored codes of key word labels. *)
Lemma binary_text_codes labels :
  num_distinct labels 2 ->
  (forall l, In l labels -> In l positive_key_words \/ In l negative_key_words) ->
  exists y a b, binary_text O int_of labels = Ok (y, [(a, 0%Z); (b, 1%Z)]) /\
    In a labels /\ In b labels /\ ltb O a b = true /\
    Forall2 (fun l c => (In l positive_key_words -> c = 1%Z) /\ (In l negative_key_words -> c = 0%Z)) labels y.
Proof.
  intros Hd Hkw. destruct (unique_two labels Hd) as (a & b & Hu & Hlt & Ha & Hb & Hall).
  unfold binary_text. assert (Hg : exists h, get_at labels 0 = Ok h).
  { destruct labels; [contradiction|]. eexists; reflexivity. }
  destruct Hg as (h & ->). cbn [bind]. fold (kw_map labels). rewrite kw_map_eq, Hu.
  rewrite (mapM_total _ (fun s => match int_of s with Some z => z | None => 0%Z end)).
  - cbn [bind two_indices]. unfold two_indices; simpl.
    eexists _, a, b; split; [reflexivity|]. repeat split; auto.
    rewrite map_map. apply Forall2_map_same. intros l Hl. unfold kw1.
    destruct (in_dec (eq_dec_of_order O) l positive_key_words) as [Hp|Hp].
    + rewrite int_one. split; auto. intros Hn. destruct (kw_disjoint l); auto.
    + destruct (in_dec (eq_dec_of_order O) l negative_key_words) as [Hn|Hn].
      * rewrite int_zero. split; auto; contradiction.
      * destruct (Hkw l Hl); contradiction.
  - intros s Hs. apply in_map_iff in Hs. destruct Hs as (l & <- & Hl). unfold kw1.
    destruct (in_dec (eq_dec_of_order O) l positive_key_words) as [Hp|Hp]; [now rewrite int_one|].
    destruct (in_dec (eq_dec_of_order O) l negative_key_words) as [Hn|Hn]; [now rewrite int_zero|].
    destruct (Hkw l Hl); contradiction.
Qed.

Lemma mapM_Err {A B} (f : A -> result B) l e :
  (forall a, In a l -> (exists b, f a = Ok b) \/ f a = Err e) -> (exists a, In a l /\ f a = Err e) ->
  mapM f l = Err e.
Proof.
  induction l as [|x l IH]; intros Hall (a & Ha & He); [contradiction|]. simpl.
  destruct (Hall x (or_introl eq_refl)) as [(b & Hb)|Hx].
  - rewrite Hb. cbn [bind]. rewrite IH; auto.
    + intros; apply Hall; simpl; auto.
    + destruct Ha as [->|Ha]; [congruence|]. eauto.
  - rewrite Hx. reflexivity.
Qed.

Lemma binary_text_rejects labels l :
  In l labels -> ~ In l positive_key_words -> ~ In l negative_key_words -> int_of l = None ->
  binary_text O int_of labels = Err ValueError.
Proof.
  intros Hl Hp Hn Hi. unfold binary_text.
  assert (Hg : exists h, get_at labels 0 = Ok h).
  { destruct labels; [contradiction|]. eexists; reflexivity. }
  destruct Hg as (h & ->). cbn [bind]. fold (kw_map labels). rewrite kw_map_eq.
  rewrite (mapM_Err _ _ ValueError); [reflexivity| |].
  - intros s _. destruct (int_of s); eauto.
  - exists (kw1 l). split; [now apply in_map|]. unfold kw1.
    destruct (in_dec (eq_dec_of_order O) l positive_key_words); [contradiction|].
    destruct (in_dec (eq_dec_of_order O) l negative_key_words); [contradiction|].
    now rewrite Hi.
Qed.

(** One positive and one negative word, any mode. *)
Lemma keyword_agree_iff OZ put mode labels p n :
  In p labels -> In n labels -> (forall x, In x labels -> x = p \/ x = n) ->
  In p positive_key_words -> In n negative_key_words ->
  exists y ci, dataframe_text_labels O OZ put int_of mode labels = Ok (y, ci) /\
    (indices_agree O labels y ci <-> leb O n p = true).
Proof.
  intros Hp Hn Hall Kp Kn.
  assert (Hne : p <> n) by (intros ->; destruct (kw_disjoint n); auto).
  assert (Hd : num_distinct labels 2).
  { exists [p; n]. split; [repeat constructor; simpl; intuition|]. split; auto.
    intros w; simpl; split; [intuition; subst; auto|intros Hw; destruct (Hall w Hw); auto]. }
  destruct (binary_text_codes labels Hd) as (y & a & b & Hbt & Ha & Hb & Hlt & Hf).
  { intros l Hl. destruct (Hall l Hl) as [->| ->]; auto. }
  unfold dataframe_text_labels. rewrite (length_unique_distinct O _ _ Hd). cbn [Nat.eqb].
  rewrite Hbt. cbn [bind fst snd].
  assert (Hab : (a = n /\ b = p) \/ (a = p /\ b = n)).
  { assert (a <> b) by (intros ->; rewrite ltb_irrefl in Hlt; discriminate).
    destruct (Hall a Ha) as [->| ->], (Hall b Hb) as [->| ->]; auto; contradiction. }
  assert (Hy : forall i l, nth_error labels i = Some l -> nth_error y i = Some (if eqb O l p then 1%Z else 0%Z)).
  { intros i l Hl. destruct (nth_error y i) as [c|] eqn:E.
    - destruct (Forall2_nth_error _ _ _ _ _ _ Hf Hl E) as [H1 H2]. f_equal.
      assert (Hin : In l labels) by (eapply nth_error_In; eauto).
      destruct (eqb O l p) eqn:El.
      + apply eqb_true in El; subst. auto.
      + apply eqb_false in El. destruct (Hall l Hin) as [->| ->]; [contradiction|auto].
    - apply nth_error_None in E. rewrite <- (Forall2_length _ _ _ Hf) in E.
      assert (i < length labels) by (apply nth_error_Some; congruence). lia. }
  destruct Hab as [[-> ->]|[-> ->]].
  - (* negative first *)
    assert (Hle : leb O n p = true) by (apply ltb_true in Hlt; tauto).
    destruct (encoder_agree O OZ mode labels y [(n, 0%Z); (p, 1%Z)]) as (y' & ci' & He & Hag).
    + assert (Hlen := Forall2_length _ _ _ Hf). clear -Hy Hlen Hall Hne Hlt.
      revert y Hy Hlen. induction labels as [|l labels IH]; intros [|c y] Hy Hlen; try discriminate; constructor.
      * specialize (Hy 0 l eq_refl). simpl in Hy. injection Hy as ->. cbn [dict_get].
        destruct (Hall l (or_introl eq_refl)) as [->| ->].
        -- rewrite (proj2 (eqb_false O p n) Hne). now rewrite eqb_refl.
        -- rewrite eqb_refl. now rewrite (proj2 (eqb_false O n p) (not_eq_sym Hne)).
      * apply IH; [intros x Hx; apply Hall; simpl; auto|intros i l' Hl'; apply (Hy (S i)); auto|simpl in Hlen; lia].
    + intros l v. cbn [dict_get]. destruct (eqb O l n) eqn:E1; [apply eqb_true in E1; subst; auto|].
      destruct (eqb O l p) eqn:E2; [apply eqb_true in E2; subst; auto|discriminate].
    + simpl. repeat constructor; simpl; intuition.
    + exists y', ci'. split; auto. tauto.
  - (* positive first: reversed *)
    assert (Hle : leb O n p = false) by (apply leb_false_ltb; auto).
    assert (Hiy : In 0%Z y /\ In 1%Z y).
    { apply In_nth_error in Hp. destruct Hp as (i & Hi). apply In_nth_error in Hn. destruct Hn as (j & Hj).
      pose proof (Hy i p Hi) as H1. pose proof (Hy j n Hj) as H2. rewrite eqb_refl in H1.
      rewrite (proj2 (eqb_false O n p) (not_eq_sym Hne)) in H2.
      split; eapply nth_error_In; eauto. }
    apply In_nth_error in Hp. destruct Hp as (i & Hi).
    pose proof (Hy i p Hi) as H1. rewrite eqb_refl in H1.
    assert (Hpn : eqb O p p = true) by apply eqb_refl.
    destruct mode; unfold encoder_label.
    + eexists _, _; split; [reflexivity|]. split; [|congruence]. intros Hag.
      destruct (Hag i p Hi) as [Hc _]. cbn [map dict_get fst snd stored_code] in Hc.
      rewrite Hpn, H1 in Hc. discriminate.
    + destruct (onehot_spec OZ [] y) as (rows & enc & nn & Hcall & _ & Hrows). rewrite Hcall. cbn [bind].
      assert (Henc : forall i c, nth_error y i = Some c -> exists row, nth_error rows i = Some row /\ dict_get OZ enc c = Some row).
      { intros i' c Hc. destruct (nth_error rows i') as [row|] eqn:E.
        - destruct (Forall2_nth_error _ _ _ _ _ _ Hrows Hc E) as (k & _ & _ & _ & Hd'). eauto.
        - apply nth_error_None in E. rewrite <- (Forall2_length _ _ _ Hrows) in E.
          assert (i' < length y) by (apply nth_error_Some; congruence). lia. }
      destruct Hiy as [Hi0 Hi1]. apply In_nth_error in Hi0. destruct Hi0 as (i0 & Hi0).
      destruct (Henc i0 0%Z Hi0) as (r0 & Hr0 & Hd0). destruct (Henc i 1%Z H1) as (r1 & Hr1 & Hd1).
      unfold set_real. cbn [foldM fst snd]. unfold dict_lookup. rewrite Hd0, Hd1. cbn [bind].
      eexists _, _; split; [reflexivity|]. split; [|congruence]. intros Hag.
      destruct (Hag i p Hi) as [Hc _]. cbn [stored_code] in Hc. rewrite Hr1 in Hc.
      rewrite (dict_get_map O CodeVec) in Hc. rewrite dict_get_set_neq in Hc by auto.
      rewrite dict_get_set_eq in Hc. simpl in Hc. injection Hc as ->.
      pose proof (proj1 (onehot_rows_eq OZ [] y rows enc i0 i 0%Z 1%Z r1 r1 Hcall Hi0 H1 Hr0 Hr1) eq_refl). discriminate.
    + destruct (maxmargin_spec OZ [] y) as (rows & enc & Hcall & Hrows). rewrite Hcall. cbn [bind].
      assert (Henc : forall i c, nth_error y i = Some c -> exists row, nth_error rows i = Some row /\ dict_get OZ enc c = Some row).
      { intros i' c Hc. destruct (nth_error rows i') as [row|] eqn:E.
        - destruct (Forall2_nth_error _ _ _ _ _ _ Hrows Hc E) as (_ & _ & Hd'). eauto.
        - apply nth_error_None in E. rewrite <- (Forall2_length _ _ _ Hrows) in E.
          assert (i' < length y) by (apply nth_error_Some; congruence). lia. }
      destruct Hiy as [Hi0 Hi1]. apply In_nth_error in Hi0. destruct Hi0 as (i0 & Hi0).
      destruct (Henc i0 0%Z Hi0) as (r0 & Hr0 & Hd0). destruct (Henc i 1%Z H1) as (r1 & Hr1 & Hd1).
      unfold set_real. cbn [foldM fst snd]. unfold dict_lookup. rewrite Hd0, Hd1. cbn [bind].
      eexists _, _; split; [reflexivity|]. split; [|congruence]. intros Hag.
      destruct (Hag i p Hi) as [Hc _]. cbn [stored_code] in Hc. rewrite Hr1 in Hc.
      rewrite (dict_get_map O CodeInt) in Hc. rewrite dict_get_set_neq in Hc by auto.
      rewrite dict_get_set_eq in Hc. simpl in Hc. injection Hc as ->.
      assert (Hdy : num_distinct y 2).
      { exists [0%Z; 1%Z]. split; [repeat constructor; simpl; intuition discriminate|]. split; auto.
        intros w; simpl; split.
        - intros [<-|[<-|[]]]; eapply nth_error_In; eauto.
        - intros Hw. apply In_nth_error in Hw. destruct Hw as (q & Hq).
          destruct (nth_error labels q) as [l|] eqn:E.
          + rewrite (Hy q l E) in Hq. destruct (eqb O l p); injection Hq as <-; auto.
          + apply nth_error_None in E. rewrite (Forall2_length _ _ _ Hf) in E.
            assert (q < length y) by (apply nth_error_Some; congruence). lia. }
      pose proof (proj1 (maxmargin_two_classes OZ [] y rows enc Hdy Hcall i0 i 0%Z 1%Z r1 r1 Hi0 H1 Hr0 Hr1) eq_refl). discriminate.
Qed.
End Bin.

(** Two numeric labels. *)
Lemma binary_ints_modes labels a b mode :
  In a labels -> In b labels -> (forall x, In x labels -> x = a \/ x = b) -> (a < b)%Z ->
  (mode = Sparse -> dataframe_int_labels ZOrder mode labels =
      Ok (YSparse labels, [(a, CodeInt 0); (b, CodeInt 1)])) /\
  (mode <> Sparse -> (a, b) <> (0, 1)%Z -> dataframe_int_labels ZOrder mode labels = Err KeyError) /\
  (mode <> Sparse -> (a, b) = (0, 1)%Z -> exists y ci, dataframe_int_labels ZOrder mode labels = Ok (y, ci) /\
       indices_agree ZOrder labels y ci).
Proof.
  intros Ha Hb Hall Hlt.
  assert (Hltb : ltb ZOrder a b = true) by (apply ltb_true; simpl; split; [apply Z.leb_le; lia|lia]).
  assert (Hu : np_unique ZOrder labels = [a; b]).
  { apply (sorted_ext ZOrder).
    - apply np_unique_sorted.
    - repeat constructor. exact Hltb.
    - intros x. rewrite np_unique_In. split.
      + intros Hx; destruct (Hall x Hx); simpl; auto.
      + intros [<-|[<-|[]]]; auto. }
  assert (Hbi : binary_ints ZOrder labels = Ok (labels, [(a, 0%Z); (b, 1%Z)])).
  { unfold binary_ints. rewrite Hu. destruct labels; [contradiction|]. reflexivity. }
  unfold dataframe_int_labels. rewrite Hu. cbn [length Nat.eqb]. rewrite Hbi. cbn [bind fst snd].
  split; [intros ->; reflexivity|]. split.
  - intros Hm Hne.
    assert (E : forall B (enc : dict Z B), (forall k v, dict_get ZOrder enc k = Some v -> k = a \/ k = b) ->
       set_real ZOrder ZOrder [(a, 0%Z); (b, 1%Z)] enc = Err KeyError).
    { intros B enc He. unfold set_real. cbn [foldM fst snd]. unfold dict_lookup.
      destruct (dict_get ZOrder enc 0%Z) as [v0|] eqn:E0; [|reflexivity]. cbn [bind].
      destruct (dict_get ZOrder enc 1%Z) as [v1|] eqn:E1; [|reflexivity]. exfalso.
      apply Hne. destruct (He _ _ E0), (He _ _ E1); subst; try reflexivity; lia. }
    destruct mode; [congruence| |]; unfold encoder_label.
    + destruct (onehot_spec ZOrder [] labels) as (rows & enc & nn & Hcall & _ & _).
      rewrite Hcall. cbn [bind snd]. rewrite E; [reflexivity|].
      intros k v Hk. apply Hall. apply (proj1 (onehot_decodable ZOrder labels rows enc Hcall)). eauto.
    + destruct (maxmargin_spec ZOrder [] labels) as (rows & enc & Hcall & _).
      rewrite Hcall. cbn [bind snd]. rewrite E; [reflexivity|].
      intros k v Hk. unfold maxmargin_call in Hcall. apply bind_Ok in Hcall. destruct Hcall as (cs & _ & Hc).
      injection Hc as _ <-. rewrite Hu in Hk. cbv [enumerate] in Hk. simpl in Hk.
      destruct ((k <=? a)%Z && (a <=? k)%Z) eqn:E1 in Hk.
      * apply andb_prop in E1. rewrite !Z.leb_le in E1. lia.
      * revert Hk. unfold dict_update. simpl.
        assert (Hba : eqb ZOrder b a = false) by (apply eqb_false; lia).
        rewrite Hba. simpl. destruct (eqb ZOrder k a) eqn:E2; [apply eqb_true in E2; auto|].
        destruct (eqb ZOrder k b) eqn:E3; [apply eqb_true in E3; auto|discriminate].
  - intros Hm E. injection E as -> ->.
    apply encoder_agree.
    + assert (G : forall ls, (forall x, In x ls -> x = 0%Z \/ x = 1%Z) ->
        Forall2 (fun l c => dict_get ZOrder [(0%Z, 0%Z); (1%Z, 1%Z)] l = Some c) ls ls).
      { induction ls as [|l ls IH]; intros H; constructor; [|apply IH; intros; apply H; simpl; auto].
        destruct (H l (or_introl eq_refl)) as [->| ->]; reflexivity. }
      apply G. exact Hall.
    + intros l v Hl. simpl in Hl. destruct (eqb ZOrder l 0%Z) eqn:E1; [apply eqb_true in E1; subst; auto|].
      destruct (eqb ZOrder l 1%Z) eqn:E2; [apply eqb_true in E2; subst; auto|discriminate].
    + simpl. repeat constructor; simpl; intuition discriminate.
Qed.
