From Coq Require Import List ZArith Reals Bool Arith Lia Sorting.Sorted String.
From Verif.Model Require Import Base Preprocessing Dataset Reload.
From Verif.Spec Require Import Common Preprocessing Dataset Reload.
From Verif.Proof Require Import BaseLemmas Preprocessing Dataset.
Import ListNotations.
Local Notation length := List.length.

Lemma nodup_set {A B} (O : TotalOrder A) (d : dict A B) k v : NoDup (map fst d) -> NoDup (map fst (dict_set O d k v)).
Proof.
  intros Hd. induction d as [|[k' v'] d IH]; simpl; [repeat constructor; auto|].
  inversion Hd; subst. destruct (eqb O k k') eqn:E; simpl; constructor; auto.
  intros Hin. apply H1. clear -Hin E. induction d as [|[k2 v2] d IH]; simpl in *.
  - destruct Hin as [->|[]]. rewrite eqb_refl in E; discriminate.
  - destruct (eqb O k k2) eqn:E2; simpl in *; [auto|]. destruct Hin; auto.
Qed.
Lemma nodup_update {A B} (O : TotalOrder A) (kvs : list (A * B)) : forall d, NoDup (map fst d) -> NoDup (map fst (dict_update O d kvs)).
Proof. induction kvs as [|[k v] kvs IH]; intros d Hd; simpl; auto. apply (IH (dict_set O d k v)). now apply nodup_set. Qed.

(** ** The dictionaries of the encoders have the labels as keys *)
Section Keys.
Context (OZ : TotalOrder Z).
Lemma onehot_keys y rows enc : onehot_call OZ [] y = Ok (rows, enc) -> forall z, (exists b, dict_get OZ enc z = Some b) <-> In z y.
Proof.
  intros H z. destruct (onehot_spec OZ [] y) as (rows' & enc' & n & H' & _ & Hf).
  rewrite H in H'. injection H' as <- <-. split.
  - intros (b & Hb). unfold onehot_call in H.
    destruct (mapM _ (index_pairs (np_unique OZ y))) as [kvs|] eqn:E; cbn [bind] in H; [|discriminate].
    match type of H with context [mapM ?f y] => destruct (mapM f y) end; cbn [bind] in H; [|discriminate].
    injection H as _ <-.
    assert (K : map fst kvs = np_unique OZ y).
    { rewrite <- (map_fst_index_pairs (np_unique OZ y)). clear Hf Hb. revert kvs E. clear.
      induction (index_pairs (np_unique OZ y)) as [|p ps IH]; intros kvs E; cbn [mapM] in E.
      - injection E as <-. reflexivity.
      - match type of E with bind (bind ?r _) _ = _ => destruct r end; cbn [bind] in E; [|discriminate].
        match type of E with bind ?r _ = _ => destruct r as [t|] eqn:F end; cbn [bind] in E; [|discriminate].
        injection E as <-. cbn. now rewrite (IH t eq_refl). }
    destruct (in_dec Z.eq_dec z (np_unique OZ y)) as [i|i]; [now apply np_unique_In in i|].
    rewrite dict_update_notin in Hb by now rewrite K. discriminate.
  - intros Hin. apply In_nth_error in Hin. destruct Hin as (i & Hi).
    destruct (nth_error rows i) as [r|] eqn:E.
    + destruct (Forall2_nth_error _ _ _ _ _ _ Hf Hi E) as (k & _ & _ & _ & Hd). eauto.
    + apply nth_error_None in E. rewrite <- (Forall2_length _ _ _ Hf) in E.
      assert (i < length y) by (apply nth_error_Some; congruence). lia.
Qed.
Lemma maxmargin_keys y rows enc : maxmargin_call OZ [] y = Ok (rows, enc) -> forall z, (exists b, dict_get OZ enc z = Some b) <-> In z y.
Proof.
  intros H z. destruct (maxmargin_spec OZ [] y) as (rows' & enc' & H' & Hf).
  rewrite H in H'. injection H' as <- <-. split.
  - intros (b & Hb). unfold maxmargin_call in H.
    match type of H with context [mapM ?f y] => destruct (mapM f y) end; cbn [bind] in H; [|discriminate].
    injection H as _ <-.
    destruct (in_dec Z.eq_dec z (np_unique OZ y)) as [i|i]; [now apply np_unique_In in i|].
    rewrite dict_update_notin in Hb; [discriminate|]. rewrite map_map. cbn [fst].
    intros K. apply i. rewrite <- (map_snd_enumerate (np_unique OZ y)). exact K.
  - intros Hin. apply In_nth_error in Hin. destruct Hin as (i & Hi).
    destruct (nth_error rows i) as [r|] eqn:E.
    + destruct (Forall2_nth_error _ _ _ _ _ _ Hf Hi E) as (_ & _ & Hd). eauto.
    + apply nth_error_None in E. rewrite <- (Forall2_length _ _ _ Hf) in E.
      assert (i < length y) by (apply nth_error_Some; congruence). lia.
Qed.
End Keys.

Section Reload.
Context {X A : Type} (O : TotalOrder A) (OZ : TotalOrder Z).
Variable key_words : list A -> list A.
Variable put : nat -> A.
Variable int_of : A -> option Z.
Notation load m o labels := (@load_labels X A O OZ key_words put int_of m o labels).

(** ** [_set_real_class_indices] *)
Section Real.
Context {B : Type} (f : B -> code) (enc : dict Z B).
Let step := fun (d : dict A code) (kv : A * code) => match snd kv with
  | CodeVec _ => Err TypeError
  | CodeInt z => v <- dict_lookup OZ enc z ;; Ok (dict_set O d (fst kv) (f v)) end.
Definition good (c : code) := exists z b, c = CodeInt z /\ dict_get OZ enc z = Some b.

Lemma real_ok : forall (pre d0 : dict A code), NoDup (map fst pre) -> (forall k c, In (k, c) pre -> good c) ->
  exists d, foldM step pre d0 = Ok d /\
    (forall k z b, In (k, CodeInt z) pre -> dict_get OZ enc z = Some b -> dict_get O d k = Some (f b)) /\
    (forall k, ~ In k (map fst pre) -> dict_get O d k = dict_get O d0 k).
Proof.
  induction pre as [|[k c] pre IH]; intros d0 Hnd Hall.
  - exists d0. split; [reflexivity|]. split; [intros ? ? ? []|auto].
  - inversion Hnd; subst. destruct (Hall k c) as (z & b & -> & Hb); [simpl; auto|].
    destruct (IH (dict_set O d0 k (f b))) as (d & Hd & H3 & H4); auto.
    { intros; eapply Hall; simpl; eauto. }
    exists d. split; [|split].
    + cbn [foldM]. unfold step at 1. cbn [snd fst]. unfold dict_lookup. rewrite Hb. cbn [bind]. exact Hd.
    + intros k' z' b' [E|Hin] Hb'; [injection E as <- <-|eauto].
      rewrite (H4 k H1). rewrite dict_get_set_eq. congruence.
    + intros k' Hn. simpl in Hn. rewrite H4 by tauto. apply dict_get_set_neq. intuition.
Qed.
Lemma real_inv : forall (pre d0 d : dict A code), foldM step pre d0 = Ok d -> forall k c, In (k, c) pre -> good c.
Proof.
  induction pre as [|[k c] pre IH]; intros d0 d H k' c' Hin; [destruct Hin|].
  cbn [foldM] in H. unfold step at 1 in H. cbn [snd fst] in H.
  destruct c as [z|v]; [|discriminate]. unfold dict_lookup in H.
  destruct (dict_get OZ enc z) as [b|] eqn:E; cbn [bind] in H; [|discriminate].
  destruct Hin as [Hin|Hin]; [injection Hin as <- <-; exists z, b; auto|eauto].
Qed.
Lemma real_err : forall (pre d0 : dict A code) e, foldM step pre d0 = Err e ->
  (e = TypeError /\ exists k v, In (k, CodeVec v) pre) \/ (e = KeyError /\ exists k z, In (k, CodeInt z) pre /\ dict_get OZ enc z = None).
Proof.
  induction pre as [|[k c] pre IH]; intros d0 e H; [discriminate|].
  cbn [foldM] in H. unfold step at 1 in H. cbn [snd fst] in H.
  destruct c as [z|v].
  - unfold dict_lookup in H. destruct (dict_get OZ enc z) as [b|] eqn:E; cbn [bind] in H.
    + destruct (IH _ _ H) as [(-> & k' & v & Hin)|(-> & k' & z' & Hin & Hz)]; [left|right]; split; auto; exists k'; eexists; simpl; eauto.
    + injection H as <-. right. split; auto. exists k, z. simpl; auto.
  - cbn [bind] in H. injection H as <-. left. split; auto. exists k, v. simpl; auto.
Qed.
Lemma real_nodup : forall (pre d0 d : dict A code), NoDup (map fst d0) -> foldM step pre d0 = Ok d -> NoDup (map fst d).
Proof.
  induction pre as [|[k c] pre IH]; intros d0 d Hn H; [injection H as <-; auto|].
  cbn [foldM] in H. unfold step at 1 in H. cbn [snd fst] in H.
  destruct c as [z|v]; [|discriminate]. destruct (dict_lookup OZ enc z) as [b|]; cbn [bind] in H; [|discriminate].
  eapply IH; [|exact H]. now apply nodup_set.
Qed.
Lemma real_values : forall (pre d0 d : dict A code), foldM step pre d0 = Ok d ->
  forall k c, dict_get O d k = Some c -> (exists b, c = f b) \/ dict_get O d0 k = Some c.
Proof.
  induction pre as [|[k c] pre IH]; intros d0 d H k' c' Hc; [injection H as <-; auto|].
  cbn [foldM] in H. unfold step at 1 in H. cbn [snd fst] in H.
  destruct c as [z|v]; [|discriminate]. destruct (dict_lookup OZ enc z) as [b|]; cbn [bind] in H; [|discriminate].
  destruct (IH _ _ H _ _ Hc) as [K|K]; auto.
  destruct (eq_dec_of_order O k' k) as [->|n].
  - rewrite dict_get_set_eq in K. injection K as <-. eauto.
  - rewrite dict_get_set_neq in K by auto. auto.
Qed.
End Real.

(** ** The categorical path *)
Lemma distinct_nonempty (labels : list A) n : num_distinct labels n -> n <> 0 -> exists h, get_at labels 0 = Ok h.
Proof.
  intros (d & _ & Hl & Hd) H0. destruct labels as [|a l]; [|eexists; reflexivity].
  destruct d as [|a d]; [simpl in Hl; congruence|]. exfalso. apply (Hd a). simpl; auto.
Qed.

Definition ranked labels (ci : dict A code) := fun l c => exists k, is_rank O labels l k /\ c = Z.of_nat k /\ dict_get O ci l = Some (CodeInt c).

Lemma again_core m (o : object X A) labels n : num_distinct labels n -> n <> 0 -> n <> 2 -> replaceable O put int_of labels ->
  exists l y ci, load m o labels = (l, encode_object O OZ m o y ci) /\
    (forall o' : object X A, exists ci', load m o' labels = (l, encode_object O OZ m o' y ci')) /\
    Forall2 (fun a b => exists k, is_rank O labels a k /\ b = put k) labels l /\
    Forall2 (ranked labels ci) labels y /\
    (forall k, ~ In k labels -> dict_get O ci k = dict_get O (ob_ci o) k) /\
    (forall z, In z y <-> exists k, k < n /\ z = Z.of_nat k) /\
    (NoDup (map fst (ob_ci o)) -> NoDup (map fst ci)).
Proof.
  intros Hd H0 H2 [Hint Hput].
  destruct (distinct_nonempty labels n Hd H0) as (h & Hh).
  pose proof (length_unique_distinct O labels n Hd) as Hlen.
  set (raw := np_unique O labels) in *.
  set (l := map (fun x => fold_left (fun x p => rep1 O x (snd p) (put (fst p))) (enumerate raw) x) labels).
  set (pairs := map (fun p : A * nat => (fst p, CodeInt (Z.of_nat (snd p)))) (index_pairs raw)).
  assert (Hfold : forall o' : object X A, fold_left (fun st p =>
              (replace_all O (snd p) (put (fst p)) (fst st),
               dict_set O (snd st) (snd p) (CodeInt (Z.of_nat (fst p)))))
            (enumerate raw) (labels, ob_ci o') = (l, dict_update O (ob_ci o') pairs)).
  { intros o'. rewrite (fold_pair (fun l p => replace_all O (snd p) (put (fst p)) l)
                     (fun d p => dict_set O d (snd p) (CodeInt (Z.of_nat (fst p))))).
    rewrite (fold_replace_map O (enumerate raw) snd (fun p => put (fst p))). f_equal.
    unfold dict_update, pairs, index_pairs. rewrite map_map.
    generalize (ob_ci o') as d. generalize (enumerate raw) as e. induction e; simpl; auto. }
  assert (Hkeys : map fst pairs = raw).
  { unfold pairs. rewrite map_map. cbn [fst]. exact (map_fst_index_pairs raw). }
  assert (Hnd : NoDup (map fst pairs)) by (rewrite Hkeys; apply np_unique_NoDup).
  assert (Hnth : forall i j y, i < j -> nth_error raw j = Some y -> put (0 + i) <> y).
  { intros i j y Hij Hy. simpl. apply (Hput i j y Hij).
    - apply (is_rank_ext O raw); [apply np_unique_In|]. apply sorted_nth_rank; auto. apply np_unique_sorted.
    - apply nth_error_In in Hy. now apply np_unique_In in Hy. }
  assert (Hrep : forall a k, nth_error raw k = Some a ->
     fold_left (fun x p => rep1 O x (snd p) (put (fst p))) (enumerate raw) a = put k).
  { intros a k Hk. unfold enumerate. rewrite (rep_rank O put raw (np_unique_NoDup O labels) 0 k a Hnth Hk). reflexivity. }
  set (ci := dict_update O (ob_ci o) pairs).
  assert (Hci : forall a k, nth_error raw k = Some a -> dict_get O ci a = Some (CodeInt (Z.of_nat k))).
  { intros a k Hk. unfold ci. apply dict_update_in; auto. unfold pairs. apply in_map_iff. exists (a, k).
    split; auto. now apply index_pairs_In. }
  assert (G : forall ls, incl ls labels -> exists y,
     as_ints int_of (map (fun x => fold_left (fun x p => rep1 O x (snd p) (put (fst p))) (enumerate raw) x) ls) = Ok y /\
     Forall2 (fun a b => exists k, is_rank O labels a k /\ b = put k) ls
        (map (fun x => fold_left (fun x p => rep1 O x (snd p) (put (fst p))) (enumerate raw) x) ls) /\
     Forall2 (fun a c => exists k, nth_error raw k = Some a /\ c = Z.of_nat k) ls y).
  { induction ls as [|a ls IH]; intros Hincl.
    - exists []; split; [reflexivity|split; constructor].
    - destruct IH as (y & Hy & Hf1 & Hf2); [intros z Hz; apply Hincl; simpl; auto|].
      destruct (rank_exists O labels a) as (k & Hk & Hr & _); [apply Hincl; simpl; auto|].
      exists (Z.of_nat k :: y). split; [|split].
      + unfold as_ints. cbn [map mapM]. rewrite (Hrep a k Hk), Hint. cbn [bind]. unfold as_ints in Hy. rewrite Hy. reflexivity.
      + cbn [map]. constructor; auto. exists k. split; auto.
      + constructor; auto. exists k; auto. }
  destruct (G labels (incl_refl _)) as (y & Hy & Hf1 & Hf2). fold l in Hy, Hf1.
  exists l, y, ci.
  assert (Hload : forall o' : object X A, load m o' labels = (l, encode_object O OZ m o' y (dict_update O (ob_ci o') pairs))).
  { intros o'. unfold load_labels. rewrite Hh. fold raw. rewrite Hlen.
    destruct (Nat.eqb_spec n 2); [contradiction|]. rewrite Hfold, Hy. reflexivity. }
  split; [apply Hload|]. split; [intros o'; eexists; apply Hload|]. split; [exact Hf1|]. split; [|split; [|split]].
  - eapply Forall2_impl; [|exact Hf2]. intros a c (k & Hk & ->). exists k. split; [|split; auto].
    apply (is_rank_ext O raw); [apply np_unique_In|]. apply sorted_nth_rank; auto. apply np_unique_sorted.
  - intros k Hk. unfold ci. apply dict_update_notin. rewrite Hkeys. unfold raw. now rewrite np_unique_In.
  - intros z. split.
    + intros Hz. apply In_nth_error in Hz. destruct Hz as (i & Hi).
      destruct (nth_error labels i) as [a|] eqn:E.
      * destruct (Forall2_nth_error _ _ _ _ _ _ Hf2 E Hi) as (k & Hk & ->). exists k. split; auto.
        rewrite <- Hlen. apply nth_error_Some. congruence.
      * apply nth_error_None in E. rewrite (Forall2_length _ _ _ Hf2) in E.
        assert (i < length y) by (apply nth_error_Some; congruence). lia.
    + intros (k & Hk & ->). rewrite <- Hlen in Hk. destruct (nth_error raw k) as [a|] eqn:E; [|apply nth_error_None in E; lia].
      assert (Ha : In a labels) by (apply nth_error_In in E; unfold raw in E; now apply np_unique_In in E).
      apply In_nth_error in Ha. destruct Ha as (i & Hi).
      destruct (nth_error y i) as [c|] eqn:Ec.
      * destruct (Forall2_nth_error _ _ _ _ _ _ Hf2 Hi Ec) as (k' & Hk' & ->).
        assert (k = k').
        { pose proof (np_unique_NoDup O labels) as N. fold raw in N. rewrite NoDup_nth_error in N. apply N; [apply nth_error_Some; congruence|congruence]. }
        subst k'. eapply nth_error_In; eauto.
      * apply nth_error_None in Ec. rewrite <- (Forall2_length _ _ _ Hf2) in Ec.
        assert (i < length labels) by (apply nth_error_Some; congruence). lia.
  - apply nodup_update.
Qed.

(** ** Encoding *)
Lemma encode_spec m y : exists yy (g : Z -> code),
  (forall i, stored_code yy i = option_map g (nth_error y i)) /\
  (m = Sparse -> forall z, g z = CodeInt z) /\
  (m = OneHot -> forall z, In z y -> exists v, g z = CodeVec v) /\
  (m = MaxMargin -> forall z, In z y -> ((forall w, In w y -> leb OZ z w = true) -> g z = CodeInt (-1)) /\ (exists c, g z = CodeInt c)) /\
  (forall (o : object X A) ci o' e, encode_object O OZ m o y ci = (o', e) -> NoDup (map fst ci) ->
    ob_x o' = ob_x o /\ ob_y o' = Some yy /\ NoDup (map fst (ob_ci o')) /\
    (e = None <-> (m = Sparse \/ forall k c, In (k, c) ci -> exists z, c = CodeInt z /\ In z y)) /\
    (e = None -> forall k z, In (k, CodeInt z) ci -> dict_get O (ob_ci o') k = Some (g z)) /\
    (e = None -> forall k, ~ In k (map fst ci) -> dict_get O (ob_ci o') k = None) /\
    (e = None -> m = Sparse -> ob_ci o' = ci) /\
    (e = None -> m = OneHot -> forall k c, dict_get O (ob_ci o') k = Some c -> exists v, c = CodeVec v) /\
    (e = None -> m = MaxMargin -> forall k c, dict_get O (ob_ci o') k = Some c -> exists v, c = CodeInt v) /\
    (forall r, e = Some r -> ob_ci o' = ci /\
       ((r = TypeError /\ exists k v, In (k, CodeVec v) ci) \/ (r = KeyError /\ exists k z, In (k, CodeInt z) ci /\ ~ In z y)))).
Proof.
  destruct m.
  - exists (YSparse y), CodeInt. split; [reflexivity|]. split; [auto|]. do 2 (split; [discriminate|]).
    intros o ci o' e H N. injection H as <- <-. cbn. repeat split; auto; try discriminate.
    + intros _ k z Hin. now apply dict_In_get.
    + intros _ k Hn. destruct (dict_get O ci k) eqn:E; auto. exfalso. apply Hn. apply dict_get_In in E. now apply (in_map fst) in E.
  - destruct (onehot_spec OZ [] y) as (rows & enc & n & Hcall & _ & Hrows).
    pose proof (onehot_keys OZ y rows enc Hcall) as Hk.
    exists (YOneHot rows), (fun z => match dict_get OZ enc z with Some b => CodeVec b | None => CodeInt 0 end).
    split; [|split; [discriminate|split; [|split; [discriminate|]]]].
    + intros i. cbn. destruct (nth_error y i) as [z|] eqn:E; cbn.
      * destruct (nth_error rows i) as [r|] eqn:F.
        -- destruct (Forall2_nth_error _ _ _ _ _ _ Hrows E F) as (k & _ & _ & _ & Hd). now rewrite Hd.
        -- apply nth_error_None in F. rewrite <- (Forall2_length _ _ _ Hrows) in F.
           assert (i < length y) by (apply nth_error_Some; congruence). lia.
      * replace (nth_error rows i) with (@None (list Z)); auto. symmetry. apply nth_error_None. apply nth_error_None in E.
        now rewrite <- (Forall2_length _ _ _ Hrows).
    + intros _ z Hz. apply Hk in Hz. destruct Hz as (b & ->). eauto.
    + intros o ci o' e H N. unfold encode_object in H. rewrite Hcall in H. unfold set_real_codes in H.
      match type of H with context [foldM ?f ci ?d] => destruct (foldM f ci d) as [ci'|r] eqn:E end; injection H as <- <-; cbn.
      * pose proof (real_inv CodeVec enc ci [] ci' E) as Hg.
        destruct (real_ok CodeVec enc ci [] N Hg) as (d & Hd & K1 & K2). rewrite E in Hd. injection Hd as <-.
        repeat split; auto; try discriminate.
        -- eapply real_nodup; [|exact E]. constructor.
        -- intros _. right. intros k c Hc. destruct (Hg k c Hc) as (z & b & -> & Hb). exists z. split; auto. apply Hk. eauto.
        -- intros _ k z Hin. destruct (Hg _ _ Hin) as (z' & b & Ez & Hb). injection Ez as <-. rewrite Hb. eauto.
        -- intros _ _ k c Hc. destruct (real_values CodeVec enc ci [] ci' E k c Hc) as [(b & ->)|D]; [eauto|discriminate].
      * destruct (real_err CodeVec enc ci [] r E) as [(-> & k & v & Hin)|(-> & k & z & Hin & Hz)].
        -- repeat split; auto; try discriminate.
           ++ intros [D|D]; [discriminate|]. destruct (D _ _ Hin) as (z & Ez & _). discriminate.
           ++ left. injection H as <-. split; eauto.
        -- assert (Hny : ~ In z y) by (intros Hi; apply Hk in Hi; destruct Hi; congruence).
           repeat split; auto; try discriminate.
           ++ intros [D|D]; [discriminate|]. destruct (D _ _ Hin) as (z' & Ez & Hi). injection Ez as <-. tauto.
           ++ right. injection H as <-. split; eauto.
  - destruct (maxmargin_spec OZ [] y) as (rows & enc & Hcall & Hrows).
    pose proof (maxmargin_keys OZ y rows enc Hcall) as Hk.
    exists (YMargin rows), (fun z => match dict_get OZ enc z with Some b => CodeInt b | None => CodeInt 0 end).
    split; [|split; [discriminate|split; [discriminate|split]]].
    + intros i. cbn. destruct (nth_error y i) as [z|] eqn:E; cbn.
      * destruct (nth_error rows i) as [r|] eqn:F.
        -- destruct (Forall2_nth_error _ _ _ _ _ _ Hrows E F) as (_ & _ & Hd). now rewrite Hd.
        -- apply nth_error_None in F. rewrite <- (Forall2_length _ _ _ Hrows) in F.
           assert (i < length y) by (apply nth_error_Some; congruence). lia.
      * replace (nth_error rows i) with (@None Z); auto. symmetry. apply nth_error_None. apply nth_error_None in E.
        now rewrite <- (Forall2_length _ _ _ Hrows).
    + intros _ z Hz. split; [|pose proof (proj2 (Hk z) Hz) as (b & ->); eauto].
      intros Hleast. apply In_nth_error in Hz. destruct Hz as (i & Hi).
      destruct (nth_error rows i) as [r|] eqn:F.
      * destruct (Forall2_nth_error _ _ _ _ _ _ Hrows Hi F) as (H1 & _ & Hd). now rewrite Hd, (H1 Hleast).
      * apply nth_error_None in F. rewrite <- (Forall2_length _ _ _ Hrows) in F.
        assert (i < length y) by (apply nth_error_Some; congruence). lia.
    + intros o ci o' e H N. unfold encode_object in H. rewrite Hcall in H. unfold set_real_codes in H.
      match type of H with context [foldM ?f ci ?d] => destruct (foldM f ci d) as [ci'|r] eqn:E end; injection H as <- <-; cbn.
      * pose proof (real_inv CodeInt enc ci [] ci' E) as Hg.
        destruct (real_ok CodeInt enc ci [] N Hg) as (d & Hd & K1 & K2). rewrite E in Hd. injection Hd as <-.
        repeat split; auto; try discriminate.
        -- eapply real_nodup; [|exact E]. constructor.
        -- intros _. right. intros k c Hc. destruct (Hg k c Hc) as (z & b & -> & Hb). exists z. split; auto. apply Hk. eauto.
        -- intros _ k z Hin. destruct (Hg _ _ Hin) as (z' & b & Ez & Hb). injection Ez as <-. rewrite Hb. eauto.
        -- intros _ _ k c Hc. destruct (real_values CodeInt enc ci [] ci' E k c Hc) as [(b & ->)|D]; [eauto|discriminate].
      * destruct (real_err CodeInt enc ci [] r E) as [(-> & k & v & Hin)|(-> & k & z & Hin & Hz)].
        -- repeat split; auto; try discriminate.
           ++ intros [D|D]; [discriminate|]. destruct (D _ _ Hin) as (z & Ez & _). discriminate.
           ++ left. injection H as <-. split; eauto.
        -- assert (Hny : ~ In z y) by (intros Hi; apply Hk in Hi; destruct Hi; congruence).
           repeat split; auto; try discriminate.
           ++ intros [D|D]; [discriminate|]. destruct (D _ _ Hin) as (z' & Ez & Hi). injection Ez as <-. tauto.
           ++ right. injection H as <-. split; eauto.
Qed.
End Reload.
