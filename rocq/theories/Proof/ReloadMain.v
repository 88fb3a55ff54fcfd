From Coq Require Import List ZArith Reals Bool Arith Lia Sorting.Sorted String.
From Verif.Model Require Import Base Preprocessing Dataset Reload.
From Verif.Spec Require Import Common Preprocessing Dataset Reload.
From Verif.Proof Require Import BaseLemmas Preprocessing Dataset Reload.
Import ListNotations.
Local Notation length := List.length.

Section Main.
Context {X A : Type} (O : TotalOrder A) (OZ : TotalOrder Z).
Variable key_words : list A -> list A.
Variable put : nat -> A.
Variable int_of : A -> option Z.
Notation load m o x labels := (@load_frame X A O OZ key_words put int_of m o x labels).

Lemma forall2_in_l {B C} (P : B -> C -> Prop) l1 l2 b : Forall2 P l1 l2 -> In b l1 -> exists c i, P b c /\ nth_error l1 i = Some b /\ nth_error l2 i = Some c.
Proof.
  intros H Hin. apply In_nth_error in Hin. destruct Hin as (i & Hi).
  destruct (nth_error l2 i) as [c|] eqn:E.
  - exists c, i. split; [eapply Forall2_nth_error; eauto|auto].
  - apply nth_error_None in E. rewrite <- (Forall2_length _ _ _ H) in E.
    assert (i < length l1) by (apply nth_error_Some; congruence). lia.
Qed.

(** Everything about a load of one or of more than two classes. *)
Lemma again_all m (o : object X A) v labels n : num_distinct labels n -> n <> 0 -> n <> 2 -> replaceable O put int_of labels ->
  NoDup (map fst (ob_ci o)) ->
  exists l o' e yy (g : Z -> code), load m o (Ok v) labels = (l, (o', e)) /\
    (exists o2 e2, load m new_object (Ok v) labels = (l, (o2, e2)) /\ ob_y o2 = ob_y o' /\ e2 = None) /\
    Forall2 (fun a b => exists k, is_rank O labels a k /\ b = put k) labels l /\
    ob_x o' = Some v /\ ob_y o' = Some yy /\ NoDup (map fst (ob_ci o')) /\
    (e = None <-> (m = Sparse \/ old_codes_fit O (ob_ci o) labels n)) /\
    (forall a k, In a labels -> is_rank O labels a k -> exists i, nth_error labels i = Some a /\ stored_code yy i = Some (g (Z.of_nat k))) /\
    (e = None -> forall i a, nth_error labels i = Some a -> dict_get O (ob_ci o') a = stored_code yy i /\ stored_code yy i <> None) /\
    (e = None -> forall a k, In a labels -> is_rank O labels a k -> dict_get O (ob_ci o') a = Some (g (Z.of_nat k))) /\
    (e = None -> forall k z, ~ In k labels -> dict_get O (ob_ci o) k = Some (CodeInt z) -> dict_get O (ob_ci o') k = Some (g z)) /\
    (e = None -> forall k, ~ In k labels -> dict_get O (ob_ci o) k = None -> dict_get O (ob_ci o') k = None) /\
    (e = None -> m = Sparse -> forall k, ~ In k labels -> dict_get O (ob_ci o') k = dict_get O (ob_ci o) k) /\
    (e = None -> m = OneHot -> forall k c, dict_get O (ob_ci o') k = Some c -> exists v, c = CodeVec v) /\
    (e = None -> m = MaxMargin -> forall k c, dict_get O (ob_ci o') k = Some c -> exists v, c = CodeInt v) /\
    (forall r, e = Some r ->
       (forall a k, In a labels -> is_rank O labels a k -> dict_get O (ob_ci o') a = Some (CodeInt (Z.of_nat k))) /\
       (forall k, ~ In k labels -> dict_get O (ob_ci o') k = dict_get O (ob_ci o) k) /\
       ((r = TypeError /\ exists k v, ~ In k labels /\ dict_get O (ob_ci o) k = Some (CodeVec v)) \/
        (r = KeyError /\ exists k z, ~ In k labels /\ dict_get O (ob_ci o) k = Some (CodeInt z) /\ ~ class_number n (CodeInt z)))) /\
    (m = Sparse -> forall z, g z = CodeInt z) /\
    (m = OneHot -> forall k, k < n -> exists v, g (Z.of_nat k) = CodeVec v).
Proof.
  intros Hd H0 H2 Hr N. set (o1 := {| ob_x := Some v; ob_y := ob_y o; ob_ci := ob_ci o |}).
  destruct (again_core O OZ key_words put int_of m o1 labels n Hd H0 H2 Hr) as (l & y & ci & Hload & Hother & Hput & Hy & Hout & Hin & Hnd).
  cbn [ob_ci o1] in Hout, Hnd. specialize (Hnd N).
  destruct (encode_spec (X := X) O OZ put int_of m y) as (yy & g & Hg & Hgs & Hgv & _ & Henc).
  destruct (encode_object O OZ m o1 y ci) as [o' e] eqn:He.
  destruct (Henc o1 ci o' e He Hnd) as (E1 & E2 & E3 & E4 & E5 & E6 & E7 & E8 & E9 & E10).
  assert (Hrk : forall a k, In a labels -> is_rank O labels a k ->
     dict_get O ci a = Some (CodeInt (Z.of_nat k)) /\ In (Z.of_nat k) y /\ exists i, nth_error labels i = Some a /\ nth_error y i = Some (Z.of_nat k)).
  { intros a k Ha Hk. destruct (forall2_in_l _ _ _ _ Hy Ha) as (c & i & (k' & Hk' & -> & Hc) & Hi & Hi').
    rewrite (is_rank_fun O _ _ _ _ Hk Hk'). split; auto. split; [eapply nth_error_In; eauto|eauto]. }
  assert (Hlab : forall k c, In (k, c) ci -> In k labels -> exists z, c = CodeInt z /\ In z y).
  { intros k c Hc Hk. destruct (rank_exists O labels k Hk) as (r & _ & Hkr & _). destruct (Hrk k r Hk Hkr) as (D & Hi & _).
    rewrite (dict_In_get O _ _ _ Hnd Hc) in D. injection D as ->. eauto. }
  assert (Hdec : forall k, In k labels \/ ~ In k labels).
  { intros k. destruct (in_dec (eq_dec_of_order O) k labels); auto. }
  assert (Hcn : forall z, In z y <-> class_number n (CodeInt z)).
  { intros z. rewrite Hin. unfold class_number. split; intros (k & Hk & E); exists k; split; auto; congruence. }
  assert (Hfit : (forall k c, In (k, c) ci -> exists z, c = CodeInt z /\ In z y) <-> old_codes_fit O (ob_ci o) labels n).
  { split.
    - intros H k c Hc Hn. rewrite <- Hout in Hc by auto. apply dict_get_In in Hc. destruct (H k c Hc) as (z & -> & Hz). now apply Hcn.
    - intros H k c Hc. destruct (Hdec k) as [Hk|Hk]; [now apply (Hlab k)|].
      pose proof (dict_In_get O _ _ _ Hnd Hc) as D. rewrite Hout in D by auto.
      destruct (H k c D Hk) as (q & Hq & ->). exists (Z.of_nat q). split; auto. apply Hcn. exists q; auto. }
  exists l, o', e, yy, g. split; [exact Hload|]. split.
  { destruct (Hother {| ob_x := Some v; ob_y := None; ob_ci := [] |}) as (ci2 & Hl2).
    destruct (again_core O OZ key_words put int_of m {| ob_x := Some v; ob_y := None; ob_ci := [] |} labels n Hd H0 H2 Hr)
      as (l3 & y3 & ci3 & Hload3 & Hother3 & _ & Hy3 & Hout3 & Hin3 & Hnd3). specialize (Hnd3 (NoDup_nil _)). cbn [ob_ci] in Hout3.
    assert (Ey : y3 = y).
    { clear -Hy Hy3. unfold ranked in Hy, Hy3. remember labels as all eqn:Q in Hy at 1, Hy3 at 1. clear Q. revert y3 Hy3. induction Hy as [|a c ls y (k & Hk & -> & _) Hy IH]; intros y3 Hy3; inversion Hy3; subst; auto.
      destruct H1 as (k' & Hk' & -> & _). rewrite (is_rank_fun O _ _ _ _ Hk Hk'). f_equal. auto. }
    subst y3. destruct (encode_object O OZ m {| ob_x := Some v; ob_y := None; ob_ci := [] |} y ci3) as [o2 e2] eqn:E.
    destruct (Henc _ ci3 o2 e2 E Hnd3) as (_ & F2 & _ & F4 & _).
    assert (El : l3 = l).
    { destruct (Hother3 o1) as (ci4 & Hl4). rewrite Hload in Hl4. injection Hl4 as <- _. reflexivity. }
    exists o2, e2. subst l3. split; [exact Hload3|]. split; [congruence|]. apply F4. right.
    intros k c Hc. destruct (Hdec k) as [Hk|Hk].
    - destruct (forall2_in_l _ _ _ _ Hy3 Hk) as (z & i & (k' & Hk' & -> & Hz) & _ & Hi').
      rewrite (dict_In_get O _ _ _ Hnd3 Hc) in Hz. injection Hz as ->. exists (Z.of_nat k'). split; auto. eapply nth_error_In; eauto.
    - pose proof (dict_In_get O _ _ _ Hnd3 Hc) as D. rewrite Hout3 in D by auto. discriminate. }
  split; [exact Hput|]. split; [exact E1|]. split; [exact E2|]. split; [exact E3|]. split.
  { rewrite E4, Hfit. tauto. }
  split.
  { intros a k Ha Hk. destruct (Hrk a k Ha Hk) as (_ & _ & i & Hi & Hi'). exists i. split; auto. now rewrite Hg, Hi'. }
  split.
  { intros En i a Hi. destruct (nth_error y i) as [c|] eqn:Ei.
    - destruct (Forall2_nth_error _ _ _ _ _ _ Hy Hi Ei) as (k & Hk & -> & Hc).
      rewrite Hg, Ei. cbn. rewrite (E5 En a (Z.of_nat k) (dict_get_In O _ _ _ Hc)). split; congruence.
    - apply nth_error_None in Ei. rewrite <- (Forall2_length _ _ _ Hy) in Ei.
      assert (i < length labels) by (apply nth_error_Some; congruence). lia. }
  split.
  { intros En a k Ha Hk. destruct (Hrk a k Ha Hk) as (Hc & _). apply (E5 En). now apply dict_get_In in Hc. }
  split.
  { intros En k z Hn Hz. apply (E5 En). apply (dict_get_In O). now rewrite Hout. }
  split.
  { intros En k Hn Hz. apply (E6 En). intros K. apply in_map_iff in K. destruct K as ([k' c] & Ek & Kin). cbn in Ek. subst k'.
    apply (dict_In_get O _ _ _ Hnd) in Kin. rewrite Hout in Kin by auto. congruence. }
  split.
  { intros En Es k Hn. rewrite (E7 En Es). auto. }
  split; [exact E8|]. split; [exact E9|]. split.
  { intros r Er. destruct (E10 r Er) as (Ec & Hcase). rewrite Ec. split; [intros a k Ha Hk; apply (Hrk a k Ha Hk)|].
    split; [exact Hout|].
    destruct Hcase as [(-> & k & w & Kin)|(-> & k & z & Kin & Kz)]; [left|right]; (split; [reflexivity|]).
    - exists k, w. destruct (Hdec k) as [Hk|Hk].
      + destruct (Hlab k _ Kin Hk) as (z & D & _). discriminate.
      + split; auto. rewrite <- Hout by auto. now apply dict_In_get.
    - exists k, z. destruct (Hdec k) as [Hk|Hk].
      + destruct (Hlab k _ Kin Hk) as (z' & D & Hz). injection D as <-. tauto.
      + split; auto. split; [rewrite <- Hout by auto; now apply dict_In_get|]. now rewrite <- Hcn. }
  split; [exact Hgs|]. intros Em k Hk. apply (Hgv Em). apply Hin. eauto.
Qed.
End Main.

Section More.
Context {X A : Type} (O : TotalOrder A) (OZ : TotalOrder Z).
Variable key_words : list A -> list A.
Variable put : nat -> A.
Variable int_of : A -> option Z.
Notation load m o x labels := (@load_frame X A O OZ key_words put int_of m o x labels).

(** ** Two classes *)
Lemma encode_same m (o o2 : object X A) y ci : snd (encode_object O OZ m o y ci) = snd (encode_object O OZ m o2 y ci) /\
  ob_y (fst (encode_object O OZ m o y ci)) = ob_y (fst (encode_object O OZ m o2 y ci)) /\
  ob_ci (fst (encode_object O OZ m o y ci)) = ob_ci (fst (encode_object O OZ m o2 y ci)) /\
  ob_x (fst (encode_object O OZ m o y ci)) = ob_x o.
Proof.
  unfold encode_object. destruct m; [repeat split| |].
  - destruct (onehot_call OZ [] y) as [[rows enc]|]; [|repeat split]. destruct (set_real_codes O OZ CodeVec ci enc); repeat split.
  - destruct (maxmargin_call OZ [] y) as [[rows enc]|]; [|repeat split]. destruct (set_real_codes O OZ CodeInt ci enc); repeat split.
Qed.
Lemma two_classes_main m (o : object X A) v labels l o' e l2 o2 e2 : num_distinct labels 2 ->
  load m o (Ok v) labels = (l, (o', e)) -> load m new_object (Ok v) labels = (l2, (o2, e2)) ->
  l = key_words labels /\ l2 = key_words labels /\ e = e2 /\ ob_x o' = Some v /\
  ((ob_y o' = ob_y o2 /\ ob_ci o' = ob_ci o2) \/ (e = Some ValueError /\ ob_y o' = ob_y o /\ ob_ci o' = ob_ci o)).
Proof.
  intros Hd. pose proof (length_unique_distinct O labels 2 Hd) as Hlen.
  destruct (distinct_nonempty labels 2 Hd) as (h & Hh); [lia|].
  unfold load_frame, load_labels. rewrite Hh, Hlen. cbn [Nat.eqb].
  destruct (as_ints int_of (key_words labels)) as [y|r] eqn:E.
  - destruct (np_unique O labels) as [|a [|b [|c t]]]; try discriminate. cbn [two_indices get_at nth_error bind].
    cbn [new_object ob_x ob_y ob_ci]. intros H1 H2.
    assert (F1 := f_equal snd H1). assert (F2 := f_equal snd H2). apply (f_equal fst) in H1, H2. cbn [fst snd] in *.
    match type of F1 with encode_object _ _ _ ?a ?b ?c = _ => match type of F2 with encode_object _ _ _ ?a2 _ _ = _ =>
      destruct (encode_same m a a2 b c) as (K1 & K2 & K3 & K4) end end.
    rewrite F1 in K1, K2, K3, K4. rewrite F2 in K1, K2, K3. cbn in K1, K2, K3, K4.
    split; [congruence|]. split; [congruence|]. split; auto.
  - intros H1 H2. injection H1 as <- <- <-. injection H2 as <- <- <-. cbn. repeat split; auto. right.
    assert (r = ValueError); [|subst; auto].
    clear -E. unfold as_ints in E. revert r E. induction (key_words labels) as [|a t IH]; intros r E; cbn [mapM] in E; [discriminate|].
    destruct (int_of a); cbn [bind] in E; [|congruence].
    match type of E with context [mapM ?f t] => destruct (mapM f t) end; cbn [bind] in E; [discriminate|]. apply IH. congruence.
Qed.

(** ** Keys stay distinct *)
Lemma nodup_fold {B} (f : B -> A) (c : B -> code) (g : list A -> B -> list A) es : forall (l : list A) (d : dict A code), NoDup (map fst d) ->
  NoDup (map fst (snd (fold_left (fun st p => (g (fst st) p, dict_set O (snd st) (f p) (c p))) es (l, d)))).
Proof. induction es as [|p es IH]; intros l d Hd; cbn [fold_left]; auto. apply IH. now apply nodup_set. Qed.
Lemma keys_main m (o : object X A) x labels : NoDup (map fst (ob_ci o)) ->
  NoDup (map fst (ob_ci (fst (snd (load m o x labels))))).
Proof.
  intros N. unfold load_frame. destruct x as [v|]; [|exact N]. unfold load_labels. cbn [ob_ci ob_y].
  destruct (get_at labels 0); [|exact N].
  assert (Henc : forall (o1 : object X A) y ci, NoDup (map fst ci) -> NoDup (map fst (ob_ci (fst (encode_object O OZ m o1 y ci))))).
  { intros o1 y ci Hc. destruct (encode_spec (X := X) O OZ put int_of m y) as (yy & g & _ & _ & _ & _ & Hs).
    destruct (encode_object O OZ m o1 y ci) as [o' e] eqn:E. exact (proj1 (proj2 (proj2 (Hs o1 ci o' e E Hc)))). }
  destruct (length (np_unique O labels) =? 2) eqn:E2.
  - destruct (as_ints int_of (key_words labels)) as [y|]; [|exact N].
    pose proof (np_unique_NoDup O labels) as Nu.
    destruct (np_unique O labels) as [|p [|q [|c t]]]; try discriminate. cbn [two_indices get_at nth_error bind snd fst].
    apply Henc. exact Nu.
  - match goal with |- context [fold_left ?f ?e ?i] => pose proof (nodup_fold (fun p : nat * A => snd p) (fun p => CodeInt (Z.of_nat (fst p)))
        (fun l p => replace_all O (snd p) (put (fst p)) l) e labels (ob_ci o) N) as K; destruct (fold_left f e i) as [l ci] eqn:F end.
    cbn [snd] in K. destruct (as_ints int_of l); [apply Henc; exact K|exact K].
Qed.

(** ** The same array of labels again *)
Lemma same_frame_main m (o : object X A) v v2 labels n l o' e : num_distinct labels n -> n <> 0 -> n <> 2 -> replaceable O put int_of labels ->
  NoDup (map fst (ob_ci o)) ->
  (forall i j, i < j -> j < n -> ltb O (put i) (put j) = true) ->
  load m o (Ok v) labels = (l, (o', e)) ->
  exists o2, load m new_object (Ok v2) l = (l, (o2, None)) /\ ob_y o2 = ob_y o'.
Proof.
  intros Hd H0 H2 Hr N Hinc Hl. pose proof Hr as [Hint _].
  set (o1 := {| ob_x := Some v; ob_y := ob_y o; ob_ci := ob_ci o |}).
  destruct (again_core O OZ key_words put int_of m o1 labels n Hd H0 H2 Hr) as (l1 & y & ci & Hload & _ & Hput & Hy & _ & Hin & Hnd).
  change (load_labels O OZ key_words put int_of m o1 labels = (l, (o', e))) in Hl. rewrite Hload in Hl. injection Hl as <- He.
  assert (Hlen : length (np_unique O labels) = n) by now apply length_unique_distinct.
  assert (Hraw : np_unique O l1 = map put (seq 0 n)).
  { apply (sorted_ext O); [apply np_unique_sorted| |].
    - assert (G : forall s c, s + c <= n -> StronglySorted (slt O) (map put (seq s c))).
      { intros s c. revert s. induction c as [|c IH]; intros s Hs; cbn; constructor.
        - apply IH. lia.
        - apply Forall_forall. intros b Hb. apply in_map_iff in Hb. destruct Hb as (j & <- & Hj). apply in_seq in Hj. apply Hinc; lia. }
      apply G. lia.
    - intros b. rewrite np_unique_In, in_map_iff. split.
      + intros Hb. apply In_nth_error in Hb. destruct Hb as (i & Hi).
        destruct (nth_error labels i) as [a|] eqn:E.
        * destruct (Forall2_nth_error _ _ _ _ _ _ Hput E Hi) as (k & Hk & ->). exists k. split; auto. apply in_seq.
          destruct (rank_exists O labels a) as (k' & _ & Hk' & Hlt); [eapply nth_error_In; eauto|].
          rewrite (is_rank_fun O _ _ _ _ Hk Hk'). lia.
        * apply nth_error_None in E. rewrite (Forall2_length _ _ _ Hput) in E.
          assert (i < length l1) by (apply nth_error_Some; congruence). lia.
      + intros (k & <- & Hk). apply in_seq in Hk.
        destruct (nth_error (np_unique O labels) k) as [a|] eqn:E; [|apply nth_error_None in E; lia].
        assert (Ha : In a labels) by (apply nth_error_In in E; now apply np_unique_In in E).
        destruct (forall2_in_l _ _ _ _ Hput Ha) as (b & i & (k' & Hk' & ->) & _ & Hi).
        assert (k' = k).
        { apply (is_rank_fun O labels a); auto. apply (is_rank_ext O (np_unique O labels)); [apply np_unique_In|]. apply sorted_nth_rank; auto. apply np_unique_sorted. }
        subst k'. eapply nth_error_In; eauto. }
  assert (Hrk : forall j, j < n -> is_rank O l1 (put j) j).
  { intros j Hj. apply (is_rank_ext O (np_unique O l1)); [apply np_unique_In|]. apply sorted_nth_rank; [apply np_unique_sorted|].
    rewrite Hraw. rewrite (map_nth_error put j (seq 0 n) (d := j)); auto.
    rewrite (nth_error_nth' (seq 0 n) 0) by now rewrite seq_length. now rewrite seq_nth. }
  assert (Hd1 : num_distinct l1 n).
  { exists (map put (seq 0 n)). rewrite <- Hraw. split; [apply np_unique_NoDup|]. split; [now rewrite Hraw, map_length, seq_length|].
    intros b. apply np_unique_In. }
  assert (Hmem : forall b, In b l1 -> exists j, j < n /\ b = put j).
  { intros b Hb. apply (np_unique_In O) in Hb. rewrite Hraw in Hb. apply in_map_iff in Hb. destruct Hb as (j & <- & Hj). apply in_seq in Hj.
    exists j. split; auto. lia. }
  assert (Hr1 : replaceable O put int_of l1).
  { split; auto. intros i j b Hij Hb Hin1 Eb. destruct (Hmem b Hin1) as (j' & Hj' & ->).
    rewrite (is_rank_fun O _ _ _ _ Hb (Hrk j' Hj')) in Hij. pose proof (Hinc i j' Hij Hj') as K. rewrite Eb in K.
    apply ltb_true in K. destruct K; congruence. }
  set (o0 := {| ob_x := Some v2; ob_y := None; ob_ci := [] |} : object X A).
  destruct (again_core O OZ key_words put int_of m o0 l1 n Hd1 H0 H2 Hr1) as (l3 & y3 & ci3 & Hload3 & _ & Hput3 & Hy3 & Hout3 & Hin3 & Hnd3).
  assert (El : l3 = l1).
  { clear -Hput3 Hmem Hrk. assert (Hm : forall b, In b l1 -> exists j, j < n /\ b = put j) by auto. clear Hmem.
    remember l1 as all eqn:Q in Hput3 at 1, Hrk. clear Q. revert l3 Hput3.
    induction l1 as [|b t IH]; intros l3 H; inversion H; subst; auto. f_equal.
    - destruct H2 as (k & Hk & ->). destruct (Hm b) as (j & Hj & ->); [simpl; auto|]. now rewrite (is_rank_fun O _ _ _ _ Hk (Hrk j Hj)).
    - apply IH; auto. intros b' Hb'. apply Hm. simpl; auto. }
  subst l3.
  assert (Ey : y3 = y).
  { assert (B : forall a k, In a labels -> is_rank O labels a k -> k < n).
    { intros a k Ha Hk. destruct (rank_exists O labels a Ha) as (k' & _ & Hk' & Hlt). rewrite (is_rank_fun O _ _ _ _ Hk Hk'). lia. }
    clear -Hput Hy Hy3 Hrk B. unfold ranked in *.
    remember labels as all eqn:Q in Hput at 1, Hy at 1, B at 2. clear Q.
    remember l1 as all1 eqn:Q in Hy3 at 1, Hrk. clear Q.
    revert y Hy y3 Hy3 B. induction Hput as [|a b ls l1 (k & Hk & ->) Hput IH]; intros y Hy y3 Hy3 B; inversion Hy; inversion Hy3; subst; auto.
    destruct H1 as (k1 & Hk1 & -> & _). destruct H6 as (k2 & Hk2 & -> & _). f_equal.
    - rewrite <- (is_rank_fun O _ _ _ _ Hk Hk1). rewrite (is_rank_fun O _ _ _ _ Hk2 (Hrk k (B a k (or_introl eq_refl) Hk))). reflexivity.
    - apply IH; auto. intros a' k' Ha' Hk'. apply (B a' k'); simpl; auto. }
  subst y3. destruct (encode_spec (X := X) O OZ put int_of m y) as (yy & g & _ & _ & _ & _ & Hs).
  specialize (Hnd N). specialize (Hnd3 (NoDup_nil _)).
  destruct (Hs o1 ci o' e He Hnd) as (_ & F2 & _).
  destruct (encode_object O OZ m o0 y ci3) as [o2 e2] eqn:E.
  destruct (Hs o0 ci3 o2 e2 E Hnd3) as (_ & G2 & _ & G4 & _).
  assert (e2 = None).
  { apply G4. right. intros k c Hc. destruct (in_dec (eq_dec_of_order O) k l1) as [Hk|Hk].
    - destruct (forall2_in_l _ _ _ _ Hy3 Hk) as (z & i & (k' & Hk' & -> & Hz) & _ & Hi').
      rewrite (dict_In_get O _ _ _ Hnd3 Hc) in Hz. injection Hz as ->. exists (Z.of_nat k'). split; auto. eapply nth_error_In; eauto.
    - pose proof (dict_In_get O _ _ _ Hnd3 Hc) as D. rewrite Hout3 in D by auto. discriminate. }
  subst e2. exists o2. split; [exact Hload3|congruence].
Qed.

(** ** What an encoded load publishes *)
Lemma published_kind m (o : object X A) x labels l o' : NoDup (map fst (ob_ci o)) -> load m o x labels = (l, (o', None)) ->
  (m = OneHot -> all_vectors O (ob_ci o')) /\ (m = MaxMargin -> all_numbers O (ob_ci o')).
Proof.
  intros N. unfold load_frame. destruct x as [v|]; [|discriminate]. unfold load_labels. cbn [ob_ci ob_y].
  destruct (get_at labels 0); [|discriminate].
  assert (Henc : forall (o1 : object X A) y ci, NoDup (map fst ci) -> encode_object O OZ m o1 y ci = (o', None) ->
     (m = OneHot -> all_vectors O (ob_ci o')) /\ (m = MaxMargin -> all_numbers O (ob_ci o'))).
  { intros o1 y ci Hc E. destruct (encode_spec (X := X) O OZ put int_of m y) as (yy & g & _ & _ & _ & _ & Hs).
    destruct (Hs o1 ci o' None E Hc) as (_ & _ & _ & _ & _ & _ & _ & E8 & E9 & _). split; [exact (E8 eq_refl)|exact (E9 eq_refl)]. }
  destruct (length (np_unique O labels) =? 2) eqn:E2.
  - destruct (as_ints int_of (key_words labels)) as [y|]; [|discriminate].
    pose proof (np_unique_NoDup O labels) as Nu.
    destruct (np_unique O labels) as [|p [|q [|c t]]]; try discriminate. cbn [two_indices get_at nth_error bind snd fst].
    intros H. injection H as _ H. eapply Henc; [|exact H]. exact Nu.
  - match goal with |- context [fold_left ?f ?e ?i] => pose proof (nodup_fold (fun p : nat * A => snd p) (fun p => CodeInt (Z.of_nat (fst p)))
        (fun l p => replace_all O (snd p) (put (fst p)) l) e labels (ob_ci o) N) as K; destruct (fold_left f e i) as [l1 ci] eqn:F end.
    cbn [snd] in K. destruct (as_ints int_of l1); [|discriminate]. intros H. injection H as _ H. eapply Henc; [|exact H]. exact K.
Qed.
End More.

(** ** A new object *)
Section New.
Context {X A : Type} (O : TotalOrder A) (OZ : TotalOrder Z).
Lemma dict_set_map {B C} (f : B -> C) (d : dict A B) k v :
  dict_set O (map (fun kv => (fst kv, f (snd kv))) d) k (f v) = map (fun kv => (fst kv, f (snd kv))) (dict_set O d k v).
Proof. induction d as [|[k' v'] d IH]; simpl; auto. destruct (eqb O k k'); simpl; auto. now rewrite IH. Qed.
Lemma set_real_new {B} (f : B -> code) (enc : dict Z B) (pre : dict A Z) :
  set_real_codes O OZ f (map (fun kv => (fst kv, CodeInt (snd kv))) pre) enc =
  (d <- set_real O OZ pre enc ;; Ok (map (fun kv => (fst kv, f (snd kv))) d)).
Proof.
  unfold set_real_codes, set_real. change (@nil (A * code)) with (map (fun kv : A * B => (fst kv, f (snd kv))) []) at 1.
  generalize (@nil (A * B)) as d0. induction pre as [|[k z] pre IH]; intros d0; [reflexivity|].
  cbn [map foldM fst snd]. destruct (dict_lookup OZ enc z) as [b|]; cbn [bind]; [|reflexivity].
  rewrite dict_set_map. apply IH.
Qed.
Lemma encode_new m (o : object X A) y ci :
  match encoder_label O OZ m y ci with
  | Ok (yy, ci') => encode_object O OZ m o y (map (fun kv => (fst kv, CodeInt (snd kv))) ci) = (with_labels o (Some yy) ci', None)
  | Err e => exists o', encode_object O OZ m o y (map (fun kv => (fst kv, CodeInt (snd kv))) ci) = (o', Some e)
  end.
Proof.
  destruct m; unfold encoder_label, encode_object; [reflexivity| |].
  - destruct (onehot_call OZ [] y) as [[rows enc]|]; cbn [bind fst snd]; [|eauto].
    rewrite set_real_new. destruct (set_real O OZ ci enc); cbn [bind]; [reflexivity|eauto].
  - destruct (maxmargin_call OZ [] y) as [[rows enc]|]; cbn [bind fst snd]; [|eauto].
    rewrite set_real_new. destruct (set_real O OZ ci enc); cbn [bind]; [reflexivity|eauto].
Qed.
Lemma fold_new (put : nat -> A) es : forall (l : list A) (d : dict A Z),
  fold_left (fun st p => (replace_all O (snd p) (put (fst p)) (fst st), dict_set O (snd st) (snd p) (CodeInt (Z.of_nat (fst p)))))
    es (l, map (fun kv => (fst kv, CodeInt (snd kv))) d) =
  (let r := fold_left (fun st p => (replace_all O (snd p) (put (fst p)) (fst st), dict_set O (snd st) (snd p) (Z.of_nat (fst p)))) es (l, d) in
   (fst r, map (fun kv => (fst kv, CodeInt (snd kv))) (snd r))).
Proof.
  induction es as [|[i a] es IH]; intros l d; [reflexivity|]. cbn [fold_left fst snd]. rewrite dict_set_map. apply IH.
Qed.
Lemma new_main (key_words : list A -> list A) put int_of m (v : X) labels :
  new_outcome v
    (r <- (if length (np_unique O labels) =? 2
           then (_ <- get_at labels 0 ;; y <- as_ints int_of (key_words labels) ;; ci <- two_indices (np_unique O labels) ;; Ok (y, ci))
           else categorical O put int_of [] labels) ;; encoder_label O OZ m (fst r) (snd r))
    (load_frame O OZ key_words put int_of m new_object (Ok v) labels).
Proof.
  unfold load_frame, load_labels, categorical. cbn [ob_ci ob_y new_object].
  destruct (get_at labels 0) as [h|]; cbn [bind].
  2: { destruct (length (np_unique O labels) =? 2); reflexivity. }
  set (o1 := {| ob_x := Some v; ob_y := None; ob_ci := [] |} : object X A).
  destruct (length (np_unique O labels) =? 2).
  - destruct (as_ints int_of (key_words labels)) as [y|]; cbn [bind]; [|reflexivity].
    destruct (two_indices (np_unique O labels)) as [ci|]; cbn [bind fst snd]; [|reflexivity].
    pose proof (encode_new m o1 y ci) as K. destruct (encoder_label O OZ m y ci) as [[yy ci']|]; cbn.
    + rewrite K. reflexivity.
    + destruct K as (o' & ->). reflexivity.
  - change (@nil (A * code)) with (map (fun kv : A * Z => (fst kv, CodeInt (snd kv))) []). rewrite fold_new. cbn zeta.
    match goal with |- context [fold_left ?f ?e ?i] => destruct (fold_left f e i) as [l ci] end.
    cbn [fst snd]. unfold as_ints. match goal with |- context [mapM ?f l] => destruct (mapM f l) as [y|] end; cbn [bind fst snd]; [|reflexivity].
    pose proof (encode_new m o1 y ci) as K. destruct (encoder_label O OZ m y ci) as [[yy ci']|]; cbn.
    + rewrite K. reflexivity.
    + destruct K as (o' & ->). reflexivity.
Qed.
End New.
Lemma new_texts {X} O OZ put int_of m (v : X) labels :
  new_outcome v (dataframe_text_labels O OZ put int_of m labels) (load_texts O OZ put int_of m new_object (Ok v) labels).
Proof. exact (new_main O OZ (text_key_words O) put int_of m v labels). Qed.
Lemma as_ints_some (l : list Z) : as_ints Some l = Ok l.
Proof. unfold as_ints. induction l as [|z l IH]; cbn [mapM]; [reflexivity|]. cbn [bind]. rewrite IH. reflexivity. Qed.
Lemma new_ints {X} OZ m (v : X) labels :
  new_outcome v (dataframe_int_labels OZ m labels) (load_ints OZ m new_object (Ok v) labels).
Proof.
  pose proof (new_main OZ OZ (fun l => l) Z.of_nat Some m v labels) as K. rewrite as_ints_some in K. exact K.
Qed.
