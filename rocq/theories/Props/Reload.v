(** C113: loading a data set into an object that was used before, and loading the same
    frame again. *)
From Coq Require Import List ZArith Arith Bool Lia String.
From Verif.Model Require Import Base Preprocessing Dataset Reload.
From Verif.Spec Require Import Common Preprocessing Dataset Reload.
From Verif.Proof Require Import BaseLemmas Preprocessing Dataset Reload ReloadMain.
From Verif.Props Require Import Dataset.
Import ListNotations.
Local Open Scope nat_scope.

(** A new object gets what the model of one load says. *)
Theorem C113_new_object_texts : forall X O OZ put int_of m (v : X) labels,
  new_outcome v (dataframe_text_labels O OZ put int_of m labels) (load_texts O OZ put int_of m new_object (Ok v) labels).
Proof. intros. apply new_texts. Qed.
Print Assumptions C113_new_object_texts.
Theorem C113_new_object_ints : forall X OZ m (v : X) labels,
  new_outcome v (dataframe_int_labels OZ m labels) (load_ints OZ m new_object (Ok v) labels).
Proof. intros. apply new_ints. Qed.
Print Assumptions C113_new_object_ints.

(** Integers that are not negative, and texts that are not numerals, are replaceable. *)
Theorem C113_replaceable_ints : forall labels, (forall z, In z labels -> (0 <= z)%Z) -> replaceable ZOrder Z.of_nat Some labels.
Proof. intros labels H. split; [reflexivity|]. exact (int_put_ok labels H). Qed.
Print Assumptions C113_replaceable_ints.
Theorem C113_replaceable_texts : forall labels, (forall i l, In l labels -> py_str i <> l) ->
  replaceable stringOrder py_str py_int labels.
Proof. intros labels H. split; [exact py_int_str|]. intros i j l _ _ Hl. now apply H. Qed.
Print Assumptions C113_replaceable_texts.

Section Any.
Context {X A : Type} (O : TotalOrder A) (OZ : TotalOrder Z).
Variable key_words : list A -> list A.
Variable put : nat -> A.
Variable int_of : A -> option Z.
Notation load m o x labels := (@load_frame X A O OZ key_words put int_of m o x labels).

(** Whatever is loaded, no label is published twice. *)
Theorem C113_keys_distinct : forall m (o : object X A) x labels, NoDup (map fst (ob_ci o)) ->
  NoDup (map fst (ob_ci (fst (snd (load m o x labels))))).
Proof. intros. now apply keys_main. Qed.

(** If the features cannot be processed, nothing changes. *)
Theorem C113_features_fail : forall m (o : object X A) e labels, load m o (Err e) labels = (labels, (o, Some e)).
Proof. reflexivity. Qed.

(** Two classes: as in a new object, the key words are replaced in the array; but if the labels cannot be converted, the new
    features stand beside the old labels and their old codes. *)
Theorem C113_two_classes : forall m (o : object X A) v labels l o' e l2 o2 e2, num_distinct labels 2 ->
  load m o (Ok v) labels = (l, (o', e)) -> load m new_object (Ok v) labels = (l2, (o2, e2)) ->
  l = key_words labels /\ l2 = key_words labels /\ e = e2 /\ ob_x o' = Some v /\
  ((ob_y o' = ob_y o2 /\ ob_ci o' = ob_ci o2) \/ (e = Some ValueError /\ ob_y o' = ob_y o /\ ob_ci o' = ob_ci o)).
Proof. intros m o v labels l o' e l2 o2 e2. apply two_classes_main. Qed.

(** Another number of classes: [y] is that of a new object; the call returns if and only
    if nothing is encoded, or the code of every label published before that does not
    occur now is the number of a class of now. *)
Theorem C113_again : forall m (o : object X A) v labels n, num_distinct labels n -> n <> 0 -> n <> 2 ->
  replaceable O put int_of labels -> NoDup (map fst (ob_ci o)) ->
  exists l o' e o2, load m o (Ok v) labels = (l, (o', e)) /\ load m new_object (Ok v) labels = (l, (o2, None)) /\
    ob_x o' = Some v /\ ob_y o' = ob_y o2 /\ ob_y o2 <> None /\
    (e = None <-> (m = Sparse \/ old_codes_fit O (ob_ci o) labels n)).
Proof.
  intros m o v labels n Hd H0 H2 Hr N.
  destruct (again_all O OZ key_words put int_of m o v labels n Hd H0 H2 Hr N) as
    (l & o' & e & yy & g & Hl & (o2 & e2 & Hl2 & Ey & ->) & _ & Ex & Hy & _ & Hiff & _).
  exists l, o', e, o2. repeat split; auto; try tauto; congruence.
Qed.

(** When it returns, the map describes the labels of now; labels of before that do not
    occur now stay published, unencoded with their old code, encoded with the code of a
    class of now. *)
Theorem C113_again_published : forall m (o : object X A) v labels n l o', num_distinct labels n -> n <> 0 -> n <> 2 ->
  replaceable O put int_of labels -> NoDup (map fst (ob_ci o)) ->
  load m o (Ok v) labels = (l, (o', None)) ->
  (exists y, ob_y o' = Some y /\ indices_agree O labels y (ob_ci o')) /\
  (forall k, ~ In k labels -> (dict_get O (ob_ci o') k = None <-> dict_get O (ob_ci o) k = None)) /\
  (m = Sparse -> forall k, ~ In k labels -> dict_get O (ob_ci o') k = dict_get O (ob_ci o) k) /\
  (m <> Sparse -> forall k a j, ~ In k labels -> In a labels -> is_rank O labels a j ->
     dict_get O (ob_ci o) k = Some (CodeInt (Z.of_nat j)) -> dict_get O (ob_ci o') k = dict_get O (ob_ci o') a).
Proof.
  intros m o v labels n l o' Hd H0 H2 Hr N Hl.
  destruct (again_all O OZ key_words put int_of m o v labels n Hd H0 H2 Hr N) as
    (l1 & o1 & e & yy & g & Hl1 & _ & _ & _ & Hy & _ & Hiff & _ & Hagree & Hrank & Hkept & Hnone & Hsp & _).
  rewrite Hl in Hl1. injection Hl1 as <- <- <-.
  split; [exists yy; split; auto; intros i a Hi; now apply (Hagree eq_refl)|]. split; [|split].
  - intros k Hk. split.
    + intros D. destruct (dict_get O (ob_ci o) k) as [c|] eqn:E; auto. exfalso.
      destruct (proj1 Hiff eq_refl) as [->|F].
      * rewrite (Hsp eq_refl eq_refl k Hk) in D. congruence.
      * destruct (F k c E Hk) as (q & _ & ->). rewrite (Hkept eq_refl k _ Hk E) in D. discriminate.
    + now apply Hnone.
  - intros -> k Hk. now apply Hsp.
  - intros _ k a j Hk Ha Hj E. rewrite (Hkept eq_refl k _ Hk E). symmetry. now apply Hrank.
Qed.

(** When it raises, [y] is already encoded but the map holds the unencoded numbers of
    the labels of now beside the old codes. *)
Theorem C113_again_raises : forall m (o : object X A) v labels n l o' r, num_distinct labels n -> n <> 0 -> n <> 2 ->
  replaceable O put int_of labels -> NoDup (map fst (ob_ci o)) ->
  load m o (Ok v) labels = (l, (o', Some r)) ->
  (forall a k, In a labels -> is_rank O labels a k -> dict_get O (ob_ci o') a = Some (CodeInt (Z.of_nat k))) /\
  (forall k, ~ In k labels -> dict_get O (ob_ci o') k = dict_get O (ob_ci o) k) /\
  (m = OneHot -> exists y, ob_y o' = Some y /\ ~ indices_agree O labels y (ob_ci o')) /\
  ((r = TypeError /\ exists k w, ~ In k labels /\ dict_get O (ob_ci o) k = Some (CodeVec w)) \/
   (r = KeyError /\ exists k z, ~ In k labels /\ dict_get O (ob_ci o) k = Some (CodeInt z) /\ ~ class_number n (CodeInt z))).
Proof.
  intros m o v labels n l o' r Hd H0 H2 Hr N Hl.
  destruct (again_all O OZ key_words put int_of m o v labels n Hd H0 H2 Hr N) as
    (l1 & o1 & e & yy & g & Hl1 & _ & _ & _ & Hy & _ & _ & Hst & _ & _ & _ & _ & _ & _ & _ & Herr & _ & Hvec).
  rewrite Hl in Hl1. injection Hl1 as <- <- <-. destruct (Herr r eq_refl) as (K1 & K2 & K3).
  split; auto. split; auto. split; auto. intros ->. exists yy. split; auto. intros D.
  destruct (distinct_nonempty labels n Hd H0) as (h & Hh).
  assert (Hin : In h labels) by (destruct labels; [discriminate|injection Hh as <-; simpl; auto]).
  destruct (rank_exists O labels h Hin) as (k & _ & Hk & Hlt). rewrite (length_unique_distinct O _ _ Hd) in Hlt.
  destruct (Hst h k Hin Hk) as (i & Hi & Hs). destruct (D i h Hi) as (D1 & _).
  destruct (Hvec eq_refl k Hlt) as (w & Hw). rewrite (K1 h k Hin Hk), Hs, Hw in D1. discriminate.
Qed.

(** After a one-hot load every published code is a vector, after a max-margin load a
    number. *)
Theorem C113_published_kind : forall m (o : object X A) x labels l o', NoDup (map fst (ob_ci o)) ->
  load m o x labels = (l, (o', None)) ->
  (m = OneHot -> all_vectors O (ob_ci o')) /\ (m = MaxMargin -> all_numbers O (ob_ci o')).
Proof. intros m o x labels l o'. apply published_kind. Qed.

(** Hence, encoded once more, the same object fails as soon as a published label is
    missing: with one-hot always, with max-margin if it was the one with code -1. *)
Theorem C113_one_hot_again : forall m (o : object X A) v labels n k, num_distinct labels n -> n <> 0 -> n <> 2 ->
  replaceable O put int_of labels -> NoDup (map fst (ob_ci o)) -> all_vectors O (ob_ci o) -> m <> Sparse ->
  dict_get O (ob_ci o) k <> None -> ~ In k labels ->
  exists l o', load m o (Ok v) labels = (l, (o', Some TypeError)).
Proof.
  intros m o v labels n k Hd H0 H2 Hr N V Hm Hk Hn.
  destruct (again_all O OZ key_words put int_of m o v labels n Hd H0 H2 Hr N) as
    (l & o' & e & yy & g & Hl & _ & _ & _ & _ & _ & Hiff & _ & _ & _ & _ & _ & _ & _ & _ & Herr & _).
  exists l, o'. rewrite Hl. repeat f_equal. destruct e as [r|].
  - destruct (Herr r eq_refl) as (_ & _ & [(-> & _)|(_ & k' & z & _ & E & _)]); auto.
    destruct (V _ _ E) as (w & D). discriminate.
  - exfalso. destruct (proj1 Hiff eq_refl) as [|F]; [auto|].
    destruct (dict_get O (ob_ci o) k) as [c|] eqn:E; [|congruence].
    destruct (F k c E Hn) as (q & _ & ->). destruct (V _ _ E) as (w & D). discriminate.
Qed.
Theorem C113_max_margin_again : forall m (o : object X A) v labels n k, num_distinct labels n -> n <> 0 -> n <> 2 ->
  replaceable O put int_of labels -> NoDup (map fst (ob_ci o)) -> all_numbers O (ob_ci o) -> m <> Sparse ->
  dict_get O (ob_ci o) k = Some (CodeInt (-1)) -> ~ In k labels ->
  exists l o', load m o (Ok v) labels = (l, (o', Some KeyError)).
Proof.
  intros m o v labels n k Hd H0 H2 Hr N V Hm Hk Hn.
  destruct (again_all O OZ key_words put int_of m o v labels n Hd H0 H2 Hr N) as
    (l & o' & e & yy & g & Hl & _ & _ & _ & _ & _ & Hiff & _ & _ & _ & _ & _ & _ & _ & _ & Herr & _).
  exists l, o'. rewrite Hl. repeat f_equal. destruct e as [r|].
  - destruct (Herr r eq_refl) as (_ & _ & [(_ & k' & w & _ & E)|(-> & _)]); auto.
    destruct (V _ _ E) as (z & D). discriminate.
  - exfalso. destruct (proj1 Hiff eq_refl) as [|F]; [auto|].
    destruct (F k _ Hk Hn) as (q & _ & D). injection D as D. lia.
Qed.

(** The labels are replaced in the array that was given. Loading that array once more, in
    a new object, gives the same [y] as long as the numbers sort as numbers. *)
Theorem C113_same_frame_again : forall m (o : object X A) v v2 labels n l o' e,
  num_distinct labels n -> n <> 0 -> n <> 2 -> replaceable O put int_of labels -> NoDup (map fst (ob_ci o)) ->
  (forall i j, i < j -> j < n -> ltb O (put i) (put j) = true) ->
  load m o (Ok v) labels = (l, (o', e)) ->
  Forall2 (fun a b => exists k, is_rank O labels a k /\ b = put k) labels l /\
  exists o2, load m new_object (Ok v2) l = (l, (o2, None)) /\ ob_y o2 = ob_y o'.
Proof.
  intros m o v v2 labels n l o' e Hd H0 H2 Hr N Hinc Hl. split.
  - destruct (again_all O OZ key_words put int_of m o v labels n Hd H0 H2 Hr N) as (l1 & o1 & e1 & yy & g & Hl1 & _ & Hp & _).
    rewrite Hl in Hl1. injection Hl1 as <- _ _. exact Hp.
  - exact (same_frame_main O OZ key_words put int_of m o v v2 labels n l o' e Hd H0 H2 Hr N Hinc Hl).
Qed.
End Any.
Print Assumptions C113_keys_distinct.
Print Assumptions C113_features_fail.
Print Assumptions C113_two_classes.
Print Assumptions C113_again.
Print Assumptions C113_again_published.
Print Assumptions C113_again_raises.
Print Assumptions C113_published_kind.
Print Assumptions C113_one_hot_again.
Print Assumptions C113_max_margin_again.
Print Assumptions C113_same_frame_again.

(** Integers sort as numbers, the texts of the numbers up to ten classes only. *)
Theorem C113_numbers_sort : (forall i j, i < j -> ltb ZOrder (Z.of_nat i) (Z.of_nat j) = true) /\
  (forall i j, i < j -> j < 10 -> ltb stringOrder (py_str i) (py_str j) = true) /\
  ltb stringOrder (py_str 10) (py_str 2) = true.
Proof.
  split; [|split].
  - intros i j H. unfold ltb. simpl. apply andb_true_iff. split; [apply Z.leb_le; lia|]. apply negb_true_iff, Z.leb_gt. lia.
  - intros i j Hij Hj.
    do 10 (destruct j as [|j]; [do 10 (destruct i as [|i]; [try lia; vm_compute; reflexivity|]); lia|]). lia.
  - vm_compute. reflexivity.
Qed.
Print Assumptions C113_numbers_sort.

(** With eleven classes of texts the second load of the frame merges two classes. *)
Definition eleven : list string := ["a"; "b"; "c"; "d"; "e"; "f"; "g"; "h"; "i"; "j"; "k"]%string.
Theorem C113_same_frame_refuted : exists l l2 o o2,
  load_texts stringOrder ZOrder py_str py_int Sparse new_object (Ok tt) eleven = (l, (o, None)) /\
  load_texts stringOrder ZOrder py_str py_int Sparse new_object (Ok tt) l = (l2, (o2, None)) /\
  (exists y, ob_y o = Some (YSparse y) /\ num_distinct y 11) /\
  (exists y2, ob_y o2 = Some (YSparse y2) /\ ~ num_distinct y2 11).
Proof.
  eexists _, _, _, _. split; [vm_compute; reflexivity|]. split; [vm_compute; reflexivity|]. split.
  - eexists. split; [reflexivity|]. exists (map Z.of_nat (seq 0 11)). split; [|split; [reflexivity|]].
    + repeat constructor; simpl; intuition discriminate.
    + intros z. vm_compute. tauto.
  - eexists. split; [reflexivity|]. intros H. apply (length_unique_distinct ZOrder) in H. vm_compute in H. discriminate.
Qed.
Print Assumptions C113_same_frame_refuted.

(** A used object: 'dog' is missing in the second frame. *)
Definition first_labels : list string := ["dog"; "cat"; "owl"; "cat"]%string.
Definition second_labels : list string := ["owl"; "cat"; "fox"]%string.
Definition second_load (m : label_mode) :=
  let o := fst (snd (load_texts stringOrder ZOrder py_str py_int m new_object (Ok 1) first_labels)) in
  load_texts stringOrder ZOrder py_str py_int m o (Ok 2) second_labels.
Example C113_witness_sparse : exists o, second_load Sparse = (["2"; "0"; "1"]%string, (o, None)) /\
  ob_y o = Some (YSparse [2; 0; 1]%Z) /\ dict_get stringOrder (ob_ci o) "dog"%string = Some (CodeInt 1) /\
  dict_get stringOrder (ob_ci o) "fox"%string = Some (CodeInt 1).
Proof. eexists. split; [vm_compute; reflexivity|]. vm_compute. auto. Qed.
Example C113_witness_one_hot : exists o, second_load OneHot = (["2"; "0"; "1"]%string, (o, Some TypeError)) /\
  ob_y o = Some (YOneHot [[0; 0; 1]; [1; 0; 0]; [0; 1; 0]]%Z) /\ ob_x o = Some 2.
Proof. eexists. split; [vm_compute; reflexivity|]. vm_compute. auto. Qed.
Example C113_witness_max_margin : exists o, second_load MaxMargin = (["2"; "0"; "1"]%string, (o, None)) /\
  dict_get stringOrder (ob_ci o) "dog"%string = Some (CodeInt 1).
Proof. eexists. split; [vm_compute; reflexivity|]. vm_compute. auto. Qed.
Example C113_hypotheses : num_distinct second_labels 3 /\ replaceable stringOrder py_str py_int second_labels.
Proof.
  split.
  - exists second_labels. split; [repeat constructor; simpl; intuition discriminate|]. split; [reflexivity|tauto].
  - apply C113_replaceable_texts. intros i l Hl E. subst l. pose proof (py_int_str i) as K.
    simpl in Hl. destruct Hl as [E|[E|[E|[]]]]; rewrite <- E in K; vm_compute in K; discriminate.
Qed.
