(** General lemmas about the vocabulary of Model/Base.v *)
From Coq Require Import List ZArith Reals Bool Arith Lia Lra Sorting.Sorted Permutation.
From Verif.Model Require Import Base.
Import ListNotations.

(** ** Booleans on reals *)
Lemma Rltb_true x y : Rltb x y = true <-> (x < y)%R.
Proof. unfold Rltb; destruct (Rlt_dec x y); split; intros; auto; try discriminate; contradiction. Qed.
Lemma Rltb_false x y : Rltb x y = false <-> (y <= x)%R.
Proof. unfold Rltb; destruct (Rlt_dec x y); split; intros; auto; try discriminate; lra. Qed.
Lemma Rleb_true x y : Rleb x y = true <-> (x <= y)%R.
Proof. unfold Rleb; destruct (Rle_dec x y); split; intros; auto; try discriminate; contradiction. Qed.
Lemma Rleb_false x y : Rleb x y = false <-> (y < x)%R.
Proof. unfold Rleb; destruct (Rle_dec x y); split; intros; auto; try discriminate; lra. Qed.
Lemma Reqb_true x y : Reqb x y = true <-> x = y.
Proof. unfold Reqb; destruct (Req_EM_T x y); split; intros; auto; try discriminate; contradiction. Qed.
Lemma Reqb_false x y : Reqb x y = false <-> x <> y.
Proof. unfold Reqb; destruct (Req_EM_T x y); split; intros; auto; try discriminate; contradiction. Qed.

(** ** Monad *)
Lemma bind_Ok {A B} (r : result A) (f : A -> result B) b :
  bind r f = Ok b <-> exists a, r = Ok a /\ f a = Ok b.
Proof.
  destruct r; simpl; split; intros H.
  - eauto.
  - destruct H as (x & Hx & Hf); injection Hx as ->; exact Hf.
  - discriminate.
  - destruct H as (x & Hx & Hf); discriminate.
Qed.

Lemma mapM_Ok {A B} (f : A -> result B) l r :
  mapM f l = Ok r <-> Forall2 (fun a b => f a = Ok b) l r.
Proof.
  revert r; induction l as [|a l IH]; intros r; simpl.
  - split; intros H.
    + injection H as <-; constructor.
    + inversion H; reflexivity.
  - rewrite bind_Ok; split; intros H.
    + destruct H as (b & Hb & H). rewrite bind_Ok in H. destruct H as (bs & Hbs & H).
      injection H as <-. constructor; auto. now apply IH.
    + inversion H as [|? b ? bs Hb Hbs]; subst. exists b; split; auto.
      rewrite bind_Ok. exists bs; split; auto. now apply IH.
Qed.

Lemma mapM_total {A B} (f : A -> result B) (g : A -> B) l :
  (forall a, In a l -> f a = Ok (g a)) -> mapM f l = Ok (map g l).
Proof.
  intros H; apply mapM_Ok; induction l as [|a l IH]; simpl; constructor.
  - apply H; simpl; auto.
  - apply IH; intros; apply H; simpl; auto.
Qed.

Lemma Forall2_length {A B} (P : A -> B -> Prop) l r : Forall2 P l r -> length l = length r.
Proof. induction 1; simpl; auto. Qed.

Lemma Forall2_impl {A B} (P Q : A -> B -> Prop) l r :
  (forall a b, P a b -> Q a b) -> Forall2 P l r -> Forall2 Q l r.
Proof. intros H; induction 1; constructor; auto. Qed.

Lemma Forall2_nth_error {A B} (P : A -> B -> Prop) l r i a b :
  Forall2 P l r -> nth_error l i = Some a -> nth_error r i = Some b -> P a b.
Proof.
  intros H; revert i; induction H; intros [|i]; simpl; intros Ha Hb; try discriminate.
  - now injection Ha as <-; injection Hb as <-.
  - eauto.
Qed.

Lemma nth_error_map_some {A B} (f : A -> B) l i b :
  nth_error (map f l) i = Some b <-> exists a, nth_error l i = Some a /\ f a = b.
Proof.
  revert i; induction l as [|x l IH]; intros [|i]; simpl; split; intros H; try discriminate.
  - destruct H as (a & Ha & _); discriminate.
  - destruct H as (a & Ha & _); discriminate.
  - injection H as <-; eauto.
  - destruct H as (a & Ha & <-); now injection Ha as <-.
  - now apply IH.
  - now apply IH.
Qed.

(** ** set_nth *)
Lemma set_nth_length {A} (l : list A) i v : length (set_nth l i v) = length l.
Proof. revert i; induction l; intros [|i]; simpl; auto. Qed.

Lemma nth_error_set_nth_eq {A} (l : list A) i v :
  i < length l -> nth_error (set_nth l i v) i = Some v.
Proof. revert i; induction l; intros [|i]; simpl; intros; try lia; auto. apply IHl; lia. Qed.

Lemma nth_error_set_nth_neq {A} (l : list A) i j v :
  i <> j -> nth_error (set_nth l i v) j = nth_error l j.
Proof.
  revert i j; induction l; intros [|i] [|j]; simpl; intros; auto; try lia.
Qed.

Lemma nth_set_nth_eq {A} (l : list A) i v d : i < length l -> nth i (set_nth l i v) d = v.
Proof. revert i; induction l; intros [|i]; simpl; intros; try lia; auto. apply IHl; lia. Qed.

Lemma nth_set_nth_neq {A} (l : list A) i j v d : i <> j -> nth j (set_nth l i v) d = nth j l d.
Proof. revert i j; induction l; intros [|i] [|j]; simpl; intros; auto; lia. Qed.

Lemma NoDup_app_l {A} (a b : list A) : NoDup (a ++ b) -> NoDup a.
Proof.
  induction a as [|x a IH]; simpl; intros H; [constructor|].
  inversion H; subst. constructor; auto. rewrite in_app_iff in *; tauto.
Qed.

Lemma nth_map_in {A B} (f : A -> B) l j d d' : j < length l -> nth j (map f l) d = f (nth j l d').
Proof.
  intros H. rewrite (nth_indep _ d (f d')) by (rewrite map_length; auto). apply map_nth.
Qed.
Lemma nth_map_seq {B} (f : nat -> B) n j d : j < n -> nth j (map f (seq 0 n)) d = f j.
Proof.
  intros H. rewrite (nth_map_in f _ j d 0) by (rewrite seq_length; auto). now rewrite seq_nth.
Qed.

(** ** Orders *)
Section Order.
Context {A : Type} (O : TotalOrder A).

Lemma leb_refl x : leb O x x = true.
Proof. destruct (leb_total O x x); auto. Qed.

Lemma eqb_true x y : eqb O x y = true <-> x = y.
Proof.
  unfold eqb; rewrite andb_true_iff; split.
  - intros [H1 H2]; eapply leb_antisym; eauto.
  - intros ->; split; apply leb_refl.
Qed.
Lemma eqb_false x y : eqb O x y = false <-> x <> y.
Proof. rewrite <- not_true_iff_false, eqb_true; tauto. Qed.
Lemma eqb_refl x : eqb O x x = true.
Proof. now apply eqb_true. Qed.

Lemma ltb_true x y : ltb O x y = true <-> leb O x y = true /\ x <> y.
Proof.
  unfold ltb; rewrite andb_true_iff, negb_true_iff; split; intros [H1 H2]; split; auto.
  - intros ->; rewrite leb_refl in H2; discriminate.
  - destruct (leb O y x) eqn:E; auto. exfalso; apply H2; eapply leb_antisym; eauto.
Qed.
Lemma leb_false_ltb x y : leb O x y = false <-> ltb O y x = true.
Proof.
  unfold ltb; split; intros H.
  - rewrite H; simpl. destruct (leb_total O x y) as [E|E]; rewrite E in *; [discriminate|reflexivity].
  - apply andb_true_iff in H; destruct H as [_ H]; now apply negb_true_iff in H.
Qed.
Lemma ltb_trans x y z : ltb O x y = true -> ltb O y z = true -> ltb O x z = true.
Proof.
  rewrite !ltb_true; intros [H1 H2] [H3 H4]; split.
  - eapply leb_trans; eauto.
  - intros ->; apply H4; eapply leb_antisym; eauto.
Qed.
Lemma ltb_irrefl x : ltb O x x = false.
Proof. unfold ltb; rewrite leb_refl; reflexivity. Qed.
Lemma ltb_asym x y : ltb O x y = true -> ltb O y x = false.
Proof.
  intros H; destruct (ltb O y x) eqn:E; auto.
  pose proof (ltb_trans _ _ _ H E) as HH.
  rewrite ltb_irrefl in HH; discriminate.
Qed.
Lemma eq_dec_of_order (x y : A) : {x = y} + {x <> y}.
Proof. destruct (eqb O x y) eqn:E; [left; now apply eqb_true | right; now apply eqb_false]. Defined.

Definition slt (x y : A) : Prop := ltb O x y = true.

(** [np_unique] is the strictly sorted enumeration of the elements. *)
Lemma insert_uniq_In x l z : In z (insert_uniq O x l) <-> z = x \/ In z l.
Proof.
  induction l as [|y t IH]; simpl.
  - split; intros [H|H]; auto; contradiction.
  - destruct (leb O x y) eqn:E1; [destruct (leb O y x) eqn:E2|].
    + assert (x = y) by (eapply leb_antisym; eauto); subst; simpl; split; intuition.
    + simpl; split; intuition.
    + simpl; rewrite IH; split; intuition.
Qed.

Lemma np_unique_In l z : In z (np_unique O l) <-> In z l.
Proof.
  induction l as [|x l IH]; simpl; [tauto|]. rewrite insert_uniq_In, IH; split; intuition.
Qed.

Lemma insert_uniq_sorted x l :
  StronglySorted slt l -> StronglySorted slt (insert_uniq O x l).
Proof.
  induction 1 as [|y t Hs IH Hf]; simpl.
  - repeat constructor.
  - destruct (leb O x y) eqn:E1; [destruct (leb O y x) eqn:E2|].
    + constructor; auto.
    + assert (slt x y) by (unfold slt, ltb; rewrite E1, E2; reflexivity).
      constructor; [constructor; auto|]. constructor; auto.
      eapply Forall_impl; [|exact Hf]. intros a Ha; eapply ltb_trans; eauto.
    + apply leb_false_ltb in E1. constructor; auto.
      apply Forall_forall; intros z Hz; apply insert_uniq_In in Hz; destruct Hz as [->|Hz]; auto.
      rewrite Forall_forall in Hf; auto.
Qed.

Lemma np_unique_sorted l : StronglySorted slt (np_unique O l).
Proof. induction l as [|x l IH]; simpl; [constructor|now apply insert_uniq_sorted]. Qed.

Lemma StronglySorted_NoDup l : StronglySorted slt l -> NoDup l.
Proof.
  induction 1 as [|y t Hs IH Hf]; constructor; auto.
  intros Hin; rewrite Forall_forall in Hf; specialize (Hf _ Hin).
  unfold slt in Hf; rewrite ltb_irrefl in Hf; discriminate.
Qed.

Lemma np_unique_NoDup l : NoDup (np_unique O l).
Proof. apply StronglySorted_NoDup, np_unique_sorted. Qed.

Lemma np_unique_nil l : np_unique O l = [] <-> l = [].
Proof.
  split; [|intros ->; reflexivity].
  destruct l as [|x l]; auto; intros H.
  assert (In x (np_unique O (x :: l))) by (apply np_unique_In; simpl; auto).
  rewrite H in *; contradiction.
Qed.

(** Two strictly sorted lists with the same elements are equal. *)
Lemma sorted_ext l1 l2 :
  StronglySorted slt l1 -> StronglySorted slt l2 ->
  (forall x, In x l1 <-> In x l2) -> l1 = l2.
Proof.
  intros H1; revert l2; induction H1 as [|x t Hs IH Hf]; intros l2 H2 Hiff.
  - destruct l2 as [|y l2]; auto. exfalso; apply (Hiff y); simpl; auto.
  - destruct H2 as [|y t2 Hs2 Hf2].
    + exfalso; apply (Hiff x); simpl; auto.
    + rewrite Forall_forall in Hf, Hf2.
      assert (x = y).
      { destruct (Hiff x) as [Hx _]; destruct (Hiff y) as [_ Hy].
        destruct (Hx (or_introl eq_refl)) as [|Hx']; auto.
        destruct (Hy (or_introl eq_refl)) as [|Hy']; auto.
        specialize (Hf _ Hy'); specialize (Hf2 _ Hx').
        unfold slt in *; apply ltb_asym in Hf; congruence. }
      subst y; f_equal; apply IH; auto.
      intros z; split; intros Hz.
      * destruct (Hiff z) as [Hz1 _]; destruct (Hz1 (or_intror Hz)) as [->|]; auto.
        specialize (Hf _ Hz); unfold slt in Hf; rewrite ltb_irrefl in Hf; discriminate.
      * destruct (Hiff z) as [_ Hz1]; destruct (Hz1 (or_intror Hz)) as [->|]; auto.
        specialize (Hf2 _ Hz); unfold slt in Hf2; rewrite ltb_irrefl in Hf2; discriminate.
Qed.

Lemma np_unique_ext l1 l2 :
  (forall x, In x l1 <-> In x l2) -> np_unique O l1 = np_unique O l2.
Proof.
  intros H; apply sorted_ext; try apply np_unique_sorted.
  intros x; rewrite !np_unique_In; apply H.
Qed.

(** ** Dictionaries *)
Context {B : Type}.

Lemma dict_get_set_eq (d : dict A B) k v : dict_get O (dict_set O d k v) k = Some v.
Proof.
  induction d as [|[k' v'] t IH]; simpl.
  - now rewrite eqb_refl.
  - destruct (eqb O k k') eqn:E; simpl; rewrite E; auto.
Qed.
Lemma dict_get_set_neq (d : dict A B) k v k2 :
  k2 <> k -> dict_get O (dict_set O d k v) k2 = dict_get O d k2.
Proof.
  intros Hne; induction d as [|[k' v'] t IH]; simpl.
  - apply eqb_false in Hne; now rewrite Hne.
  - destruct (eqb O k k') eqn:E; simpl.
    + apply eqb_true in E; subst. apply eqb_false in Hne; now rewrite Hne.
    + destruct (eqb O k2 k'); auto.
Qed.

Lemma dict_update_notin (d : dict A B) kvs k :
  ~ In k (map fst kvs) -> dict_get O (dict_update O d kvs) k = dict_get O d k.
Proof.
  revert d; induction kvs as [|[k' v'] t IH]; simpl; intros d H; auto.
  unfold dict_update in *; simpl. rewrite IH by tauto.
  apply dict_get_set_neq; intros ->; tauto.
Qed.

Lemma dict_update_in (d : dict A B) kvs k v :
  NoDup (map fst kvs) -> In (k, v) kvs -> dict_get O (dict_update O d kvs) k = Some v.
Proof.
  revert d; induction kvs as [|[k' v'] t IH]; simpl; intros d Hnd Hin; [contradiction|].
  inversion Hnd as [|? ? Hn Hnd']; subst. destruct Hin as [Hin|Hin].
  - injection Hin as -> ->. unfold dict_update; simpl. fold (dict_update O (dict_set O d k v) t).
    rewrite dict_update_notin; auto. apply dict_get_set_eq.
  - apply IH; auto.
Qed.
End Order.

(** ** enumerate *)
Lemma enumerate_In {A} (l : list A) i x :
  In (i, x) (enumerate l) <-> nth_error l i = Some x.
Proof.
  unfold enumerate.
  assert (G : forall s, In (i, x) (combine (seq s (length l)) l) <->
                        s <= i /\ nth_error l (i - s) = Some x).
  { induction l as [|a l IH]; intros s; simpl.
    - split; [tauto|]. intros [_ H]; destruct (i - s); discriminate.
    - rewrite IH. split.
      + intros [H|[H1 H2]].
        * injection H as -> ->; split; auto. now rewrite Nat.sub_diag.
        * split; [lia|]. replace (i - s) with (S (i - S s)) by lia. exact H2.
      + intros [H1 H2]. destruct (Nat.eq_dec s i) as [->|Hne].
        * left; rewrite Nat.sub_diag in H2; simpl in H2; now injection H2 as ->.
        * right; split; [lia|]. replace (i - s) with (S (i - S s)) in H2 by lia. exact H2. }
  rewrite G, Nat.sub_0_r; split; [tauto|split; [lia|tauto]].
Qed.

Lemma map_snd_enumerate {A} (l : list A) : map snd (enumerate l) = l.
Proof.
  unfold enumerate. generalize 0. induction l as [|a l IH]; intros s; simpl; auto.
  now rewrite IH.
Qed.

Lemma enumerate_length {A} (l : list A) : length (enumerate l) = length l.
Proof. unfold enumerate; rewrite combine_length, seq_length; lia. Qed.

(** ** Sums of reals *)
Open Scope R_scope.
Lemma rsum_app a b : rsum (a ++ b) = rsum a + rsum b.
Proof. induction a; simpl; lra. Qed.
Lemma rsum_map_plus {A} (f g : A -> R) l :
  rsum (map (fun x => f x + g x) l) = rsum (map f l) + rsum (map g l).
Proof. induction l; simpl; lra. Qed.
Lemma rsum_map_minus {A} (f g : A -> R) l :
  rsum (map (fun x => f x - g x) l) = rsum (map f l) - rsum (map g l).
Proof. induction l; simpl; lra. Qed.
Lemma rsum_map_scal {A} (c : R) (f : A -> R) l :
  rsum (map (fun x => c * f x) l) = c * rsum (map f l).
Proof. induction l; simpl; lra. Qed.
Lemma rsum_map_scal_r {A} (c : R) (f : A -> R) l :
  rsum (map (fun x => f x * c) l) = rsum (map f l) * c.
Proof. induction l; simpl; lra. Qed.
Lemma rsum_map_const {A} (c : R) (l : list A) :
  rsum (map (fun _ => c) l) = c * INR (length l).
Proof.
  induction l as [|a l IH].
  - simpl; ring.
  - change (map (fun _ : A => c) (a :: l)) with (c :: map (fun _ : A => c) l).
    change (rsum (c :: map (fun _ : A => c) l)) with (c + rsum (map (fun _ : A => c) l)).
    rewrite IH. change (length (a :: l)) with (S (length l)). rewrite S_INR; ring.
Qed.
Lemma rsum_ext {A} (f g : A -> R) l :
  (forall x, In x l -> f x = g x) -> rsum (map f l) = rsum (map g l).
Proof.
  induction l as [|a l IH]; simpl; intros H; auto.
  rewrite (H a), IH; auto.
Qed.
Lemma rsum_le {A} (f g : A -> R) l :
  (forall x, In x l -> f x <= g x) -> rsum (map f l) <= rsum (map g l).
Proof.
  induction l as [|a l IH]; simpl; intros H; [lra|].
  specialize (IH (fun x Hx => H x (or_intror Hx))).
  specialize (H a (or_introl eq_refl)); lra.
Qed.
Lemma rsum_nonneg l : (forall x, In x l -> 0 <= x) -> 0 <= rsum l.
Proof.
  induction l as [|a l IH]; simpl; intros H; [lra|].
  assert (0 <= a) by auto. assert (0 <= rsum l) by auto. lra.
Qed.
Lemma rsum_pos l : l <> [] -> (forall x, In x l -> 0 < x) -> 0 < rsum l.
Proof.
  induction l as [|a l IH]; simpl; intros Hn H; [congruence|].
  assert (0 < a) by auto. assert (0 <= rsum l) by (apply rsum_nonneg; intros; apply Rlt_le; auto). lra.
Qed.
Lemma rsum_nonneg_zero l : (forall x, In x l -> 0 <= x) -> rsum l = 0 -> forall x, In x l -> x = 0.
Proof.
  induction l as [|a l IH]; simpl; intros H Hs x Hx; [contradiction|].
  assert (0 <= a) by auto. assert (0 <= rsum l) by (apply rsum_nonneg; auto).
  destruct Hx as [<-|Hx]; [lra|]. apply IH; auto; lra.
Qed.
Lemma rsum_perm a b : Permutation a b -> rsum a = rsum b.
Proof. induction 1; simpl; lra. Qed.

Lemma INR_pos_length {A} (l : list A) : l <> [] -> 0 < INR (length l).
Proof. intros H; apply lt_0_INR; destruct l; simpl; [congruence|lia]. Qed.

(** ** Minimum and maximum *)
Lemma rmin1_le x l : forall z, In z (x :: l) -> rmin1 x l <= z.
Proof.
  unfold rmin1; revert x; induction l as [|y l IH]; simpl; intros x z Hz.
  - destruct Hz as [->|[]]; lra.
  - destruct Hz as [->|[->|Hz]].
    + eapply Rle_trans; [apply IH; left; reflexivity|]. apply Rmin_l.
    + eapply Rle_trans; [apply IH; left; reflexivity|]. apply Rmin_r.
    + apply IH; simpl; auto.
Qed.
Lemma rmin1_In x l : In (rmin1 x l) (x :: l).
Proof.
  unfold rmin1; revert x; induction l as [|y l IH]; simpl; intros x; auto.
  destruct (IH (Rmin x y)) as [H|H]; auto.
  rewrite <- H. unfold Rmin; destruct (Rle_dec x y); auto.
Qed.
Lemma rmax1_ge x l : forall z, In z (x :: l) -> z <= rmax1 x l.
Proof.
  unfold rmax1; revert x; induction l as [|y l IH]; simpl; intros x z Hz.
  - destruct Hz as [->|[]]; lra.
  - destruct Hz as [->|[->|Hz]].
    + eapply Rle_trans; [|apply IH; left; reflexivity]. apply Rmax_l.
    + eapply Rle_trans; [|apply IH; left; reflexivity]. apply Rmax_r.
    + apply IH; simpl; auto.
Qed.
Lemma rmax1_In x l : In (rmax1 x l) (x :: l).
Proof.
  unfold rmax1; revert x; induction l as [|y l IH]; simpl; intros x; auto.
  destruct (IH (Rmax x y)) as [H|H]; auto.
  rewrite <- H. unfold Rmax; destruct (Rle_dec x y); auto.
Qed.

(** ** argmin *)
Section Argmin.
Context {A : Type} (lt : A -> A -> bool).
Hypothesis lt_irrefl : forall x, lt x x = false.
Hypothesis nlt_trans : forall x y z, lt y x = false -> lt z y = false -> lt z x = false.
Hypothesis lt_nlt : forall x y z, lt x y = true -> lt z y = false -> lt z x = false.

Lemma argmin_from_spec pre best ib l :
  nth_error (pre ++ l) ib = Some best -> (ib < length pre)%nat ->
  (forall j y, nth_error pre j = Some y -> lt y best = false) ->
  (forall j y, (j < ib)%nat -> nth_error pre j = Some y -> lt best y = true) ->
  let k := argmin_from lt best ib (length pre) l in
  (k < length (pre ++ l))%nat /\
  exists m, nth_error (pre ++ l) k = Some m /\
    (forall j y, nth_error (pre ++ l) j = Some y -> lt y m = false) /\
    (forall j y, (j < k)%nat -> nth_error (pre ++ l) j = Some y -> lt m y = true).
Proof.
  revert pre best ib; induction l as [|x t IH]; intros pre best ib Hb Hlt Hmin Hfirst; simpl.
  - rewrite app_nil_r in *. split; [lia|]. exists best; repeat split; auto.
  - replace (pre ++ x :: t) with ((pre ++ [x]) ++ t) in * by (rewrite <- app_assoc; reflexivity).
    assert (Hl : S (length pre) = length (pre ++ [x])) by (rewrite app_length; simpl; lia).
    assert (Hxx : nth_error (pre ++ [x]) (length pre) = Some x)
      by (rewrite nth_error_app2, Nat.sub_diag by lia; reflexivity).
    assert (Hpre : forall j y, nth_error (pre ++ [x]) j = Some y ->
               nth_error pre j = Some y \/ (j = length pre /\ y = x)).
    { intros j y Hj. destruct (Nat.lt_ge_cases j (length pre)) as [Hj'|Hj'].
      - rewrite nth_error_app1 in Hj by lia; auto.
      - assert (j < length (pre ++ [x]))%nat by (apply nth_error_Some; congruence).
        assert (j = length pre) by lia. subst j. rewrite Hxx in Hj; injection Hj as <-; auto. }
    destruct (lt x best) eqn:E; rewrite Hl; apply IH.
    + rewrite nth_error_app1 by (rewrite <- Hl; lia). exact Hxx.
    + lia.
    + intros j y Hj. destruct (Hpre j y Hj) as [Hj'|[-> ->]]; auto.
      eapply lt_nlt; eauto.
    + intros j y Hlt' Hj. destruct (Hpre j y Hj) as [Hj'|[-> ->]]; [|lia].
      destruct (lt x y) eqn:E2; auto.
      specialize (Hmin _ _ Hj'). rewrite (nlt_trans best y x) in E; auto.
    + exact Hb.
    + lia.
    + intros j y Hj. destruct (Hpre j y Hj) as [Hj'|[-> ->]]; eauto.
    + intros j y Hlt' Hj. destruct (Hpre j y Hj) as [Hj'|[-> ->]]; [eauto|lia].
Qed.

Lemma argmin_spec l k :
  argmin lt l = Ok k ->
  exists m, nth_error l k = Some m /\
    (forall j y, nth_error l j = Some y -> lt y m = false) /\
    (forall j y, (j < k)%nat -> nth_error l j = Some y -> lt m y = true).
Proof.
  destruct l as [|x t]; simpl; [discriminate|]. intros H; injection H as <-.
  pose proof (argmin_from_spec [x] x 0 t) as G. simpl in G.
  destruct G as [_ G]; auto.
  intros [|[|j]] y Hj; try discriminate; injection Hj as <-; auto.
  intros; lia.
Qed.

Lemma argmin_total l : l <> [] -> exists k, argmin lt l = Ok k.
Proof. destruct l; [congruence|]; simpl; eauto. Qed.
End Argmin.
Close Scope R_scope.

(** ** Instances of total orders *)
Program Definition ZOrder : TotalOrder Z := {| leb := Z.leb |}.
Next Obligation. destruct (Z.leb_spec x y); auto. right; apply Z.leb_le; lia. Defined.
Next Obligation. rewrite Z.leb_le in *; lia. Defined.
Next Obligation. rewrite Z.leb_le in *; lia. Defined.

Program Definition natOrder : TotalOrder nat := {| leb := Nat.leb |}.
Next Obligation. destruct (Nat.leb_spec x y); auto. right; apply Nat.leb_le; lia. Defined.
Next Obligation. rewrite Nat.leb_le in *; lia. Defined.
Next Obligation. rewrite Nat.leb_le in *; lia. Defined.
