(** Lemmas for C16 and C65: impurity measures. *)
From Coq Require Import List ZArith Reals Lra Lia Bool Arith Permutation.
From Verif.Model Require Import Base Tree.
From Verif.Spec Require Import Common.
From Verif.Proof Require Import BaseLemmas.
Import ListNotations.
Local Open Scope R_scope.
Local Notation length := List.length.

(** ** Sums over samples and over classes *)
Section Classes.
Context {A : Type} (dec : forall x y : A, {x = y} + {x <> y}).
Definition cnt (a : A) (l : list A) : nat := length (filter (fun b => if dec a b then true else false) l).

Lemma cnt_cons a b l : cnt a (b :: l) = ((if dec a b then 1 else 0) + cnt a l)%nat.
Proof. unfold cnt; simpl. destruct (dec a b); auto. Qed.

Lemma cnt_le a l : (cnt a l <= length l)%nat.
Proof. unfold cnt. induction l; simpl; auto. destruct (dec a a0); simpl; lia. Qed.

Lemma cnt_pos a l : In a l <-> (0 < cnt a l)%nat.
Proof.
  unfold cnt. split.
  - intros H. assert (Hf : In a (filter (fun b => if dec a b then true else false) l)).
    { apply filter_In. split; auto. destruct (dec a a); congruence. }
    destruct (filter _ l); [contradiction|simpl; lia].
  - intros H. destruct (filter (fun b => if dec a b then true else false) l) as [|b t] eqn:E; [simpl in H; lia|].
    assert (Hb : In b (b :: t)) by (simpl; auto). rewrite <- E in Hb. apply filter_In in Hb. destruct Hb as [Hb E'].
    destruct (dec a b); congruence.
Qed.

Lemma cnt_full a l : cnt a l = length l <-> forall b, In b l -> b = a.
Proof.
  induction l as [|b l IH]; [unfold cnt; simpl; split; auto; contradiction|].
  rewrite cnt_cons. simpl. pose proof (cnt_le a l). destruct (dec a b) as [->|Hne].
  - split.
    + intros H1 c [<-|Hc]; auto. apply IH; auto; lia.
    + intros H1. simpl. f_equal. apply IH. auto.
  - split; [lia|]. intros H1. exfalso. apply Hne. symmetry. apply H1. auto.
Qed.

Lemma indicator_sum (f : A -> R) a u : NoDup u ->
  rsum (map (fun c => (if dec c a then 1 else 0) * f c) u) = if in_dec dec a u then f a else 0.
Proof.
  induction 1 as [|b u Hb Hnd IH]; simpl; [lra|]. rewrite IH.
  destruct (dec b a) as [->|Hne]; destruct (in_dec dec a u); try lra; contradiction.
Qed.

(** Each class counted with its size is each sample counted once. *)
Lemma sum_by_class (f : A -> R) l u : NoDup u -> (forall a, In a l -> In a u) ->
  rsum (map (fun c => INR (cnt c l) * f c) u) = rsum (map f l).
Proof.
  intros Hu. induction l as [|a l IH]; intros Hin.
  - simpl. rewrite (rsum_ext _ (fun _ => 0)); [rewrite rsum_map_const; lra|].
    intros c _. unfold cnt; simpl; lra.
  - rewrite (rsum_ext _ (fun c => (if dec c a then 1 else 0) * f c + INR (cnt c l) * f c)).
    + rewrite rsum_map_plus, IH, indicator_sum by (auto; intros; apply Hin; simpl; auto).
      destruct (in_dec dec a u) as [_|Hn]; [simpl; lra|]. exfalso; apply Hn, Hin; simpl; auto.
    + intros c _. rewrite cnt_cons, plus_INR. destruct (dec c a); simpl; lra.
Qed.

Lemma sum_cnt l u : NoDup u -> (forall a, In a l -> In a u) ->
  rsum (map (fun c => INR (cnt c l)) u) = INR (length l).
Proof.
  intros Hu Hin. rewrite (rsum_ext _ (fun c => INR (cnt c l) * 1)) by (intros; lra).
  rewrite sum_by_class by auto. rewrite rsum_map_const. lra.
Qed.

Lemma cnt_perm a l l' : Permutation l l' -> cnt a l = cnt a l'.
Proof.
  induction 1; auto; rewrite ?cnt_cons; try lia; try congruence.
Qed.
End Classes.

Lemma count_cnt c y : count (Z.eqb c) y = cnt Z.eq_dec c y.
Proof.
  unfold count, cnt. f_equal. induction y as [|a y IH]; simpl; auto. rewrite IH.
  destruct (Z.eqb_spec c a), (Z.eq_dec c a); congruence.
Qed.

Lemma freq_sum f y : rsum (map f (frequencies y)) =
  rsum (map (fun c => f (INR (cnt Z.eq_dec c y) / INR (length y))) (nodup Z.eq_dec y)).
Proof. unfold frequencies. rewrite map_map. apply rsum_ext. intros c _. now rewrite count_cnt. Qed.

Lemma freq_In p y : In p (frequencies y) ->
  exists c, In c y /\ p = INR (cnt Z.eq_dec c y) / INR (length y) /\ 0 < p <= 1.
Proof.
  unfold frequencies. rewrite in_map_iff. intros (c & <- & Hc). apply nodup_In in Hc. rewrite count_cnt.
  assert (Hl : 0 < INR (length y)) by (apply INR_pos_length; destruct y; [contradiction|discriminate]).
  exists c. split; auto. split; auto. split.
  - apply Rmult_lt_0_compat; [|now apply Rinv_0_lt_compat]. apply lt_0_INR. now apply cnt_pos.
  - apply (Rmult_le_reg_r (INR (length y))); auto. unfold Rdiv. rewrite Rmult_assoc, Rinv_l, Rmult_1_l, Rmult_1_r by lra.
    apply le_INR, cnt_le.
Qed.

Lemma freq_sum_one y : y <> [] -> rsum (frequencies y) = 1.
Proof.
  intros Hy. pose proof (INR_pos_length y Hy) as Hl.
  replace (frequencies y) with (map (fun p => p) (frequencies y)) by apply map_id.
  rewrite freq_sum.
  rewrite (rsum_ext _ (fun c => INR (cnt Z.eq_dec c y) * / INR (length y))) by reflexivity.
  rewrite (sum_by_class Z.eq_dec (fun _ => / INR (length y)) y); [|apply NoDup_nodup|intros; now apply nodup_In].
  rewrite rsum_map_const. field. lra.
Qed.

Lemma freq_length y k : num_distinct y k -> length (frequencies y) = k.
Proof.
  intros (d & Hd & <- & Hin). unfold frequencies. rewrite map_length.
  apply Permutation_length, NoDup_Permutation; auto; [apply NoDup_nodup|].
  intros x. now rewrite nodup_In, Hin.
Qed.

Lemma all_one_pure y : y <> [] -> (forall p, In p (frequencies y) -> p = 1) -> forall a b, In a y -> In b y -> a = b.
Proof.
  intros Hy H a b Ha Hb. pose proof (INR_pos_length y Hy) as Hl.
  assert (E : INR (cnt Z.eq_dec a y) / INR (length y) = 1).
  { apply H. unfold frequencies. apply in_map_iff. exists a. rewrite count_cnt. split; auto. now apply nodup_In. }
  assert (E2 : INR (cnt Z.eq_dec a y) = INR (length y)).
  { apply (Rmult_eq_reg_r (/ INR (length y))); [|apply Rinv_neq_0_compat; lra]. rewrite Rinv_r by lra. exact E. }
  apply INR_eq in E2. symmetry. apply (proj1 (cnt_full Z.eq_dec a y)); auto.
Qed.

Lemma pure_all_one y : (forall a b, In a y -> In b y -> a = b) -> forall p, In p (frequencies y) -> p = 1.
Proof.
  intros H p Hp. destruct (freq_In _ _ Hp) as (c & Hc & -> & _).
  replace (cnt Z.eq_dec c y) with (length y).
  - field. apply Rgt_not_eq, INR_pos_length. destruct y; [contradiction|discriminate].
  - symmetry. apply cnt_full. intros b Hb. auto.
Qed.

(** ** Gini *)
Lemma gini_alt y : y <> [] -> gini y = rsum (map (fun p => p * (1 - p)) (frequencies y)).
Proof.
  intros Hy. unfold gini. rewrite <- (freq_sum_one y Hy) at 1.
  rewrite <- (map_id (frequencies y)) at 1. rewrite <- rsum_map_minus. apply rsum_ext. intros; lra.
Qed.

Lemma gini_nonneg y : y <> [] -> 0 <= gini y.
Proof.
  intros Hy. rewrite gini_alt by auto. apply rsum_nonneg. intros x Hx. apply in_map_iff in Hx.
  destruct Hx as (p & <- & Hp). apply freq_In in Hp. destruct Hp as (c & _ & _ & Hp).
  apply Rmult_le_pos; lra.
Qed.

Lemma gini_zero y : y <> [] -> (gini y = 0 <-> forall a b, In a y -> In b y -> a = b).
Proof.
  intros Hy. rewrite gini_alt by auto. split.
  - intros H. apply all_one_pure; auto. intros p Hp. destruct (freq_In _ _ Hp) as (_ & _ & _ & Hr).
    assert (Hz : p * (1 - p) = 0).
    { apply (rsum_nonneg_zero (map (fun p => p * (1 - p)) (frequencies y))); auto.
      - intros x Hx. apply in_map_iff in Hx. destruct Hx as (q & <- & Hq). apply freq_In in Hq.
        destruct Hq as (_ & _ & _ & Hq). apply Rmult_le_pos; lra.
      - apply in_map_iff. eauto. }
    apply Rmult_integral in Hz. lra.
  - intros H. rewrite (rsum_ext _ (fun _ => 0)); [rewrite rsum_map_const; lra|].
    intros p Hp. rewrite (pure_all_one y H p Hp). lra.
Qed.

Lemma gini_upper y k : y <> [] -> num_distinct y k -> gini y <= 1 - 1 / INR k.
Proof.
  intros Hy Hk. pose proof (freq_length _ _ Hk) as Hl. unfold gini.
  assert (Hk0 : 0 < INR k).
  { rewrite <- Hl. apply INR_pos_length. unfold frequencies. destruct y as [|a y]; [congruence|].
    intros E. apply map_eq_nil in E. assert (In a (nodup Z.eq_dec (a :: y))) by (apply nodup_In; simpl; auto).
    rewrite E in H. contradiction. }
  assert (H : 0 <= rsum (map (fun p => (p - 1 / INR k) * (p - 1 / INR k)) (frequencies y))).
  { apply rsum_nonneg. intros x Hx. apply in_map_iff in Hx. destruct Hx as (p & <- & _). apply Rle_0_sqr. }
  rewrite (rsum_ext _ (fun p => (p * p + 1 / INR k * (1 / INR k)) - (2 / INR k) * p)) in H by (intros; field; lra).
  rewrite rsum_map_minus, rsum_map_plus, rsum_map_const, rsum_map_scal, map_id, freq_sum_one, Hl in H by auto.
  replace (1 / INR k * (1 / INR k) * INR k) with (1 / INR k) in H by (field; lra). lra.
Qed.

(** The chance that two random samples differ. *)
Lemma pairs_count (y z : list Z) :
  INR (length (filter (fun p => negb (Z.eqb (fst p) (snd p))) (list_prod y z))) =
  rsum (map (fun a => INR (length z) - INR (cnt Z.eq_dec a z)) y).
Proof.
  induction y as [|a y IH]; simpl; auto. rewrite filter_app, app_length, plus_INR, IH. f_equal.
  clear. induction z as [|b z IH]; [unfold cnt; simpl; lra|].
  rewrite cnt_cons, plus_INR. cbn [map filter]. unfold fst at 1, snd at 1.
  destruct (Z.eqb_spec a b) as [->|Hne]; simpl negb; cbv iota.
  - destruct (Z.eq_dec b b); [|congruence]. rewrite IH. simpl length. rewrite S_INR. simpl INR. lra.
  - destruct (Z.eq_dec a b); [congruence|]. simpl length. rewrite !S_INR, IH. simpl INR. lra.
Qed.

Lemma gini_pairs y : y <> [] ->
  gini y = INR (length (filter (fun p => negb (Z.eqb (fst p) (snd p))) (list_prod y y)))
           / (INR (length y) * INR (length y)).
Proof.
  intros Hy. pose proof (INR_pos_length y Hy) as Hl. unfold gini. rewrite freq_sum.
  rewrite (rsum_ext _ (fun c => INR (cnt Z.eq_dec c y) * (INR (cnt Z.eq_dec c y) / (INR (length y) * INR (length y)))))
    by (intros; field; lra).
  rewrite sum_by_class; [|apply NoDup_nodup|intros; now apply nodup_In].
  rewrite pairs_count, rsum_map_minus, rsum_map_const.
  unfold Rdiv. rewrite rsum_map_scal_r. field. lra.
Qed.

(** ** Entropy *)
Lemma ln2_pos : 0 < ln 2.
Proof. rewrite <- ln_1. apply ln_increasing; lra. Qed.

Lemma ln_le_sub x : 0 < x -> ln x <= x - 1.
Proof.
  intros Hx. destruct (Req_dec x 1) as [->|Hne]; [rewrite ln_1; lra|].
  assert (H : 1 + ln x <= exp (ln x)) by (apply exp_ineq1_le). rewrite exp_ln in H by auto. lra.
Qed.

Lemma ln_nonpos x : 0 < x <= 1 -> ln x <= 0.
Proof. intros H. pose proof (ln_le_sub x (proj1 H)). lra. Qed.

Lemma ln_neg x : 0 < x < 1 -> ln x < 0.
Proof. intros H. rewrite <- ln_1. apply ln_increasing; lra. Qed.

Lemma entropy_term_nonneg p : 0 < p <= 1 -> 0 <= - p * log2 p.
Proof.
  intros H. unfold log2. pose proof (ln_nonpos p H). pose proof ln2_pos.
  assert (0 < / ln 2) by now apply Rinv_0_lt_compat. unfold Rdiv.
  replace (- p * (ln p * / ln 2)) with (p * (- ln p) * / ln 2) by ring.
  apply Rmult_le_pos; [apply Rmult_le_pos|]; lra.
Qed.

Lemma entropy_nonneg y : 0 <= entropy y.
Proof.
  unfold entropy. apply rsum_nonneg. intros x Hx. apply in_map_iff in Hx. destruct Hx as (p & <- & Hp).
  apply freq_In in Hp. destruct Hp as (_ & _ & _ & Hp). now apply entropy_term_nonneg.
Qed.

Lemma entropy_zero y : y <> [] -> (entropy y = 0 <-> forall a b, In a y -> In b y -> a = b).
Proof.
  intros Hy. unfold entropy. split.
  - intros H. apply all_one_pure; auto. intros p Hp. destruct (freq_In _ _ Hp) as (_ & _ & _ & Hr).
    assert (Hz : - p * log2 p = 0).
    { apply (rsum_nonneg_zero (map (fun p => - p * log2 p) (frequencies y))); auto.
      - intros x Hx. apply in_map_iff in Hx. destruct Hx as (q & <- & Hq). apply freq_In in Hq.
        destruct Hq as (_ & _ & _ & Hq). now apply entropy_term_nonneg.
      - apply in_map_iff. eauto. }
    destruct (Req_dec p 1); auto. exfalso. assert (Hlt : 0 < p < 1) by lra. pose proof (ln_neg p Hlt).
    unfold log2 in Hz. pose proof ln2_pos. assert (0 < / ln 2) by now apply Rinv_0_lt_compat.
    assert (0 < - ln p * / ln 2) by (apply Rmult_lt_0_compat; lra).
    assert (0 < p * (- ln p * / ln 2)) by (apply Rmult_lt_0_compat; lra). unfold Rdiv in Hz. lra.
  - intros H. rewrite (rsum_ext _ (fun _ => 0)); [rewrite rsum_map_const; lra|].
    intros p Hp. rewrite (pure_all_one y H p Hp). unfold log2. rewrite ln_1. lra.
Qed.

Lemma entropy_upper y k : y <> [] -> num_distinct y k -> entropy y <= log2 (INR k).
Proof.
  intros Hy Hk. pose proof (freq_length _ _ Hk) as Hl.
  assert (Hk0 : 0 < INR k).
  { rewrite <- Hl. apply INR_pos_length. unfold frequencies. destruct y as [|a y]; [congruence|].
    intros E. apply map_eq_nil in E. assert (In a (nodup Z.eq_dec (a :: y))) by (apply nodup_In; simpl; auto).
    rewrite E in H. contradiction. }
  pose proof ln2_pos as H2.
  assert (H : rsum (map (fun p => - p * ln p) (frequencies y)) <= ln (INR k)).
  { assert (Hd : rsum (map (fun p => - p * ln p - p * ln (INR k)) (frequencies y)) <=
                 rsum (map (fun p => 1 / INR k - p) (frequencies y))).
    { apply rsum_le. intros p Hp. destruct (freq_In _ _ Hp) as (_ & _ & _ & Hr).
      assert (Hi : 0 < / (p * INR k)) by (apply Rinv_0_lt_compat, Rmult_lt_0_compat; lra).
      pose proof (ln_le_sub _ Hi) as Hln. rewrite ln_Rinv, ln_mult in Hln by (try apply Rmult_lt_0_compat; lra).
      apply (Rmult_le_compat_l p) in Hln; [|lra].
      replace (p * (/ (p * INR k) - 1)) with (1 / INR k - p) in Hln by (field; lra). lra. }
    rewrite !rsum_map_minus, rsum_map_const, map_id, rsum_map_scal_r, map_id, freq_sum_one, Hl in Hd by auto.
    replace (1 / INR k * INR k) with 1 in Hd by (field; lra). lra. }
  unfold entropy, log2. unfold Rdiv.
  rewrite (rsum_ext _ (fun p => (- p * ln p) * / ln 2)) by (intros; ring).
  rewrite rsum_map_scal_r. apply Rmult_le_compat_r; auto. left; now apply Rinv_0_lt_compat.
Qed.

(** Mean surprise per sample. *)
Lemma entropy_samples y : y <> [] ->
  entropy y = rsum (map (fun l => - log2 (INR (cnt Z.eq_dec l y) / INR (length y))) y) / INR (length y).
Proof.
  intros Hy. pose proof (INR_pos_length y Hy) as Hl. unfold entropy. rewrite freq_sum.
  rewrite (rsum_ext _ (fun c => INR (cnt Z.eq_dec c y) *
     (- log2 (INR (cnt Z.eq_dec c y) / INR (length y)) * / INR (length y)))) by (intros; field; lra).
  rewrite sum_by_class; [|apply NoDup_nodup|intros; now apply nodup_In].
  rewrite rsum_map_scal_r. reflexivity.
Qed.

(** ** Order of the samples *)
Lemma frequencies_perm y y' : Permutation y y' -> Permutation (frequencies y) (frequencies y').
Proof.
  intros H. unfold frequencies.
  rewrite (map_ext (fun c => INR (count (Z.eqb c) y) / INR (length y))
                   (fun c => INR (count (Z.eqb c) y') / INR (length y'))).
  - apply Permutation_map. apply NoDup_Permutation; try apply NoDup_nodup.
    intros x. rewrite !nodup_In. split; apply Permutation_in; auto. now symmetry.
  - intros c. rewrite !count_cnt, (cnt_perm _ _ _ _ H), (Permutation_length H). reflexivity.
Qed.

Lemma gini_perm y y' : Permutation y y' -> gini y = gini y'.
Proof. intros H. unfold gini. f_equal. apply rsum_perm, Permutation_map, frequencies_perm, H. Qed.
Lemma entropy_perm y y' : Permutation y y' -> entropy y = entropy y'.
Proof. intros H. unfold entropy. apply rsum_perm, Permutation_map, frequencies_perm, H. Qed.
Lemma impurity_perm c y y' : Permutation y y' -> impurity c y = impurity c y'.
Proof. intros H. destruct c; simpl; auto using gini_perm, entropy_perm. Qed.

(** ** Splitting never increases impurity *)
Lemma incl_sum {A} (f : A -> R) (a b : list A) : NoDup a -> incl a b -> NoDup b ->
  (forall x, In x b -> 0 <= f x) -> rsum (map f a) <= rsum (map f b).
Proof.
  intros Ha. revert b. induction Ha as [|x a Hx Ha IH]; intros b Hi Hb Hf.
  - simpl. apply rsum_nonneg. intros z Hz. apply in_map_iff in Hz. destruct Hz as (w & <- & Hw). auto.
  - assert (Hin : In x b) by (apply Hi; simpl; auto). apply in_split in Hin. destruct Hin as (b1 & b2 & ->).
    rewrite map_app, rsum_app. simpl.
    assert (H : rsum (map f a) <= rsum (map f (b1 ++ b2))).
    { apply IH.
      - intros z Hz. assert (Hz' : In z (b1 ++ x :: b2)) by (apply Hi; simpl; auto).
        apply in_app_or in Hz'. simpl in Hz'. apply in_or_app. destruct Hz' as [|[<-|]]; auto. contradiction.
      - now apply NoDup_remove_1 in Hb.
      - intros z Hz. apply Hf. apply in_app_or in Hz. apply in_or_app. simpl. tauto. }
    rewrite map_app, rsum_app in H. lra.
Qed.

Lemma rsum_prod {A B} (f : A -> R) (g : B -> R) u v :
  rsum (map (fun p => f (fst p) * g (snd p)) (list_prod u v)) = rsum (map f u) * rsum (map g v).
Proof.
  induction u as [|a u IH]; simpl; [lra|]. rewrite map_app, rsum_app, IH, map_map. simpl.
  rewrite rsum_map_scal. lra.
Qed.

Lemma NoDup_list_prod {A B} (u : list A) (v : list B) : NoDup u -> NoDup v -> NoDup (list_prod u v).
Proof.
  intros Hu Hv. induction Hu as [|a u Ha Hu IH]; simpl; [constructor|].
  assert (Happ : forall l1 l2 : list (A * B), NoDup l1 -> NoDup l2 -> (forall z, In z l1 -> ~ In z l2) -> NoDup (l1 ++ l2)).
  { induction l1 as [|z l1 IH1]; simpl; intros l2 H1 H2 H3; auto. inversion H1; subst. constructor.
    - rewrite in_app_iff. intros [H|H]; auto. apply (H3 z); auto.
    - apply IH1; auto. }
  apply Happ; auto.
  - clear -Hv. induction Hv as [|b v Hb Hv IH]; simpl; constructor; auto.
    rewrite in_map_iff. intros (z & E & Hz). congruence.
  - intros [x b] Hz H. apply in_map_iff in Hz. destruct Hz as (b' & E & _). injection E as <- <-.
    apply in_prod_iff in H. tauto.
Qed.

Section Groups.
Context {G : Type} (dec : forall x y : G, {x = y} + {x <> y}).
Definition grp (v : G) (D : list (G * Z)) : list Z :=
  map snd (filter (fun p => if dec v (fst p) then true else false) D).
Definition pdec (p q : G * Z) : {p = q} + {p <> q}.
Proof. destruct p as [v l], q as [w m]. destruct (dec v w), (Z.eq_dec l m); [left|right|right|right]; congruence. Defined.

Lemma grp_length v D : length (grp v D) = cnt dec v (map fst D).
Proof.
  unfold grp, cnt. rewrite map_length. induction D as [|p D IH]; simpl; auto.
  destruct (dec v (fst p)); simpl; congruence.
Qed.

Lemma grp_cnt v l D : cnt Z.eq_dec l (grp v D) = cnt pdec (v, l) D.
Proof.
  unfold grp. induction D as [|[w m] D IH]; auto.
  rewrite cnt_cons. simpl filter. destruct (dec v w) as [->|Hne]; simpl map.
  - rewrite cnt_cons. simpl snd. fold (grp w D) in *. unfold grp in *. rewrite IH.
    destruct (Z.eq_dec l m), (pdec (w, l) (w, m)); congruence.
  - rewrite IH. destruct (pdec (v, l) (w, m)); [congruence|auto].
Qed.

Lemma sum_groups (F : G -> Z -> R) D u : NoDup u -> (forall p, In p D -> In (fst p) u) ->
  rsum (map (fun v => rsum (map (F v) (grp v D))) u) = rsum (map (fun p => F (fst p) (snd p)) D).
Proof.
  intros Hu. induction D as [|[w m] D IH]; intros Hin.
  - unfold grp. simpl. rewrite rsum_map_const. lra.
  - rewrite (rsum_ext _ (fun v => (if dec v w then 1 else 0) * F v m + rsum (map (F v) (grp v D)))).
    + rewrite rsum_map_plus, IH, (indicator_sum dec (fun v => F v m)) by (auto; intros; apply Hin; simpl; auto).
      destruct (in_dec dec w u) as [_|Hn]; [simpl; lra|]. exfalso. apply Hn. apply (Hin (w, m)). simpl; auto.
    + intros v _. unfold grp. simpl filter. destruct (dec v w); simpl; lra.
Qed.

Lemma gini_scaled y : INR (length y) * gini y =
  rsum (map (fun l => 1 - INR (cnt Z.eq_dec l y) / INR (length y)) y).
Proof.
  destruct y as [|a y']; [simpl; lra|]. set (y := a :: y').
  assert (Hy : y <> []) by discriminate. pose proof (INR_pos_length y Hy) as Hl.
  rewrite gini_pairs, pairs_count by auto. rewrite !rsum_map_minus, !rsum_map_const.
  unfold Rdiv. rewrite rsum_map_scal_r. field. lra.
Qed.

Lemma entropy_scaled y : INR (length y) * entropy y =
  rsum (map (fun l => - log2 (INR (cnt Z.eq_dec l y) / INR (length y))) y).
Proof.
  destruct y as [|a y']; [simpl; lra|]. set (y := a :: y').
  assert (Hy : y <> []) by discriminate. pose proof (INR_pos_length y Hy) as Hl.
  rewrite entropy_samples by auto. field. lra.
Qed.

Variable D : list (G * Z).
Variable u : list G.
Hypothesis Hne : D <> [].
Hypothesis Hu : NoDup u.
Hypothesis Hcov : forall p, In p D -> In (fst p) u.
Let n := INR (length D).
Let nv v := INR (cnt dec v (map fst D)).
Let nl l := INR (cnt Z.eq_dec l (map snd D)).
Let nvl v l := INR (cnt pdec (v, l) D).

Lemma n_pos : 0 < n.
Proof. apply INR_pos_length, Hne. Qed.
Lemma nvl_pos p : In p D -> 0 < nvl (fst p) (snd p).
Proof. intros H. apply lt_0_INR, cnt_pos. now destruct p. Qed.
Lemma nv_pos p : In p D -> 0 < nv (fst p).
Proof. intros H. apply lt_0_INR, cnt_pos. now apply in_map. Qed.
Lemma nl_pos p : In p D -> 0 < nl (snd p).
Proof. intros H. apply lt_0_INR, cnt_pos. now apply in_map. Qed.

(** Sum over samples of a function of the pair divided by the pair's count. *)
Lemma pair_sum (f : G -> R) (g : Z -> R) :
  (forall v, In v (map fst D) -> 0 <= f v) -> (forall l, In l (map snd D) -> 0 <= g l) ->
  rsum (map (fun p => f (fst p) * g (snd p) / nvl (fst p) (snd p)) D) <=
  rsum (map f (nodup dec (map fst D))) * rsum (map g (nodup Z.eq_dec (map snd D))).
Proof.
  intros Hf Hg. rewrite <- rsum_prod.
  rewrite <- (sum_by_class pdec (fun p => f (fst p) * g (snd p) / nvl (fst p) (snd p)) D (nodup pdec D));
    [|apply NoDup_nodup|intros; now apply nodup_In].
  rewrite (rsum_ext _ (fun p => f (fst p) * g (snd p))).
  - apply incl_sum.
    + apply NoDup_nodup.
    + intros [v l] H. apply nodup_In in H. apply in_prod_iff. rewrite !nodup_In.
      split; [apply (in_map fst _ _ H)|apply (in_map snd _ _ H)].
    + apply NoDup_list_prod; apply NoDup_nodup.
    + intros [v l] H. apply in_prod_iff in H. rewrite !nodup_In in H. simpl. apply Rmult_le_pos; [apply Hf|apply Hg]; tauto.
  - intros [v l] H. apply nodup_In in H. pose proof (nvl_pos _ H) as Hp. simpl in *. unfold nvl in *. field. lra.
Qed.

Lemma sum_nv : rsum (map nv (nodup dec (map fst D))) = n.
Proof.
  unfold nv. rewrite sum_cnt; [|apply NoDup_nodup|intros; now apply nodup_In]. now rewrite map_length.
Qed.

Lemma weighted_scaled (imp : list Z -> R) (F : R -> R -> R) :
  (forall y, INR (length y) * imp y = rsum (map (fun l => F (INR (cnt Z.eq_dec l y)) (INR (length y))) y)) ->
  n * rsum (map (fun v => INR (length (grp v D)) / n * imp (grp v D)) u) =
  rsum (map (fun p => F (nvl (fst p) (snd p)) (nv (fst p))) D).
Proof.
  intros HF. pose proof n_pos. rewrite <- rsum_map_scal.
  rewrite (rsum_ext _ (fun v => rsum (map (fun l => F (nvl v l) (nv v)) (grp v D)))).
  - apply (sum_groups (fun v l => F (nvl v l) (nv v))); auto.
  - intros v _. replace (n * (INR (length (grp v D)) / n * imp (grp v D))) with (INR (length (grp v D)) * imp (grp v D)) by (field; lra).
    rewrite HF. apply rsum_ext. intros l _. rewrite grp_cnt, grp_length. reflexivity.
Qed.

Lemma whole_scaled (imp : list Z -> R) (F : R -> R -> R) :
  (forall y, INR (length y) * imp y = rsum (map (fun l => F (INR (cnt Z.eq_dec l y)) (INR (length y))) y)) ->
  n * imp (map snd D) = rsum (map (fun p => F (nl (snd p)) n) D).
Proof.
  intros HF. specialize (HF (map snd D)). rewrite map_length in HF. unfold n. rewrite HF, map_map. reflexivity.
Qed.

Lemma gini_split : rsum (map (fun v => INR (length (grp v D)) / n * gini (grp v D)) u) <= gini (map snd D).
Proof.
  pose proof n_pos as Hn. apply (Rmult_le_reg_l n); auto.
  pose (F := fun a b : R => 1 - a / b).
  rewrite (weighted_scaled gini F gini_scaled), (whole_scaled gini F gini_scaled). unfold F.
  rewrite !rsum_map_minus. apply Rplus_le_compat_l, Ropp_le_contravar.
  pose (s := fun l => nl l / n).
  assert (H : rsum (map (fun p => 2 * s (snd p) - nv (fst p) * (s (snd p) * s (snd p)) / nvl (fst p) (snd p)) D) <=
              rsum (map (fun p => nvl (fst p) (snd p) / nv (fst p)) D)).
  { apply rsum_le. intros p Hp. pose proof (nvl_pos p Hp). pose proof (nv_pos p Hp).
    set (a := nvl (fst p) (snd p)) in *. set (b := nv (fst p)) in *. set (t := s (snd p)).
    assert (Hsq : 0 <= (a - t * b) * (a - t * b) * / (a * b)).
    { apply Rmult_le_pos; [apply Rle_0_sqr|]. left. apply Rinv_0_lt_compat. now apply Rmult_lt_0_compat. }
    replace ((a - t * b) * (a - t * b) * / (a * b)) with (a / b - (2 * t - b * (t * t) / a)) in Hsq by (field; lra). lra. }
  rewrite rsum_map_minus, rsum_map_scal in H.
  pose proof (pair_sum nv (fun l => s l * s l)) as Hp. cbv beta in Hp.
  assert (Hp' := Hp (fun v _ => pos_INR _) (fun l _ => Rle_0_sqr _)). clear Hp. rewrite sum_nv in Hp'.
  assert (E : rsum (map (fun l => s l * s l) (nodup Z.eq_dec (map snd D))) * n = rsum (map (fun p => s (snd p)) D)).
  { rewrite (rsum_ext _ (fun l => INR (cnt Z.eq_dec l (map snd D)) * (s l * / n))) by (intros; unfold s, nl; field; lra).
    rewrite sum_by_class; [|apply NoDup_nodup|intros; now apply nodup_In].
    rewrite rsum_map_scal_r, map_map. field. lra. }
  change (rsum (map (fun p => nl (snd p) / n) D)) with (rsum (map (fun p => s (snd p)) D)). lra.
Qed.

Lemma entropy_split : rsum (map (fun v => INR (length (grp v D)) / n * entropy (grp v D)) u) <= entropy (map snd D).
Proof.
  pose proof n_pos as Hn. apply (Rmult_le_reg_l n); auto.
  pose (F := fun a b : R => - log2 (a / b)).
  rewrite (weighted_scaled entropy F entropy_scaled), (whole_scaled entropy F entropy_scaled). unfold F, log2.
  pose proof ln2_pos as H2.
  rewrite (rsum_ext _ (fun p => - ln (nvl (fst p) (snd p) / nv (fst p)) * / ln 2)) by (intros; unfold Rdiv; ring).
  rewrite (rsum_ext (fun p => - (ln (nl (snd p) / n) / ln 2)) (fun p => - ln (nl (snd p) / n) * / ln 2)) by (intros; unfold Rdiv; ring).
  rewrite !rsum_map_scal_r. apply Rmult_le_compat_r; [left; now apply Rinv_0_lt_compat|].
  assert (H : rsum (map (fun p => - ln (nvl (fst p) (snd p) / nv (fst p)) - - ln (nl (snd p) / n)) D) <=
              rsum (map (fun p => nv (fst p) * nl (snd p) / nvl (fst p) (snd p) * / n - 1) D)).
  { apply rsum_le. intros p Hp. pose proof (nvl_pos p Hp). pose proof (nv_pos p Hp). pose proof (nl_pos p Hp).
    set (a := nvl (fst p) (snd p)) in *. set (b := nv (fst p)) in *. set (d := nl (snd p)) in *.
    assert (Hx : 0 < b * d / a * / n).
    { repeat apply Rmult_lt_0_compat; auto using Rinv_0_lt_compat. }
    pose proof (ln_le_sub _ Hx) as Hln.
    replace (b * d / a * / n) with (/ (a / b) * (d / n)) in Hln at 1 by (field; lra).
    rewrite ln_mult, ln_Rinv in Hln; try lra; try (apply Rinv_0_lt_compat); unfold Rdiv;
      repeat apply Rmult_lt_0_compat; auto using Rinv_0_lt_compat. }
  rewrite !rsum_map_minus, rsum_map_const, rsum_map_scal_r in H.
  pose proof (pair_sum nv nl (fun v _ => pos_INR _) (fun l _ => pos_INR _)) as Hp. rewrite sum_nv in Hp.
  replace (rsum (map nl (nodup Z.eq_dec (map snd D)))) with n in Hp.
  2:{ unfold nl. rewrite sum_cnt; [|apply NoDup_nodup|intros; now apply nodup_In]. now rewrite map_length. }
  apply (Rmult_le_compat_r (/ n)) in Hp; [|left; now apply Rinv_0_lt_compat].
  replace (n * n * / n) with n in Hp by (field; lra). fold n in H. lra.
Qed.
End Groups.
