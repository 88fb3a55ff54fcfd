(** Lemmas for C17-C20 and C65. *)
From Coq Require Import List ZArith Reals Lra Lia Bool Arith Permutation Sorted String.
From Verif.Model Require Import Base Tree.
From Verif.Spec Require Import Common Tree.
From Verif.Proof Require Import BaseLemmas Impurity.
Import ListNotations.
Local Open Scope R_scope.
Local Notation length := List.length.

(** ** Thresholds *)
Lemma best_threshold_spec score ts :
  match best_threshold score ts with
  | None => ts = []
  | Some (v, t) => In t ts /\ v = score t /\ forall t', In t' ts -> v <= score t'
  end.
Proof.
  unfold best_threshold.
  assert (G : forall ts seen best,
    match best with None => seen = [] | Some (v, t) => In t seen /\ v = score t /\ forall t', In t' seen -> v <= score t' end ->
    match fold_left (fun best t => match best with None => Some (score t, t)
      | Some (v, _) => if Rltb (score t) v then Some (score t, t) else best end) ts best with
    | None => seen ++ ts = []
    | Some (v, t) => In t (seen ++ ts) /\ v = score t /\ forall t', In t' (seen ++ ts) -> v <= score t'
    end).
  { clear. induction ts as [|t ts IH]; intros seen best H; simpl.
    - rewrite app_nil_r. destruct best as [[v t]|]; auto.
    - replace (seen ++ t :: ts) with ((seen ++ [t]) ++ ts) by (now rewrite <- app_assoc).
      apply IH. destruct best as [[v b]|].
      + destruct H as (H1 & H2 & H3). destruct (Rltb (score t) v) eqn:E.
        * apply Rltb_true in E. split; [apply in_or_app; simpl; auto|]. split; auto.
          intros t' Ht. apply in_app_or in Ht. destruct Ht as [Ht|[<-|[]]]; [specialize (H3 t' Ht); lra|lra].
        * apply Rltb_false in E. split; [apply in_or_app; auto|]. split; auto.
          intros t' Ht. apply in_app_or in Ht. destruct Ht as [Ht|[<-|[]]]; auto.
      + subst seen. simpl. split; auto. split; auto. intros t' [<-|[]]. lra. }
  apply (G ts [] None). reflexivity.
Qed.

Lemma combine_tl_In {A} (a b : A) u : In (a, b) (combine u (tl u)) <-> exists u1 u2, u = u1 ++ a :: b :: u2.
Proof.
  induction u as [|x u IH]; [simpl; split; [contradiction|intros ([|] & ? & E); discriminate]|].
  destruct u as [|y u].
  - simpl. split; [contradiction|]. intros ([|? [|]] & ? & E); discriminate.
  - simpl tl in *. change (combine (x :: y :: u) (y :: u)) with ((x, y) :: combine (y :: u) u). simpl In. rewrite IH. split.
    + intros [E|(u1 & u2 & E)].
      * injection E as <- <-. exists [], u. reflexivity.
      * exists (x :: u1), u2. simpl. now rewrite E.
    + intros (u1 & u2 & E). destruct u1 as [|z u1]; simpl in E.
      * injection E as <- <- <-. auto.
      * injection E as <- E. right. exists u1, u2. exact E.
Qed.

Lemma slt_Rlt x y : slt ROrder x y <-> x < y.
Proof.
  unfold slt, ltb. simpl. rewrite andb_true_iff, negb_true_iff, Rleb_true, Rleb_false. lra.
Qed.

Lemma adjacent u t : StronglySorted (slt ROrder) u ->
  (exists x, In x u /\ x < t) -> (exists y, In y u /\ t <= y) ->
  exists u1 a b u2, u = u1 ++ a :: b :: u2 /\ a < t <= b.
Proof.
  induction 1 as [|z u Hs IH Hf]; intros (x & Hx & Hxt) (y & Hy & Hty); [contradiction|].
  rewrite Forall_forall in Hf.
  destruct Hy as [<-|Hy].
  { exfalso. destruct Hx as [<-|Hx]; [lra|]. specialize (Hf _ Hx). apply slt_Rlt in Hf. lra. }
  destruct u as [|z' u]; [contradiction|].
  destruct (Rlt_or_le z' t) as [Hz|Hz].
  - destruct IH as (u1 & a & b & u2 & E & Hab); [exists z'; simpl; auto|exists y; auto|].
    exists (z :: u1), a, b, u2. simpl. now rewrite E.
  - exists [], z, z', u. split; auto. split; auto. destruct Hx as [<-|Hx]; auto. exfalso.
    destruct Hx as [<-|Hx]; [lra|]. inversion Hs as [|? ? _ Hf']; subst. rewrite Forall_forall in Hf'.
    specialize (Hf' _ Hx). apply slt_Rlt in Hf'. lra.
Qed.

Lemma sorted_gap u1 a b u2 x : StronglySorted (slt ROrder) (u1 ++ a :: b :: u2) ->
  In x (u1 ++ a :: b :: u2) -> a < b /\ (x <= a \/ b <= x).
Proof.
  revert x. induction u1 as [|z u1 IH]; simpl; intros x Hs Hx; inversion Hs as [|? ? Hs' Hf]; subst; rewrite Forall_forall in Hf.
  - assert (Hab : a < b) by (apply slt_Rlt; apply Hf; simpl; auto). split; auto.
    destruct Hx as [<-|[<-|Hx]]; [lra|lra|]. inversion Hs' as [|? ? _ Hf']; subst. rewrite Forall_forall in Hf'.
    specialize (Hf' _ Hx). apply slt_Rlt in Hf'. lra.
  - destruct Hx as [<-|Hx]; [|now apply IH].
    assert (Ha : In a (u1 ++ a :: b :: u2)) by (apply in_or_app; simpl; auto).
    destruct (IH a Hs' Ha) as [Hab _]. split; auto. left. specialize (Hf _ Ha). apply slt_Rlt in Hf. lra.
Qed.

Lemma filter_ext_In {A} (f g : A -> bool) l : (forall a, In a l -> f a = g a) -> filter f l = filter g l.
Proof.
  induction l as [|a l IH]; simpl; intros H; auto. rewrite (H a) by auto. rewrite IH by auto. reflexivity.
Qed.

Lemma split_value_same imp D t t' :
  (forall p, In p D -> (t <= fst p <-> t' <= fst p)) -> split_value imp D t = split_value imp D t'.
Proof.
  intros H. unfold split_value.
  rewrite (filter_ext_In (fun p => Rleb t (fst p)) (fun p => Rleb t' (fst p))).
  2:{ intros p Hp. specialize (H p Hp). destruct (Rleb t (fst p)) eqn:E1, (Rleb t' (fst p)) eqn:E2; auto;
      rewrite ?Rleb_true, ?Rleb_false in *; lra. }
  rewrite (filter_ext_In (fun p => Rltb (fst p) t) (fun p => Rltb (fst p) t')); auto.
  intros p Hp. specialize (H p Hp). destruct (Rltb (fst p) t) eqn:E1, (Rltb (fst p) t') eqn:E2; auto;
    rewrite ?Rltb_true, ?Rltb_false in *; lra.
Qed.

(** The chosen threshold is the midpoint of two neighbouring values and no real
    threshold does better. *)
Lemma get_value_continuous_spec imp D v t :
  get_value_continuous imp D = Some (v, t) ->
  v = split_value imp D t /\
  (exists a b, In a (map fst D) /\ In b (map fst D) /\ a < b /\ t = (a + b) / 2 /\
     forall x, In x (map fst D) -> x <= a \/ b <= x) /\
  forall t', (exists p, In p D /\ fst p < t') -> (exists p, In p D /\ t' <= fst p) -> v <= split_value imp D t'.
Proof.
  unfold get_value_continuous. intros H.
  pose proof (best_threshold_spec (split_value imp D) (midpoints (np_unique ROrder (map fst D)))) as B.
  rewrite H in B. destruct B as (Hin & Hv & Hmin).
  pose proof (np_unique_sorted ROrder (map fst D)) as Hs.
  split; auto. split.
  - unfold midpoints in Hin. apply in_map_iff in Hin. destruct Hin as ([a b] & Et & Hab).
    apply combine_tl_In in Hab. destruct Hab as (u1 & u2 & E). simpl in Et. exists a, b.
    assert (HA : forall z, In z (map fst D) <-> In z (u1 ++ a :: b :: u2)) by (intros z; rewrite <- E; symmetry; apply np_unique_In).
    rewrite E in Hs. rewrite !HA. split; [apply in_or_app; simpl; auto|]. split; [apply in_or_app; simpl; auto|].
    split; [|split; auto].
    + apply (sorted_gap u1 a b u2 a Hs). apply in_or_app; simpl; auto.
    + intros x Hx. apply (sorted_gap u1 a b u2 x Hs). now apply HA.
  - intros t' (p & Hp & Hpt) (q & Hq & Hqt).
    destruct (adjacent _ t' Hs) as (u1 & a & b & u2 & E & Hab).
    { exists (fst p). split; auto. apply np_unique_In. now apply in_map. }
    { exists (fst q). split; auto. apply np_unique_In. now apply in_map. }
    rewrite (split_value_same imp D t' ((a + b) / 2)).
    + apply Hmin. unfold midpoints. apply in_map_iff. exists (a, b). split; auto.
      apply combine_tl_In. eauto.
    + intros z Hz. assert (Hz' : In (fst z) (np_unique ROrder (map fst D))) by (apply np_unique_In; now apply in_map).
      rewrite E in Hs, Hz'. destruct (sorted_gap u1 a b u2 (fst z) Hs Hz'). lra.
Qed.

Lemma get_value_continuous_none imp D :
  get_value_continuous imp D = None <-> forall p q, In p D -> In q D -> fst p = fst q.
Proof.
  unfold get_value_continuous.
  pose proof (best_threshold_spec (split_value imp D) (midpoints (np_unique ROrder (map fst D)))) as B.
  pose proof (np_unique_sorted ROrder (map fst D)) as Hs.
  split.
  - intros H. rewrite H in B. unfold midpoints in B. apply map_eq_nil in B.
    assert (W : forall p q, In p D -> In q D -> ~ fst p < fst q).
    { intros p q Hp Hq Hlt. destruct (adjacent _ (fst q) Hs) as (u1 & a & b & u2 & E & _).
      - exists (fst p). split; auto. apply np_unique_In. now apply in_map.
      - exists (fst q). split; [|lra]. apply np_unique_In. now apply in_map.
      - assert (Hc : In (a, b) (combine (np_unique ROrder (map fst D)) (tl (np_unique ROrder (map fst D)))))
          by (apply combine_tl_In; eauto). rewrite B in Hc. contradiction. }
    intros p q Hp Hq. pose proof (W p q Hp Hq). pose proof (W q p Hq Hp). lra.
  - intros H. destruct (best_threshold _ _) as [[v t]|]; auto. exfalso.
    destruct B as (Hin & _ & _). unfold midpoints in Hin. apply in_map_iff in Hin. destruct Hin as ([a b] & _ & Hab).
    apply combine_tl_In in Hab. destruct Hab as (u1 & u2 & E). rewrite E in Hs.
    assert (Ha : In a (map fst D)) by (apply (np_unique_In ROrder); rewrite E; apply in_or_app; simpl; auto).
    assert (Hb : In b (map fst D)) by (apply (np_unique_In ROrder); rewrite E; apply in_or_app; simpl; auto).
    destruct (sorted_gap u1 a b u2 a Hs) as [Hlt _]; [apply in_or_app; simpl; auto|].
    apply in_map_iff in Ha, Hb. destruct Ha as (p & <- & Hp), Hb as (q & <- & Hq). rewrite (H p q Hp Hq) in Hlt. lra.
Qed.

(** ** Splits in the sense of the specification *)
Lemma labels_where_filter {A} (P : A -> Prop) (f : A -> bool) D :
  (forall a, In a (map fst D) -> (f a = true <-> P a)) ->
  forall part, labels_where P D part <-> part = map snd (filter (fun p => f (fst p)) D).
Proof.
  induction D as [|[a l] D IH]; intros Hf part.
  - simpl. split; [inversion 1; auto|intros ->; constructor].
  - simpl. assert (Ha := Hf a (or_introl eq_refl)).
    assert (IH' := IH (fun b Hb => Hf b (or_intror Hb))). split.
    + intros H. inversion H as [|a' l' D' part' HP Hr|a' l' D' part' HP Hr]; subst.
      * apply Ha in HP. rewrite HP. simpl. f_equal. now apply IH'.
      * destruct (f a) eqn:E; [exfalso; apply HP, Ha; auto|]. now apply IH'.
    + intros ->. destruct (f a) eqn:E.
      * simpl. constructor; [now apply Ha|now apply IH'].
      * apply lw_out; [|now apply IH']. intros HP. apply Ha in HP. discriminate.
Qed.

Lemma has_frac_true x : has_frac x = true <-> forall z : Z, x <> IZR z.
Proof.
  unfold has_frac. rewrite negb_true_iff, Reqb_false. split.
  - intros H z ->. apply H. f_equal. symmetry.
    assert (E : IZR z = IZR z + 0) by lra. destruct (base_Int_part (IZR z)) as [H1 H2].
    apply Rgt_lt in H2. assert (IZR z - 1 < IZR (Int_part (IZR z))) by lra.
    apply le_IZR in H1. rewrite <- minus_IZR in H0. apply lt_IZR in H0. lia.
  - intros H E. apply (H (Int_part x)). auto.
Qed.

Lemma is_continuous_spec X D j : is_continuous X (map fst D) j = true -> (forall p, In p D -> In (fst p) X) -> continuous_at X D j.
Proof.
  unfold is_continuous, continuous_at. rewrite andb_true_iff, forallb_forall, existsb_exists.
  intros (H1 & r & Hr & Hfr) Hin. split.
  - intros r' Hr'. specialize (H1 (cell_at j r') (in_map _ _ _ Hr')). destruct (cell_at j r'); [eauto|discriminate].
  - apply in_map_iff in Hr. destruct Hr as (p & <- & Hp).
    specialize (H1 (cell_at j (fst p)) (in_map _ _ _ (Hin p Hp))).
    destruct (cell_at j (fst p)) as [x|] eqn:E; [|discriminate]. exists p, x. rewrite E. simpl in Hfr.
    split; auto. split; auto. now apply has_frac_true.
Qed.

Lemma is_continuous_false X D j : is_continuous X (map fst D) j = false -> ~ continuous_at X D j.
Proof.
  unfold is_continuous, continuous_at. rewrite andb_false_iff. intros H (H1 & p & x & Hp & E & Hz).
  destruct H as [H|H].
  - rewrite <- not_true_iff_false, forallb_forall in H. apply H. intros c Hc. apply in_map_iff in Hc.
    destruct Hc as (r & <- & Hr). destruct (H1 r Hr) as (y & ->). reflexivity.
  - rewrite <- not_true_iff_false, existsb_exists in H. apply H. exists (fst p). split; [now apply in_map|].
    rewrite E. simpl. now apply has_frac_true.
Qed.

Lemma weighted_two imp up down : (0 < length up + length down)%nat ->
  weighted_impurity imp [up; down] =
  INR (length up) / INR (length up + length down) * imp up + INR (length down) / INR (length up + length down) * imp down.
Proof.
  intros H. unfold weighted_impurity. simpl. rewrite plus_INR.
  assert (0 < INR (length up) + INR (length down)) by (rewrite <- plus_INR; now apply lt_0_INR). field. lra.
Qed.

Lemma filter_partition {A} (f : A -> bool) l :
  (length (filter f l) + length (filter (fun a => negb (f a)) l) = length l)%nat.
Proof. induction l as [|a l IH]; simpl; auto. destruct (f a); simpl; lia. Qed.

Lemma Rltb_negb a t : Rltb a t = negb (Rleb t a).
Proof. destruct (Rltb a t) eqn:E1, (Rleb t a) eqn:E2; simpl; auto; rewrite ?Rltb_true, ?Rltb_false, ?Rleb_true, ?Rleb_false in *; lra. Qed.

Lemma split_value_weighted imp (D : list (row * Z)) j t : D <> [] ->
  split_value imp (map (fun p => (num_of (cell_at j (fst p)), snd p)) D) t =
  weighted_impurity imp [map snd (filter (fun p => Rleb t (num_of (cell_at j (fst p)))) D);
                         map snd (filter (fun p => Rltb (num_of (cell_at j (fst p))) t) D)].
Proof.
  intros Hne.
  assert (Hlen : (length (filter (fun p : row * Z => Rleb t (num_of (cell_at j (fst p)))) D) +
                  length (filter (fun p : row * Z => Rltb (num_of (cell_at j (fst p))) t) D) = length D)%nat).
  { rewrite <- (filter_partition (fun p => Rleb t (num_of (cell_at j (fst p)))) D). f_equal. f_equal.
    apply filter_ext_In. intros. apply Rltb_negb. }
  assert (E : forall (f : R -> bool) D, map snd (filter (fun p : R * Z => f (fst p)) (map (fun p => (num_of (cell_at j (fst p)), snd p)) D)) =
              map snd (filter (fun p : row * Z => f (num_of (cell_at j (fst p)))) D)).
  { clear. intros f D. induction D as [|q D IH]; simpl; auto. destruct (f (num_of (cell_at j (fst q)))); simpl; congruence. }
  unfold split_value. rewrite (E (fun x => Rleb t x)), (E (fun x => Rltb x t)).
  rewrite weighted_two; rewrite !map_length, Hlen; [reflexivity|destruct D; [congruence|simpl; lia]].
Qed.

Lemma pd_unique_In {A} dec (l : list A) x : In x (pd_unique dec l) <-> In x l.
Proof. unfold pd_unique. rewrite <- in_rev, nodup_In, <- in_rev. tauto. Qed.
Lemma pd_unique_NoDup {A} dec (l : list A) : NoDup (pd_unique dec l).
Proof. unfold pd_unique. apply NoDup_rev, NoDup_nodup. Qed.

Lemma sum_part_sizes {B} (dec : forall x y : B, {x = y} + {x <> y}) (D : list (B * Z)) u :
  NoDup u -> (forall p, In p D -> In (fst p) u) ->
  rsum (map (fun v => INR (length (grp dec v D))) u) = INR (length D).
Proof.
  intros Hu Hc. rewrite (rsum_ext _ (fun v => INR (cnt dec v (map fst D)))) by (intros; now rewrite grp_length).
  rewrite sum_cnt; auto; [now rewrite map_length|]. intros a Ha. apply in_map_iff in Ha. destruct Ha as (p & <- & Hp). auto.
Qed.

Lemma get_value_discrete_weighted imp (D : list (cell * Z)) u : D <> [] -> NoDup u ->
  (forall v, In v u <-> In v (map fst D)) ->
  get_value_discrete imp D = weighted_impurity imp (map (fun v => grp cell_eq_dec v D) u).
Proof.
  intros Hne Hu Hc. unfold get_value_discrete, weighted_impurity.
  change (fold_right Rplus 0) with rsum. rewrite !map_map.
  rewrite sum_part_sizes; auto; [|intros p Hp; apply Hc; now apply in_map].
  rewrite (rsum_perm _ (map (fun v => INR (length (grp cell_eq_dec v D)) / INR (length D) * imp (grp cell_eq_dec v D)) u)).
  - unfold Rdiv. rewrite <- rsum_map_scal_r. apply rsum_ext. intros; ring.
  - apply Permutation_map, NoDup_Permutation; auto using pd_unique_NoDup.
    intros v. rewrite pd_unique_In. symmetry. apply Hc.
Qed.

(** ** Attribute scores *)
Definition oriented (c : criterion) (D : list (row * Z)) (w : R) : R :=
  match c with Gain => entropy (map snd D) - w | _ => w end.

Lemma grp_col j v (D : list (row * Z)) :
  grp cell_eq_dec v (map (fun p => (cell_at j (fst p), snd p)) D) =
  map snd (filter (fun p => if cell_eq_dec v (cell_at j (fst p)) then true else false) D).
Proof.
  unfold grp. induction D as [|p D IH]; simpl; auto. destruct (cell_eq_dec v (cell_at j (fst p))); simpl; congruence.
Qed.

Lemma by_value_parts (D : list (row * Z)) j vals parts :
  Forall2 (fun v part => labels_where (fun r => cell_at j r = v) D part) vals parts <->
  parts = map (fun v => grp cell_eq_dec v (map (fun p => (cell_at j (fst p), snd p)) D)) vals.
Proof.
  revert parts. induction vals as [|v vals IH]; intros parts; split.
  - inversion 1; auto.
  - intros ->. constructor.
  - inversion 1; subst. simpl. f_equal; [|now apply IH]. rewrite grp_col.
    apply (labels_where_filter (fun r => cell_at j r = v) (fun r => if cell_eq_dec v (cell_at j r) then true else false)) in H2; auto.
    intros a _. destruct (cell_eq_dec v (cell_at j a)); split; congruence.
  - intros ->. simpl. constructor; [|now apply IH]. rewrite grp_col.
    apply (labels_where_filter (fun r => cell_at j r = v) (fun r => if cell_eq_dec v (cell_at j r) then true else false)); auto.
    intros a _. destruct (cell_eq_dec v (cell_at j a)); split; congruence.
Qed.

Lemma up_filter (D : list (row * Z)) j t part :
  labels_where (fun r => t <= num_of (cell_at j r)) D part <->
  part = map snd (filter (fun p => Rleb t (num_of (cell_at j (fst p)))) D).
Proof.
  apply (labels_where_filter (fun r => t <= num_of (cell_at j r)) (fun r => Rleb t (num_of (cell_at j r)))).
  intros a _. apply Rleb_true.
Qed.
Lemma down_filter (D : list (row * Z)) j t part :
  labels_where (fun r => num_of (cell_at j r) < t) D part <->
  part = map snd (filter (fun p => Rltb (num_of (cell_at j (fst p))) t) D).
Proof.
  apply (labels_where_filter (fun r => num_of (cell_at j r) < t) (fun r => Rltb (num_of (cell_at j r)) t)).
  intros a _. apply Rltb_true.
Qed.

Lemma attribute_value_spec c X D j : D <> [] -> (forall p, In p D -> In (fst p) X) ->
  match attribute_value c X D j with
  | None => forall pt parts, ~ split_on X D j pt parts
  | Some (v, pt) =>
      (exists parts, split_on X D j pt parts /\ v = oriented c D (weighted_impurity (impurity c) parts) /\
        forall pt' parts', split_on X D j pt' parts' ->
          weighted_impurity (impurity c) parts <= weighted_impurity (impurity c) parts')
  end.
Proof.
  intros Hne HX. unfold attribute_value. destruct (is_continuous X (map fst D) j) eqn:Ec.
  - pose proof (is_continuous_spec X D j Ec HX) as Hc.
    set (E := map (fun p => (num_of (cell_at j (fst p)), snd p)) D).
    destruct (get_value_continuous (impurity c) E) as [[v t]|] eqn:G.
    + destruct (get_value_continuous_spec _ _ _ _ G) as (Hv & (a & b & Ha & Hb & Hab & Ht & _) & Hmin).
      set (up := map snd (filter (fun p => Rleb t (num_of (cell_at j (fst p)))) D)).
      set (down := map snd (filter (fun p => Rltb (num_of (cell_at j (fst p))) t) D)).
      assert (Hw : v = weighted_impurity (impurity c) [up; down]) by (rewrite Hv; unfold E; now rewrite split_value_weighted).
      exists [up; down]. split; [|split].
      * apply split_at; auto.
        -- now apply up_filter.
        -- now apply down_filter.
        -- unfold E in Hb. rewrite map_map in Hb. apply in_map_iff in Hb. destruct Hb as (p & Eb & Hp). simpl in Eb.
           intros E0. apply map_eq_nil in E0. assert (Hf : In p []); [|contradiction]. rewrite <- E0.
           apply filter_In. split; auto. apply Rleb_true. lra.
        -- unfold E in Ha. rewrite map_map in Ha. apply in_map_iff in Ha. destruct Ha as (p & Ea & Hp). simpl in Ea.
           intros E0. apply map_eq_nil in E0. assert (Hf : In p []); [|contradiction]. rewrite <- E0.
           apply filter_In. split; auto. apply Rltb_true. lra.
      * rewrite Hw. destruct c; reflexivity.
      * intros pt' parts' Hs. destruct Hs as [vals parts Hnc|t' up' down' _ Hu Hd Hu0 Hd0]; [contradiction|].
        rewrite <- Hw. apply up_filter in Hu. apply down_filter in Hd. subst up' down'.
        rewrite <- split_value_weighted by auto. apply Hmin.
        -- destruct (filter (fun p => Rltb (num_of (cell_at j (fst p))) t') D) as [|p q] eqn:F; [simpl in Hd0; congruence|].
           assert (Hp : In p (p :: q)) by (simpl; auto). rewrite <- F in Hp. apply filter_In in Hp. destruct Hp as [Hp Hlt].
           apply Rltb_true in Hlt. exists (num_of (cell_at j (fst p)), snd p). split; auto. unfold E. apply in_map_iff. eauto.
        -- destruct (filter (fun p => Rleb t' (num_of (cell_at j (fst p)))) D) as [|p q] eqn:F; [simpl in Hu0; congruence|].
           assert (Hp : In p (p :: q)) by (simpl; auto). rewrite <- F in Hp. apply filter_In in Hp. destruct Hp as [Hp Hlt].
           apply Rleb_true in Hlt. exists (num_of (cell_at j (fst p)), snd p). split; auto. unfold E. apply in_map_iff. eauto.
    + intros pt parts Hs. destruct Hs as [vals parts Hnc|t' up' down' _ Hu Hd Hu0 Hd0]; [contradiction|].
      apply up_filter in Hu. apply down_filter in Hd. subst up' down'.
      destruct (filter (fun p => Rltb (num_of (cell_at j (fst p))) t') D) as [|p q] eqn:F; [simpl in Hd0; congruence|].
      assert (Hp : In p (p :: q)) by (simpl; auto). rewrite <- F in Hp. apply filter_In in Hp. destruct Hp as [Hp Hlt].
      destruct (filter (fun p => Rleb t' (num_of (cell_at j (fst p)))) D) as [|p' q'] eqn:F'; [simpl in Hu0; congruence|].
      assert (Hp' : In p' (p' :: q')) by (simpl; auto). rewrite <- F' in Hp'. apply filter_In in Hp'. destruct Hp' as [Hp' Hle].
      apply Rltb_true in Hlt. apply Rleb_true in Hle.
      pose proof (proj1 (get_value_continuous_none _ _) G (num_of (cell_at j (fst p)), snd p) (num_of (cell_at j (fst p')), snd p')) as H.
      simpl in H. rewrite H in Hlt; [lra| |]; unfold E; apply in_map_iff; eauto.
  - pose proof (is_continuous_false X D j Ec) as Hnc.
    set (E := map (fun p => (cell_at j (fst p), snd p)) D).
    assert (HneE : E <> []) by (unfold E; intros H; apply map_eq_nil in H; auto).
    assert (Hmem : forall v, In v (map fst E) <-> exists p, In p D /\ cell_at j (fst p) = v).
    { intros v. unfold E. rewrite map_map, in_map_iff. simpl. split; intros (p & H1 & H2); exists p; auto. }
    set (vals := pd_unique cell_eq_dec (map fst E)).
    exists (map (fun v => grp cell_eq_dec v E) vals). split; [|split].
    + apply split_by_value with (vals := vals); auto.
      * apply pd_unique_NoDup.
      * intros v. unfold vals. rewrite pd_unique_In. apply Hmem.
      * now apply by_value_parts.
    + rewrite (get_value_discrete_weighted _ E vals HneE (pd_unique_NoDup _ _) (fun v => pd_unique_In _ _ v)).
      destruct c; reflexivity.
    + intros pt' parts' Hs. destruct Hs as [vals' parts' _ Hnd Hv Hparts|t' up' down' Hc]; [|contradiction].
      apply by_value_parts in Hparts. subst parts'. fold E.
      rewrite <- (get_value_discrete_weighted _ E vals HneE (pd_unique_NoDup _ _) (fun v => pd_unique_In _ _ v)).
      rewrite (get_value_discrete_weighted _ E vals' HneE Hnd); [lra|]. intros v. rewrite Hv. symmetry. apply Hmem.
Qed.

Lemma better_true c D a b : better c (oriented c D a) (oriented c D b) = true <-> a < b.
Proof. destruct c; simpl; rewrite Rltb_true; lra. Qed.
Lemma better_false c D a b : better c (oriented c D a) (oriented c D b) = false <-> b <= a.
Proof. destruct c; simpl; rewrite Rltb_false; lra. Qed.

(** ** The chosen attribute *)
Lemma optimal_division_spec c X D cols : D <> [] -> (forall p, In p D -> In (fst p) X) ->
  match optimal_division c X D cols with
  | None => forall j pt parts, In j cols -> ~ split_on X D j pt parts
  | Some (j, (v, pt)) =>
      In j cols /\ attribute_value c X D j = Some (v, pt) /\
      exists parts, split_on X D j pt parts /\ v = oriented c D (weighted_impurity (impurity c) parts) /\
        forall j' pt' parts', In j' cols -> split_on X D j' pt' parts' ->
          weighted_impurity (impurity c) parts <= weighted_impurity (impurity c) parts'
  end.
Proof.
  intros Hne HX. unfold optimal_division.
  pose (step := fun best j =>
    match attribute_value c X D j with
    | None => best
    | Some (v, t) =>
        match best with
        | None => Some (j, (v, t))
        | Some (_, (v0, _)) => if better c v v0 then Some (j, (v, t)) else best
        end
    end).
  pose (good := fun (seen : list nat) (best : option (nat * (R * option R))) => match best with
  | None => forall j pt parts, In j seen -> ~ split_on X D j pt parts
  | Some (j, (v, pt)) =>
      In j seen /\ attribute_value c X D j = Some (v, pt) /\
      exists parts, split_on X D j pt parts /\ v = oriented c D (weighted_impurity (impurity c) parts) /\
        forall j' pt' parts', In j' seen -> split_on X D j' pt' parts' ->
          weighted_impurity (impurity c) parts <= weighted_impurity (impurity c) parts'
  end).
  assert (G : forall cols seen best, good seen best -> good (seen ++ cols) (fold_left step cols best)).
  { clear cols. induction cols as [|j cols IH]; intros seen best Hb.
    - rewrite app_nil_r. exact Hb.
    - replace (seen ++ j :: cols) with ((seen ++ [j]) ++ cols) by (now rewrite <- app_assoc).
      simpl. apply IH. clear IH. unfold step.
      pose proof (attribute_value_spec c X D j Hne HX) as Ha.
      destruct (attribute_value c X D j) as [[v t]|] eqn:Ea.
      + destruct Ha as (parts & Hs & Hv & Hmin).
        destruct best as [[j0 [v0 t0]]|].
        * destruct Hb as (Hj0 & Ea0 & parts0 & Hs0 & Hv0 & Hmin0). subst v v0.
          destruct (better c _ _) eqn:Eb.
          -- apply better_true in Eb. split; [apply in_or_app; simpl; auto|]. split; auto.
             exists parts. split; auto. split; auto. intros j' pt' parts' Hj' Hs'.
             apply in_app_or in Hj'. destruct Hj' as [Hj'|[<-|[]]]; [specialize (Hmin0 _ _ _ Hj' Hs'); lra|eauto].
          -- apply better_false in Eb. split; [apply in_or_app; simpl; auto|]. split; auto.
             exists parts0. split; auto. split; auto. intros j' pt' parts' Hj' Hs'.
             apply in_app_or in Hj'. destruct Hj' as [Hj'|[<-|[]]]; [eauto|specialize (Hmin _ _ Hs'); lra].
        * split; [apply in_or_app; simpl; auto|]. split; auto. exists parts. split; auto. split; auto.
          intros j' pt' parts' Hj' Hs'. apply in_app_or in Hj'. destruct Hj' as [Hj'|[<-|[]]]; [|eauto].
          exfalso. apply (Hb j' pt' parts'); auto.
      + destruct best as [[j0 [v0 t0]]|].
        * destruct Hb as (Hj0 & Ea0 & parts0 & Hs0 & Hv0 & Hmin0).
          split; [apply in_or_app; simpl; auto|]. split; auto. exists parts0. split; auto. split; auto.
          intros j' pt' parts' Hj' Hs'. apply in_app_or in Hj'. destruct Hj' as [Hj'|[<-|[]]]; [eauto|].
          exfalso. eapply Ha; eauto.
        * intros j' pt' parts' Hj'. apply in_app_or in Hj'. destruct Hj' as [Hj'|[<-|[]]]; [apply Hb; auto|apply Ha]. }
  apply (G cols [] None). intros j pt parts [].
Qed.
