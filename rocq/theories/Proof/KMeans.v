(** Proofs about K-means. *)
From Coq Require Import List ZArith Reals Lra Lia Bool Arith.
From Verif.Model Require Import Base Ops KMeans.
From Verif.Spec Require Import Common Smo KMeans.
From Verif.Proof Require Import BaseLemmas Preprocessing Smo Kernels.
Import ListNotations.
Local Open Scope R_scope.

Lemma sqnorm_sq_dist a b : sqnorm (vsub a b) = sq_dist a b.
Proof.
  unfold sqnorm, vsub, sq_dist. revert b; induction a as [|u a IH]; intros [|v b]; simpl; auto.
  rewrite IH. unfold total. simpl. ring.
Qed.
Lemma sq_dist_nonneg a b : 0 <= sq_dist a b.
Proof. rewrite <- sqnorm_sq_dist. apply sqnorm_nonneg. Qed.

Lemma nan_lt_irrefl a : nan_lt a a = false.
Proof. destruct a; simpl; auto. apply Rltb_false. lra. Qed.
Lemma nan_nlt_trans a b e : nan_lt b a = false -> nan_lt e b = false -> nan_lt e a = false.
Proof. destruct a, b, e; simpl; auto; try discriminate. rewrite !Rltb_false. lra. Qed.
Lemma nan_lt_nlt a b e : nan_lt a b = true -> nan_lt e b = false -> nan_lt e a = false.
Proof. destruct a, b, e; simpl; auto; try discriminate. rewrite Rltb_true, !Rltb_false. lra. Qed.

Lemma argmin_first_nearest c r k : argmin nan_lt (map (distance r) (map Some c)) = Ok k -> first_nearest c r k.
Proof.
  intros H. apply (argmin_spec nan_lt nan_lt_irrefl nan_nlt_trans nan_lt_nlt) in H.
  destruct H as (a & Ha & Hmin & Hfirst). rewrite map_map in *.
  rewrite nth_error_map in Ha. destruct (nth_error c k) as [v|] eqn:E; [|discriminate]. simpl in Ha. injection Ha as <-.
  exists v. split; auto. intros j w Hw. rewrite <- !sqnorm_sq_dist.
  assert (Hj : nth_error (map (fun c0 => distance r (Some c0)) c) j = Some (Some (sqrt (sqnorm (vsub r w)))))
    by (rewrite nth_error_map, Hw; reflexivity).
  split.
  - pose proof (Hmin _ _ Hj) as A. simpl in A. apply Rltb_false in A. apply sqrt_le_0; auto using sqnorm_nonneg.
  - intros L. pose proof (Hfirst _ _ L Hj) as A. simpl in A. apply Rltb_true in A. apply sqrt_lt_0; auto using sqnorm_nonneg.
Qed.

Lemma first_nearest_unique c r k k' : first_nearest c r k -> first_nearest c r k' -> k = k'.
Proof.
  intros (v & Hv & A) (w & Hw & B). destruct (Nat.lt_trichotomy k k') as [L|[E|L]]; auto.
  - destruct (B k v Hv) as (_ & B'). destruct (A k' w Hw) as (A' & _). specialize (B' L). lra.
  - destruct (A k' w Hw) as (_ & A'). destruct (B k v Hv) as (B' & _). specialize (A' L). lra.
Qed.

Lemma mapM_exists {A B} (f : A -> result B) l : (forall a, In a l -> exists b, f a = Ok b) -> exists bs, mapM f l = Ok bs.
Proof.
  induction l as [|a l IH]; intros H; simpl; [eauto|]. destruct (H a (or_introl eq_refl)) as (b & Hb). rewrite Hb. simpl.
  destruct IH as (bs & Hbs); [intros; apply H; simpl; auto|]. rewrite Hbs. simpl. eauto.
Qed.

Lemma predict_nearest c x : c <> [] ->
  exists cl, km_predict (map Some c) x = Ok cl /\ Forall2 (fun r k => first_nearest c r k) x cl.
Proof.
  intros Hc. unfold km_predict, get_cluster, calculate_euclidean_distance.
  assert (T : exists cl, mapM (argmin nan_lt) (map (fun r => map (distance r) (map Some c)) x) = Ok cl).
  { apply mapM_exists. intros l Hl. apply in_map_iff in Hl. destruct Hl as (r & <- & _). apply argmin_total.
    destruct c; [congruence|discriminate]. }
  destruct T as (cl & Hcl). exists cl. split; auto. apply mapM_Ok in Hcl.
  clear Hc. revert cl Hcl. induction x as [|r x IH]; intros cl Hcl; simpl in Hcl; inversion Hcl; subst; constructor; auto.
  now apply argmin_first_nearest.
Qed.

(** ** Sums of squares *)
Lemma sq_dist_sum d a b : length a = d -> length b = d -> sq_dist a b = sum_below d (fun j => (nth j a 0 - nth j b 0) ^ 2).
Proof.
  intros Ha Hb. rewrite <- sqnorm_sq_dist. unfold sqnorm.
  assert (L : length (vsub a b) = d) by (unfold vsub; rewrite map_length, combine_length; lia).
  rewrite (dot_sum d) by auto. apply sum_below_ext. intros j Hj. unfold vsub.
  set (f := fun p : R * R => fst p - snd p). rewrite (nth_indep _ 0 (f (0, 0))) by (rewrite map_length, combine_length; lia).
  rewrite map_nth, combine_nth by lia. unfold f. simpl. ring.
Qed.

Lemma rsum_sum_below {A} d (f : A -> nat -> R) (l : list A) :
  rsum (map (fun a => sum_below d (f a)) l) = sum_below d (fun j => rsum (map (fun a => f a j) l)).
Proof.
  induction l as [|a l IH]; simpl.
  - symmetry. apply sum_below_zero. reflexivity.
  - rewrite IH, <- sum_below_plus. reflexivity.
Qed.

Lemma scalar_mean l c : l <> [] ->
  rsum (map (fun u => (u - c) ^ 2) l) = rsum (map (fun u => (u - rmean l) ^ 2) l) + INR (length l) * (rmean l - c) ^ 2.
Proof.
  intros H. pose proof (INR_pos_length l H) as Hp. set (m := rmean l).
  assert (Hm : rsum l = m * INR (length l)) by (unfold m, rmean; field; lra).
  assert (G : forall e, rsum (map (fun u => (u - e) ^ 2) l) = rsum (map (fun u => u ^ 2) l) - 2 * e * rsum l + INR (length l) * e ^ 2).
  { intros e. clear. induction l as [|u l IH]; [simpl; ring|]. change (length (u :: l)) with (S (length l)). rewrite S_INR. cbn [map rsum fold_right].
    change (fold_right Rplus 0 ?l) with (rsum l). rewrite IH. ring. }
  rewrite !G, Hm. ring.
Qed.

Definition means (d : nat) (rows : list (list R)) : list R := map (fun j => rmean (column 0 rows j)) (seq 0 d).
Lemma means_length d rows : length (means d rows) = d.
Proof. unfold means. now rewrite map_length, seq_length. Qed.
Lemma means_nth d rows j : (j < d)%nat -> nth j (means d rows) 0 = rmean (column 0 rows j).
Proof. intros H. unfold means. now rewrite nth_map_seq by exact H. Qed.

Lemma means_best d rows v : rows <> [] -> rect d rows -> length v = d ->
  rsum (map (fun r => sq_dist r v) rows) = rsum (map (fun r => sq_dist r (means d rows)) rows)
    + INR (length rows) * sq_dist (means d rows) v.
Proof.
  intros Hne Hr Hv. unfold rect in Hr. rewrite Forall_forall in Hr.
  assert (E : forall w, length w = d -> rsum (map (fun r => sq_dist r w) rows) =
     sum_below d (fun j => rsum (map (fun u => (u - nth j w 0) ^ 2) (column 0 rows j)))).
  { intros w Hw. rewrite (map_ext_in _ (fun r => sum_below d (fun j => (nth j r 0 - nth j w 0) ^ 2))).
    - rewrite (rsum_sum_below d (fun r j => (nth j r 0 - nth j w 0) ^ 2)). apply sum_below_ext. intros j _.
      unfold column. now rewrite map_map.
    - intros r Hin. apply sq_dist_sum; auto. }
  rewrite (E v Hv), (E (means d rows)) by apply means_length.
  rewrite (sq_dist_sum d) by (auto using means_length). rewrite <- sum_below_scal, <- sum_below_plus.
  apply sum_below_ext. intros j Hj. rewrite (means_nth d rows j Hj).
  assert (Hc : column 0 rows j <> []) by (unfold column; destruct rows; [congruence|discriminate]).
  rewrite (scalar_mean (column 0 rows j)) by auto.
  assert (Ln : length (column 0 rows j) = length rows) by (unfold column; now rewrite map_length). rewrite Ln. reflexivity.
Qed.

(** ** Grouping by label *)
Lemma group_sum (f : list R * nat -> R) K (l : list (list R * nat)) : Forall (fun p => (snd p < K)%nat) l ->
  rsum (map f l) = sum_below K (fun k => rsum (map f (filter (fun p => (snd p =? k)%nat) l))).
Proof.
  induction l as [|p l IH]; intros H; [symmetry; apply sum_below_zero; reflexivity|].
  inversion H as [|? ? Hp Hl]; subst. cbn [map]. change (rsum (f p :: map f l)) with (f p + rsum (map f l)). rewrite IH by auto.
  assert (E : sum_below K (fun k => if (snd p =? k)%nat then f p else 0) = f p).
  { rewrite (sum_below_one K (snd p)); auto; [now rewrite Nat.eqb_refl|]. intros m _ N. now rewrite (proj2 (Nat.eqb_neq (snd p) m)) by auto. }
  rewrite <- E at 1. rewrite <- sum_below_plus. apply sum_below_ext. intros k _. cbn [filter].
  destruct (snd p =? k)%nat; simpl; lra.
Qed.

Lemma combine_labels_lt (x : list (list R)) cl K : Forall (fun l => (l < K)%nat) cl -> Forall (fun p => (snd p < K)%nat) (combine x cl).
Proof.
  intros H. rewrite Forall_forall in *. intros [r l] Hin. apply in_combine_r in Hin. simpl. auto.
Qed.

Lemma wcss_groups x cl c K : Forall (fun l => (l < K)%nat) cl ->
  wcss x cl c = sum_below K (fun k => rsum (map (fun r => sq_dist r (nth k c [])) (members x cl k))).
Proof.
  intros H. unfold wcss. change total with rsum. rewrite (group_sum _ K) by now apply combine_labels_lt.
  apply sum_below_ext. intros k _. unfold members. rewrite map_map. f_equal. apply map_ext_in.
  intros p Hp. apply filter_In in Hp. destruct Hp as (_ & Hp). apply Nat.eqb_eq in Hp. now rewrite Hp.
Qed.

Lemma members_rect d x cl k : rect d x -> rect d (members x cl k).
Proof.
  unfold rect, members. rewrite !Forall_forall. intros H r Hr. apply in_map_iff in Hr. destruct Hr as ([r' l] & <- & Hp).
  apply filter_In in Hp. destruct Hp as (Hp & _). apply in_combine_l in Hp. simpl. auto.
Qed.

Lemma sum_below_le n f g : (forall m, (m < n)%nat -> f m <= g m) -> sum_below n f <= sum_below n g.
Proof. intros H. assert (0 <= sum_below n (fun m => g m - f m)) by (apply sum_below_nonneg; intros; specialize (H m ltac:(auto)); lra). rewrite sum_below_minus in H0. lra. Qed.

Lemma members_nonempty x cl k : length cl = length x -> In k cl -> members x cl k <> [].
Proof.
  intros Hl Hk. apply In_nth_error in Hk. destruct Hk as (i & Hi).
  assert (Hx : exists r, nth_error x i = Some r).
  { destruct (nth_error x i) eqn:E; eauto. apply nth_error_None in E. assert (i < length cl)%nat by (apply nth_error_Some; congruence). lia. }
  destruct Hx as (r & Hr).
  assert (In (r, k) (combine x cl)).
  { clear Hl. revert x cl Hi Hr. induction i as [|i IH]; intros [|r' x] [|k' cl] Hi Hr; simpl in *; try discriminate.
    - injection Hi as ->. injection Hr as ->. now left.
    - right. eapply IH; eauto. }
  unfold members. intros E. assert (F : In r (map fst (filter (fun p => (snd p =? k)%nat) (combine x cl)))).
  { apply in_map_iff. exists (r, k). split; auto. apply filter_In. split; auto. simpl. apply Nat.eqb_refl. }
  rewrite E in F. destruct F.
Qed.
Lemma members_in x cl k : members x cl k <> [] -> In k cl.
Proof.
  unfold members. intros H. destruct (filter (fun p => (snd p =? k)%nat) (combine x cl)) as [|[r l] t] eqn:E; [simpl in H; congruence|].
  assert (In (r, l) ((r, l) :: t)) by (left; reflexivity). rewrite <- E in H0. apply filter_In in H0. destruct H0 as (A & B).
  apply Nat.eqb_eq in B. simpl in B. subst l. now apply in_combine_r in A.
Qed.

(** Moving the points to the means of their members. *)
Lemma wcss_means d x cl c c' : rect d x -> rect d c -> length cl = length x ->
  Forall (fun l => (l < length c)%nat) cl -> Forall (fun l => (l < length c')%nat) cl ->
  (forall k, (k < length c')%nat -> nth k c' [] = means d (members x cl k)) ->
  wcss x cl c' <= wcss x cl c /\
  ((exists k, In k cl /\ nth k c' [] <> nth k c []) -> wcss x cl c' < wcss x cl c).
Proof.
  intros Hx Hc Hl Hlc Hlc' Hm. set (K := Nat.max (length c) (length c')).
  assert (HK : Forall (fun l => (l < K)%nat) cl) by (eapply Forall_impl; [|exact Hlc]; simpl; intros; unfold K; lia).
  rewrite (wcss_groups x cl c K HK), (wcss_groups x cl c' K HK).
  assert (P : forall k, rsum (map (fun r => sq_dist r (nth k c' [])) (members x cl k)) <= rsum (map (fun r => sq_dist r (nth k c [])) (members x cl k)) /\
     (In k cl -> nth k c' [] <> nth k c [] -> rsum (map (fun r => sq_dist r (nth k c' [])) (members x cl k)) < rsum (map (fun r => sq_dist r (nth k c [])) (members x cl k)))).
  { intros k. destruct (members x cl k) as [|r t] eqn:E.
    - simpl. split; [lra|]. intros I. exfalso. exact (members_nonempty x cl k Hl I E).
    - assert (I : In k cl) by (apply (members_in x cl k); rewrite E; discriminate).
      rewrite Forall_forall in Hlc, Hlc'. pose proof (Hlc k I) as L1. pose proof (Hlc' k I) as L2. simpl in L1, L2.
      rewrite <- E. rewrite (Hm k L2).
      assert (W : length (nth k c []) = d) by (unfold rect in Hc; rewrite Forall_forall in Hc; apply Hc; apply nth_In; exact L1).
      assert (Hne : members x cl k <> []) by (rewrite E; discriminate).
      rewrite (means_best d (members x cl k) (nth k c []) Hne (members_rect d x cl k Hx) W).
      pose proof (INR_pos_length _ Hne). pose proof (sq_dist_nonneg (means d (members x cl k)) (nth k c [])) as N0. split; [nra|].
      intros _ Ne. assert (0 < sq_dist (means d (members x cl k)) (nth k c [])).
      { destruct (Rle_lt_or_eq_dec _ _ N0) as [L|Z]; auto. exfalso. apply Ne.
        rewrite <- sqnorm_sq_dist in Z. symmetry in Z. apply sqnorm_zero in Z; auto. rewrite W. now rewrite means_length. }
      nra. }
  split.
  - apply sum_below_le. intros k _. apply P.
  - intros (k & I & Ne). assert (L : (k < K)%nat) by (rewrite Forall_forall in HK; now apply HK).
    assert (D : 0 < sum_below K (fun k => rsum (map (fun r => sq_dist r (nth k c [])) (members x cl k)) - rsum (map (fun r => sq_dist r (nth k c' [])) (members x cl k)))).
    { destruct (P k) as (_ & S). specialize (S I Ne).
      assert (Q : sum_below K (fun m => if (m =? k)%nat then rsum (map (fun r => sq_dist r (nth k c [])) (members x cl k)) - rsum (map (fun r => sq_dist r (nth k c' [])) (members x cl k)) else 0)
                  <= sum_below K (fun k => rsum (map (fun r => sq_dist r (nth k c [])) (members x cl k)) - rsum (map (fun r => sq_dist r (nth k c' [])) (members x cl k)))).
      { apply sum_below_le. intros m _. destruct (Nat.eqb_spec m k) as [->|]; [lra|]. destruct (P m) as (S' & _). lra. }
      rewrite (sum_below_one K k) in Q; auto; [rewrite Nat.eqb_refl in Q; lra|].
      intros m _ N. now rewrite (proj2 (Nat.eqb_neq m k) N). }
    rewrite sum_below_minus in D. lra.
Qed.

(** ** One training round *)
Lemma labels_facts c x cl : c <> [] -> km_predict (map Some c) x = Ok cl ->
  assignment x (length c) cl /\ Forall2 (fun r k => first_nearest c r k) x cl.
Proof.
  intros Hc H. destruct (predict_nearest c x Hc) as (cl' & H' & F). rewrite H in H'. injection H' as <-. split; auto. split.
  - symmetry. eapply Forall2_length; eauto.
  - apply Forall_forall. intros k Hk. clear H Hc. induction F as [|r k' x cl (v & Hv & _) F IH]; [destruct Hk|].
    destruct Hk as [<-|Hk]; [apply nth_error_Some; congruence|auto].
Qed.

Lemma nearest_best c x cl cl' : Forall2 (fun r k => first_nearest c r k) x cl -> assignment x (length c) cl' -> wcss x cl c <= wcss x cl' c.
Proof.
  intros F (Hl & Hlt). revert cl' Hl Hlt. unfold wcss.
  induction F as [|r k x cl (v & Hv & Hmin) F IH]; intros [|k' cl'] Hl Hlt; simpl in Hl; try lia; [simpl; lra|].
  cbn [combine map fst snd]. inversion Hlt as [|? ? Hk Hlt']; subst. specialize (IH cl' ltac:(lia) Hlt').
  destruct (nth_error c k') as [w|] eqn:E; [|apply nth_error_None in E; lia].
  destruct (Hmin k' w E) as (A & _). rewrite (nth_error_nth c k [] Hv), (nth_error_nth c k' [] E).
  unfold total in *. simpl. unfold total in IH. lra.
Qed.

Lemma objective_nearest c x cl : assignment x (length c) cl -> Forall2 (fun r k => first_nearest c r k) x cl -> objective x c (wcss x cl c).
Proof. intros A F. split; eauto using nearest_best. Qed.

Lemma objective_unique x c J J' : objective x c J -> objective x c J' -> J = J'.
Proof. intros ((cl & A & E) & M) ((cl' & A' & E') & M'). specialize (M _ A'). specialize (M' _ A). lra. Qed.
Lemma objective_exists x c : c <> [] -> exists J, objective x c J.
Proof.
  intros Hc. destruct (predict_nearest c x Hc) as (cl & H & F). destruct (labels_facts c x cl Hc H) as (A & _).
  exists (wcss x cl c). now apply objective_nearest.
Qed.

(** A list of distinct numbers below [k], as long as [k], contains them all. *)
Lemma pigeon (l : list nat) k : NoDup l -> (forall m, In m l -> (m < k)%nat) -> length l = k -> forall m, (m < k)%nat -> In m l.
Proof.
  intros ND H Hl m Hm. apply (NoDup_length_incl ND (l' := seq 0 k)).
  - rewrite seq_length. lia.
  - intros q Hq. apply in_seq. specialize (H q Hq). lia.
  - apply in_seq. lia.
Qed.
Lemma nodup_le (l : list nat) k : (forall m, In m l -> (m < k)%nat) -> (length (nodup Nat.eq_dec l) <= k)%nat.
Proof.
  intros H. rewrite <- (seq_length k 0). apply NoDup_incl_length; [apply NoDup_nodup|].
  intros q Hq. apply nodup_In in Hq. apply in_seq. specialize (H q Hq). lia.
Qed.

Lemma centroids_length d x cl : length (calculate_centroids d x cl) = length (nodup Nat.eq_dec cl).
Proof. unfold calculate_centroids. now rewrite map_length, seq_length. Qed.
Lemma centroids_nth d x cl k : (k < length (nodup Nat.eq_dec cl))%nat ->
  nth_error (calculate_centroids d x cl) k = Some (mean_rows d (members x cl k)).
Proof.
  intros H. unfold calculate_centroids. rewrite nth_error_map.
  rewrite (nth_error_nth' (seq 0 _) 0%nat) by (rewrite seq_length; auto). now rewrite seq_nth.
Qed.
Lemma mean_rows_some d rows : rows <> [] -> mean_rows d rows = Some (means d rows).
Proof. destruct rows; [congruence|reflexivity]. Qed.

Lemma all_some (l : list centroid) : (forall k, (k < length l)%nat -> exists v, nth_error l k = Some (Some v)) ->
  exists c, l = map Some c.
Proof.
  induction l as [|a l IH]; intros H; [exists []; reflexivity|].
  destruct (H 0%nat ltac:(simpl; lia)) as (v & Hv). simpl in Hv. injection Hv as ->.
  destruct IH as (c & ->). { intros k Hk. apply (H (S k)). simpl. lia. }
  exists (v :: c). reflexivity.
Qed.

Lemma gapless d x cl : length cl = length x -> (forall l, In l cl -> (l < length (nodup Nat.eq_dec cl))%nat) ->
  exists c, calculate_centroids d x cl = map Some c /\ length c = length (nodup Nat.eq_dec cl) /\ rect d c /\
    (forall k, (k < length c)%nat -> In k cl /\ nth k c [] = means d (members x cl k)).
Proof.
  intros Hl Hlt.
  assert (P : forall k, (k < length (nodup Nat.eq_dec cl))%nat -> In k cl).
  { intros k Hk. apply (nodup_In Nat.eq_dec). eapply pigeon; eauto using NoDup_nodup. intros m Hm. apply nodup_In in Hm. auto. }
  destruct (all_some (calculate_centroids d x cl)) as (c & Hc).
  { rewrite centroids_length. intros k Hk. rewrite centroids_nth by auto. rewrite mean_rows_some by (apply members_nonempty; auto). eauto. }
  assert (Lc : length c = length (nodup Nat.eq_dec cl)) by (rewrite <- centroids_length with (d := d) (x := x), Hc, map_length; reflexivity).
  assert (N : forall k, (k < length c)%nat -> nth k c [] = means d (members x cl k)).
  { intros k Hk. rewrite Lc in Hk. pose proof (centroids_nth d x cl k Hk) as E. rewrite mean_rows_some in E by (apply members_nonempty; auto).
    rewrite Hc, nth_error_map in E. destruct (nth_error c k) eqn:E2; [|discriminate]. simpl in E. injection E as ->. now apply nth_error_nth. }
  exists c. split; auto. split; auto. split.
  - apply Forall_forall. intros v Hv. apply In_nth with (d := []) in Hv. destruct Hv as (k & Hk & <-). rewrite (N k Hk). apply means_length.
  - intros k Hk. split; auto. apply P. lia.
Qed.

Lemma round_changed d x c cl tol : c <> [] -> assignment x (length c) cl ->
  compare_differences_any (map Some c) (calculate_centroids d x cl) tol = Ok true ->
  forall l, In l cl -> (l < length (nodup Nat.eq_dec cl))%nat.
Proof.
  intros Hc (Hl & Hlt) H l I. rewrite Forall_forall in Hlt. unfold compare_differences_any in H. rewrite map_length in H.
  destruct (Nat.eqb_spec (length c) (length (calculate_centroids d x cl))) as [E|E].
  - rewrite centroids_length in E. rewrite <- E. auto.
  - rewrite centroids_length in E.
    pose proof (nodup_le cl (length c) Hlt) as Le.
    destruct (calculate_centroids d x cl) as [|b [|b' t]] eqn:Ec.
    + destruct c as [|u [|v c]]; simpl in *; try congruence; try discriminate.
    + assert (L1 : length (nodup Nat.eq_dec cl) = 1%nat) by (rewrite <- centroids_length with (d := d) (x := x), Ec; reflexivity).
      assert (H' : Ok (existsb (fun a => differ tol a b) (map Some c)) = Ok true) by (destruct c as [|? [|? ?]]; exact H).
      injection H' as H'. destruct b as [v|].
      2: { exfalso. apply existsb_exists in H'. destruct H' as ([a|] & _ & A); discriminate. }
      assert (Z : In 0%nat cl).
      { apply (members_in x). pose proof (centroids_nth d x cl 0 ltac:(lia)) as E0. rewrite Ec in E0. simpl in E0. injection E0 as E0. destruct (members x cl 0); [discriminate|discriminate]. }
      apply (nodup_In Nat.eq_dec) in Z, I. destruct (nodup Nat.eq_dec cl) as [|q [|q' t]]; simpl in L1; try lia.
      simpl. destruct Z as [Z|[]]. destruct I as [I|[]]. lia.
    + assert (length (nodup Nat.eq_dec cl) = S (S (length t))) by (rewrite <- centroids_length with (d := d) (x := x), Ec; reflexivity).
      destruct c as [|u [|v c]]; simpl in *; try congruence; try discriminate. lia.
Qed.

Lemma round_spec d x c cl tol : c <> [] -> x <> [] -> assignment x (length c) cl ->
  compare_differences_any (map Some c) (calculate_centroids d x cl) tol = Ok true ->
  exists c', calculate_centroids d x cl = map Some c' /\ c' <> [] /\ rect d c' /\ length c' = length (nodup Nat.eq_dec cl) /\
    (length c' <= length c)%nat /\ assignment x (length c') cl /\
    (forall k, (k < length c')%nat -> In k cl /\ nth k c' [] = means d (members x cl k)).
Proof.
  intros Hc Hx A H. pose proof (round_changed d x c cl tol Hc A H) as Lt. destruct A as (Hl & Hlt).
  destruct (gapless d x cl Hl Lt) as (c' & E & L & Rc & N). exists c'. split; auto. split.
  - intros ->. simpl in L. destruct cl as [|l cl]; [destruct x; simpl in *; [congruence|lia]|].
    specialize (Lt l (or_introl eq_refl)). lia.
  - split; auto. split; auto. split; [|split; auto].
    + rewrite L. apply nodup_le. rewrite Forall_forall in Hlt. exact Hlt.
    + split; auto. apply Forall_forall. intros l I. rewrite L. auto.
Qed.

(** ** The whole training *)
Lemma loop_real d x tol : rect d x -> x <> [] -> forall epochs c cl0 r cl st, c <> [] -> rect d c ->
  km_loop d x tol epochs (map Some c) cl0 = Ok (r, cl, st) ->
  exists c', r = map Some c' /\ c' <> [] /\ rect d c' /\ (length c' <= length c)%nat /\
    (forall J J', objective x c J -> objective x c' J' -> J' <= J) /\
    (st = true -> exists labels, cl = Some labels /\ km_predict r x = Ok labels) /\
    (st = false -> cl = cl0 /\ epochs = 0%nat \/ exists labels, cl = Some labels /\ r = calculate_centroids d x labels).
Proof.
  intros Hx Hne. induction epochs as [|epochs IH]; intros c cl0 r cl st Hc Rc H; cbn [km_loop] in H.
  - injection H as <- <- <-. exists c. split; auto. split; auto. split; auto. split; [lia|]. split.
    + intros J J' A B. rewrite (objective_unique _ _ _ _ A B). lra.
    + split; [discriminate|auto].
  - apply bind_Ok in H. destruct H as (labels & HL & H). cbv zeta in H. apply bind_Ok in H. destruct H as (ch & HC & H).
    change (km_predict (map Some c) x = Ok labels) in HL. destruct (labels_facts c x labels Hc HL) as (A & F).
    destruct ch.
    + destruct (round_spec d x c labels tol Hc Hne A HC) as (c' & E & Hc' & Rc' & L & Le & A' & N).
      rewrite E in H. destruct (IH c' (Some labels) r cl st Hc' Rc' H) as (c'' & -> & H1 & H2 & H3 & H4 & H5 & H6).
      exists c''. split; auto. split; auto. split; auto. split; [lia|]. split; [|split; auto].
      * intros J J' HJ HJ'. destruct (objective_exists x c' Hc') as (J1 & HJ1).
        pose proof (H4 _ _ HJ1 HJ') as B1.
        rewrite (objective_unique _ _ _ _ HJ (objective_nearest c x labels A F)).
        destruct HJ1 as (_ & M). specialize (M labels A').
        destruct A as (Al & Alt). destruct A' as (_ & Alt').
        pose proof (proj1 (wcss_means d x labels c c' Hx Rc Al Alt Alt' (fun k Hk => proj2 (N k Hk)))). lra.
      * intros S. right. destruct (H6 S) as [(-> & ->)|Q]; [|exact Q]. cbn [km_loop] in H. injection H as Ea Eb. exists labels. split; auto. rewrite E. congruence.
    + injection H as <- <- <-. exists c. split; auto. split; auto. split; auto. split; [lia|]. split.
      * intros J J' B C. rewrite (objective_unique _ _ _ _ B C). lra.
      * split; [intros _; exists labels; auto|discriminate].
Qed.

(** ** Properties of [calculate_centroids] *)
Lemma means_is_mean d x cl k : members x cl k <> [] -> is_mean_of d x cl k (means d (members x cl k)).
Proof.
  intros H. split; [apply means_length|]. intros j Hj. rewrite means_nth by auto.
  replace (map (fun p => nth j (fst p) 0) (filter (fun p => (snd p =? k)%nat) (combine x cl))) with (column 0 (members x cl k) j)
    by (unfold column, members; now rewrite map_map).
  apply mean_of_rmean. unfold column. destruct (members x cl k); [congruence|discriminate].
Qed.

Lemma centroids_rows d x cl k : length cl = length x -> (k < length (nodup Nat.eq_dec cl))%nat ->
  (In k cl -> exists v, nth_error (calculate_centroids d x cl) k = Some (Some v) /\ is_mean_of d x cl k v) /\
  (~ In k cl -> nth_error (calculate_centroids d x cl) k = Some None).
Proof.
  intros Hl Hk. rewrite centroids_nth by auto. split; intros H.
  - pose proof (members_nonempty x cl k Hl H) as M. rewrite mean_rows_some by auto. eexists. split; [reflexivity|]. now apply means_is_mean.
  - destruct (members x cl k) eqn:E; [reflexivity|]. exfalso. apply H. apply (members_in x). rewrite E. discriminate.
Qed.

Lemma centroids_gap d x cl : length cl = length x -> (exists l, In l cl /\ (length (nodup Nat.eq_dec cl) <= l)%nat) ->
  exists k, nth_error (calculate_centroids d x cl) k = Some None.
Proof.
  intros Hl (l & I & Ge). set (u := length (nodup Nat.eq_dec cl)) in *.
  destruct (Forall_Exists_dec (fun k => In k cl) (fun k => in_dec Nat.eq_dec k cl) (seq 0 u)) as [F|F].
  - exfalso. assert (S : incl (l :: seq 0 u) (nodup Nat.eq_dec cl)).
    { intros q [<-|Hq]; apply nodup_In; auto. rewrite Forall_forall in F. now apply F. }
    apply NoDup_incl_length in S; [simpl in S; rewrite seq_length in S; unfold u in S; lia|].
    constructor; [rewrite in_seq; lia|apply seq_NoDup].
  - apply Exists_exists in F. destruct F as (k & Hk & N). apply in_seq in Hk. exists k.
    apply (centroids_rows d x cl k Hl); [fold u; lia|exact N].
Qed.

Lemma empty_cluster_fails d x tol epochs c cl0 labels : c <> [] ->
  km_predict (map Some c) x = Ok labels ->
  (1 < length (nodup Nat.eq_dec labels) < length c)%nat ->
  km_loop d x tol (S epochs) (map Some c) cl0 = Err ValueError.
Proof.
  intros Hc H (L1 & L2). cbn [km_loop]. unfold km_predict in H. rewrite H. simpl.
  unfold compare_differences_any. rewrite map_length, centroids_length, (proj2 (Nat.eqb_neq _ _)) by lia.
  pose proof (centroids_length d x labels) as L.
  destruct (calculate_centroids d x labels) as [|b [|b' t]]; simpl in L; try lia.
  destruct c as [|u [|v c]]; simpl in *; try lia. reflexivity.
Qed.

(** ** Early stop *)
Lemma differ_false tol u v : length u = length v -> differ tol (Some u) (Some v) = false -> close tol u v.
Proof.
  intros Hl H. simpl in H. revert v Hl H. induction u as [|a u IH]; intros [|b v] Hl H; simpl in *; try lia; [constructor|].
  apply orb_false_iff in H. destruct H as (A & B). apply Rltb_false in A. constructor; auto. apply IH; auto.
Qed.
Lemma existsb_false {A} (f : A -> bool) l : existsb f l = false -> forall a, In a l -> f a = false.
Proof. intros H a Ha. destruct (f a) eqn:E; auto. assert (existsb f l = true) by (apply existsb_exists; eauto). congruence. Qed.

Lemma stop_close d x c cl tol : c <> [] -> x <> [] -> rect d c -> assignment x (length c) cl ->
  compare_differences_any (map Some c) (calculate_centroids d x cl) tol = Ok false ->
  (In 0%nat cl -> forall k, In k cl -> exists v, is_mean_of d x cl k v /\ close tol (nth k c []) v) /\
  (~ In 0%nat cl -> forall k l, In k cl -> In l cl -> k = l).
Proof.
  intros Hc Hx Rc (Hl & Hlt) H. rewrite Forall_forall in Hlt. unfold rect in Rc. rewrite Forall_forall in Rc.
  pose proof (nodup_le cl (length c) Hlt) as Le.
  unfold compare_differences_any in H. rewrite map_length, centroids_length in H.
  destruct (Nat.eqb_spec (length c) (length (nodup Nat.eq_dec cl))) as [E|E].
  - destruct (gapless d x cl Hl) as (c' & Ec & Lc & Rc' & N); [intros l I; rewrite <- E; auto|].
    rewrite Ec in H. injection H as H. split.
    + intros _ k I. assert (Lk : (k < length c')%nat) by (rewrite Lc, <- E; auto).
      exists (nth k c' []). rewrite (proj2 (N k Lk)). split; [apply means_is_mean; now apply members_nonempty|].
      assert (D : differ tol (Some (nth k c [])) (Some (nth k c' [])) = false).
      { apply (existsb_false _ _ H (Some (nth k c []), Some (nth k c' []))).
        assert (Gn : nth_error (combine (map Some c) (map Some c')) k = Some (Some (nth k c []), Some (nth k c' []))).
        { assert (Gg : forall (a b : list (list R)) m, length a = length b -> (m < length a)%nat ->
              nth_error (combine (map Some a) (map Some b)) m = Some (Some (nth m a []), Some (nth m b []))).
          { clear. induction a as [|u a IH]; intros [|v b] [|m] L1 L2; simpl in *; try lia; auto. apply IH; lia. }
          apply Gg; [congruence|auto]. }
        eapply nth_error_In; exact Gn. }
      rewrite (proj2 (N k Lk)) in D. apply differ_false in D; auto. rewrite means_length. apply Rc. apply nth_In. auto.
    + intros Z. exfalso. apply Z. destruct (N 0%nat) as (I & _); auto. rewrite Lc, <- E. destruct c; [congruence|simpl; lia].
  - destruct (calculate_centroids d x cl) as [|b [|b' t]] eqn:Ec; pose proof (centroids_length d x cl) as L; rewrite Ec in L; simpl in L.
    + destruct c as [|u [|v c]]; simpl in *; try congruence; try discriminate.
      symmetry in L. destruct cl; [destruct x; simpl in *; [congruence|lia]|].
      assert (In n (nodup Nat.eq_dec (n :: cl))) by (apply nodup_In; left; auto). apply length_zero_iff_nil in L. rewrite L in H0. destruct H0.
    + assert (H' : existsb (fun a => differ tol a b) (map Some c) = false) by (destruct c as [|? [|? ?]]; [reflexivity|injection H as H; exact H|injection H as H; exact H]).
      assert (Same : forall k l, In k cl -> In l cl -> k = l).
      { intros k l I J. apply (nodup_In Nat.eq_dec) in I, J. destruct (nodup Nat.eq_dec cl) as [|q [|? ?]]; simpl in L; try lia.
        destruct I as [I|[]], J as [J|[]]. congruence. }
      split; [|auto]. intros Z k I. rewrite (Same k 0%nat I Z).
      pose proof (members_nonempty x cl 0 Hl Z) as M.
      pose proof (centroids_nth d x cl 0 ltac:(lia)) as E0. rewrite Ec, mean_rows_some in E0 by auto. simpl in E0. injection E0 as ->.
      exists (means d (members x cl 0)). split; [now apply means_is_mean|].
      apply differ_false.
      * rewrite means_length. apply Rc. apply nth_In. destruct c; [congruence|simpl; lia].
      * apply (existsb_false _ _ H'). apply in_map. apply nth_In. destruct c; [congruence|simpl; lia].
    + destruct c as [|u [|v c]]; simpl in *; try congruence; try discriminate. lia.
Qed.

Lemma loop_stop d x tol : rect d x -> x <> [] -> forall epochs c cl0 r labels, c <> [] -> rect d c ->
  km_loop d x tol epochs (map Some c) cl0 = Ok (r, Some labels, true) ->
  exists c', r = map Some c' /\
  (In 0%nat labels -> forall k, In k labels -> exists v, is_mean_of d x labels k v /\ close tol (nth k c' []) v) /\
  (~ In 0%nat labels -> forall k l, In k labels -> In l labels -> k = l).
Proof.
  intros Hx Hne. induction epochs as [|epochs IH]; intros c cl0 r labels Hc Rc H; cbn [km_loop] in H; [discriminate|].
  apply bind_Ok in H. destruct H as (lb & HL & H). cbv zeta in H. apply bind_Ok in H. destruct H as (ch & HC & H).
  change (km_predict (map Some c) x = Ok lb) in HL. destruct (labels_facts c x lb Hc HL) as (A & F).
  destruct ch.
  - destruct (round_spec d x c lb tol Hc Hne A HC) as (c' & E & Hc' & Rc' & L & Le & A' & N). rewrite E in H. exact (IH _ _ _ _ Hc' Rc' H).
  - injection H as <- <-. exists c. split; auto. eapply stop_close; eauto.
Qed.

(** ** Convergence *)
Fixpoint all_labels (n k : nat) : list (list nat) :=
  match n with O => [[]] | S n' => flat_map (fun l => map (cons l) (all_labels n' k)) (seq 0 k) end.
Lemma all_labels_in k cl : Forall (fun l => (l < k)%nat) cl -> In cl (all_labels (length cl) k).
Proof.
  induction 1 as [|l cl Hl F IH]; simpl; auto. apply in_flat_map. exists l. split; [apply in_seq; lia|]. now apply in_map.
Qed.

Definition cost (d : nat) (x : list (list R)) (K : nat) (cl : list nat) : R :=
  sum_below K (fun k => rsum (map (fun r => sq_dist r (means d (members x cl k))) (members x cl k))).
Lemma cost_wcss d x K cl c : Forall (fun l => (l < length c)%nat) cl -> (length c <= K)%nat ->
  (forall k, (k < length c)%nat -> nth k c [] = means d (members x cl k)) -> wcss x cl c = cost d x K cl.
Proof.
  intros H HK N. rewrite (wcss_groups x cl c K) by (eapply Forall_impl; [|exact H]; simpl; intros; lia).
  apply sum_below_ext. intros k _. destruct (members x cl k) as [|r t] eqn:E; [reflexivity|].
  rewrite N; [now rewrite E|]. rewrite Forall_forall in H. apply H. apply (members_in x). rewrite E. discriminate.
Qed.

Definition rank (f : list nat -> R) (L : list (list nat)) (a : R) : nat := length (filter (fun b => Rltb (f b) a) L).
Lemma rank_lt f L a b : In b L -> f b < a -> (rank f L (f b) < rank f L a)%nat.
Proof.
  intros I H. unfold rank. 
  assert (G : forall M, (length (filter (fun e => Rltb (f e) (f b)) M) <= length (filter (fun e => Rltb (f e) a) M))%nat).
  { induction M as [|e M IH]; simpl; auto. destruct (Rltb (f e) (f b)) eqn:A.
    - apply Rltb_true in A. rewrite (proj2 (Rltb_true (f e) a)) by lra. simpl. lia.
    - destruct (Rltb (f e) a); simpl; lia. }
  apply in_split in I. destruct I as (l1 & l2 & ->). rewrite !filter_app, !app_length. cbn [filter].
  rewrite (proj2 (Rltb_true (f b) a) H), (proj2 (Rltb_false (f b) (f b))) by lra. cbn [length]. pose proof (G l1). pose proof (G l2). lia.
Qed.

Lemma rank_le f L a : (rank f L a <= length L)%nat.
Proof. unfold rank. induction L as [|b L IH]; simpl; auto. destruct (Rltb (f b) a); simpl; lia. Qed.

Lemma differ_true tol u v : 0 <= tol -> differ tol (Some u) (Some v) = true -> u <> v.
Proof.
  intros Ht H E. subst v. simpl in H. apply existsb_exists in H. destruct H as ([a b] & I & L). simpl in L. apply Rltb_true in L.
  assert (a = b). { clear - I. induction u; simpl in I; [destruct I|]. destruct I as [I|I]; [congruence|auto]. }
  subst b. unfold Rminus in L. rewrite Rplus_opp_r, Rabs_R0 in L. lra.
Qed.

Lemma converges d x tol : 0 <= tol -> rect d x -> x <> [] -> forall K m k c cl cl0,
  length c = k -> (k <= K)%nat -> c <> [] -> rect d c -> assignment x (length c) cl ->
  (forall q, (q < length c)%nat -> nth q c [] = means d (members x cl q)) ->
  (rank (cost d x K) (all_labels (length x) K) (cost d x K cl) + k * S (length (all_labels (length x) K)) < m)%nat ->
  forall epochs, (m <= epochs)%nat ->
  (exists e, km_loop d x tol epochs (map Some c) cl0 = Err e) \/
  (exists r l, km_loop d x tol epochs (map Some c) cl0 = Ok (r, l, true)).
Proof.
  intros Ht Hx Hne K. set (LL := all_labels (length x) K).
  induction m as [|m IH]; intros k c cl cl0 Hk HK Hc Rc A N Hm epochs He; [lia|].
  destruct epochs as [|epochs]; [lia|]. cbn [km_loop].
  destruct (get_cluster (calculate_euclidean_distance x (map Some c))) as [lb|e] eqn:HL; [|left; simpl; eauto].
  change (km_predict (map Some c) x = Ok lb) in HL. destruct (labels_facts c x lb Hc HL) as (A1 & F). cbn [bind]. cbv zeta.
  destruct (compare_differences_any (map Some c) (calculate_centroids d x lb) tol) as [[|]|e] eqn:HC; cbn [bind]; [|right; eauto|left; eauto].
  destruct (round_spec d x c lb tol Hc Hne A1 HC) as (c' & E & Hc' & Rc' & L & Le & A' & N'). rewrite E.
  assert (N'' : forall q, (q < length c')%nat -> nth q c' [] = means d (members x lb q)) by (intros; now apply N').
  apply (IH (length c') c' lb (Some lb)); auto; try lia.
  destruct (Nat.eq_dec (length c') (length c)) as [El|El].
  - assert (Ch : exists q, In q lb /\ nth q c' [] <> nth q c []).
    { unfold compare_differences_any in HC. rewrite E, !map_length, El, Nat.eqb_refl in HC. injection HC as HC.
      apply existsb_exists in HC. destruct HC as ([a b] & I & D). simpl in D.
      assert (Gg : forall (p q : list (list R)) a b, length p = length q -> In (a, b) (combine (map Some p) (map Some q)) ->
          exists m, (m < length p)%nat /\ a = Some (nth m p []) /\ b = Some (nth m q [])).
      { clear. induction p as [|u p IH]; intros [|v q] a b Hl I; simpl in *; try lia.
        destruct I as [I|I]; [injection I as <- <-; exists 0%nat; split; [lia|split; reflexivity]|].
        destruct (IH q a b ltac:(lia) I) as (m & H1 & H2 & H3). exists (S m). repeat split; auto. lia. }
      destruct (Gg c c' a b ltac:(lia) I) as (q & Lq & -> & ->). exists q. split; [apply N'; lia|].
      intros Q. apply (differ_true tol _ _ Ht D). auto. }
    destruct A1 as (Al & Alt). destruct A' as (_ & Alt').
    pose proof (proj2 (wcss_means d x lb c c' Hx Rc Al Alt Alt' N'') Ch) as S1.
    assert (S2 : wcss x lb c <= wcss x cl c) by (apply nearest_best; auto).
    rewrite (cost_wcss d x K lb c' Alt' ltac:(lia) N'') in S1.
    rewrite (cost_wcss d x K cl c (proj2 A) ltac:(lia) N) in S2.
    assert (R1 : (rank (cost d x K) LL (cost d x K lb) < rank (cost d x K) LL (cost d x K cl))%nat).
    { apply rank_lt; [|lra]. unfold LL. rewrite <- Al. apply all_labels_in. eapply Forall_impl; [|exact Alt]. simpl. intros. lia. }
    rewrite El, Hk. fold LL in Hm. lia.
  - assert (R2 : (rank (cost d x K) LL (cost d x K lb) <= length LL)%nat) by apply rank_le.
    fold LL in Hm. assert (length c' < k)%nat by lia. nia.
Qed.

Lemma training_converges d x tol c : 0 <= tol -> rect d x -> x <> [] -> c <> [] -> rect d c ->
  exists m, forall epochs cl0, (m <= epochs)%nat ->
  (exists e, km_loop d x tol epochs (map Some c) cl0 = Err e) \/
  (exists r l, km_loop d x tol epochs (map Some c) cl0 = Ok (r, l, true)).
Proof.
  intros Ht Hx Hne Hc Rc.
  exists (S (S (length (all_labels (length x) (length c)) + length c * S (length (all_labels (length x) (length c)))))).
  intros epochs cl0 He. destruct epochs as [|epochs]; [lia|]. cbn [km_loop].
  destruct (get_cluster (calculate_euclidean_distance x (map Some c))) as [lb|e] eqn:HL; [|left; simpl; eauto].
  change (km_predict (map Some c) x = Ok lb) in HL. destruct (labels_facts c x lb Hc HL) as (A1 & F). cbn [bind]. cbv zeta.
  destruct (compare_differences_any (map Some c) (calculate_centroids d x lb) tol) as [[|]|e] eqn:HC; cbn [bind]; [|right; eauto|left; eauto].
  destruct (round_spec d x c lb tol Hc Hne A1 HC) as (c' & E & Hc' & Rc' & L & Le & A' & N'). rewrite E.
  assert (N'' : forall q, (q < length c')%nat -> nth q c' [] = means d (members x lb q)) by (intros; now apply N').
  apply (converges d x tol Ht Hx Hne (length c) (S (length (all_labels (length x) (length c)) + length c * S (length (all_labels (length x) (length c))))) (length c') c' lb); auto; try lia.
  set (LL := all_labels (length x) (length c)) in *.
  assert (R2 : (rank (cost d x (length c)) LL (cost d x (length c) lb) <= length LL)%nat) by apply rank_le.
  nia.
Qed.
