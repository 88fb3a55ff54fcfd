(** Labels of mixtures, and K-means with the centroids in another order (C116). *)
From Coq Require Import List ZArith Reals Lra Lia Bool Arith Permutation.
From Verif.Model Require Import Base Ops Metrics KMeans Matrix Gmm.
From Verif.Spec Require Import Common KMeans Columns HiddenOrder ClassOrder ClusterOrder.
From Verif.Proof Require Import BaseLemmas KMeans Gmm UnitsMore Columns ColumnsNet HiddenOrder ClassOrder ClassScore ClusterOrder.
Import ListNotations.
Local Open Scope R_scope.

Lemma argmin_opp l : argmin Rltb (map Ropp l) = argmax l.
Proof.
  unfold argmax, argmin. destruct l as [|v l]; [reflexivity|]. cbn [map]. f_equal. generalize 0%nat, 1%nat. revert v.
  induction l as [|u l IH]; intros v i j; [reflexivity|]. cbn [map argmin_from]. replace (Rltb (- u) (- v)) with (Rltb v u); [destruct (Rltb v u); apply IH|].
  unfold Rltb. destruct (Rlt_dec v u), (Rlt_dec (- u) (- v)); auto; lra.
Qed.

Section Order.
Variables (n : nat) (s : list nat).
Hypothesis Hs : new_order n s.
Notation pick e := (in_that_order e s).

Lemma gm_predict_moved rnd d t x g : comps n t -> posterior rnd d t x = Ok g -> Forall one_greatest g ->
  exists cl cl', gm_predict rnd d t x = Ok cl /\ gm_predict rnd d (comp_moved s t) x = Ok cl' /\ renumbered s cl cl'.
Proof.
  intros H E G. pose proof (posterior_moved n s Hs rnd d t x H) as F. pose proof (posterior_lengths n rnd d t x g H E) as W. unfold follows in F. rewrite E in F.
  unfold gm_predict. rewrite E. destruct (posterior rnd d (comp_moved s t) x) as [g'|]; [|destruct F]. subst g'. cbn [bind]. clear E.
  induction W as [|r g L W IH]; [exists [], []; repeat split; constructor|]. inversion G as [|? ? G1 G2]; subst. destruct (IH G2) as (cl & cl' & E1 & E2 & Rn).
  destruct (argmax_re (length r) s Hs r eq_refl G1) as (j & k & A & B & Hj & Ek). exists (k :: cl), (j :: cl'). cbn [map mapM]. rewrite !argmin_opp, A, B, E1, E2. cbn [bind]. repeat split. constructor; [|exact Rn].
  rewrite (s_length _ s Hs). auto.
Qed.

(** ** K-means *)
Lemma only_first c r k : only_nearest c r k -> first_nearest c r k.
Proof.
  intros (v & E & H). exists v. split; [exact E|]. intros j w Ew. destruct (Nat.eq_dec j k) as [->|N]; [|specialize (H j w Ew N); split; [lra|intros; exact H]].
  assert (w = v) by congruence. subst. split; [lra|lia].
Qed.
Lemma only_labels c x labels : c <> [] -> Forall2 (only_nearest c) x labels -> get_cluster (calculate_euclidean_distance x (map Some c)) = Ok labels.
Proof.
  intros Hc F. destruct (predict_nearest c x Hc) as (cl & E & F'). unfold km_predict in E. rewrite E. f_equal. clear E. revert cl F'. induction F as [|r k x labels O F IH]; intros cl F'; inversion F'; subst; [reflexivity|].
  f_equal; [|now apply IH]. eapply first_nearest_unique; [eassumption|]. now apply only_first.
Qed.
Lemma place k : (k < n)%nat -> exists k', (k' < length s)%nat /\ nth k' s 0%nat = k.
Proof. intros Hk. apply (in_s n s Hs) in Hk. destruct (In_nth s k 0%nat Hk) as (k' & H1 & H2). now exists k'. Qed.
Lemma s_inj i j : (i < n)%nat -> (j < n)%nat -> nth i s 0%nat = nth j s 0%nat -> i = j.
Proof.
  intros Hi Hj. assert (Nd : NoDup s) by (apply (Permutation_NoDup (Permutation_sym Hs)), seq_NoDup). pose proof (s_length n s Hs). apply (proj1 (NoDup_nth s 0%nat) Nd); lia.
Qed.
Lemma only_moved c r k : length c = n -> only_nearest c r k -> exists k', (k' < length s)%nat /\ nth k' s 0%nat = k /\ only_nearest (rows_in_order s c) r k'.
Proof.
  intros L (v & E & H). assert (Hk : (k < n)%nat) by (rewrite <- L; apply nth_error_Some; congruence). destruct (place k Hk) as (k' & H1 & H2). exists k'. split; [auto|]. split; [auto|].
  assert (P : forall i, (i < n)%nat -> nth_error (rows_in_order s c) i = nth_error c (nth i s 0%nat)).
  { intros i Hi. pose proof (nth_s n s Hs i Hi) as Hn. rewrite (nth_error_nth' (rows_in_order s c) []) by (rewrite (sel_length n s Hs); auto). rewrite (nth_error_nth' c []) by lia. f_equal. now apply (nth_pick n s Hs). }
  pose proof (s_length n s Hs) as Ls. exists v. split; [rewrite P by lia; now rewrite H2|]. intros j w Ew N.
  assert (Hj : (j < n)%nat) by (rewrite <- (sel_length n s Hs c); apply nth_error_Some; congruence). rewrite P in Ew by auto. apply (H _ w Ew). intros Eq. apply N. apply s_inj; lia || congruence.
Qed.
Lemma labels_moved c x labels : length c = n -> Forall2 (only_nearest c) x labels -> exists labels', renumbered s labels labels' /\ Forall2 (only_nearest (rows_in_order s c)) x labels'.
Proof.
  intros L. induction 1 as [|r k x labels O F (labels' & Rn & F')]; [exists []; split; constructor|]. destruct (only_moved c r k L O) as (k' & H1 & H2 & O'). exists (k' :: labels'). split; constructor; auto.
Qed.
Lemma labels_lt c x labels : length c = n -> Forall2 (only_nearest c) x labels -> Forall (fun k => (k < n)%nat) labels /\ length labels = length x.
Proof. intros L. induction 1 as [|r k x labels (v & E & _) F (IH & IL)]; [split; [constructor|reflexivity]|]. cbn [length]. split; [constructor; auto; rewrite <- L; apply nth_error_Some; congruence|lia]. Qed.
Lemma all_used labels : Forall (fun k => (k < n)%nat) labels -> (forall k, (k < n)%nat -> In k labels) -> length (nodup Nat.eq_dec labels) = n.
Proof.
  intros F A. rewrite <- (seq_length n 0). apply Permutation_length. apply NoDup_Permutation; [apply NoDup_nodup|apply seq_NoDup|]. intros k. rewrite nodup_In, in_seq. rewrite Forall_forall in F. split; [intros I; specialize (F k I); lia|intros I; apply A; lia].
Qed.
Lemma members_moved labels labels' : renumbered s labels labels' -> forall x k, (k < n)%nat -> KMeans.members x labels' k = KMeans.members x labels (nth k s 0%nat).
Proof.
  intros Rn. pose proof (s_length n s Hs) as Ls. unfold KMeans.members. induction Rn as [|l l' labels labels' (H1 & H2) Rn IH]; intros [|r x] k Hk; try reflexivity. cbn [combine filter snd].
  replace (l =? nth k s 0)%nat with (l' =? k)%nat; [destruct (l' =? k)%nat; cbn [map fst]; now rewrite IH|].
  apply eq_iff_eq_true. rewrite !Nat.eqb_eq. split; [intros ->; congruence|]. intros E. apply s_inj; congruence || lia.
Qed.
Definition new_centroids (d : nat) (x : list (list R)) (labels : list nat) : list (list R) := map (fun k => means d (KMeans.members x labels k)) (seq 0 n).
Lemma centroids_are d x labels : length labels = length x -> Forall (fun k => (k < n)%nat) labels -> (forall k, (k < n)%nat -> In k labels) ->
  calculate_centroids d x labels = map Some (new_centroids d x labels).
Proof.
  intros L F A. unfold calculate_centroids, new_centroids. rewrite all_used by auto. rewrite map_map. apply map_ext_in. intros k I. apply in_seq in I. apply mean_rows_some. apply members_nonempty; auto. apply A. lia.
Qed.
Lemma new_moved d x labels labels' : renumbered s labels labels' -> new_centroids d x labels' = rows_in_order s (new_centroids d x labels).
Proof.
  intros Rn. unfold new_centroids. apply (sel_seq n s Hs). intros j Hj. now rewrite (members_moved labels labels').
Qed.
Lemma map_some_pick c : length c = n -> map Some (rows_in_order s c) = pick None (map Some c).
Proof. intros L. unfold rows_in_order, in_that_order. rewrite map_map. apply map_ext_in. intros i I. apply (in_s n s Hs) in I. symmetry. apply nth_map_in. lia. Qed.
Lemma compare_moved c c' tol : length c = n -> length c' = n ->
  compare_differences_any (map Some (rows_in_order s c)) (map Some (rows_in_order s c')) tol = compare_differences_any (map Some c) (map Some c') tol.
Proof.
  intros L L'. unfold compare_differences_any. rewrite !map_length, !(sel_length n s Hs), L, L', Nat.eqb_refl. f_equal. rewrite !map_some_pick by auto.
  apply existsb_perm. apply (pairs_perm n s Hs); now rewrite map_length.
Qed.
Definition renumbered_option (cl cl' : option (list nat)) : Prop :=
  match cl, cl' with Some l, Some l' => renumbered s l l' | None, None => True | _, _ => False end.
Lemma km_loop_moved d x tol : n <> 0%nat -> forall epochs c cl0 cl0', length c = n -> unambiguous d x epochs c -> renumbered_option cl0 cl0' ->
  exists c1 cl cl' stop, length c1 = n /\ km_loop d x tol epochs (map Some c) cl0 = Ok (map Some c1, cl, stop) /\
    km_loop d x tol epochs (map Some (rows_in_order s c)) cl0' = Ok (map Some (rows_in_order s c1), cl', stop) /\ renumbered_option cl cl'.
Proof.
  intros Hn. induction epochs as [|e IH]; intros c cl0 cl0' L U R0; [exists c, cl0, cl0', false; cbn; auto|]. cbn [unambiguous] in U. destruct U as (labels & F & A & U). rewrite L in A, U.
  destruct (labels_moved c x labels L F) as (labels' & Rn & F'). destruct (labels_lt c x labels L F) as (B & Lx).
  assert (Nc : c <> []) by (intros ->; cbn in L; lia). assert (Nc' : rows_in_order s c <> []) by (intros Q; pose proof (sel_length n s Hs c) as L2; rewrite Q in L2; cbn in L2; lia).
  destruct (labels_lt (rows_in_order s c) x labels' (sel_length n s Hs c) F') as (B' & Lx').
  assert (A' : forall k, (k < n)%nat -> In k labels').
  { intros k Hk. pose proof (A _ (nth_s n s Hs k Hk)) as I. destruct (In_nth labels _ 0%nat I) as (i & Hi & Ei). assert (Lr : length labels' = length labels) by lia.
    assert (Q : (nth i labels' 0 < length s)%nat /\ nth (nth i labels' 0%nat) s 0%nat = nth i labels 0%nat).
    { clear - Rn Hi. revert i Hi. unfold renumbered in Rn. induction Rn as [|? ? ? ? H Rn IH]; intros [|i] Hi; cbn in *; try lia; first [exact H|apply IH; lia]. }
    destruct Q as (Q1 & Q2). rewrite (s_length n s Hs) in Q1. assert (nth i labels' 0%nat = k) by (apply s_inj; congruence || lia). subst k. apply nth_In. lia. }
  cbn [km_loop]. rewrite (only_labels c x labels Nc F), (only_labels (rows_in_order s c) x labels' Nc' F'). cbn [bind].
  rewrite (centroids_are d x labels Lx B A), (centroids_are d x labels' Lx' B' A'), (new_moved d x labels labels' Rn).
  assert (Lc : length (new_centroids d x labels) = n) by (unfold new_centroids; now rewrite map_length, seq_length).
  rewrite compare_moved by auto. unfold compare_differences_any. rewrite !map_length, L, Lc, Nat.eqb_refl. cbn [bind].
  destruct (existsb _ _).
  - apply IH; auto. apply U; [exact Lc|]. intros k Hk. unfold new_centroids. rewrite nth_map_seq by auto. apply means_is_mean. apply members_nonempty; auto.
  - exists c, (Some labels), (Some labels'), true. auto.
Qed.
End Order.
