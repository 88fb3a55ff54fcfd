(** Proofs about k-means and a feature that is the same in all rows (C111). *)
From Coq Require Import List ZArith Reals Lra Lia Bool Arith.
From Verif.Model Require Import Base Ops KMeans.
From Verif.Spec Require Import Common Smo Units.
From Verif.Proof Require Import BaseLemmas KMeansMain Kernels UnitsMore.
Import ListNotations.
Local Open Scope R_scope.
Local Notation length := List.length.

Section Constant.
Variable c : R.
Definition extended (r : list R) : list R := r ++ [c].
Definition sized (d : nat) (o : centroid) : Prop := match o with Some v => length v = d | None => True end.

Lemma combine_extended (a b : list R) : length a = length b -> combine (extended a) (extended b) = combine a b ++ [(c, c)].
Proof. unfold extended. revert b. induction a as [|x a IH]; intros [|z b] L; try discriminate; cbn; [reflexivity|]. f_equal. apply IH. now injection L. Qed.
Lemma distance_extended d r o : length r = d -> sized d o -> distance (extended r) (option_map extended o) = distance r o.
Proof.
  intros L S. destruct o as [v|]; [|reflexivity]. cbn [distance option_map]. do 2 f_equal. cbn in S.
  unfold vsub. rewrite combine_extended, map_app by congruence. cbn [map fst snd]. unfold sqnorm. rewrite dot_app by reflexivity. cbn. ring.
Qed.
Lemma distances_extended d x cs : Forall (fun r => length r = d) x -> Forall (sized d) cs ->
  calculate_euclidean_distance (map extended x) (map (option_map extended) cs) = calculate_euclidean_distance x cs.
Proof.
  intros Fx Fc. unfold calculate_euclidean_distance. rewrite map_map. apply map_ext_in. intros r I. rewrite map_map. apply map_ext_in. intros o Io.
  rewrite Forall_forall in Fx, Fc. apply (distance_extended d); auto.
Qed.
Lemma mean_extended d rows : Forall (fun r => length r = d) rows -> mean_rows (S d) (map extended rows) = option_map extended (mean_rows d rows).
Proof.
  intros F. rewrite Forall_forall in F. unfold mean_rows. destruct rows as [|r rows]; [reflexivity|]. cbn [map option_map]. f_equal.
  change (extended r :: map extended rows) with (map extended (r :: rows)).
  rewrite seq_S, map_app. match goal with |- _ = extended ?l => change (extended l) with (l ++ [c]) end. f_equal.
  - apply map_ext_in. intros j J. apply in_seq in J. apply (f_equal rmean). unfold column. rewrite map_map. apply map_ext_in. intros a I. unfold extended. apply app_nth1. rewrite (F a I). lia.
  - cbn [map plus]. apply (f_equal (fun z => [z])). unfold column. change (extended r :: map extended rows) with (map extended (r :: rows)). rewrite map_map. rewrite (map_ext_in _ (fun _ => c)).
    + unfold rmean. rewrite (rsum_map_const c (r :: rows)), map_length. field. apply not_0_INR. discriminate.
    + intros a I. unfold extended. rewrite app_nth2; rewrite (F a I); [now rewrite Nat.sub_diag|lia].
Qed.
Lemma members_extended x cl k : members (map extended x) cl k = map extended (members x cl k).
Proof.
  unfold members. revert cl. induction x as [|r x IH]; intros [|i cl]; try reflexivity. cbn [map combine filter snd]. destruct (i =? k)%nat; cbn [map fst]; rewrite IH; reflexivity.
Qed.
Lemma members_sized d x cl k : Forall (fun r => length r = d) x -> Forall (fun r => length r = d) (members x cl k).
Proof.
  intros F. rewrite Forall_forall in *. intros r I. unfold members in I. apply in_map_iff in I. destruct I as ((a & b) & <- & I). apply filter_In in I. destruct I as [I _]. apply F. now apply in_combine_l in I.
Qed.
Lemma centroids_extended d x cl : Forall (fun r => length r = d) x ->
  calculate_centroids (S d) (map extended x) cl = map (option_map extended) (calculate_centroids d x cl).
Proof.
  intros F. unfold calculate_centroids. rewrite map_map. apply map_ext. intros k. rewrite members_extended. apply mean_extended. now apply members_sized.
Qed.
Lemma centroids_sized d x cl : Forall (sized d) (calculate_centroids d x cl).
Proof.
  apply Forall_forall. intros o I. unfold calculate_centroids in I. apply in_map_iff in I. destruct I as (k & <- & _). unfold mean_rows. destruct (members x cl k); cbn; [exact I|]. now rewrite map_length, seq_length.
Qed.
Lemma differ_extended d tol a b : 0 <= tol -> sized d a -> sized d b -> differ tol (option_map extended a) (option_map extended b) = differ tol a b.
Proof.
  intros T Sa Sb. destruct a as [u|], b as [v|]; try reflexivity. cbn [option_map differ sized] in *. rewrite combine_extended, existsb_app by congruence. cbn [existsb fst snd].
  replace (c - c) with 0 by ring. rewrite Rabs_R0. replace (Rltb tol 0) with false by (symmetry; apply Rltb_false; lra). now rewrite !orb_false_r.
Qed.
Lemma existsb_map_ext {A B} (f : B -> bool) (g : A -> bool) (h : A -> B) l : (forall a, In a l -> f (h a) = g a) -> existsb f (map h l) = existsb g l.
Proof. induction l as [|a l IH]; intros H; cbn; [reflexivity|]. rewrite H by now left. f_equal. apply IH. intros; apply H; now right. Qed.
Lemma combine_map_both {A B} (f : A -> B) : forall u v, combine (map f u) (map f v) = map (fun p => (f (fst p), f (snd p))) (combine u v).
Proof. induction u as [|a u IH]; intros [|b v]; cbn; try reflexivity. now rewrite IH. Qed.
Lemma compare_extended d tol u v : 0 <= tol -> Forall (sized d) u -> Forall (sized d) v ->
  compare_differences_any (map (option_map extended) u) (map (option_map extended) v) tol = compare_differences_any u v tol.
Proof.
  intros T Fu Fv. rewrite Forall_forall in Fu, Fv. unfold compare_differences_any, centroid in *. rewrite !map_length.
  destruct (length u =? length v)%nat.
  - f_equal. rewrite combine_map_both. apply existsb_map_ext. intros [a b] I. cbn [fst snd]. apply (differ_extended d); eauto using in_combine_l, in_combine_r.
  - assert (B : forall b, sized d b -> existsb (fun a => differ tol a (option_map extended b)) (map (option_map extended) u) = existsb (fun a => differ tol a b) u).
    { intros b Hb. apply existsb_map_ext. intros a I. apply (differ_extended d); auto. }
    assert (A : forall a, sized d a -> existsb (fun b => differ tol (option_map extended a) b) (map (option_map extended) v) = existsb (fun b => differ tol a b) v).
    { intros a Ha. apply existsb_map_ext. intros b I. apply (differ_extended d); auto. }
    destruct v as [|b [|b' v]]; cbn [map].
    + destruct u as [|a [|a' u]]; cbn [map]; try reflexivity.
    + destruct u as [|a [|a' u]]; exact (f_equal Ok (B b (Fv b (or_introl eq_refl)))).
    + destruct u as [|a [|a' u]]; cbn [map]; try reflexivity. exact (f_equal Ok (A a (Fu a (or_introl eq_refl)))).
Qed.
Lemma loop_extended d x tol : 0 <= tol -> Forall (fun r => length r = d) x -> forall epochs cs cl, Forall (sized d) cs ->
  km_loop (S d) (map extended x) tol epochs (map (option_map extended) cs) cl =
  match km_loop d x tol epochs cs cl with Ok (r, l, s) => Ok (map (option_map extended) r, l, s) | Err e => Err e end.
Proof.
  intros T F. induction epochs as [|n IH]; intros cs cl Fc; cbn [km_loop]; [reflexivity|]. rewrite (distances_extended d) by auto.
  destruct (get_cluster (calculate_euclidean_distance x cs)) as [labels|]; cbn [bind]; [|reflexivity].
  rewrite (centroids_extended d) by auto. rewrite (compare_extended d) by auto using centroids_sized.
  destruct (compare_differences_any cs (calculate_centroids d x labels) tol) as [[|]|]; cbn [bind]; [|reflexivity|reflexivity]. apply IH, centroids_sized.
Qed.
Lemma init_extended d randint x n init : starts_at_rows init -> 
  init_centroids randint (S d) (map extended x) n init = (r <- init_centroids randint d x n init ;; Ok (map extended r)).
Proof.
  intros B. apply starts_by_rows in B. destruct init as [|s|]; cbn [init_centroids]; [| |reflexivity].
  - rewrite map_length; destruct (length x =? 0)%nat; [reflexivity|]; apply (mapM_get_at_map extended x (fun i => i)).
  - cbn [by_rows] in B; destruct (squeeze_shape (shape s)) as [|k [|k' l]]; try discriminate.
    destruct (negb (k =? n)%nat); [reflexivity|]; destruct (np_min (flat_reals (data s))) as [mn|]; cbn [bind]; [|reflexivity]; destruct (np_max (flat_reals (data s))) as [mx|]; cbn [bind]; [|reflexivity].
    rewrite map_length; destruct (Rltb mn 0 || Rleb (INR (length x)) mx); [reflexivity|]; destruct (data s) as [zs|vs]; [|reflexivity]; apply (mapM_get_at_map extended x Z.to_nat).
Qed.
Lemma km_fit_extended d randint x n init tol epochs : 0 <= tol -> Forall (fun r => length r = d) x -> starts_at_rows init ->
  km_fit randint (S d) (map extended x) n init tol epochs =
  match km_fit randint d x n init tol epochs with Ok (r, l, s) => Ok (map (option_map extended) r, l, s) | Err e => Err e end.
Proof.
  intros T F B. unfold km_fit. rewrite init_extended by auto. destruct (init_centroids randint d x n init) as [cs|] eqn:E; cbn [bind]; [|reflexivity].
  rewrite map_map. change (fun r => Some (extended r)) with (fun r => option_map extended (Some r)). rewrite <- (map_map Some (option_map extended)).
  apply loop_extended; auto. apply Forall_forall. intros o I. apply in_map_iff in I. destruct I as (r & <- & I). cbn.
  pose proof (init_wide _ _ _ _ _ _ (starts_by_rows _ B) F E) as W. unfold width in W. rewrite Forall_forall in W. now apply W.
Qed.
Lemma fit_sized d randint x n init tol epochs cs l s : Forall (fun r => length r = d) x -> starts_at_rows init ->
  km_fit randint d x n init tol epochs = Ok (cs, l, s) -> Forall (sized d) cs.
Proof.
  intros F B. unfold km_fit. destruct (init_centroids randint d x n init) as [c0|] eqn:E; cbn [bind]; [|discriminate].
  assert (S0 : Forall (sized d) (map Some c0)).
  { apply Forall_forall. intros o I. apply in_map_iff in I. destruct I as (r & <- & I). cbn.
    pose proof (init_wide _ _ _ _ _ _ (starts_by_rows _ B) F E) as W. unfold width in W. rewrite Forall_forall in W. now apply W. }
  generalize (@None (list nat)) as cl. revert S0. generalize (map Some c0). induction epochs as [|k IH]; intros u Su cl H; cbn [km_loop] in H; [now injection H as <- _ _|].
  destruct (get_cluster _) as [labels|]; cbn [bind] in H; [|discriminate]. destruct (compare_differences_any _ _ _) as [[|]|]; cbn [bind] in H; [|now injection H as <- _ _|discriminate].
  exact (IH _ (centroids_sized d x labels) _ H).
Qed.
Lemma predict_extended d cs q : Forall (fun r => length r = d) q -> Forall (sized d) cs -> km_predict (map (option_map extended) cs) (map extended q) = km_predict cs q.
Proof. intros Fq Fc. unfold km_predict. now rewrite (distances_extended d). Qed.
End Constant.
