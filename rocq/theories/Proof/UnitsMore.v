(** Other units of measurement: scalers, the convex hull and k-means (C99). *)
From Coq Require Import List ZArith Reals Lra Lia Bool Arith.
From Verif.Model Require Import Base Ops Preprocessing KMeans Hull.
From Verif.Spec Require Import Units.
From Verif.Proof Require Import BaseLemmas Units.
Import ListNotations.
Local Open Scope R_scope.

(** ** Statistics of a column *)
Lemma rsum_affine a b l : rsum (map (fun x => a * x + b) l) = a * rsum l + b * INR (length l).
Proof. induction l as [|x l IH]; [cbn; lra|]. change (length (x :: l)) with (S (length l)); rewrite S_INR; cbn [map rsum fold_right] in *; unfold rsum in *; rewrite IH; lra. Qed.
Lemma rmean_affine a b l : l <> [] -> rmean (map (fun x => a * x + b) l) = a * rmean l + b.
Proof.
  intros H; unfold rmean; rewrite rsum_affine, map_length; assert (INR (length l) <> 0) by (apply not_0_INR; destruct l; [congruence|discriminate]); field; assumption.
Qed.
Lemma rvar_affine a b l : rvar (map (fun x => a * x + b) l) = a * a * rvar l.
Proof.
  destruct l as [|x0 l0]; [unfold rvar, rmean, rsum; cbn; lra|]; set (l := x0 :: l0).
  unfold rvar; rewrite rmean_affine by discriminate; rewrite map_map; set (m := rmean l).
  transitivity (rmean (map (fun x => a * a * x + 0) (map (fun x => (x - m) * (x - m)) l))).
  - f_equal; rewrite map_map; apply map_ext; intros x; ring.
  - rewrite rmean_affine by discriminate; lra.
Qed.
Lemma rmin1_map f x l : unit_change f -> rmin1 (f x) (map f l) = f (rmin1 x l).
Proof.
  intros (a & b & Ha & E); unfold rmin1; revert x; induction l as [|y l IH]; intros x; [reflexivity|]; cbn [map fold_left].
  assert (M : Rmin (f x) (f y) = f (Rmin x y)).
  { unfold Rmin; rewrite !E; destruct (Rle_dec x y) as [H|H], (Rle_dec (a * x + b) (a * y + b)) as [H'|H']; rewrite ?E; auto; exfalso; nra. }
  rewrite M; apply IH.
Qed.
Lemma rmax1_map f x l : unit_change f -> rmax1 (f x) (map f l) = f (rmax1 x l).
Proof.
  intros (a & b & Ha & E); unfold rmax1; revert x; induction l as [|y l IH]; intros x; [reflexivity|]; cbn [map fold_left].
  assert (M : Rmax (f x) (f y) = f (Rmax x y)).
  { unfold Rmax; rewrite !E; destruct (Rle_dec x y) as [H|H], (Rle_dec (a * x + b) (a * y + b)) as [H'|H']; rewrite ?E; auto; exfalso; nra. }
  rewrite M; apply IH.
Qed.
Lemma np_min_map f l : unit_change f -> np_min (map f l) = (m <- np_min l ;; Ok (f m)).
Proof. intros U; destruct l as [|x l]; [reflexivity|]; cbn [map np_min bind]; now rewrite rmin1_map. Qed.
Lemma np_max_map f l : unit_change f -> np_max (map f l) = (m <- np_max l ;; Ok (f m)).
Proof. intros U; destruct l as [|x l]; [reflexivity|]; cbn [map np_max bind]; now rewrite rmax1_map. Qed.
Lemma npdiv_factor a x y : a <> 0 -> npdiv (a * x) (a * y) = npdiv x y.
Proof.
  intros H; unfold npdiv; destruct (Req_EM_T (a * y) 0) as [E|E], (Req_EM_T y 0) as [E'|E']; auto.
  - exfalso; apply Rmult_integral in E; tauto.
  - exfalso; apply E; rewrite E'; ring.
  - f_equal; field; auto.
Qed.

(** ** Scalers *)
Lemma minmax_in f data : unit_change f ->
  minmax_call (map f data) = (r <- minmax_call data ;; Ok (fst r, (f (fst (snd r)), f (snd (snd r))))).
Proof.
  intros U; unfold minmax_call; rewrite np_min_map, np_max_map by exact U; destruct (np_min data) as [mn|]; cbn [bind]; [|reflexivity].
  destruct (np_max data) as [mx|]; cbn [bind fst snd]; [|reflexivity]; rewrite map_map; do 2 f_equal; apply map_ext; intros x.
  destruct U as (a & b & Ha & E); rewrite !E; replace (a * x + b - (a * mn + b)) with (a * (x - mn)) by ring; replace (a * mx + b - (a * mn + b)) with (a * (mx - mn)) by ring; apply npdiv_factor; lra.
Qed.
Definition scaled_by (a : R) (o : option R) : option R := option_map (Rmult a) o.
Lemma npdiv_square a x y : a <> 0 -> npdiv (a * x) (a * a * y) = scaled_by (/ a) (npdiv x y).
Proof.
  intros H; unfold npdiv, scaled_by; destruct (Req_EM_T (a * a * y) 0) as [E|E], (Req_EM_T y 0) as [E'|E']; cbn [option_map]; auto.
  - exfalso; apply Rmult_integral in E; destruct E as [E|E]; [apply Rmult_integral in E; tauto|tauto].
  - exfalso; apply E; rewrite E'; ring.
  - f_equal; field; auto.
Qed.
Lemma standard_in a b data : a <> 0 -> data <> [] ->
  standard_call (map (fun x => a * x + b) data) =
  (map (scaled_by (/ a)) (fst (standard_call data)), (a * fst (snd (standard_call data)) + b, a * a * snd (snd (standard_call data)))).
Proof.
  intros H N; unfold standard_call; rewrite rmean_affine, rvar_affine by exact N; cbn [fst snd]; rewrite !map_map; f_equal; apply map_ext; intros x.
  replace (a * x + b - (a * rmean data + b)) with (a * (x - rmean data)) by ring; now apply npdiv_square.
Qed.
Lemma nth_in_units fs r j : length r = length fs -> (j < length fs)%nat -> nth j (in_units fs r) 0 = unit_of fs j (nth j r 0).
Proof. intros L H; exact (feat_in fs r j L H). Qed.
Lemma column_in fs x j : width (length fs) x -> (j < length fs)%nat -> column 0 (map (in_units fs) x) j = map (unit_of fs j) (column 0 x j).
Proof.
  intros W H; unfold column; rewrite !map_map; apply map_ext_in; intros r Hr; apply nth_in_units; [|exact H]; unfold width in W; rewrite Forall_forall in W; now apply W.
Qed.
Lemma mapM_ext_in {A B} (f g : A -> result B) l : (forall x, In x l -> f x = g x) -> mapM f l = mapM g l.
Proof. induction l as [|a l IH]; intros H; [reflexivity|]; cbn [mapM]; rewrite (H a (or_introl eq_refl)), (IH (fun x Hx => H x (or_intror Hx))); reflexivity. Qed.
Lemma mapM_map {A B C} (f : B -> result C) (g : A -> B) l : mapM f (map g l) = mapM (fun a => f (g a)) l.
Proof. induction l as [|a l IH]; [reflexivity|]; cbn [map mapM]; now rewrite IH. Qed.
Lemma mapM_seq_nth {C} (d : C) (f : nat -> result C) n k : forall out, mapM f (seq k n) = Ok out -> length out = n /\ forall j, (j < n)%nat -> f (k + j)%nat = Ok (nth j out d).
Proof.
  revert k; induction n as [|n IH]; intros k out H; cbn [seq mapM] in H; [injection H as <-; split; [reflexivity|intros j Hj; lia]|].
  destruct (f k) as [c|] eqn:E; [|discriminate]; cbn [bind] in H; destruct (mapM f (seq (S k) n)) as [cs|] eqn:E2; [|discriminate]; cbn [bind] in H; injection H as <-.
  destruct (IH (S k) cs E2) as (L & G); split; [cbn; now rewrite L|]; intros [|j] Hj; [rewrite Nat.add_0_r; exact E|]; rewrite Nat.add_succ_r; apply (G j); lia.
Qed.

(** Columns of a matrix. *)
Definition stats_in (fs : list (R -> R)) (st : list (R * R)) : list (R * R) :=
  map (fun p => (fst p (fst (snd p)), fst p (snd (snd p)))) (combine fs st).
Lemma minmax2_in fs x : Forall unit_change fs -> width (length fs) x ->
  (r <- minmax_call2 Axis0 (length fs) (map (in_units fs) x) ;; Ok (fst r)) = (r <- minmax_call2 Axis0 (length fs) x ;; Ok (fst r)).
Proof.
  intros F W; unfold minmax_call2, slices; rewrite !mapM_map.
  assert (E : mapM (fun j => mn <- np_min (column 0 (map (in_units fs) x) j) ;; mx <- np_max (column 0 (map (in_units fs) x) j) ;; Ok (mn, mx)) (seq 0 (length fs)) =
    mapM (fun j => s <- (mn <- np_min (column 0 x j) ;; mx <- np_max (column 0 x j) ;; Ok (mn, mx)) ;; Ok (unit_of fs j (fst s), unit_of fs j (snd s))) (seq 0 (length fs))).
  { apply mapM_ext_in; intros j Hj; apply in_seq in Hj; rewrite column_in by (auto; lia); rewrite np_min_map, np_max_map by now apply unit_of_change.
    destruct (np_min (column 0 x j)); cbn [bind]; [|reflexivity]; destruct (np_max (column 0 x j)); reflexivity. }
  rewrite E; clear E.
  set (st := fun j => mn <- np_min (column 0 x j) ;; mx <- np_max (column 0 x j) ;; Ok (mn, mx)).
  assert (E : forall k n, mapM (fun j => s <- st j ;; Ok (unit_of fs j (fst s), unit_of fs j (snd s))) (seq k n) =
    (ss <- mapM st (seq k n) ;; Ok (map (fun p => (unit_of fs (fst p) (fst (snd p)), unit_of fs (fst p) (snd (snd p)))) (combine (seq k n) ss)))).
  { intros k n; revert k; induction n as [|n IH]; intros k; [reflexivity|]; cbn [seq mapM]; rewrite IH; destruct (st k); cbn [bind]; [|reflexivity]; destruct (mapM st (seq (S k) n)); reflexivity. }
  rewrite E; destruct (mapM st (seq 0 (length fs))) as [ss|] eqn:Es; cbn [bind]; [|reflexivity].
  destruct (mapM_seq_nth (0, 0) st (length fs) 0 ss Es) as (Ls & _).
  set (ss' := map _ (combine (seq 0 (length fs)) ss)); assert (Ls' : length ss' = length fs) by (unfold ss'; rewrite map_length, combine_length, seq_length; lia).
  unfold bcast_map, bcast_cols; rewrite Ls, Ls', Nat.eqb_refl; cbn [bind fst]; f_equal; rewrite map_map; apply map_ext_in; intros r Hr; apply map_ext_in; intros j Hj; apply in_seq in Hj.
  unfold width in W; rewrite Forall_forall in W; pose proof (W r Hr) as Lr.
  assert (B : bidx (length fs) j = j) by (unfold bidx; destruct (length fs =? 1)%nat eqn:E1; [apply Nat.eqb_eq in E1; lia|reflexivity]).
  rewrite B, nth_in_units by (auto; lia).
  assert (N : nth j ss' (0, 0) = (unit_of fs j (fst (nth j ss (0, 0))), unit_of fs j (snd (nth j ss (0, 0))))).
  { unfold ss'; rewrite (nth_indep _ _ ((fun p => (unit_of fs (fst p) (fst (snd p)), unit_of fs (fst p) (snd (snd p)))) (0%nat, (0, 0)))) by (change (j < length ss')%nat; lia).
    rewrite (map_nth (fun p : nat * (R * R) => (unit_of fs (fst p) (fst (snd p)), unit_of fs (fst p) (snd (snd p))))), combine_nth by (rewrite seq_length; lia); cbn [fst snd]; rewrite seq_nth by lia; reflexivity. }
  rewrite N; cbn [fst snd]; destruct (unit_of_change fs j F) as (a & b & Ha & U); rewrite !U; set (mn := fst (nth j ss (0, 0))); set (mx := snd (nth j ss (0, 0))); set (v := nth j r 0).
  replace (a * v + b - (a * mn + b)) with (a * (v - mn)) by ring; replace (a * mx + b - (a * mn + b)) with (a * (mx - mn)) by ring; apply npdiv_factor; lra.
Qed.

(** ** K-means *)
Section KM.
Variable a : R.
Variable fs : list (R -> R).
Hypothesis F : same_factor a fs.
Notation d := (length fs).
Lemma factor_unit : Forall unit_change fs.
Proof. destruct F as (Ha & Fs); eapply Forall_impl; [|exact Fs]; intros f (b & E); exists a, b; auto. Qed.
Lemma sqnorm_in r v : length r = d -> length v = d -> sqnorm (vsub (in_units fs r) (in_units fs v)) = a * a * sqnorm (vsub r v).
Proof.
  destruct F as (_ & Fs); clear F; unfold sqnorm, vsub, in_units; revert r v; induction Fs as [|f l (b & E) _ IH]; intros [|x r] [|y v] L L'; try discriminate; [cbn; lra|].
  cbn [combine map fst snd dot]; injection L as L; injection L' as L'; rewrite (IH r v L L'), !E; ring.
Qed.
Definition cent_in (c : centroid) : centroid := option_map (in_units fs) c.
Definition cent_wide (c : centroid) : Prop := match c with Some v => length v = d | None => True end.
Lemma distance_in r c : length r = d -> cent_wide c -> distance (in_units fs r) (cent_in c) = option_map (Rmult a) (distance r c).
Proof.
  intros L C; destruct c as [v|]; [|reflexivity]; cbn [cent_in option_map distance]; f_equal; rewrite sqnorm_in by assumption; destruct F as (Ha & _).
  assert (N : 0 <= sqnorm (vsub r v)) by (unfold sqnorm; clear; induction (vsub r v) as [|y l IH]; cbn [dot]; [lra|]; pose proof (Rle_0_sqr y) as Q; unfold Rsqr in Q; lra).
  rewrite sqrt_mult by (try exact N; nra); rewrite sqrt_square by lra; reflexivity.
Qed.
Lemma nan_lt_in u v : nan_lt (option_map (Rmult a) u) (option_map (Rmult a) v) = nan_lt u v.
Proof.
  destruct F as (Ha & _); destruct u as [u|], v as [v|]; cbn; auto.
  destruct (Rltb u v) eqn:E; [apply Rltb_true in E; apply Rltb_true; now apply Rmult_lt_compat_l|apply Rltb_false in E; apply Rltb_false; apply Rmult_le_compat_l; lra].
Qed.
Lemma argmin_in l : argmin nan_lt (map (option_map (Rmult a)) l) = argmin nan_lt l.
Proof.
  destruct l as [|x l]; [reflexivity|]; cbn [map argmin]; f_equal; generalize 0%nat 1%nat; revert x; induction l as [|y l IH]; intros x i j; [reflexivity|]; cbn [map argmin_from].
  rewrite nan_lt_in; destruct (nan_lt y x); apply IH.
Qed.
Lemma get_cluster_in x cs : width d x -> Forall cent_wide cs ->
  get_cluster (calculate_euclidean_distance (map (in_units fs) x) (map cent_in cs)) = get_cluster (calculate_euclidean_distance x cs).
Proof.
  intros W C; unfold get_cluster, calculate_euclidean_distance; rewrite map_map, !mapM_map; apply mapM_ext_in; intros r Hr; unfold width in W; rewrite Forall_forall in *.
  rewrite map_map; transitivity (argmin nan_lt (map (option_map (Rmult a)) (map (distance r) cs))); [|apply argmin_in]; f_equal; rewrite map_map; apply map_ext_in; intros c Hc; apply distance_in; auto.
Qed.
Lemma members_in x cl k : members (map (in_units fs) x) cl k = map (in_units fs) (members x cl k).
Proof.
  unfold members; rewrite combine_map_l.
  rewrite (filter_map (fun p : list R * nat => (in_units fs (fst p), snd p)) (fun p => (snd p =? k)%nat)) by reflexivity; rewrite !map_map; reflexivity.
Qed.
Lemma in_units_seq (m : nat -> R) : in_units fs (map m (seq 0 d)) = map (fun j => unit_of fs j (m j)) (seq 0 d).
Proof.
  clear F; apply (nth_ext _ _ 0 0); [rewrite in_units_length, !map_length, seq_length; auto; now rewrite map_length, seq_length|].
  intros j Hj; rewrite in_units_length in Hj by (now rewrite map_length, seq_length); rewrite nth_in_units by (auto; now rewrite map_length, seq_length).
  rewrite !(nth_indep _ 0 (m 0%nat)), map_nth, seq_nth by (rewrite ?map_length, ?seq_length; lia).
  rewrite (nth_indep _ (m 0%nat) (unit_of fs 0 (m 0%nat))) by (rewrite ?map_length, ?seq_length; lia); rewrite (map_nth (fun j => unit_of fs j (m j))), seq_nth by lia; reflexivity.
Qed.
Lemma mean_rows_in rows : width d rows -> mean_rows d (map (in_units fs) rows) = cent_in (mean_rows d rows).
Proof.
  intros W; destruct rows as [|r0 rows]; [reflexivity|]; set (rs := r0 :: rows) in *; change (mean_rows d (map (in_units fs) rs)) with (Some (map (fun j => rmean (column 0 (map (in_units fs) rs) j)) (seq 0 d))).
  change (mean_rows d rs) with (Some (map (fun j => rmean (column 0 rs j)) (seq 0 d))); cbn [cent_in option_map]; f_equal; rewrite in_units_seq; apply map_ext_in; intros j Hj; apply in_seq in Hj.
  rewrite column_in by (auto; lia); destruct (unit_of_change fs j factor_unit) as (a' & b & _ & E).
  rewrite (map_ext _ _ E), rmean_affine by discriminate; symmetry; apply E.
Qed.
Lemma members_wide x cl k : width d x -> width d (members x cl k).
Proof.
  unfold width, members; rewrite !Forall_forall; intros W r Hr; apply in_map_iff in Hr; destruct Hr as ([r' c] & <- & Hp); apply filter_In in Hp; destruct Hp as (Hp & _); apply in_combine_l in Hp; now apply W.
Qed.
Lemma calculate_centroids_in x cl : width d x -> calculate_centroids d (map (in_units fs) x) cl = map cent_in (calculate_centroids d x cl).
Proof. intros W; unfold calculate_centroids; rewrite map_map; apply map_ext; intros k; rewrite members_in; apply mean_rows_in; now apply members_wide. Qed.
Lemma calculate_centroids_wide x cl : Forall cent_wide (calculate_centroids d x cl).
Proof.
  unfold calculate_centroids; rewrite Forall_forall; intros c Hc; apply in_map_iff in Hc; destruct Hc as (k & <- & _); unfold mean_rows; destruct (members x cl k); cbn; auto; now rewrite map_length, seq_length.
Qed.
Lemma differ_in tol u v : cent_wide u -> cent_wide v -> differ (a * tol) (cent_in u) (cent_in v) = differ tol u v.
Proof.
  destruct F as (Ha & Fs); clear F; destruct u as [u|], v as [v|]; cbn [cent_wide cent_in option_map differ]; auto; unfold in_units; revert u v; induction Fs as [|f l (b & E) _ IH]; intros [|x u] [|y v] L L'; try discriminate; [reflexivity|].
  cbn [combine map fst snd existsb]; injection L as L; injection L' as L'; rewrite (IH u v L L'); f_equal; rewrite !E.
  replace (a * x + b - (a * y + b)) with (a * (x - y)) by ring; rewrite Rabs_mult, (Rabs_pos_eq a) by lra.
  destruct (Rltb tol (Rabs (x - y))) eqn:Q; [apply Rltb_true in Q; apply Rltb_true; now apply Rmult_lt_compat_l|apply Rltb_false in Q; apply Rltb_false; apply Rmult_le_compat_l; lra].
Qed.
Lemma existsb_ext_in {A} (p q : A -> bool) l : (forall x, In x l -> p x = q x) -> existsb p l = existsb q l.
Proof. induction l as [|x l IH]; intros H; [reflexivity|]; cbn [existsb]; rewrite (H x (or_introl eq_refl)), (IH (fun z Hz => H z (or_intror Hz))); reflexivity. Qed.
Lemma existsb_map {A B} (p : B -> bool) (g : A -> B) l : existsb p (map g l) = existsb (fun x => p (g x)) l.
Proof. induction l as [|x l IH]; [reflexivity|]; cbn; now rewrite IH. Qed.
Lemma combine_map_both {A B} (g : A -> B) l m : combine (map g l) (map g m) = map (fun p => (g (fst p), g (snd p))) (combine l m).
Proof. revert m; induction l as [|x l IH]; intros [|y m]; [reflexivity..|]; cbn [map combine fst snd]; now rewrite IH. Qed.
Lemma compare_in c0 c1 tol : Forall cent_wide c0 -> Forall cent_wide c1 ->
  compare_differences_any (map cent_in c0) (map cent_in c1) (a * tol) = compare_differences_any c0 c1 tol.
Proof.
  intros W0 W1; rewrite Forall_forall in *; unfold compare_differences_any; rewrite !map_length; destruct (length c0 =? length c1)%nat.
  - f_equal; rewrite combine_map_both, existsb_map; apply existsb_ext_in; intros [u v] H; cbn [fst snd]; apply differ_in; [apply W0; now apply in_combine_l in H|apply W1; now apply in_combine_r in H].
  - destruct c1 as [|v [|v' c1]]; cbn [map].
    + destruct c0 as [|u [|u' c0]]; reflexivity.
    + assert (G : existsb (fun u => differ (a * tol) u (cent_in v)) (map cent_in c0) = existsb (fun u => differ tol u v) c0)
        by (rewrite existsb_map; apply existsb_ext_in; intros u H; apply differ_in; auto; apply W1; now left).
      destruct c0 as [|u [|u' c0]]; cbn [map] in *; f_equal; exact G.
    + destruct c0 as [|u [|u' c0]]; cbn [map]; try reflexivity; f_equal; change (cent_in v :: cent_in v' :: map cent_in c1) with (map cent_in (v :: v' :: c1)); rewrite existsb_map; apply existsb_ext_in; intros w H; apply differ_in; auto; apply W0; now left.
Qed.
Lemma km_loop_in x tol epochs : width d x -> forall cs cl, Forall cent_wide cs ->
  km_loop d (map (in_units fs) x) (a * tol) epochs (map cent_in cs) cl =
  (r <- km_loop d x tol epochs cs cl ;; Ok (map cent_in (fst (fst r)), snd (fst r), snd r)).
Proof.
  intros W; induction epochs as [|n IH]; intros cs cl C; [reflexivity|]; cbn [km_loop]; rewrite get_cluster_in by assumption.
  destruct (get_cluster (calculate_euclidean_distance x cs)) as [lab|]; cbn [bind]; [|reflexivity].
  rewrite calculate_centroids_in, compare_in by (auto; apply calculate_centroids_wide); destruct (compare_differences_any cs (calculate_centroids d x lab) tol) as [[]|]; cbn [bind]; [|reflexivity..].
  apply IH, calculate_centroids_wide.
Qed.
Lemma km_predict_in cs q : Forall cent_wide cs -> width d q -> km_predict (map cent_in cs) (map (in_units fs) q) = km_predict cs q.
Proof. intros C W; unfold km_predict; now apply get_cluster_in. Qed.
Lemma km_loop_wide x tol epochs : forall cs cl r, Forall cent_wide cs -> km_loop d x tol epochs cs cl = Ok r -> Forall cent_wide (fst (fst r)).
Proof.
  induction epochs as [|n IH]; intros cs cl r C H; cbn [km_loop] in H; [now injection H as <-|].
  destruct (get_cluster _) as [lab|]; cbn [bind] in H; [|discriminate]; destruct (compare_differences_any _ _ _) as [[]|]; cbn [bind] in H; [|injection H as <-; exact C|discriminate].
  apply (IH _ _ _ (calculate_centroids_wide x lab) H).
Qed.
End KM.

(** Starting centroids. *)
Lemma get_at_map {A B} (g : A -> B) l i : get_at (map g l) i = (x <- get_at l i ;; Ok (g x)).
Proof. unfold get_at; rewrite nth_error_map; now destruct (nth_error l i). Qed.
Lemma mapM_get_at_map {A B C} (g : A -> B) l (h : C -> nat) idx : mapM (fun z => get_at (map g l) (h z)) idx = (r <- mapM (fun z => get_at l (h z)) idx ;; Ok (map g r)).
Proof.
  induction idx as [|i idx IH]; [reflexivity|]; cbn [mapM]; rewrite IH, get_at_map; destruct (get_at l (h i)); cbn [bind]; [|reflexivity].
  destruct (mapM (fun z => get_at l (h z)) idx); reflexivity.
Qed.
(** Drawn rows, or rows chosen by their numbers. *)
Definition by_rows (init : init_arg) : Prop := match init with InitArray s => length (squeeze_shape (shape s)) = 1%nat | _ => True end.
Lemma starts_by_rows init : starts_at_rows init -> by_rows init.
Proof.
  intros [->|(l & N & ->)]; cbn [by_rows shape]; [exact I|]; unfold squeeze_shape; cbn [filter]; destruct (length l =? 1)%nat eqn:E; [apply Nat.eqb_eq in E; lia|reflexivity].
Qed.
Lemma init_in fs randint x n init : by_rows init ->
  init_centroids randint (length fs) (map (in_units fs) x) n init = (c <- init_centroids randint (length fs) x n init ;; Ok (map (in_units fs) c)).
Proof.
  intros B; destruct init as [|s|]; cbn [init_centroids]; [| |reflexivity].
  - rewrite map_length; destruct (length x =? 0)%nat; [reflexivity|]; apply (mapM_get_at_map (in_units fs) x (fun i => i)).
  - cbn [by_rows] in B; destruct (squeeze_shape (shape s)) as [|k [|k' l]]; try discriminate.
    destruct (negb (k =? n)%nat); [reflexivity|]; destruct (np_min (flat_reals (data s))) as [mn|]; cbn [bind]; [|reflexivity]; destruct (np_max (flat_reals (data s))) as [mx|]; cbn [bind]; [|reflexivity].
    rewrite map_length; destruct (Rltb mn 0 || Rleb (INR (length x)) mx); [reflexivity|]; destruct (data s) as [zs|vs]; [|reflexivity]; apply (mapM_get_at_map (in_units fs) x Z.to_nat).
Qed.
Lemma mapM_get_wide {C} w (x : list (list R)) (h : C -> nat) idx r : width w x -> mapM (fun z => get_at x (h z)) idx = Ok r -> width w r.
Proof.
  intros W; unfold width in *; rewrite Forall_forall in W; revert r; induction idx as [|i idx IH]; intros r H; cbn [mapM] in H; [injection H as <-; constructor|].
  destruct (get_at x (h i)) as [v|] eqn:E; [|discriminate]; cbn [bind] in H; destruct (mapM _ idx) as [vs|] eqn:E2; [|discriminate]; cbn [bind] in H; injection H as <-; constructor; [|now apply IH].
  apply W; unfold get_at in E; destruct (nth_error x (h i)) eqn:N; [|discriminate]; injection E as <-; now apply nth_error_In in N.
Qed.
Lemma init_wide randint d x n init c : by_rows init -> width d x -> init_centroids randint d x n init = Ok c -> width d c.
Proof.
  intros B W; destruct init as [|s|]; cbn [init_centroids]; [| |discriminate].
  - destruct (length x =? 0)%nat; [discriminate|]; now apply (mapM_get_wide d x (fun i => i)).
  - cbn [by_rows] in B; destruct (squeeze_shape (shape s)) as [|k [|k' l]]; try discriminate.
    destruct (negb (k =? n)%nat); [discriminate|]; destruct (np_min (flat_reals (data s))) as [mn|]; cbn [bind]; [|discriminate]; destruct (np_max (flat_reals (data s))) as [mx|]; cbn [bind]; [|discriminate].
    destruct (Rltb mn 0 || Rleb (INR (length x)) mx); [discriminate|]; destruct (data s) as [zs|vs]; [|discriminate]; now apply (mapM_get_wide d x Z.to_nat).
Qed.
(** Given centroids. *)
Lemma chunk_concat {A} d (rows : list (list A)) : Forall (fun r => length r = d) rows -> chunk (length rows) d (concat rows) = rows.
Proof.
  induction 1 as [|r rows L _ IH]; [reflexivity|]; cbn [length chunk concat].
  rewrite firstn_app, skipn_app, L, Nat.sub_diag, firstn_O, app_nil_r, (firstn_all2 r) by lia; rewrite (skipn_all2 r) by lia; cbn [app skipn]; now rewrite IH.
Qed.
Lemma init_given randint d x rows : (1 < d)%nat -> (1 < length rows)%nat -> width d rows -> init_centroids randint d x (length rows) (start_array rows d) = Ok rows.
Proof.
  intros Hd Hr W; unfold start_array; cbn [init_centroids shape data flat_reals].
  assert (E : squeeze_shape [length rows; d] = [length rows; d]).
  { unfold squeeze_shape; cbn [filter]; destruct (length rows =? 1)%nat eqn:E1; [apply Nat.eqb_eq in E1; lia|]; destruct (d =? 1)%nat eqn:E2; [apply Nat.eqb_eq in E2; lia|]; reflexivity. }
  rewrite E; unfold shape_eqb; destruct (list_eq_dec Nat.eq_dec _ _) as [_|N]; [|congruence]; cbn [negb]; f_equal; now apply chunk_concat.
Qed.
Lemma km_start a fs cs : same_factor a fs -> map (cent_in fs) (map Some cs) = map Some (map (in_units fs) cs).
Proof. intros _; rewrite !map_map; reflexivity. Qed.
Lemma wide_some w (cs : list (list R)) fs : w = length fs -> width w cs -> Forall (cent_wide fs) (map Some cs).
Proof. intros -> W; unfold width in W; rewrite Forall_forall in *; intros c Hc; apply in_map_iff in Hc; destruct Hc as (v & <- & Hv); now apply W. Qed.
Lemma km_fit_in a fs randint x n init tol epochs init' c : same_factor a fs -> width (length fs) x ->
  init_centroids randint (length fs) x n init = Ok c -> width (length fs) c ->
  init_centroids randint (length fs) (map (in_units fs) x) n init' = Ok (map (in_units fs) c) ->
  km_fit randint (length fs) (map (in_units fs) x) n init' (a * tol) epochs =
  (r <- km_fit randint (length fs) x n init tol epochs ;; Ok (map (cent_in fs) (fst (fst r)), snd (fst r), snd r)).
Proof.
  intros S W E C E'; unfold km_fit; rewrite E, E'; cbn [bind]; rewrite <- (km_start a fs c S); apply km_loop_in; auto; now apply (wide_some (length fs)).
Qed.

(** ** The convex hull *)
Section HullUnits.
Variables fx fy : R -> R.
Hypothesis Ux : unit_change fx.
Hypothesis Uy : unit_change fy.
Notation point_in := (point_units fx fy).
Lemma slope_in p q r : slope_leb (get_slope (point_in p) (point_in q)) (get_slope (point_in p) (point_in r)) = slope_leb (get_slope p q) (get_slope p r).
Proof.
  destruct Ux as (a & b & Ha & E), Uy as (a' & b' & Ha' & E').
  assert (G : forall s, get_slope (point_in p) (point_in s) = option_map (Rmult (a' / a)) (get_slope p s)).
  { intros s; unfold get_slope, point_units; cbn [fst snd]; rewrite !E, !E'.
    destruct (Reqb (fst p) (fst s)) eqn:Q.
    - apply Reqb_true in Q; rewrite Q; replace (Reqb (a * fst s + b) (a * fst s + b)) with true by (symmetry; now apply Reqb_true); reflexivity.
    - apply Reqb_false in Q; replace (Reqb (a * fst p + b) (a * fst s + b)) with false by (symmetry; apply Reqb_false; intros H; apply Q; apply (Rmult_eq_reg_l a); lra).
      cbn [option_map]; f_equal; replace (a * fst p + b - (a * fst s + b)) with (a * (fst p - fst s)) by ring; replace (a' * snd p + b' - (a' * snd s + b')) with (a' * (snd p - snd s)) by ring; field; split; lra. }
  rewrite !G; destruct (get_slope p q) as [u|], (get_slope p r) as [v|]; cbn [option_map slope_leb]; auto.
  assert (K : 0 < a' / a) by (apply Rdiv_lt_0_compat; lra).
  destruct (Rleb u v) eqn:Q; [apply Rleb_true in Q; apply Rleb_true; apply Rmult_le_compat_l; lra|apply Rleb_false in Q; apply Rleb_false; now apply Rmult_lt_compat_l].
Qed.
Lemma insert_by_in p x l : Hull.insert_by (fun u v => slope_leb (get_slope (point_in p) u) (get_slope (point_in p) v)) (point_in x) (map point_in l) =
  map point_in (Hull.insert_by (fun u v => slope_leb (get_slope p u) (get_slope p v)) x l).
Proof. induction l as [|y l IH]; [reflexivity|]; cbn [map Hull.insert_by]; rewrite slope_in; destruct (slope_leb _ _); [reflexivity|]; cbn [map]; now rewrite IH. Qed.
Lemma stable_sort_in p l : stable_sort (fun u v => slope_leb (get_slope (point_in p) u) (get_slope (point_in p) v)) (map point_in l) =
  map point_in (stable_sort (fun u v => slope_leb (get_slope p u) (get_slope p v)) l).
Proof. unfold stable_sort; induction l as [|y l IH]; [reflexivity|]; cbn [map fold_right]; rewrite IH; apply insert_by_in. Qed.
Lemma cross_in p q r : Rltb (get_cross_product (point_in p) (point_in q) (point_in r)) 0 = Rltb (get_cross_product p q r) 0.
Proof.
  destruct Ux as (a & b & Ha & E), Uy as (a' & b' & Ha' & E').
  assert (G : get_cross_product (point_in p) (point_in q) (point_in r) = (a * a') * get_cross_product p q r) by (unfold get_cross_product, point_units; cbn [fst snd]; rewrite !E, !E'; ring).
  rewrite G; assert (0 < a * a') by now apply Rmult_lt_0_compat.
  destruct (Rltb (get_cross_product p q r) 0) eqn:Q; [apply Rltb_true in Q; apply Rltb_true; nra|apply Rltb_false in Q; apply Rltb_false; nra].
Qed.
Lemma pop_loop_in p st : pop_loop (point_in p) (map point_in st) = map point_in (pop_loop p st).
Proof.
  induction st as [|b st IH]; [reflexivity|]; destruct st as [|c st]; [reflexivity|]; cbn [map] in *; change (pop_loop (point_in p) (point_in b :: point_in c :: map point_in st)) with
    (if Rltb (get_cross_product (point_in c) (point_in b) (point_in p)) 0 then pop_loop (point_in p) (point_in c :: map point_in st) else point_in b :: point_in c :: map point_in st).
  rewrite cross_in, IH; change (pop_loop p (b :: c :: st)) with (if Rltb (get_cross_product c b p) 0 then pop_loop p (c :: st) else b :: c :: st); now destruct (Rltb (get_cross_product c b p) 0).
Qed.
Lemma scan_in (s : point) (pts : list point) : scan (point_in s) (map point_in pts) = map point_in (scan s pts).
Proof.
  unfold scan; change [point_in s] with (map point_in [s]); generalize [s] as st; induction pts as [|p pts IH]; intros st; [reflexivity|]; cbn [map fold_left]; rewrite pop_loop_in; apply (IH (p :: pop_loop p st)).
Qed.
Lemma hull_in by_x pts : by_x (map point_in pts) = map point_in (by_x pts) ->
  compute_convex_hull by_x (map point_in pts) = (h <- compute_convex_hull by_x pts ;; Ok (map point_in h)).
Proof.
  intros H; unfold compute_convex_hull; rewrite H; destruct (by_x pts) as [|s [|q rest]]; [reflexivity..|]; cbn [bind].
  change (map point_in (s :: q :: rest)) with (point_in s :: point_in q :: map point_in rest); cbv iota; f_equal.
  change (point_in q :: map point_in rest) with (map point_in (q :: rest)); rewrite stable_sort_in, scan_in, <- map_rev, map_app; reflexivity.
Qed.
End HullUnits.
