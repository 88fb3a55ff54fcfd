(** C99: the results do not depend on the units of measurement. *)
From Coq Require Import List ZArith Reals Lra Lia Bool Arith.
From Verif.Model Require Import Base Ops Preprocessing KMeans Hull.
From Verif.Spec Require Import Units.
From Verif.Proof Require Import BaseLemmas Units UnitsMore.
Import ListNotations.
Local Open Scope R_scope.

(** ** C99: scalers, the convex hull and k-means *)
Theorem C99_minmax : forall f data, unit_change f ->
  match minmax_call data with
  | Err e => minmax_call (map f data) = Err e
  | Ok (out, (lo, hi)) => minmax_call (map f data) = Ok (out, (f lo, f hi))
  end.
Proof. intros f data U; rewrite minmax_in by exact U; destruct (minmax_call data) as [[out [lo hi]]|]; reflexivity. Qed.
Print Assumptions C99_minmax.
(** On a matrix, every column may have its own units. *)
Theorem C99_minmax_columns : forall fs x, Forall unit_change fs -> width (length fs) x ->
  (r <- minmax_call2 Axis0 (length fs) (map (in_units fs) x) ;; Ok (fst r)) = (r <- minmax_call2 Axis0 (length fs) x ;; Ok (fst r)).
Proof. exact minmax2_in. Qed.
Print Assumptions C99_minmax_columns.
(** The standard scaler forgets offsets but not factors: it divides by the variance,
    so that its results are in the inverse unit. *)
Theorem C99_standard : forall a b data, a <> 0 -> data <> [] ->
  fst (standard_call (map (fun x => a * x + b) data)) = map (option_map (Rmult (/ a))) (fst (standard_call data)).
Proof. intros a b data Ha N; rewrite standard_in by assumption; reflexivity. Qed.
Print Assumptions C99_standard.
Theorem C99_standard_offset : forall b data, data <> [] -> fst (standard_call (map (fun x => x + b) data)) = fst (standard_call data).
Proof.
  intros b data N; rewrite (map_ext (fun x => x + b) (fun x => 1 * x + b)) by (intros; ring); rewrite C99_standard by (auto; lra).
  rewrite <- map_id; apply map_ext; intros [x|]; cbn; [f_equal; lra|reflexivity].
Qed.
Print Assumptions C99_standard_offset.
Theorem C99_standard_units_refuted : exists f data, unit_change f /\ fst (standard_call (map f data)) <> fst (standard_call data).
Proof.
  exists (fun x => 2 * x + 0), [0; 2]; split; [exists 2, 0; split; [lra|reflexivity]|]; rewrite (C99_standard 2 0 [0; 2]) by (try discriminate; lra).
  unfold standard_call; cbn [fst map]; unfold npdiv.
  assert (V : rvar [0; 2] = 1) by (unfold rvar, rmean, rsum; cbn; lra); assert (M : rmean [0; 2] = 1) by (unfold rmean, rsum; cbn; lra); rewrite V, M.
  destruct (Req_EM_T 1 0) as [E|_]; [lra|]; cbn [option_map]; intros E; injection E as E _; lra.
Qed.
Print Assumptions C99_standard_units_refuted.

(** The convex hull, when sorting by the first coordinate looks at the order of the
    coordinates only. *)
Theorem C99_hull : forall fx fy by_x pts, unit_change fx -> unit_change fy -> by_x (map (point_units fx fy) pts) = map (point_units fx fy) (by_x pts) ->
  compute_convex_hull by_x (map (point_units fx fy) pts) = (h <- compute_convex_hull by_x pts ;; Ok (map (point_units fx fy) h)).
Proof. intros fx fy by_x pts Ux Uy H; now apply hull_in. Qed.
Print Assumptions C99_hull.
Theorem C99_hull_stable : forall fx fy pts, unit_change fx -> unit_change fy -> let by_x := stable_sort (fun p q => Rleb (fst p) (fst q)) in
  compute_convex_hull by_x (map (point_units fx fy) pts) = (h <- compute_convex_hull by_x pts ;; Ok (map (point_units fx fy) h)).
Proof.
  intros fx fy pts Ux Uy by_x; apply hull_in; auto; unfold by_x, stable_sort; induction pts as [|p pts IH]; [reflexivity|]; cbn [map fold_right]; rewrite IH; clear IH.
  generalize (fold_right (Hull.insert_by (fun p q : R * R => Rleb (fst p) (fst q))) [] pts); intros l; induction l as [|y l IH]; [reflexivity|].
  cbn [map Hull.insert_by]; unfold point_units at 1 2; cbn [fst]; rewrite unit_leb by exact Ux; destruct (Rleb (fst p) (fst y)); [reflexivity|]; cbn [map]; now rewrite IH.
Qed.
Print Assumptions C99_hull_stable.

(** K-means, when all columns share one factor and [tol] is in the same unit. *)
Theorem C99_kmeans : forall a fs randint x n init tol epochs q, same_factor a fs -> width (length fs) x -> width (length fs) q -> starts_at_rows init ->
  match km_fit randint (length fs) x n init tol epochs with
  | Err e => km_fit randint (length fs) (map (in_units fs) x) n init (a * tol) epochs = Err e
  | Ok (cs, labels, stopped) => exists cs', km_fit randint (length fs) (map (in_units fs) x) n init (a * tol) epochs = Ok (cs', labels, stopped) /\
      cs' = map (option_map (in_units fs)) cs /\ km_predict cs' (map (in_units fs) q) = km_predict cs q
  end.
Proof.
  intros a fs randint x n init tol epochs q S W Wq B; apply starts_by_rows in B.
  destruct (init_centroids randint (length fs) x n init) as [c|e] eqn:E.
  - pose proof (init_wide randint (length fs) x n init c B W E) as C; pose proof (init_in fs randint x n init B) as E'; rewrite E in E'; cbn [bind] in E'.
    rewrite (km_fit_in a fs randint x n init tol epochs init c S W E C E'); destruct (km_fit randint (length fs) x n init tol epochs) as [[[cs labels] stopped]|] eqn:K; cbn [bind fst snd]; [|reflexivity].
    eexists; split; [reflexivity|]; split; [reflexivity|]; apply (km_predict_in a); auto.
    unfold km_fit in K; rewrite E in K; cbn [bind] in K; apply km_loop_wide in K; [exact K|now apply (wide_some (length fs))].
  - pose proof (init_in fs randint x n init B) as E'; rewrite E in E'; cbn [bind] in E'; unfold km_fit; rewrite E, E'; reflexivity.
Qed.
Print Assumptions C99_kmeans.
(** With given starting centroids, which change with the units. *)
Theorem C99_kmeans_given : forall a fs randint x rows tol epochs q, same_factor a fs -> width (length fs) x -> width (length fs) q -> width (length fs) rows ->
  (1 < length fs)%nat -> (1 < length rows)%nat ->
  match km_fit randint (length fs) x (length rows) (start_array rows (length fs)) tol epochs with
  | Err e => km_fit randint (length fs) (map (in_units fs) x) (length rows) (start_array (map (in_units fs) rows) (length fs)) (a * tol) epochs = Err e
  | Ok (cs, labels, stopped) => exists cs',
      km_fit randint (length fs) (map (in_units fs) x) (length rows) (start_array (map (in_units fs) rows) (length fs)) (a * tol) epochs = Ok (cs', labels, stopped) /\
      cs' = map (option_map (in_units fs)) cs /\ km_predict cs' (map (in_units fs) q) = km_predict cs q
  end.
Proof.
  intros a fs randint x rows tol epochs q S W Wq Wr Hd Hr.
  pose proof (init_given randint (length fs) x rows Hd Hr Wr) as E.
  assert (Wr' : width (length fs) (map (in_units fs) rows)).
  { unfold width in *; rewrite Forall_forall in *; intros r H; apply in_map_iff in H; destruct H as (v & <- & Hv); apply in_units_length; now apply Wr. }
  assert (E' : init_centroids randint (length fs) (map (in_units fs) x) (length rows) (start_array (map (in_units fs) rows) (length fs)) = Ok (map (in_units fs) rows)).
  { pose proof (init_given randint (length fs) (map (in_units fs) x) (map (in_units fs) rows) Hd) as H; rewrite map_length in H; now apply H. }
  rewrite (km_fit_in a fs randint x (length rows) _ tol epochs _ rows S W E Wr E').
  destruct (km_fit randint (length fs) x (length rows) (start_array rows (length fs)) tol epochs) as [[[cs labels] stopped]|] eqn:K; cbn [bind fst snd]; [|reflexivity].
  eexists; split; [reflexivity|]; split; [reflexivity|]; apply (km_predict_in a); auto.
  unfold km_fit in K; rewrite E in K; cbn [bind] in K; apply km_loop_wide in K; [exact K|now apply (wide_some (length fs))].
Qed.
Print Assumptions C99_kmeans_given.

Lemma nearest u v : argmin nan_lt [Some (sqrt u); Some (sqrt v)] = Ok (if Rltb (sqrt v) (sqrt u) then 1%nat else 0%nat).
Proof. reflexivity. Qed.
Lemma nearer u v : 0 <= v -> v < u -> Rltb (sqrt v) (sqrt u) = true.
Proof. intros; apply Rltb_true; apply sqrt_lt_1; lra. Qed.
Lemma farther u v : 0 <= u -> u <= v -> Rltb (sqrt v) (sqrt u) = false.
Proof. intros; apply Rltb_false; apply sqrt_le_1; lra. Qed.
(** Different factors can change the clusters. *)
Theorem C99_kmeans_columns_refuted : exists fs x rows labels labels', Forall unit_change fs /\ width (length fs) x /\ width (length fs) rows /\ labels <> labels' /\ forall randint tol,
  (exists cs s, km_fit randint (length fs) x (length rows) (start_array rows (length fs)) tol 1 = Ok (cs, Some labels, s)) /\
  (exists cs s, km_fit randint (length fs) (map (in_units fs) x) (length rows) (start_array (map (in_units fs) rows) (length fs)) tol 1 = Ok (cs, Some labels', s)).
Proof.
  exists [fun x => 1 * x + 0; fun x => 10 * x + 0], [[0; 0]; [4; 1]; [3; 0]], [[0; 0]; [4; 1]], [0; 1; 1]%nat, [0; 1; 0]%nat.
  split; [repeat constructor; eexists _, _; (split; [|reflexivity]); lra|]; split; [repeat constructor|]; split; [repeat constructor|]; split; [discriminate|]; intros randint tol; split.
  - unfold km_fit; change (length [fun x => 1 * x + 0; fun x => 10 * x + 0]) with 2%nat; rewrite init_given by (repeat constructor); cbn [bind map km_loop].
    assert (G : get_cluster (calculate_euclidean_distance [[0; 0]; [4; 1]; [3; 0]] [Some [0; 0]; Some [4; 1]]) = Ok [0; 1; 1]%nat).
    { unfold get_cluster, calculate_euclidean_distance; cbn [map distance vsub combine fst snd sqnorm dot mapM]; rewrite !nearest; cbn [bind].
      unfold sqnorm; cbn [dot]; rewrite farther, !nearer by lra; reflexivity. }
    rewrite G; cbn [bind]; unfold compare_differences_any; cbn [calculate_centroids nodup in_dec length seq map Nat.eqb].
    destruct (existsb _ _); cbn [bind]; eexists _, _; reflexivity.
  - assert (U : forall u v, in_units [fun x => 1 * x + 0; fun x => 10 * x + 0] [u; v] = [u; 10 * v]) by (intros u v; unfold in_units; cbn [combine map fst snd]; do 2 (f_equal; try ring)).
    cbn [map]; rewrite !U; unfold km_fit; change (length [fun x => 1 * x + 0; fun x => 10 * x + 0]) with 2%nat; change (length [[0; 0]; [4; 1]]) with (length [[0; 10 * 0]; [4; 10 * 1]]).
    rewrite init_given by (repeat constructor); cbn [bind map km_loop].
    assert (G : get_cluster (calculate_euclidean_distance [[0; 10 * 0]; [4; 10 * 1]; [3; 10 * 0]] [Some [0; 10 * 0]; Some [4; 10 * 1]]) = Ok [0; 1; 0]%nat).
    { unfold get_cluster, calculate_euclidean_distance; cbn [map distance vsub combine fst snd sqnorm dot mapM]; rewrite !nearest; cbn [bind].
      unfold sqnorm; cbn [dot]; rewrite farther, nearer, farther by lra; reflexivity. }
    rewrite G; cbn [bind]; unfold compare_differences_any; cbn [calculate_centroids nodup in_dec length seq map Nat.eqb].
    destruct (existsb _ _); cbn [bind]; eexists _, _; reflexivity.
Qed.
Print Assumptions C99_kmeans_columns_refuted.

Definition from_fahrenheit (f : R) : R := 5 / 9 * f + -160 / 9.
Definition degrees (f : R) : R := 5 / 9 * f + 0.
Example C99_units_example : same_factor (5 / 9) [from_fahrenheit; degrees] /\ starts_at_rows InitRandom /\ starts_at_rows (InitArray {| shape := [2%nat]; data := Ints [0; 2]%Z |}) /\ (exists out, minmax_call [0; 1; 2] = Ok out) /\ (exists h, compute_convex_hull (stable_sort (fun p q => Rleb (fst p) (fst q))) [(0, 0); (2, 1); (1, 5)] = Ok h).
Proof.
  split; [split; [lra|]; repeat constructor; eexists; reflexivity|]; split; [now left|]; split; [right; exists [0; 2]%Z; split; [discriminate|reflexivity]|]; split; [eexists; reflexivity|].
  unfold compute_convex_hull, stable_sort; cbn [fold_right Hull.insert_by fst].
  replace (Rleb 2 1) with false by (symmetry; apply Rleb_false; lra); cbn [Hull.insert_by fst]; replace (Rleb 0 1) with true by (symmetry; apply Rleb_true; lra).
  eexists; reflexivity.
Qed.
