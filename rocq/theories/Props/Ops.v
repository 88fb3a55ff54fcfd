(** Property theorems C12-C15, C64 (classicML/backend/python/ops.py). *)
From Coq Require Import List ZArith Reals Lra Lia Bool Arith.
From Verif.Model Require Import Base Ops.
From Verif.Spec Require Import Common Ops.
From Verif.Proof Require Import BaseLemmas Ops.
Import ListNotations.
Local Notation length := List.length.

(** ** C12 *)
Theorem C12_total : forall A (O : TotalOrder A) frac k y,
  (exists r, type_of_target O frac k y = Ok r) \/
  (array_ndim y = Some 0 /\ type_of_target O frac k y = Err IndexError).
Proof. exact @target_total. Qed.
Print Assumptions C12_total.

Theorem C12_unknown : forall A (O : TotalOrder A) frac k y,
  k = KObject \/ array_ndim y = None -> type_of_target O frac k y = Ok Unknown.
Proof. exact @target_unknown_kinds. Qed.
Print Assumptions C12_unknown.

Theorem C12_continuous_iff : forall A (O : TotalOrder A) frac k y, array_ndim y <> None ->
  (type_of_target O frac k y = Ok Continuous <-> k = KFloat /\ exists a, In a (elements y) /\ frac a = true).
Proof. exact @target_continuous_iff. Qed.
Print Assumptions C12_continuous_iff.

Theorem C12_vector : forall A (O : TotalOrder A) frac k l n, k <> KObject ->
  (k = KFloat -> forall a, In a l -> frac a = false) -> num_distinct l n ->
  type_of_target O frac k (A1 l) = Ok (if n =? 2 then Binary else if 2 <? n then Multiclass else Unknown).
Proof. exact @target_vector. Qed.
Print Assumptions C12_vector.

Theorem C12_matrix : forall A (O : TotalOrder A) frac k c rows n, k <> KObject ->
  (k = KFloat -> forall a, In a (List.concat rows) -> frac a = false) -> num_distinct (List.concat rows) n ->
  type_of_target O frac k (A2 c rows) =
    Ok (if n <? 2 then Unknown else if c =? 1 then (if n =? 2 then Binary else Multiclass) else Multilabel).
Proof. exact @target_matrix. Qed.
Print Assumptions C12_matrix.

(** Permuting or repeating samples: only the set of entries matters. *)
Theorem C12_set_of_entries_only : forall A (O : TotalOrder A) frac k y y', same_layout y y' ->
  (forall a, In a (elements y) <-> In a (elements y')) ->
  type_of_target O frac k y = type_of_target O frac k y'.
Proof. exact @target_set_only. Qed.
Print Assumptions C12_set_of_entries_only.

Example C12_witness : type_of_target ZOrder (fun _ => false) KOther (A1 [3; 5; 3; 7]%Z) = Ok Multiclass /\
  num_distinct [3; 5; 3; 7]%Z 3.
Proof.
  split; [vm_compute; reflexivity|]. exists [3; 5; 7]%Z. split; [repeat constructor; simpl; intuition discriminate|].
  split; auto. simpl; intuition.
Qed.

(** ** C13 *)
Theorem C13_pairs_kept : forall A B choice (x : array12 A) (y : array12 B),
  valid_choice choice -> length (as_rows x) = length (as_rows y) ->
  exists xs ys, bootstrap_sampling choice x (Some y) = Ok (xs, Some ys) /\
    length xs = length (as_rows x) /\ length ys = length (as_rows x) /\
    forall i r l, nth_error xs i = Some r -> nth_error ys i = Some l ->
      exists j, nth_error (as_rows x) j = Some r /\ nth_error (as_rows y) j = Some l.
Proof. exact @bootstrap_pairs. Qed.
Print Assumptions C13_pairs_kept.

Theorem C13_without_labels : forall A B choice (x : array12 A), valid_choice choice ->
  exists xs, bootstrap_sampling (B := B) choice x None = Ok (xs, None) /\ length xs = length (as_rows x) /\
    forall r, In r xs -> In r (as_rows x).
Proof. exact @bootstrap_plain. Qed.
Print Assumptions C13_without_labels.

Theorem C13_mismatch_rejected : forall A B choice (x : array12 A) (y : array12 B),
  length (as_rows x) <> length (as_rows y) -> bootstrap_sampling choice x (Some y) = Err ValueError.
Proof. exact @bootstrap_mismatch. Qed.
Print Assumptions C13_mismatch_rejected.

Example C13_witness : valid_choice (fun n => repeat 0 n) /\
  bootstrap_sampling (fun n => repeat 0 n) (Vec [5; 6]) (Some (Vec [true; false])) =
    Ok ([[5]; [5]], Some [[true]; [true]]).
Proof.
  split; [|reflexivity]. intros n. split; [apply repeat_length|]. apply Forall_forall. intros i Hi.
  pose proof (repeat_spec _ _ _ Hi). subst. destruct n; [contradiction|lia].
Qed.

(** ** C14 *)
Theorem C14_clip_is_nearest : forall a low high, (low <= high)%R ->
  (low <= clip_alpha a low high <= high)%R /\
  (forall z, (low <= z <= high)%R -> (Rabs (a - clip_alpha a low high) <= Rabs (a - z))%R) /\
  ((low <= a <= high)%R -> clip_alpha a low high = a).
Proof. exact clip_nearest. Qed.
Print Assumptions C14_clip_is_nearest.

Theorem C14_second_multiplier : forall error cache flags i e,
  select_second_alpha error cache flags = Ok (i, e) ->
  nth_error flags i = Some true /\ nth_error cache i = Some e /\
  forall j ej, nth_error flags j = Some true -> nth_error cache j = Some ej ->
    (Rabs (error - ej) <= Rabs (error - e))%R.
Proof. exact select_spec. Qed.
Print Assumptions C14_second_multiplier.

Theorem C14_second_multiplier_total : forall error cache flags,
  length cache = length flags ->
  ((exists j, nth_error flags j = Some true) -> exists i e, select_second_alpha error cache flags = Ok (i, e)) /\
  ((forall j, nth_error flags j <> Some true) -> select_second_alpha error cache flags = Err ValueError).
Proof. exact select_total. Qed.
Print Assumptions C14_second_multiplier_total.

Example C14_witness : exists i e, select_second_alpha 1%R [2; -3; 9]%R [true; true; false] = Ok (i, e).
Proof.
  apply (proj1 (select_total 1%R [2; -3; 9]%R [true; true; false] eq_refl)). exists 0. reflexivity.
Qed.

(** ** C15 *)
Theorem C15_random : forall randint d x n, valid_randint randint -> x <> [] ->
  exists c, init_centroids randint d x n InitRandom = Ok c /\ length c = n /\ forall r, In r c -> In r x.
Proof. exact init_random. Qed.
Print Assumptions C15_random.

Theorem C15_indices : forall randint d x n idx, 2 <= n -> length idx = n ->
  Forall (fun i => i < length x) idx ->
  exists c, init_centroids randint d x n (InitArray {| shape := [n]; data := Ints (map Z.of_nat idx) |}) = Ok c /\
    Forall2 (fun i r => nth_error x i = Some r) idx c.
Proof. exact init_indices. Qed.
Print Assumptions C15_indices.

Theorem C15_bad_indices_rejected : forall randint d x n idx,
  length idx <> 1 ->
  length idx <> n \/ (exists z, In z idx /\ (z < 0 \/ Z.of_nat (length x) <= z)%Z) ->
  init_centroids randint d x n (InitArray {| shape := [length idx]; data := Ints idx |}) = Err ValueError.
Proof. exact init_indices_rejected. Qed.
Print Assumptions C15_bad_indices_rejected.

Theorem C15_explicit : forall randint d x n rows, 2 <= n -> 2 <= d -> length rows = n ->
  (forall r, In r rows -> length r = d) ->
  init_centroids randint d x n (InitArray {| shape := [n; d]; data := Floats (List.concat rows) |}) = Ok rows.
Proof. exact init_explicit. Qed.
Print Assumptions C15_explicit.

Theorem C15_one_cluster_always_rejected : forall randint d x a,
  init_centroids randint d x 1 (InitArray a) = Err ValueError.
Proof. exact init_one_cluster. Qed.
Print Assumptions C15_one_cluster_always_rejected.

Theorem C15_one_feature_read_as_indices : forall randint x n idx, 2 <= n -> length idx = n ->
  Forall (fun i => i < length x) idx ->
  exists c, init_centroids randint 1 x n (InitArray {| shape := [n; 1]; data := Ints (map Z.of_nat idx) |}) = Ok c /\
    Forall2 (fun i r => nth_error x i = Some r) idx c.
Proof. exact init_one_feature_int. Qed.
Print Assumptions C15_one_feature_read_as_indices.

Theorem C15_one_feature_floats_rejected : forall randint x n a l, data a = Floats l ->
  exists e, init_centroids randint 1 x n (InitArray a) = Err e.
Proof. exact init_one_feature_float. Qed.
Print Assumptions C15_one_feature_floats_rejected.

Example C15_witness : valid_randint (fun _ b => repeat 0 b) /\
  exists c, init_centroids (fun _ b => repeat 0 b) 2 [[1; 2]; [3; 4]; [5; 6]]%R 2
    (InitArray {| shape := [2]; data := Ints [2; 0]%Z |}) = Ok c.
Proof.
  split.
  - intros a b Ha. split; [apply repeat_length|]. apply Forall_forall. intros i Hi.
    pose proof (repeat_spec _ _ _ Hi). subst. lia.
  - destruct (init_indices (fun _ b => repeat 0 b) 2 [[1; 2]; [3; 4]; [5; 6]]%R 2 [2; 0]) as (c & Hc & _); simpl; auto.
    + repeat constructor; simpl; lia.
    + exists c. exact Hc.
Qed.

(** ** C64 *)
Theorem C64_default_mixture : forall n, 0 < n ->
  exists a, init_mixture_coefficient n CovNone = Ok a /\ length a = n /\ rsum a = 1%R /\ forall z, In z a -> (0 < z)%R.
Proof. exact mixture_default. Qed.
Print Assumptions C64_default_mixture.

Theorem C64_given_mixture : forall n a r,
  init_mixture_coefficient n (CovArray a) = Ok r -> r = flat_reals (data a) /\ rsum r = 1%R.
Proof. exact mixture_given. Qed.
Print Assumptions C64_given_mixture.

(** Negative weights are accepted as long as the sum is 1. *)
Theorem C64_weights_are_probabilities_refuted : exists n a r,
  init_mixture_coefficient n (CovArray a) = Ok r /\ exists z, In z r /\ (z < 0)%R.
Proof.
  exists 2, {| shape := [2]; data := Floats [2; -1]%R |}, [2; -1]%R. split.
  - unfold init_mixture_coefficient. simpl. replace (Reqb _ 1) with true; [reflexivity|].
    symmetry. apply Reqb_true. unfold rsum; simpl; lra.
  - exists (-1)%R. simpl. split; [auto|lra].
Qed.
Print Assumptions C64_weights_are_probabilities_refuted.

Theorem C64_one_component_rejected : forall a, exists e, init_mixture_coefficient 1 (CovArray a) = Err e.
Proof. exact mixture_one. Qed.
Print Assumptions C64_one_component_rejected.

Theorem C64_default_covariance : forall d n i j k m,
  k < n -> i < d -> j < d -> init_covariances d n CovNone = Ok m ->
  nth j (nth i (nth k m []) []) 0%R = if i =? j then (1/10)%R else 0%R.
Proof. exact covariance_default. Qed.
Print Assumptions C64_default_covariance.

Theorem C64_degenerate_covariance_rejected : forall d n a, n = 1 \/ d = 1 ->
  init_covariances d n (CovArray a) = Err ValueError.
Proof. exact covariance_degenerate. Qed.
Print Assumptions C64_degenerate_covariance_rejected.

Example C64_witness : exists r,
  init_mixture_coefficient 2 (CovArray {| shape := [2]; data := Floats [1/4; 3/4]%R |}) = Ok r.
Proof.
  unfold init_mixture_coefficient. simpl.
  replace (Reqb _ 1) with true; [eexists; reflexivity|]. symmetry. apply Reqb_true. unfold rsum; simpl; lra.
Qed.
