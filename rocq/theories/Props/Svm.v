(** C24-C28, C66: support vector machines. *)
From Coq Require Import List ZArith Reals Lra Lia Permutation.
From Verif.Model Require Import Base Ops Kernels Smo.
From Verif.Spec Require Import Common Smo.
From Verif.Proof Require Import BaseLemmas Smo Kernels SmoExample SmoMain.
Import ListNotations.
Local Open Scope R_scope.

(** ** C24 *)
Theorem C24_every_moment : forall K x y C s,
  length x = length y -> pm_labels y -> 0 <= C -> reached K x y C s -> feasible C y (alphas s).
Proof. exact every_moment. Qed.
Print Assumptions C24_every_moment.

Theorem C24_training_is_a_history : forall K x y C tol perms fuel epochs s,
  length x = length y -> pm_labels y -> 0 <= C -> permutations_of (length x) perms ->
  smo_run K x y C tol perms fuel epochs = Ok s -> reached K x y C s /\ feasible C y (alphas s).
Proof. exact training_history. Qed.
Print Assumptions C24_training_is_a_history.

(** A limit on the number of passes ends the training. *)
Theorem C24_training_ends : forall K x y C tol perms epochs,
  (0 <= epochs)%Z -> exists s, smo_run K x y C tol perms (S (Z.to_nat epochs)) epochs = Ok s.
Proof. exact training_ends. Qed.
Print Assumptions C24_training_ends.

Example C24_witness : pm_labels ex_y /\ permutations_of 3 ex_perms /\ reached linear ex_x ex_y 2 ex_2 /\ alphas ex_2 = [3/2; 1; 1/2].
Proof. exact (conj ex_labels (conj ex_permutations (conj ex_reached eq_refl))). Qed.

(** ** C25 *)
Theorem C25_flags_agree : forall K x y C s,
  length x = length y -> pm_labels y -> 0 <= C -> reached K x y C s ->
  forall m, (m < length x)%nat ->
    (nth m (non_zero s) false = true <-> 0 < nth m (alphas s) 0) /\
    (nth m (non_bound s) false = true <-> 0 < nth m (alphas s) 0 < C).
Proof. exact flags_agree. Qed.
Print Assumptions C25_flags_agree.

Theorem C25_support_set : forall K x y C tol perms fuel epochs m,
  length x = length y -> pm_labels y -> 0 <= C -> permutations_of (length x) perms ->
  svc_fit K x y C tol perms fuel epochs = Ok m ->
  exists al, feasible C y al /\
    (forall k, In k (support m) <-> (k < length x)%nat /\ 0 < nth k al 0) /\
    Sorted.StronglySorted lt (support m) /\
    support_vector m = map (fun k => nth k x []) (support m) /\
    support_alpha m = map (fun k => nth k al 0) (support m) /\
    support_y m = map (fun k => nth k y 0) (support m) /\
    Forall (fun a => 0 < a <= C) (support_alpha m) /\
    total (map (fun p => fst p * snd p) (combine (support_alpha m) (support_y m))) = 0.
Proof. exact support_set. Qed.
Print Assumptions C25_support_set.

Example C25_witness : support (svc_of ex_x ex_y ex_1) = [0; 2]%nat /\ support_alpha (svc_of ex_x ex_y ex_1) = [1/2; 1/2].
Proof. split; reflexivity. Qed.

(** ** C26 *)
Theorem C26_exact_update_is_optimal : forall K x y C s i j s',
  length x = length y -> pm_labels y -> 0 <= C -> symmetric K -> reached K x y C s ->
  (i < length x)%nat -> (j < length x)%nat ->
  let e := exact_error K x y (alphas s) (bias s) in
  update_alpha K x y C s i j (e i) (e j) = Some s' ->
  (forall al, differ_at i j (alphas s) al -> feasible C y al -> dual K x y al <= dual K x y (alphas s')) /\
  dual K x y (alphas s) < dual K x y (alphas s') /\
  differ_at i j (alphas s) (alphas s').
Proof. exact exact_update. Qed.
Print Assumptions C26_exact_update_is_optimal.

(** Errors computed afresh (not read from the cache) are exact. *)
Theorem C26_fresh_errors_are_exact : forall K x y C s i,
  length x = length y -> pm_labels y -> 0 <= C -> reached K x y C s ->
  calculate_error K x y i (alphas s) (non_zero s) (bias s) = exact_error K x y (alphas s) (bias s) i.
Proof. exact fresh_errors. Qed.
Print Assumptions C26_fresh_errors_are_exact.

(** What the cache holds after an update: the samples that had a zero
    multiplier before the update are missing from the refreshed entries. *)
Theorem C26_cache_after_update : forall K x y C s i j ei ej s' k,
  length x = length y -> pm_labels y -> 0 <= C -> reached K x y C s ->
  (i < length x)%nat -> (j < length x)%nat -> (k < length x)%nat ->
  update_alpha K x y C s i j ei ej = Some s' ->
  nth k (error_cache s') 0 =
  if nth k (non_bound s) false then
    exact_error K x y (alphas s') (bias s') k
    - (if nth i (non_zero s) false then 0 else nth i (alphas s') 0 * nth i y 0 * K (nth i x []) (nth k x []))
    - (if nth j (non_zero s) false then 0 else nth j (alphas s') 0 * nth j y 0 * K (nth j x []) (nth k x []))
  else nth k (error_cache s) 0.
Proof. exact cache_after_update. Qed.
Print Assumptions C26_cache_after_update.

(** Training does not always increase the dual objective: after one pass over
    the samples the next update, computed from a stale cached error, lowers it. *)
Theorem C26_training_can_lower_the_dual : exists x y C tol perms s d s' d',
  length x = length y /\ pm_labels y /\ 0 < C /\ permutations_of (length x) perms /\
  pass linear x y C tol perms (seq 0 (length x)) (smo_init x, 0%nat) = ((s, d), 2%nat) /\
  update_parameters linear x y C tol perms (s, d) 0 = ((s', d'), true) /\
  nth 0 (error_cache s) 0 <> exact_error linear x y (alphas s) (bias s) 0 /\
  dual linear x y (alphas s') < dual linear x y (alphas s).
Proof. exact dual_lowered. Qed.
Print Assumptions C26_training_can_lower_the_dual.

Example C26_witness : exists s', reached linear ex_x ex_y 2 (smo_init ex_x) /\
  update_alpha linear ex_x ex_y 2 (smo_init ex_x) 0 2 (exact_error linear ex_x ex_y (alphas (smo_init ex_x)) 0 0)
    (exact_error linear ex_x ex_y (alphas (smo_init ex_x)) 0 2) = Some s'.
Proof. exact ex_exact_update. Qed.

(** ** C27 *)
Theorem C27_symmetric : forall gamma degree beta theta,
  symmetric linear /\ symmetric (polynomial gamma degree) /\ symmetric (rbf gamma) /\ symmetric (sigmoid_kernel gamma beta theta).
Proof. exact kernels_symmetric. Qed.
Print Assumptions C27_symmetric.

Theorem C27_rbf_range : forall gamma a b, 0 <= gamma ->
  0 < rbf gamma a b <= 1 /\ rbf gamma a a = 1.
Proof. exact rbf_values. Qed.
Print Assumptions C27_rbf_range.

Theorem C27_positive_semidefinite : forall gamma degree, 0 <= gamma ->
  positive_semidefinite linear /\ positive_semidefinite (polynomial gamma degree) /\ positive_semidefinite (rbf gamma).
Proof. exact kernels_psd. Qed.
Print Assumptions C27_positive_semidefinite.

Theorem C27_curvature : forall gamma degree a b, 0 <= gamma -> length a = length b ->
  0 <= curvature linear a b /\ 0 <= curvature (polynomial gamma degree) a b /\ 0 <= curvature (rbf gamma) a b /\
  (a <> b -> 0 < curvature linear a b) /\ (0 < gamma -> a <> b -> 0 < curvature (rbf gamma) a b).
Proof. exact kernels_curvature. Qed.
Print Assumptions C27_curvature.

(** The sigmoid kernel with its default parameters is not positive semidefinite. *)
Theorem C27_sigmoid_refuted : exists a b, length a = length b /\ curvature (sigmoid_kernel 1 1 (-1)) a b < 0.
Proof. exact sigmoid_refuted. Qed.
Print Assumptions C27_sigmoid_refuted.

Example C27_witness : gram_form linear [1; -1] [[1]; [3]] = 4.
Proof. exact gram_example. Qed.

(** ** C28 *)
Theorem C28_support_vectors_suffice : forall K x y C tol perms fuel epochs m,
  length x = length y -> pm_labels y -> 0 <= C -> symmetric K -> permutations_of (length x) perms ->
  svc_fit K x y C tol perms fuel epochs = Ok m ->
  exists al b, feasible C y al /\ forall q,
    svc_decision K m q = decision K x y al b q /\
    (decision K x y al b q < 0 -> svc_predict K m q = (-1)%Z) /\
    (0 <= decision K x y al b q -> svc_predict K m q = 1%Z).
Proof. exact support_suffices. Qed.
Print Assumptions C28_support_vectors_suffice.

Example C28_witness : exists m, svc_fit linear ex_x ex_y 2 (1 / 1000) ex_perms 1 0 = Ok m /\ svc_predict linear m [1] = 1%Z.
Proof. exact ex_predict. Qed.

(** ** C66 *)
Theorem C66_converged : forall K x y C tol perms fuel s,
  length x = length y -> pm_labels y -> 0 <= C -> permutations_of (length x) perms ->
  smo_run K x y C tol perms fuel (-1) = Ok s ->
  forall i, (i < length x)%nat ->
  let e := if nth i (non_bound s) false then nth i (error_cache s) 0 else exact_error K x y (alphas s) (bias s) i in
  kkt C tol (nth i y 0) (nth i (alphas s) 0) e \/
  forall j, (j < length x)%nat -> update_alpha K x y C s i j e (exact_error K x y (alphas s) (bias s) j) = None.
Proof. exact converged_run. Qed.
Print Assumptions C66_converged.

(** The order of the sweeps: training stops after a full sweep that changes
    nothing, or when the epochs are used up. *)
Theorem C66_schedule : forall K x y C tol perms fuel epochs s,
  length x = length y -> pm_labels y -> 0 <= C -> permutations_of (length x) perms ->
  smo_run K x y C tol perms fuel epochs = Ok s ->
  exists sweeps settled d,
    schedule (fun idx sd sd' k => pass K x y C tol perms idx sd = (sd', k)) (seq 0 (length x))
             (fun sd idx => between_bounds C (length x) (alphas (fst sd)) idx)
             true sweeps settled (smo_init x, 0%nat) (s, d) /\
    (settled = false -> epochs <> (-1)%Z /\ Z.of_nat sweeps = Z.max 0 epochs) /\
    (epochs <> (-1)%Z -> (Z.of_nat sweeps <= Z.max 0 epochs)%Z).
Proof. exact run_schedule. Qed.
Print Assumptions C66_schedule.

Example C66_witness : smo_run linear two_x two_y 2 (1 / 1000) two_perms 3 (-1) = Ok two_1 /\ pm_labels two_y /\
  permutations_of (length two_x) two_perms.
Proof. exact (conj two_run (conj two_labels two_permutations)). Qed.
