(** Model of K-means: classicML/api/models/cluster/k_means.py 67-129 and
    classicML/backend/python/ops.py 128-150, 226-244, 313-349. Floats are exact
    reals; a NaN row (the mean of no samples) is [None]; [d] is [x.shape[1]]. *)
From Coq Require Import List ZArith Reals Bool Arith.
From Verif.Model Require Import Base Ops.
Import ListNotations.
Local Open Scope R_scope.

(** A row of [centroids] (k_means.py 46, ops.py 148). *)
Definition centroid := option (list R).

(** ops.py 226-244 [calculate_euclidean_distance]: row [r] against one centroid. *)
Definition distance (r : list R) (c : centroid) : option R :=
  match c with None => None | Some v => Some (sqrt (sqnorm (vsub r v))) end.
(** ops.py 226-244 [calculate_euclidean_distance]. *)
Definition calculate_euclidean_distance (x : list (list R)) (c : list centroid) : list (list (option R)) :=
  map (fun r => map (distance r) c) x.

(** numpy's [argmin] order: NaN comes before every number. (ops.py 349). *)
Definition nan_lt (a b : option R) : bool :=
  match a, b with
  | None, Some _ => true
  | Some u, Some v => Rltb u v
  | _, None => false
  end.

(** ops.py 335-349 [get_cluster]: the first minimum of each row; ValueError
    without centroids. *)
Definition get_cluster (distances : list (list (option R))) : result (list nat) := mapM (argmin nan_lt) distances.

(** ops.py 148 [np.mean(x[clusters == cluster], axis=0)]; NaN without rows. *)
Definition mean_rows (d : nat) (rows : list (list R)) : centroid :=
  match rows with [] => None | _ => Some (map (fun j => rmean (column 0 rows j)) (seq 0 d)) end.

(** ops.py 148 [x[clusters == cluster]]. *)
Definition members (x : list (list R)) (cl : list nat) (k : nat) : list (list R) :=
  map fst (filter (fun p => (snd p =? k)%nat) (combine x cl)).
(** ops.py 128-150 [calculate_centroids]. *)
Definition calculate_centroids (d : nat) (x : list (list R)) (cl : list nat) : list centroid :=
  map (fun k => mean_rows d (members x cl k)) (seq 0 (length (nodup Nat.eq_dec cl))).

(** ops.py 313-332 [compare_differences] of two rows; a comparison with NaN is
    False. *)
Definition differ (tol : R) (a b : centroid) : bool :=
  match a, b with
  | Some u, Some v => existsb (fun p => Rltb tol (Rabs (fst p - snd p))) (combine u v)
  | _, _ => false
  end.
(** ops.py 313-332 [compare_differences] followed by [.any()] (k_means.py 94).
    Arrays with different numbers of rows are broadcast if one of them has a single
    row, else ValueError. *)
Definition compare_differences_any (c0 c1 : list centroid) (tol : R) : result bool :=
  if (length c0 =? length c1)%nat then Ok (existsb (fun p => differ tol (fst p) (snd p)) (combine c0 c1))
  else match c0, c1 with
       | _, [b] => Ok (existsb (fun a => differ tol a b) c0)
       | [a], _ => Ok (existsb (fun b => differ tol a b) c1)
       | _, _ => Err ValueError
       end.

(** k_means.py 86-97: the training loop. The boolean says whether the loop was left
    by [break]. *)
Fixpoint km_loop (d : nat) (x : list (list R)) (tol : R) (epochs : nat) (c : list centroid)
  (cl : option (list nat)) : result (list centroid * option (list nat) * bool) :=
  match epochs with
  | O => Ok (c, cl, false)
  | S epochs' =>
      labels <- get_cluster (calculate_euclidean_distance x c) ;;
      let c' := calculate_centroids d x labels in
      changed <- compare_differences_any c c' tol ;;
      if changed : bool then km_loop d x tol epochs' c' (Some labels) else Ok (c, Some labels, true)
  end.

(** k_means.py 67-101 [fit]; [clusters] is [None] before the first round. *)
Definition km_fit (randint : nat -> nat -> list nat) (d : nat) (x : list (list R)) (n_clusters : nat)
  (init : init_arg) (tol : R) (epochs : nat) : result (list centroid * option (list nat) * bool) :=
  c <- init_centroids randint d x n_clusters init ;; km_loop d x tol epochs (map Some c) None.

(** k_means.py 103-129 [predict] of a trained model. *)
Definition km_predict (c : list centroid) (x : list (list R)) : result (list nat) :=
  get_cluster (calculate_euclidean_distance x c).
