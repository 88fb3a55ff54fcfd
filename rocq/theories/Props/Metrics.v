(** Property theorems C53: accuracy (classicML/backend/python/metrics.py). *)
From Coq Require Import List ZArith Reals Lra Lia Arith Permutation.
From Verif.Model Require Import Base Metrics.
From Verif.Spec Require Import Common Metrics.
From Verif.Proof Require Import BaseLemmas Counting Metrics.
Import ListNotations.
Local Open Scope R_scope.

Theorem C53_binary_accuracy : forall y_pred y_true a n,
  binary_accuracy y_pred y_true = Ok a -> length y_pred = length y_true ->
  (forall l, In l y_true -> (l = 0 \/ l = 1 \/ l = -1)%Z) ->
  how_many (fun q => right_side (fst q) (snd q)) (combine y_pred y_true) n ->
  a = INR n / INR (length y_pred).
Proof. exact binary_main. Qed.
Print Assumptions C53_binary_accuracy.

(** Predictions without a label are counted as correct. *)
Theorem C53_unlabelled_predictions_count_as_correct : forall y_pred y_true a n,
  binary_accuracy y_pred y_true = Ok a -> (length y_true <= length y_pred)%nat ->
  (forall l, In l y_true -> (l = 0 \/ l = 1 \/ l = -1)%Z) ->
  how_many (fun q => right_side (fst q) (snd q)) (combine y_pred y_true) n ->
  a = INR (n + (length y_pred - length y_true)) / INR (length y_pred).
Proof. exact binary_counts. Qed.
Print Assumptions C53_unlabelled_predictions_count_as_correct.

Theorem C53_binary_total : forall y_pred y_true, y_pred <> [] -> exists a, binary_accuracy y_pred y_true = Ok a.
Proof. exact binary_total. Qed.
Print Assumptions C53_binary_total.

Theorem C53_binary_range : forall y_pred y_true a, binary_accuracy y_pred y_true = Ok a -> 0 <= a <= 1.
Proof. exact binary_range. Qed.
Print Assumptions C53_binary_range.

(** Any other label is always counted as correct: accuracy 1 whatever is predicted. *)
Theorem C53_foreign_labels_always_correct : forall y_pred y_true, y_pred <> [] ->
  (forall l, In l y_true -> l <> 0 /\ l <> 1 /\ l <> -1)%Z -> binary_accuracy y_pred y_true = Ok 1.
Proof.
  intros p y Hp Hy. destruct (binary_total p y Hp) as [a Ha]. rewrite Ha. f_equal.
  destruct (binary_accuracy_eq _ _ _ Ha) as [_ ->].
  rewrite (count_ext _ (fun _ => false)).
  - rewrite count_false, Nat.sub_0_r. unfold Rdiv. apply Rinv_r. apply not_0_INR. destruct p; simpl; congruence.
  - intros [u l] Hin. apply in_combine_r in Hin. destruct (Hy _ Hin) as (A & B & C). now apply counted_wrong_other.
Qed.
Print Assumptions C53_foreign_labels_always_correct.

Theorem C53_binary_order_irrelevant : forall p y p' y', length p = length y -> length p' = length y' ->
  Permutation (combine p y) (combine p' y') -> binary_accuracy p y = binary_accuracy p' y'.
Proof. exact binary_perm. Qed.
Print Assumptions C53_binary_order_irrelevant.

Theorem C53_categorical_accuracy : forall y_pred y_true a n,
  categorical_accuracy y_pred y_true = Ok a ->
  how_many (fun q => same_first_max (fst q) (snd q)) (combine y_pred y_true) n ->
  a = INR n / INR (length y_pred) /\ length y_pred = length y_true.
Proof. exact categorical_main. Qed.
Print Assumptions C53_categorical_accuracy.

Theorem C53_categorical_total : forall m m', length m = length m' -> m <> [] ->
  (forall r, In r m -> r <> []) -> (forall r, In r m' -> r <> []) -> exists a, categorical_accuracy m m' = Ok a.
Proof. exact categorical_total. Qed.
Print Assumptions C53_categorical_total.

Theorem C53_categorical_range : forall m m' a, categorical_accuracy m m' = Ok a -> 0 <= a <= 1.
Proof. exact categorical_range. Qed.
Print Assumptions C53_categorical_range.

Theorem C53_categorical_order_irrelevant : forall m t m' t' a, length m = length t -> length m' = length t' ->
  Permutation (combine m t) (combine m' t') -> categorical_accuracy m t = Ok a -> categorical_accuracy m' t' = Ok a.
Proof. exact categorical_perm. Qed.
Print Assumptions C53_categorical_order_irrelevant.

(** [score] of a multi-class model against a vector of class numbers is the
    share of rows predicted as class 0, whatever the labels are. *)
Theorem C53_class_numbers_read_as_class_zero : forall w y_pred l a n, w <> 1%nat ->
  accuracy w y_pred (Labels l) = Ok a -> how_many (fun r => first_max r 0) y_pred n ->
  a = INR n / INR (length y_pred).
Proof. exact accuracy_labels. Qed.
Print Assumptions C53_class_numbers_read_as_class_zero.

Example C53_binary_example : binary_accuracy [1; 0; 1; 0] [1; 1; -1; 0]%Z = Ok (2 / 4).
Proof.
  unfold binary_accuracy, count, counted_wrong. cbn [combine filter fst snd].
  rewrite !(proj2 (Rltb_false 1 (/2))), !(proj2 (Rleb_true (/2) 1)), !(proj2 (Rltb_true 0 (/2))), !(proj2 (Rleb_false (/2) 0)) by lra.
  simpl. f_equal. lra.
Qed.

Example C53_categorical_witness : exists a, categorical_accuracy [[1; 2]; [3; 1]] [[0; 1]; [0; 1]] = Ok a.
Proof. apply categorical_total; simpl; auto; try discriminate; intuition (subst; discriminate). Qed.

Example C53_class_numbers_witness : exists a, accuracy 2 [[1; 2]; [3; 1]] (Labels [1; 0]%Z) = Ok a.
Proof. apply categorical_total; simpl; auto; try discriminate; intuition (subst; discriminate). Qed.
