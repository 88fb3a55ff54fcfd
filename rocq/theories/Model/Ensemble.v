(** Model of the ensembles: classicML/api/models/ensemble/bagging.py 53-106 and
    boosting.py 51-125.  Floats are exact reals; labels are integers. *)
From Coq Require Import List ZArith Reals Bool Arith.
From Verif.Model Require Import Base Ops Metrics Stump.
Import ListNotations.
Local Open Scope R_scope.

(** ** Bagging of decision stumps *)
(** bagging.py 33-38: the fields used by [fit] and [predict]. *)
Record bagging := { bag_seed : Z; bag_stumps : list stump }.

(** numpy accepts the seeds 0 to 2^32 - 1 (ValueError otherwise; called at
    initializers.py 31, ops.py 45, support_vector_classifier.py 56). *)
Definition seed_ok (s : Z) : bool := (0 <=? s)%Z && (s <? 2 ^ 32)%Z.

Section Bagging.
(** [choice s n]: [np.random.choice(np.arange(n), size=n)] after
    [np.random.seed(s)]. *)
Variable choice : Z -> nat -> list nat.

(** bagging.py 69-74: one base learner; [w] is the number of features.  The
    sampled labels form a column.  The seed is refused after the lengths have been
    compared (ops.py 41-45), by the same exception. *)
Definition bag_round (w : nat) (x : list (list R)) (y : list Z) (b : bagging) : result bagging :=
  if negb (seed_ok (bag_seed b)) then Err ValueError else
  s <- bootstrap_sampling (choice (bag_seed b)) (Mat x) (Some (Vec y)) ;;
  match s with
  | (xs, Some ys) =>
      let D := combine xs (map (fun r => nth 0 r 0%Z) ys) in
      Ok {| bag_seed := (bag_seed b + 1)%Z; bag_stumps := bag_stumps b ++ [stump_fit w D] |}
  | (_, None) => Err ValueError
  end.

(** bagging.py 53-79 [fit]: existing base learners are kept. *)
Fixpoint bag_fit (n_estimators : nat) (w : nat) (x : list (list R)) (y : list Z) (b : bagging) : result bagging :=
  match n_estimators with
  | O => Ok b
  | S k => b' <- bag_round w x y b ;; bag_fit k w x y b'
  end.
End Bagging.

(** bagging.py 98-106 [predict] of a trained model: the sign of the sum of the
    answers, zero counting as positive. *)
Definition bag_predict (b : bagging) (x : list (list R)) : result (list Z) :=
  answers <- mapM (fun s => stump_predict s x) (bag_stumps b) ;;
  Ok (map (fun i => if (0 <=? fold_right Z.add 0 (map (fun a => nth i a 0) answers))%Z then 1%Z else (-1)%Z)
          (seq 0 (length x))).

(** ** AdaBoost *)
(** boosting.py 11. *)
Definition EPSILON : R := 1 / 10 ^ 36.

Section AdaBoost.
(** The base learner: [learn D w] is [BaseLearner().fit(x, y,
    sample_distribution=w)] and [answer h r] its prediction for one row. *)
Variable H : Type.
Variable learn : list (list R * Z) -> list R -> result H.
Variable answer : H -> list R -> Z.

(** Does the base learner answer with the label? (boosting.py 74, 82). *)
Definition right (h : H) (p : list R * Z) : bool := Z.eqb (answer h (fst p)) (snd p).

(** boosting.py 74: [np.sum(sample_distribution[y_pred != y])]. *)
Definition weighted_error (D : list (list R * Z)) (w : list R) (h : H) : R :=
  rsum (map snd (filter (fun p => negb (right h (fst p))) (combine D w))).
(** boosting.py 76: if the error is 1 the logarithm is minus infinity; outside the
    model. *)
Definition learner_weight (error : R) : result R :=
  if Rleb 1 error then Err NotANumber else Ok (ln ((1 - error) / Rmax error EPSILON) / 2).
(** boosting.py 81-85. *)
Definition reweight (D : list (list R * Z)) (w : list R) (h : H) (a : R) : list R :=
  let w' := map (fun p => snd p * exp ((if right h (fst p) then -1 else 1) * a)) (combine D w) in
  map (fun v => v / rsum w') w'.

(** boosting.py 71-85: one round. *)
Definition ada_round (D : list (list R * Z)) (w : list R) : result (H * R * list R) :=
  h <- learn D w ;;
  a <- learner_weight (weighted_error D w h) ;;
  Ok (h, a, reweight D w h a).

(** boosting.py 69-90: the loop. The last test uses the error under the old weights.
    *)
Fixpoint ada_loop (max_estimators : nat) (D : list (list R * Z)) (w : list R) : result (list (H * R)) :=
  match max_estimators with
  | O => Ok []
  | S k =>
      t <- ada_round D w ;;
      let '(h, a, w') := t in
      let e := weighted_error D w h in
      rest <- (if Rltb (1/2) e || Rltb e EPSILON then Ok [] else ada_loop k D w') ;;
      Ok ((h, a) :: rest)
  end.

(** boosting.py 67: the uniform distribution. *)
Definition uniform (n : nat) : list R := repeat (1 / INR n) n.

(** [sample_distribution] after [n] rounds without the exit test (67, 71-85). *)
Fixpoint ada_weights (n : nat) (D : list (list R * Z)) (w : list R) : result (list R) :=
  match n with
  | O => Ok w
  | S n' => t <- ada_round D w ;; ada_weights n' D (snd t)
  end.

(** The object: after a successful [fit] (or [load_weights]) [alpha_list] is an
    array and no longer a list. (boosting.py 34-35, 92). *)
Record adaboost := { members : list (H * R); alpha_is_array : bool }.

(** boosting.py 51-97 [fit]: appending to an array is an AttributeError. *)
Definition ada_fit (max_estimators : nat) (D : list (list R * Z)) (b : adaboost) : result adaboost :=
  if alpha_is_array b && negb (max_estimators =? 0)%nat then
    match ada_round D (uniform (length D)) with Ok _ => Err AttributeError | Err e => Err e end
  else
    ms <- ada_loop max_estimators D (uniform (length D)) ;;
    Ok {| members := members b ++ ms; alpha_is_array := true |}.

(** boosting.py 116-125 [predict] of a trained model, one row; 0 / 0 is NaN. *)
Definition ada_predict (b : adaboost) (r : list R) : result Z :=
  let votes := rsum (map (fun m => snd m * IZR (answer (fst m) r)) (members b)) in
  let norm := rsum (map snd (members b)) in
  if Reqb norm 0 then Err NotANumber
  else Ok (if Rleb 0 (votes / norm) then 1%Z else (-1)%Z).
End AdaBoost.

(** The default base learner: TwoLevelDecisionTreeClassifier on [w] features.
    (boosting.py 41, 71). *)
Definition tl_learn (w : nat) (D : list (list R * Z)) (dist : list R) : result tltree := tl_fit w (combine D dist).
