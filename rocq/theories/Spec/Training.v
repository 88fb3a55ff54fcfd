(** Vocabulary for the training loops, progress bars and component look-ups
    (C59-C61, C72). *)
From Coq Require Import List String Ascii Reals ZArith Bool Arith.
From Flocq Require Core.
From Verif.Model Require Import Base Training Callbacks.
Import ListNotations.

(** How often the History object [id] stands in the list. *)
Definition listed (id : nat) (cs : list callback) : nat :=
  List.length (filter (fun c => match c with HistoryAt j => (j =? id)%nat | OtherCallback => false end) cs).

Section Trajectory.
Context {St : Type}.
Variable step : nat -> St -> result St.
(** [l] are the states after the epochs number e, e+1, ... that start from [s]. *)
Inductive epochs_from : nat -> St -> list St -> Prop :=
| no_epoch e s : epochs_from e s []
| one_epoch e s s' l : step e s = Ok s' -> epochs_from (S e) s' l -> epochs_from e s (s' :: l).
(** [vs] are the reports of the epochs that lead through the states [s :: l]. *)
Definition reports (evaluate : St -> St -> result (R * R)) (s : St) (l : list St) (vs : list (R * R)) : Prop :=
  List.length vs = List.length l /\
  forall k before after, nth_error (s :: l) k = Some before -> nth_error l k = Some after ->
  exists v, nth_error vs k = Some v /\ evaluate before after = Ok v.
End Trajectory.

(** The History object of number [id] was given [n] further entries, the reports
    [vs] in order, each [c] times. *)
Definition grew (w w' : world) (id c : nat) (vs : list (R * R)) : Prop :=
  h_loss (histories w' id) = h_loss (histories w id) ++ List.concat (map (fun v => repeat (fst v) c) vs) /\
  h_metric (histories w' id) = h_metric (histories w id) ++ List.concat (map (fun v => repeat (snd v) c) vs).

(** A sequence of finished calls of optimizers, each with a number of epochs and
    callbacks of its own, on the same History objects. *)
Inductive fits : world -> list (nat * option (list callback)) -> world -> Prop :=
| no_fit w : fits w [] w
| one_fit w w' w'' l St step evaluate first any verbose epochs cbs bar (s s' : St) bar' :
    run St step evaluate first any verbose epochs cbs bar s w = (bar', (w', Ok s')) ->
    fits w' l w'' -> fits w ((epochs, cbs) :: l) w''.
Definition listed_in (id : nat) (cbs : option (list callback)) : nat :=
  match cbs with Some cs => listed id cs | None => 0 end.

(** The rounding of double precision numbers without limits of the exponent: to
    53 binary digits, and whole numbers of at most 53 digits are kept. *)
Definition rounding (fl : R -> R) : Prop :=
  (forall x y, (x <= y)%R -> (fl x <= fl y)%R) /\
  (forall x, (Rabs (fl x - x) <= / 2 ^ 53 * Rabs x)%R) /\
  (forall z, (Z.abs z <= 2 ^ 53)%Z -> fl (IZR z) = IZR z).

(** The rounding to 53 binary digits, ties to even. *)
Definition double (x : R) : R := Generic_fmt.round Zaux.radix2 (FLX.FLX_exp 53) Round_NE.ZnearestE x.

(** Shape of a bar: [done] equal signs, possibly one arrow, then dots. *)
Fixpoint chars (c : ascii) (n : nat) : string := match n with O => EmptyString | S k => String c (chars c k) end.
Definition bar_shape (done : nat) (arrow : bool) (dots : nat) (s : string) : Prop :=
  s = (chars "=" done ++ (if arrow then ">" else "") ++ chars "." dots)%string.

(** The documented names (training.py, and the default [name] of each class). *)
Definition means {K} (table : list (string * K)) (s : string) (k : K) : Prop := In (s, k) table.
Definition documented {K} (table : list (string * K)) (s : string) : Prop := exists k, means table s k.
Local Open Scope string_scope.
Definition criterion_names := [("gini", CGini); ("gain", CGain); ("entropy", CEntropy); ("weighted_gini", CWeightedGini)].
Definition initializer_names {S} (seed : S) :=
  [("random_normal", RandomNormal seed); ("he_normal", HeNormal seed); ("xavier_normal", XavierNormal seed);
   ("glorot_normal", XavierNormal seed); ("rbf_normal", RBFNormal seed)].
Definition kernel_names (gamma : option R) :=
  [("linear", KLinear); ("rbf", KRbf gamma); ("gaussian", KGaussian gamma); ("poly", KPoly gamma 3); ("sigmoid", KSigmoid gamma 1 (-1))].
Definition loss_names :=
  [("mse", Mse); ("mean_squared_error", Mse); ("log_likelihood", LogLikelihood); ("binary_crossentropy", BinaryCrossentropy);
   ("categorical_crossentropy", CategoricalCrossentropy); ("crossentropy", Crossentropy)].
Definition metric_names := [("binary_accuracy", BinaryAccuracy); ("categorical_accuracy", CategoricalAccuracy); ("accuracy", Accuracy)].
Definition optimizer_names :=
  [("gd", GradientDescent (1 / 100)); ("gradient_descent", GradientDescent (1 / 100)); ("newton", NewtonMethod);
   ("newton_method", NewtonMethod); ("sgd", Sgd (1 / 100)); ("stochastic_gradient_descent", Sgd (1 / 100));
   ("adam", Adam (1 / 1000) (9 / 10) (999 / 1000) (1 / 10 ^ 7)); ("rbf", RbfOptimizer (1 / 100)); ("SMO", Smo)].
Definition pruner_names := [("post", PostPruner); ("pre", PrePruner)].
