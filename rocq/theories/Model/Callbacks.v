(** Model of the training loops around the updates: History of
    classicML/backend/python/callbacks.py, the helpers and [run] loops of
    classicML/backend/python/optimizers.py.  The updates themselves are modelled in
    Network.v, Logistic.v and Rbf.v.  Time is not modelled. *)
From Coq Require Import List String Reals Bool Arith ZArith.
From Verif.Model Require Import Base Network Logistic Rbf.
Import ListNotations.

(** callbacks.py 36-37: the two lists of a History object. *)
Record history := { h_loss : list R; h_metric : list R }.
(** callbacks.py 22-37 [History.__init__]. *)
Definition new_history : history := {| h_loss := []; h_metric := [] |}.
(** callbacks.py 39-47 [History.__call__]; backend/cc/callbacks/callbacks.cc 26-29
    is the same with vectors. *)
Definition history_call (l m : R) (h : history) : history :=
  {| h_loss := h_loss h ++ [l]; h_metric := h_metric h ++ [m] |}.

(** An entry of the list [callbacks] (optimizers.py 66-70): a reference to a History
    object, or any other object. *)
Inductive callback := HistoryAt (id : nat) | OtherCallback.
(** One line written by the progress bar (_utils.py 61-66): the epoch, the number of
    epochs the bar was made for, loss and metric. *)
Record line := { at_epoch : nat; out_of : nat; line_loss : R; line_metric : R }.
(** What survives an exception: the History objects (callbacks.py 36-37) and the
    terminal (_utils.py 64-66). *)
Record world := { histories : nat -> history; shown : list line }.

(** Calling one of the History objects (optimizers.py 67-68). *)
Definition call_history (id : nat) (v : R * R) (w : world) : world :=
  {| histories := fun j => if (j =? id)%nat then history_call (fst v) (snd v) (histories w j) else histories w j;
     shown := shown w |}.
(** optimizers.py 58-70 [_record_callbacks]. *)
Definition record_callbacks (cs : list callback) (v : R * R) (w : world) : world :=
  fold_left (fun w c => match c with HistoryAt id => call_history id v w | OtherCallback => w end) cs w.
(** [if callbacks: _record_callbacks(...)], optimizers.py 192-193, 425-426, 547-548,
    662-663, 792-793. *)
Definition record_if (cbs : option (list callback)) (v : R * R) (w : world) : world :=
  match cbs with Some cs => record_callbacks cs v w | None => w end.
(** [if self._progressbar: self._progressbar(...)], optimizers.py 189-190, 422-423,
    550-551, 659-660, 789-790, with _utils.py 37-118. The bar was made for [b]
    epochs; with [b] = 0 every epoch is past the end and line 103 of _utils.py
    divides by zero, before anything is written. *)
Definition show_if (bar : option nat) (epoch : nat) (v : R * R) (w : world) : world * result unit :=
  match bar with
  | None => (w, Ok tt)
  | Some 0%nat => (w, Err ZeroDivisionError)
  | Some b => ({| histories := histories w;
                  shown := shown w ++ [{| at_epoch := epoch; out_of := b; line_loss := fst v; line_metric := snd v |}] |}, Ok tt)
  end.

(** The argument [verbose]: the object True, another object that counts as true, an
    object that counts as false (optimizers.py 164, 397, 526, 636, 772). *)
Inductive flag := IsTrue | Truthy | Falsy.

Section Run.
Variable St : Type.
(** The update of epoch number e, from 1. *)
Variable step : nat -> St -> result St.
(** The loss and the metric that are reported, from the states before and after
    the update. *)
Variable evaluate : St -> St -> result (R * R).
(** Whether callbacks are called before the progress bar (only GradientDescent,
    541-547) and whether any true [verbose] makes a bar (only NewtonMethod, 637). *)
Variable record_first any_true : bool.

(** optimizers.py 180-193, 413-426, 539-551, 651-663, 785-793: after the update. *)
Definition report (bar : option nat) (cbs : option (list callback)) (epoch : nat) (before after : St) (w : world) : world * result unit :=
  match bar, cbs with
  | None, None => (w, Ok tt)
  | _, _ =>
    match evaluate before after with
    | Err x => (w, Err x)
    | Ok v =>
      if record_first then show_if bar epoch v (record_if cbs v w)
      else match show_if bar epoch v w with
           | (w', Ok _) => (record_if cbs v w', Ok tt)
           | (w', Err x) => (w', Err x)
           end
    end
  end.
(** The loop over the epochs (optimizers.py 168, 401, 530, 640, 776); [n] epochs
    remain and [epoch] is the next one. *)
Fixpoint epochs_loop (n epoch : nat) (bar : option nat) (cbs : option (list callback)) (s : St) (w : world) : world * result St :=
  match n with
  | O => (w, Ok s)
  | S n' =>
    match step epoch s with
    | Err x => (w, Err x)
    | Ok s' =>
      match report bar cbs epoch s s' w with
      | (w', Ok _) => epochs_loop n' (S epoch) bar cbs s' w'
      | (w', Err x) => (w', Err x)
      end
    end
  end.
(** optimizers.py 164-166, 397-399, 526-528, 636-638, 772-774: a bar made earlier
    stays on the optimizer object. *)
Definition bar_after (verbose : flag) (epochs : nat) (bar : option nat) : option nat :=
  match verbose with
  | IsTrue => Some epochs
  | Truthy => if any_true then Some epochs else bar
  | Falsy => bar
  end.
(** [run] of the five optimizers (optimizers.py 142-195, 371-428, 508-553, 617-665,
    751-795): the bar left on the optimizer, the world and the trained state. *)
Definition run (verbose : flag) (epochs : nat) (cbs : option (list callback)) (bar : option nat) (s : St) (w : world) : option nat * (world * result St) :=
  let bar' := bar_after verbose epochs bar in
  (bar', epochs_loop epochs 1 bar' cbs s w).
End Run.

(** The metric that [compile] looked up; an unknown name gives None (training.py
    128-149), and calling it (optimizers.py 186, 419, 544, 656, 787) is a TypeError.
    *)
Definition call_metric {X Y} (m : option (X -> Y -> result R)) (p : X) (y : Y) : result R :=
  match m with Some f => f p y | None => Err TypeError end.

Section Instances.
Local Open Scope R_scope.

(** optimizers.py 183-186 and 416-419: a second forward pass over all samples with
    the new parameters. *)
Definition network_report (loss : list (list R) -> list (list R) -> result R)
    (metric : option (list (list R) -> list (list R) -> result R)) (x y : list (list R)) (ls : list layer) : result (R * R) :=
  r <- Network.forward ls x ;;
  l <- loss (fst r) y ;;
  m <- call_metric metric (fst r) y ;;
  Ok (l, m).
(** optimizers.py 142-195 [StochasticGradientDescent.run]; [draw e] is the row
    number drawn in epoch e. *)
Definition sgd_training rate x y loss metric (draw : nat -> nat) :=
  run (list layer) (fun e ls => sgd_epoch rate x y ls (draw e)) (fun _ ls => network_report loss metric x y ls) false false.
(** optimizers.py 371-428 [Adam.run]. *)
Definition adam_training o x y loss metric (draw : nat -> nat) :=
  run adam_state (fun e s => adam_epoch o x y s (e, draw e)) (fun _ s => network_report loss metric x y (params s)) false false.

(** optimizers.py 540, 652: the name of the loss decides what it is called with. *)
Inductive lr_loss :=
| CalledLogLikelihood (f : list Z -> list R -> list (list R) -> result R)
| CalledOtherwise (f : list R -> list Z -> result R).
(** optimizers.py 540-544 and 652-656: predictions from before the update; a loss
    that is called 'log_likelihood' gets the new parameters. *)
Definition logistic_report (loss : lr_loss) (metric : option (list R -> list Z -> result R)) (x : list (list R)) (y : list Z) (before after : list R) : result (R * R) :=
  let y_pred := Logistic.forward x before in
  l <- match loss with
       | CalledLogLikelihood f => f y after (map with_one x)
       | CalledOtherwise f => f y_pred y
       end ;;
  m <- call_metric metric y_pred y ;;
  Ok (l, m).
(** optimizers.py 508-553 [GradientDescent.run] and 617-665 [NewtonMethod.run]. *)
Definition logistic_training (o : Logistic.optimizer) d x y loss metric :=
  run (list R) (fun _ b => opt_step o d x y b) (logistic_report loss metric x y)
      (match o with GradientDescent _ => true | NewtonMethod => false end)
      (match o with GradientDescent _ => false | NewtonMethod => true end).

(** optimizers.py 786-787: predictions from before the update. *)
Definition rbf_report (loss : list R -> labels -> result R) (metric : option (list R -> labels -> result R)) (x : list (list R)) (y : labels) (before after : rbf_params) : result (R * R) :=
  p <- rbf_predict before x ;;
  l <- loss p y ;;
  m <- call_metric metric p y ;;
  Ok (l, m).
(** optimizers.py 751-795 [RadialBasisFunctionOptimizer.run]. [rbf_epoch] also
    computes the mean squared error, which this ignores. *)
Definition rbf_training rate x y loss metric :=
  run rbf_params (fun _ p => r <- rbf_epoch rate x y p ;; Ok (fst r)) (rbf_report loss metric x y) false false.
End Instances.

(** optimizers.py 37-56 [_get_optimizer_parameters].  [V] are the Python objects,
    [text] makes a str, [reads v s] says that [s == v] for the str [s]. *)
Section Arguments.
Variable V : Type.
Variable text : string -> V.
Variable reads : V -> string -> bool.
(** optimizers.py 46. *)
Definition default_parameters : list V := map text ["verbose"; "loss"; "metric"; "callbacks"]%string.
(** optimizers.py 47-48: [parameters[index] = arg]. *)
Definition put_positional (args : list V) : result (list V) :=
  foldM (fun ps ia => set_at ps (fst ia) (snd ia)) (enumerate args) default_parameters.
(** optimizers.py 51-53. *)
Definition put_keyword (ps : list V) (kv : string * V) : list V :=
  map (fun p => if reads p (fst kv) then snd kv else p) ps.
(** optimizers.py 36-55 [_get_optimizer_parameters]. *)
Definition get_optimizer_parameters (args : list V) (kwargs : list (string * V)) : result (list V) :=
  ps <- put_positional args ;;
  Ok (fold_left put_keyword kwargs ps).
End Arguments.
