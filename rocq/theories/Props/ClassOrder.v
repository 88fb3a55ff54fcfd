(** C115: the numbers of the classes of a neural network. *)
From Coq Require Import List Reals Lra Lia Arith Bool Permutation.
From Verif.Model Require Import Base Activations Metrics Network.
From Verif.Spec Require Import Common Smo Activations Metrics Network Units Columns HiddenOrder ClassOrder.
From Verif.Proof Require Import BaseLemmas Metrics Network NetworkMain NetworkStep Adam Twins HiddenOrder HiddenOrderRun ClassOrder ClassScore.
Import ListNotations.
Local Open Scope R_scope.

(** With the output neurons in another order a network gives the same outputs in that
    order, or the same error. *)
Theorem C115_outputs : forall c s ls x, new_order c s -> (2 <= c)%nat -> output_layer c ls ->
  (r <- forward (outputs_moved s ls) x ;; Ok (fst r)) = (r <- forward ls x ;; Ok (map (reordered s) (fst r))).
Proof. intros c s ls x S Hc H. rewrite (forward_out c s S Hc) by auto. destruct (forward ls x); reflexivity. Qed.
Print Assumptions C115_outputs.
(** Training it on the labels with the columns in that order ends in the moved network,
    or in the same error. *)
Theorem C115_sgd : forall c s rate x y draws ls, new_order c s -> (2 <= c)%nat -> output_layer c ls -> Units.width c y ->
  sgd_run rate x (map (reordered s) y) (outputs_moved s ls) draws = (r <- sgd_run rate x y ls draws ;; Ok (outputs_moved s r)).
Proof. intros c s rate x y draws ls S Hc H W. now apply (sgd_out c s S Hc). Qed.
Print Assumptions C115_sgd.
Theorem C115_adam : forall c s o x y draws ls, new_order c s -> (2 <= c)%nat -> output_layer c ls -> Units.width c y ->
  adam_run o x (map (reordered s) y) (outputs_moved s ls) draws = (r <- adam_run o x y ls draws ;; Ok (outputs_moved s r)).
Proof. intros c s o x y draws ls S Hc H W. now apply (adam_out c s S Hc). Qed.
Print Assumptions C115_adam.
(** So after training the same probabilities belong to the same classes. *)
Theorem C115_trained_outputs : forall c s rate x y draws ls ls' batch, new_order c s -> (2 <= c)%nat -> output_layer c ls -> Units.width c y ->
  sgd_run rate x y ls draws = Ok ls' ->
  exists ls'', sgd_run rate x (map (reordered s) y) (outputs_moved s ls) draws = Ok ls'' /\
    (r <- forward ls'' batch ;; Ok (fst r)) = (r <- forward ls' batch ;; Ok (map (reordered s) (fst r))).
Proof.
  intros c s rate x y draws ls ls' batch S Hc H W E. exists (outputs_moved s ls'). rewrite (sgd_out c s S Hc), E by auto. split; [reflexivity|].
  apply (C115_outputs c); auto. exact (output_same c ls ls' (sgd_shape rate x y draws ls ls' E) H).
Qed.
Print Assumptions C115_trained_outputs.
Theorem C115_adam_trained_outputs : forall c s o x y draws ls ls' batch, new_order c s -> (2 <= c)%nat -> output_layer c ls -> Units.width c y ->
  adam_run o x y ls draws = Ok ls' ->
  exists ls'', adam_run o x (map (reordered s) y) (outputs_moved s ls) draws = Ok ls'' /\
    (r <- forward ls'' batch ;; Ok (fst r)) = (r <- forward ls' batch ;; Ok (map (reordered s) (fst r))).
Proof.
  intros c s o x y draws ls ls' batch S Hc H W E. exists (outputs_moved s ls'). rewrite (adam_out c s S Hc), E by auto. split; [reflexivity|].
  apply (C115_outputs c); auto. exact (output_same c ls ls' (adam_shape o x y draws ls ls' E) H).
Qed.
Print Assumptions C115_adam_trained_outputs.
(** The loss is the same. *)
Theorem C115_loss : forall c s y_pred y_true, new_order c s -> Units.width c y_pred -> Units.width c y_true ->
  categorical_crossentropy (map (reordered s) y_pred) (map (reordered s) y_true) = categorical_crossentropy y_pred y_true.
Proof. intros c s yp yt S. apply (loss_re c s S). Qed.
Print Assumptions C115_loss.
(** The accuracy is the same if no row has two greatest entries. *)
Theorem C115_accuracy : forall c s y_pred y_true, new_order c s -> Units.width c y_pred -> Units.width c y_true ->
  Forall one_greatest y_pred -> Forall one_greatest y_true ->
  categorical_accuracy (map (reordered s) y_pred) (map (reordered s) y_true) = categorical_accuracy y_pred y_true.
Proof. intros c s yp yt S. apply (accuracy_re c s S). Qed.
Print Assumptions C115_accuracy.
(** Otherwise the number of the class decides: the first of the greatest wins. *)
Theorem C115_accuracy_ties_refuted : exists c s y_pred y_true, new_order c s /\ Units.width c y_pred /\ Units.width c y_true /\ Forall one_greatest y_true /\
  categorical_accuracy y_pred y_true = Ok 1 /\ categorical_accuracy (map (reordered s) y_pred) (map (reordered s) y_true) = Ok 0.
Proof.
  exists 2%nat, [1; 0]%nat, [[1 / 2; 1 / 2]], [[1; 0]]. split; [unfold new_order; cbn; apply perm_swap|]. split; [repeat constructor|]. split; [repeat constructor|].
  split; [constructor; [|constructor]; exists 0%nat; cbn; split; [lia|]; intros [|[|j]] Hj N; try lia; lra|].
  assert (A1 : argmax [1 / 2; 1 / 2] = Ok 0%nat) by (apply argmax_spec; split; [cbn; lia|]; split; [intros [|[|j]] Hj; cbn in *; try lra; lia|intros j Hj; lia]).
  assert (A2 : argmax [1; 0] = Ok 0%nat) by (apply argmax_spec; split; [cbn; lia|]; split; [intros [|[|j]] Hj; cbn in *; try lra; lia|intros j Hj; lia]).
  assert (A3 : argmax [0; 1] = Ok 1%nat) by (apply argmax_spec; split; [cbn; lia|]; split; [intros [|[|j]] Hj; cbn in *; try lra; lia|intros [|j] Hj; [cbn; lra|lia]]).
  unfold categorical_accuracy. cbn [map reordered nth mapM]. rewrite A1, A2, A3. cbn. split; f_equal; lra.
Qed.
Print Assumptions C115_accuracy_ties_refuted.

(** ** A case *)
(** Three classes behind a hidden layer; training succeeds. *)
Definition three_classes : list neurons := [([[1]; [2]], [1; 0]); ([[1; 0]; [0; 1]; [2; 3]], [1; 2; 3])].
Example C115_example : new_order 3 [2; 0; 1]%nat /\ output_layer 3 three_classes /\ Units.width 3 [[1; 0; 0]; [0; 0; 1]] /\
  outputs_moved [2; 0; 1]%nat three_classes = [([[1]; [2]], [1; 0]); ([[2; 3]; [1; 0]; [0; 1]], [3; 1; 2])] /\
  map (reordered [2; 0; 1]%nat) [[1; 0; 0]; [0; 0; 1]] = [[0; 1; 0]; [1; 0; 0]] /\
  exists ls', sgd_run 1 [[1]; [2]] [[1; 0; 0]; [0; 0; 1]] three_classes [0; 1; 0]%nat = Ok ls'.
Proof.
  split; [unfold new_order; cbn; apply (perm_trans (l' := [0; 2; 1]%nat)); [apply perm_swap|apply perm_skip; apply perm_swap]|].
  split; [cbn; auto|]. split; [repeat constructor|]. split; [reflexivity|]. split; [reflexivity|].
  assert (W : wired 1 three_classes 3) by (cbn; repeat split; try discriminate; repeat constructor).
  destruct (sgd_run_total 1 1 3 3 [[1]; [2]] [[1; 0; 0]; [0; 0; 1]]) with (draws := [0; 1; 0]%nat) (ls := three_classes) as (ls' & E & _); auto; repeat constructor. now exists ls'.
Qed.
Example C115_accuracy_example : Forall one_greatest [[1 / 2; 1 / 4; 1 / 4]] /\ Forall one_greatest [[0; 1; 0]].
Proof. split; constructor; try constructor; [exists 0%nat|exists 1%nat]; cbn; (split; [lia|]); intros [|[|[|j]]] Hj N; try lia; lra. Qed.
