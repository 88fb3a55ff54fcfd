(** C114: the order of the neurons of the hidden layers. *)
From Coq Require Import List Reals Lra Lia Arith Bool Permutation.
From Verif.Model Require Import Base Activations Network Rbf.
From Verif.Spec Require Import Common Smo Activations Network Units Columns HiddenOrder.
From Verif.Proof Require Import BaseLemmas Network NetworkMain NetworkStep Adam Twins HiddenOrder HiddenOrderRun HiddenOrderRbf.
Import ListNotations.
Local Open Scope R_scope.

(** A network with the neurons of some hidden layers in another order gives the same
    outputs, or the same error. *)
Theorem C114_same_outputs : forall moves ls x, movable moves ls ->
  (r <- forward (all_moved moves ls) x ;; Ok (fst r)) = (r <- forward ls x ;; Ok (fst r)).
Proof. intros moves ls x. apply forward_all. Qed.
Print Assumptions C114_same_outputs.
(** The gradient of a sample is moved in the same way. *)
Theorem C114_gradient : forall k h s ls x y i, hidden_layer k h ls -> new_order h s ->
  sample_gradient x y (neurons_moved k s ls) i = (g <- sample_gradient x y ls i ;; Ok (neurons_moved k s g)).
Proof. intros k h s ls x y i H S. now apply (sample_moved h s S). Qed.
Print Assumptions C114_gradient.
(** Training from the moved network ends in the moved network, or in the same error. *)
Theorem C114_sgd : forall moves rate x y draws ls, movable moves ls ->
  sgd_run rate x y (all_moved moves ls) draws = (r <- sgd_run rate x y ls draws ;; Ok (all_moved moves r)).
Proof. intros moves rate x y draws ls. apply sgd_all. Qed.
Print Assumptions C114_sgd.
Theorem C114_adam : forall moves o x y draws ls, movable moves ls ->
  adam_run o x y (all_moved moves ls) draws = (r <- adam_run o x y ls draws ;; Ok (all_moved moves r)).
Proof. intros moves o x y draws ls. apply adam_all. Qed.
Print Assumptions C114_adam.
(** So after training both give the same outputs for every batch. *)
Theorem C114_sgd_outputs : forall moves rate x y draws ls ls' batch, movable moves ls -> sgd_run rate x y ls draws = Ok ls' ->
  exists ls'', sgd_run rate x y (all_moved moves ls) draws = Ok ls'' /\
    (r <- forward ls'' batch ;; Ok (fst r)) = (r <- forward ls' batch ;; Ok (fst r)).
Proof.
  intros moves rate x y draws ls ls' batch M E. exists (all_moved moves ls'). rewrite sgd_all, E by auto. split; [reflexivity|]. apply forward_all.
  exact (movable_same moves ls ls' (sgd_shape rate x y draws ls ls' E) M).
Qed.
Print Assumptions C114_sgd_outputs.
Theorem C114_adam_outputs : forall moves o x y draws ls ls' batch, movable moves ls -> adam_run o x y ls draws = Ok ls' ->
  exists ls'', adam_run o x y (all_moved moves ls) draws = Ok ls'' /\
    (r <- forward ls'' batch ;; Ok (fst r)) = (r <- forward ls' batch ;; Ok (fst r)).
Proof.
  intros moves o x y draws ls ls' batch M E. exists (all_moved moves ls'). rewrite adam_all, E by auto. split; [reflexivity|]. apply forward_all.
  exact (movable_same moves ls ls' (adam_shape o x y draws ls ls' E) M).
Qed.
Print Assumptions C114_adam_outputs.

(** ** Radial basis functions *)
(** The hidden units with their weights, centres and widths in another order: the same
    predictions, and training ends in the moved network and reports the same losses. *)
Theorem C114_rbf_predict : forall h s p x, new_order h s -> length (rw p) = h -> length (rc p) = h -> length (rbeta p) = h ->
  rbf_predict {| rw := reordered s (rw p); rb := rb p; rc := rows_in_order s (rc p); rbeta := reordered s (rbeta p) |} x = rbf_predict p x.
Proof. intros h s p x S W C B. apply (rbf_predict_moved h s S). repeat split; auto. Qed.
Print Assumptions C114_rbf_predict.
Theorem C114_rbf_run : forall h s rate x y epochs p, new_order h s -> length (rw p) = h -> length (rc p) = h -> length (rbeta p) = h ->
  rbf_run rate x y epochs {| rw := reordered s (rw p); rb := rb p; rc := rows_in_order s (rc p); rbeta := reordered s (rbeta p) |} =
  (r <- rbf_run rate x y epochs p ;;
   Ok ({| rw := reordered s (rw (fst r)); rb := rb (fst r); rc := rows_in_order s (rc (fst r)); rbeta := reordered s (rbeta (fst r)) |}, snd r)).
Proof. intros h s rate x y epochs p S W C B. apply (rbf_run_moved h s S). repeat split; auto. Qed.
Print Assumptions C114_rbf_run.

(** ** Cases *)
(** A radial basis function network with two units and its training. *)
Example C114_rbf_example : let p := {| rw := [1; 2]; rb := 0; rc := [[0]; [1]]; rbeta := [1; 3] |} in
  length (rw p) = 2%nat /\ length (rc p) = 2%nat /\ length (rbeta p) = 2%nat /\ new_order 2 [1; 0]%nat /\
  exists r, rbf_run 1 [[1]; [2]] (Column [1; 0]) 2 p = Ok r.
Proof. cbn -[rbf_run]. repeat split; [unfold new_order; cbn; apply perm_swap|]. eexists. cbn. reflexivity. Qed.
(** Two hidden layers, both in another order. *)
Definition two_hidden : list neurons := [([[1]; [2]; [-1]], [1; 0; 3]); ([[2; 2; 1]; [0; 1; 5]], [0; 7]); ([[1; 3]], [1])].
Definition both : list (nat * list nat) := [(0, [2; 0; 1]); (1, [1; 0])]%nat.
Example C114_example : movable both two_hidden /\
  all_moved both two_hidden = [([[-1]; [1]; [2]], [3; 1; 0]); ([[5; 0; 1]; [1; 2; 2]], [7; 0]); ([[3; 1]], [1])] /\
  exists ls', sgd_run 1 [[1]; [2]] [[1]; [0]] two_hidden [0; 1; 0]%nat = Ok ls'.
Proof.
  assert (P3 : new_order 3 [2; 0; 1]%nat) by (unfold new_order; cbn; apply (perm_trans (l' := [0; 2; 1]%nat)); [apply perm_swap|apply perm_skip; apply perm_swap]).
  assert (P2 : new_order 2 [1; 0]%nat) by (unfold new_order; cbn; apply perm_swap).
  split; [|split; [reflexivity|]].
  - constructor; [exists 3%nat|constructor; [exists 2%nat|constructor]]; (split; [|assumption]); cbn; repeat split; try discriminate; repeat constructor.
  - assert (W : wired 1 two_hidden 1) by (cbn; repeat split; try discriminate; repeat constructor).
    destruct (sgd_run_total 1 1 1 1 [[1]; [2]] [[1]; [0]]) with (draws := [0; 1; 0]%nat) (ls := two_hidden) as (ls' & E & _); auto; repeat constructor. now exists ls'.
Qed.
(** If only the neurons themselves are moved and not the weights behind them, the
    outputs change. *)
Theorem C114_only_in_front_refuted : exists w b w' b' s x, new_order (length w) s /\ hidden_layer 0 (length w) [(w, b); (w', b')] /\
  (r <- forward [(rows_in_order s w, reordered s b); (w', b')] x ;; Ok (fst r)) <> (r <- forward [(w, b); (w', b')] x ;; Ok (fst r)).
Proof.
  exists [[1]; [0]], [0; 0], [[1; 0]], [0], [1; 0]%nat, [[1]]. split; [unfold new_order; cbn; apply perm_swap|]. split; [cbn; repeat split; try discriminate; repeat constructor|].
  intros E. cbn -[sigmoid relu] in E. injection E as E. unfold relu in E.
  replace (1 * 1 + 0 + 0) with 1 in E by lra. replace (1 * 0 + 0 + 0) with 0 in E by lra. rewrite (Rmax_right 0 1), (Rmax_left 0 0) in E by lra.
  replace (0 * 1 + (1 * 0 + 0) + 0) with 0 in E by lra. replace (1 * 1 + (0 * 0 + 0) + 0) with 1 in E by lra. unfold sigmoid in E.
  rewrite Ropp_0, exp_0 in E. pose proof (exp_pos (- (1))) as P. assert (L : exp (- (1)) < 1) by (pose proof (exp_increasing (- (1)) 0 ltac:(lra)) as Q; rewrite exp_0 in Q; exact Q).
  assert (K : 1 / (1 + exp (- (1))) > 1 / (1 + 1)) by (unfold Rdiv; rewrite !Rmult_1_l; apply Rinv_lt_contravar; [apply Rmult_lt_0_compat; lra|lra]).
  rewrite <- E in K. lra.
Qed.
Print Assumptions C114_only_in_front_refuted.
