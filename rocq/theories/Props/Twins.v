(** C112: hidden neurons that start alike stay alike, and silent neurons stay silent. *)
From Coq Require Import List Reals Lra Lia Arith Bool.
From Verif.Model Require Import Base Activations Network.
From Verif.Spec Require Import Common Smo Activations Network Twins.
From Verif.Proof Require Import BaseLemmas Network NetworkMain NetworkStep Adam Twins.
Import ListNotations.
Local Open Scope R_scope.

(** ** Neurons that are alike *)
(** Two neurons of the same hidden layer that start with the same weights, in front of
    them and behind them, have the same weights after every training. *)
Theorem C112_alike_sgd : forall k i j rate x y draws ls ls', alike k i j ls ->
  sgd_run rate x y ls draws = Ok ls' -> alike k i j ls'.
Proof. intros k i j rate x y draws ls ls' A E. exact (sgd_alike i j k rate x y draws ls ls' E A). Qed.
Print Assumptions C112_alike_sgd.
Theorem C112_alike_adam : forall k i j o x y draws ls ls', alike k i j ls ->
  adam_run o x y ls draws = Ok ls' -> alike k i j ls'.
Proof. intros k i j o x y draws ls ls' A E. exact (adam_alike i j k o x y draws ls ls' E A). Qed.
Print Assumptions C112_alike_adam.
(** They answer every input alike: one of them is superfluous. *)
Theorem C112_alike_scores : forall i j l ls r, alike 0 i j (l :: ls) -> nth i (scores l r) 0 = nth j (scores l r) 0.
Proof.
  intros i j [w b] ls r (w0 & b0 & w' & b' & E & _ & Hi & Hj & Bi & Bj & Hw & Hb & _). cbn in E. injection E as <- <-. unfold scores. cbn [fst snd].
  assert (N : forall q, (q < length w)%nat -> (q < length b)%nat -> nth q (combine w b) ([], 0) = (nth q w [], nth q b 0)).
  { clear. intros q. revert w b. induction q as [|q IH]; intros [|u w] [|c b] H1 H2; cbn in *; try lia; [reflexivity|]. apply IH; lia. }
  rewrite !(nth_map_in _ (combine w b) _ 0 ([], 0)) by (rewrite combine_length; lia). rewrite !N by auto. cbn [fst snd]. congruence.
Qed.
Print Assumptions C112_alike_scores.

(** ** Silent neurons *)
(** A neuron of the first hidden layer that has no positive score on any training row
    keeps its weights, its bias and the weights of the next layer for it, exactly,
    and so it stays silent on the training rows. *)
Theorem C112_silent_sgd : forall i rate x y draws ls ls', silent i x ls ->
  sgd_run rate x y ls draws = Ok ls' -> neuron i ls' = neuron i ls /\ silent i x ls'.
Proof.
  intros i rate x y draws ls ls' S E. pose proof (sgd_silent i rate x y draws ls ls' E S) as N. split; [exact N|]. exact (silent_same i x ls ls' N S).
Qed.
Print Assumptions C112_silent_sgd.
Theorem C112_silent_adam : forall i o x y draws ls ls', silent i x ls ->
  adam_run o x y ls draws = Ok ls' -> neuron i ls' = neuron i ls /\ silent i x ls'.
Proof.
  intros i o x y draws ls ls' S E. pose proof (adam_silent i o x y draws ls ls' E S) as N. split; [exact N|]. exact (silent_same i x ls ls' N S).
Qed.
Print Assumptions C112_silent_adam.
(** If they are all silent, as in a network that starts with zeros, neither the first
    layer nor the weights of the second layer ever change. *)
Theorem C112_all_silent_sgd : forall rate x y draws w b w' b' rest ls', w <> [] -> length b = length w -> Forall (fun r => length r = length w) w' ->
  (forall i, (i < length w)%nat -> silent i x ((w, b) :: (w', b') :: rest)) ->
  sgd_run rate x y ((w, b) :: (w', b') :: rest) draws = Ok ls' -> exists b'' rest', ls' = (w, b) :: (w', b'') :: rest'.
Proof.
  intros rate x y draws w b w' b' rest ls' Hw Lb F S E. apply (all_silent w b w' b' rest ls'); auto; [exact (sgd_shape rate x y draws _ _ E)|].
  intros i Hi. exact (sgd_silent i rate x y draws _ _ E (S i Hi)).
Qed.
Print Assumptions C112_all_silent_sgd.
Theorem C112_all_silent_adam : forall o x y draws w b w' b' rest ls', w <> [] -> length b = length w -> Forall (fun r => length r = length w) w' ->
  (forall i, (i < length w)%nat -> silent i x ((w, b) :: (w', b') :: rest)) ->
  adam_run o x y ((w, b) :: (w', b') :: rest) draws = Ok ls' -> exists b'' rest', ls' = (w, b) :: (w', b'') :: rest'.
Proof.
  intros o x y draws w b w' b' rest ls' Hw Lb F S E. apply (all_silent w b w' b' rest ls'); auto; [exact (adam_shape o x y draws _ _ E)|].
  intros i Hi. exact (adam_silent i o x y draws _ _ E (S i Hi)).
Qed.
Print Assumptions C112_all_silent_adam.

(** ** Cases *)
(** Two neurons alike, a third one that is silent on the rows 1 and 2; training it
    succeeds. *)
Definition three : list neurons := [([[1]; [1]; [-1]], [1; 1; 0]); ([[2; 2; 1]], [0])].
Example C112_example : alike 0 0 1 three /\ silent 2 [[1]; [2]] three /\ wired 1 three 1 /\
  exists ls', sgd_run 1 [[1]; [2]] [[1]; [0]] three [0; 1; 0]%nat = Ok ls'.
Proof.
  assert (W : wired 1 three 1) by (cbn; repeat split; try discriminate; repeat constructor).
  split; [exists [[1]; [1]; [-1]], [1; 1; 0], [[2; 2; 1]], [0]; cbn; repeat split; try lia; repeat constructor; lia|].
  split; [exists [-1], 0, [1]; split; [reflexivity|]; intros r I; cbn in I; intuition (subst; cbn; lra)|]. split; [exact W|].
  destruct (sgd_run_total 1 1 1 1 [[1]; [2]] [[1]; [0]]) with (draws := [0; 1; 0]%nat) (ls := three) as (ls' & E & _); auto; repeat constructor. now exists ls'.
Qed.
(** The network of zeros. *)
Example C112_zero_example : forall x, Forall (fun r => length r = 1%nat) x -> (forall i, (i < 2)%nat -> silent i x [([[0]; [0]], [0; 0]); ([[0; 0]], [0])]).
Proof.
  intros x F i Hi. rewrite Forall_forall in F. destruct i as [|[|i]]; [| |lia]; exists [0], 0, [0]; (split; [reflexivity|]); intros r I; specialize (F r I); destruct r as [|a [|]]; try discriminate; cbn; lra.
Qed.
