(** C48 and C52: activation functions and losses. *)
From Coq Require Import List ZArith Reals Bool Arith Lia Lra.
From Verif.Model Require Import Base Activations.
From Verif.Spec Require Import Common Activations.
From Verif.Proof Require Import BaseLemmas Activations.
Import ListNotations.
Local Open Scope R_scope.

(** ** C48 *)
(** Every row of a softmax is a distribution proportional to the exponentials of
    its scores. *)
Theorem C48_softmax_is_distribution : forall z p, Forall (fun r => r <> []) z -> softmax z = Ok p ->
  Forall2 (fun row q => positive_distribution q /\ proportional_to_exp row q) z p.
Proof. intros z p Hz E. now apply softmax_main. Qed.
Print Assumptions C48_softmax_is_distribution.

(** It is defined for every matrix with a row and a column. *)
Theorem C48_softmax_defined : forall z, z <> [] -> Forall (fun r => r <> []) z -> exists p, softmax z = Ok p.
Proof. exact softmax_total. Qed.
Print Assumptions C48_softmax_defined.

(** Adding a constant to all scores changes nothing. *)
Theorem C48_softmax_shift : forall k z, z <> [] -> Forall (fun r => r <> []) z ->
  softmax (map (map (fun v => v + k)) z) = softmax z.
Proof.
  intros k z Hz Hr. destruct (softmax_total z Hz Hr) as [p E].
  assert (Hr' : Forall (fun r => r <> []) (map (map (fun v => v + k)) z)).
  { apply Forall_forall. intros r Hin. apply in_map_iff in Hin. destruct Hin as (s & <- & Hs). rewrite Forall_forall in Hr. specialize (Hr _ Hs). destruct s; simpl; congruence. }
  destruct (softmax_total (map (map (fun v => v + k)) z)) as [p' E']; auto; [destruct z; simpl; congruence|].
  rewrite E, E'. f_equal. symmetry. eapply softmax_shift; eauto.
Qed.
Print Assumptions C48_softmax_shift.

(** A larger score gets a larger probability. *)
Theorem C48_softmax_order : forall z p row q i j, Forall (fun r => r <> []) z -> softmax z = Ok p -> In (row, q) (combine z p) ->
  (i < length row)%nat -> (j < length row)%nat -> (nth i q 0 < nth j q 0 <-> nth i row 0 < nth j row 0).
Proof.
  intros z p row q i j Hz E Hin Hi Hj. pose proof (softmax_main z p E Hz) as F.
  assert (G : proportional_to_exp row q).
  { clear - F Hin. induction F as [|a b z p [_ H] F IH]; simpl in Hin; [tauto|]. destruct Hin as [E|Hin]; auto. congruence. }
  destruct G as (_ & c & Hc & G). rewrite (G i Hi), (G j Hj). split; intros H.
  - apply exp_lt_inv. nra.
  - apply Rmult_lt_compat_l; auto. now apply exp_increasing.
Qed.
Print Assumptions C48_softmax_order.

Theorem C48_sigmoid : forall z, 0 < sigmoid z < 1 /\ sigmoid (- z) = 1 - sigmoid z /\
  (forall u, z < u -> sigmoid z < sigmoid u) /\ sigmoid z = exp z / (exp 0 + exp z) /\
  derivable_pt_lim sigmoid z (sigmoid z * (1 - sigmoid z)).
Proof.
  intros z. split; [apply sigmoid_range|]. split; [apply sigmoid_opp|]. split; [intros u; apply sigmoid_incr|].
  split; [rewrite exp_0; apply sigmoid_alt|apply sigmoid_deriv].
Qed.
Print Assumptions C48_sigmoid.

(** The derivative used in training: the code's [Sigmoid.diff] with activation
    [a = sigmoid z] is the derivative times the error. *)
Theorem C48_sigmoid_diff : forall z y out,
  exists l, derivable_pt_lim sigmoid z l /\ sigmoid_diff y out (sigmoid z) = l * (y - out).
Proof. intros z y out. exists (sigmoid z * (1 - sigmoid z)). split; [apply sigmoid_deriv|reflexivity]. Qed.
Print Assumptions C48_sigmoid_diff.

(** Relu is the larger of 0 and the score; away from 0 [Relu.diff] multiplies by
    its derivative. *)
Theorem C48_relu : forall z, 0 <= relu z /\ z <= relu z /\ (relu z = 0 \/ relu z = z) /\
  (forall out, z <> 0 -> exists l, derivable_pt_lim relu z l /\ relu_diff out z = l * out).
Proof.
  intros z. unfold relu. split; [apply Rmax_l|]. split; [apply Rmax_r|].
  split; [unfold Rmax; destruct (Rle_dec 0 z); auto|]. intros out Hz. unfold relu_diff.
  destruct (Rleb z 0) eqn:E.
  - apply Rleb_true in E. exists 0. split; [|lra]. intros eps He. assert (P : 0 < - z) by lra. exists (mkposreal _ P). intros h Hh Hd. simpl in Hd.
    unfold relu. apply Rabs_def2 in Hd. rewrite !Rmax_left by lra. replace ((0 - 0) / h - 0) with 0 by (field; auto). rewrite Rabs_R0. lra.
  - apply Rleb_false in E. exists 1. split; [|lra]. intros eps He. exists (mkposreal _ E). intros h Hh Hd. simpl in Hd.
    unfold relu. apply Rabs_def2 in Hd. rewrite !Rmax_right by lra. replace ((z + h - z) / h - 1) with 0 by (field; auto). rewrite Rabs_R0. lra.
Qed.
Print Assumptions C48_relu.

Example C48_ex : exists p, softmax [[1; 2]; [0; 5]] = Ok p /\ length p = 2%nat.
Proof.
  destruct (softmax_total [[1; 2]; [0; 5]]) as [p E]; [discriminate|repeat constructor; discriminate|]. exists p. split; auto.
  apply C48_softmax_is_distribution in E; [|repeat constructor; discriminate]. inversion E as [|? ? ? ? _ F]; subst. inversion F as [|? ? ? ? _ F']; subst.
  inversion F'; subst. reflexivity.
Qed.

(** ** C52 *)
(** The binary cross-entropy is the mean of minus the log probability given to
    the label. *)
Theorem C52_binary_value : forall p y v, binary_crossentropy p y = Ok v -> Forall (fun l => l = 0 \/ l = 1) y ->
  0 < v /\ v * INR (length y) = total (map (fun a => - ln (if Req_EM_T (snd a) 1 then fst a else 1 - fst a)) (combine p y)).
Proof.
  intros p y v H Hy. split; [eapply bce_nonneg; eauto|]. destruct (bce_eq p y v H) as (_ & _ & _ & ->). change total with rsum.
  apply rsum_ext. intros [q l] Hin. simpl. rewrite Forall_forall in Hy. destruct (Req_EM_T l 1) as [->|N]; [lra|].
  destruct (Hy l (in_combine_r _ _ _ _ Hin)) as [-> | ->]; lra.
Qed.
Print Assumptions C52_binary_value.

(** It is defined exactly for equally many predictions and labels, at least one,
    with every prediction strictly between 0 and 1. *)
Theorem C52_binary_defined : forall p y,
  (exists v, binary_crossentropy p y = Ok v) <-> length p = length y /\ y <> [] /\ Forall (fun q => 0 < q < 1) p.
Proof.
  intros p y. split.
  - intros [v H]. destruct (bce_eq p y v H) as (A & B & C & _). auto.
  - intros (L & N & F). unfold binary_crossentropy. rewrite L, Nat.eqb_refl. simpl.
    destruct (existsb (fun p => Rleb p 0 || Rleb 1 p) p) eqn:E.
    + apply existsb_exists in E. destruct E as (q & Hq & Q). rewrite Forall_forall in F. specialize (F q Hq). apply orb_true_iff in Q.
      destruct Q as [Q|Q]; apply Rleb_true in Q; lra.
    + destruct y; [congruence|]. eauto.
Qed.
Print Assumptions C52_binary_defined.

(** With one-hot labels the categorical cross-entropy is the mean of minus the
    log probability of the right class, and is not negative. *)
Theorem C52_categorical_value : forall p y v, categorical_crossentropy p y = Ok v -> same_shape p y -> Forall one_hot_row y ->
  (forall ks, Forall2 (fun row k => (k < length row)%nat /\ nth k row 0 = 1) y ks ->
     v * INR (length y) = total (map (fun a => - ln (nth (snd a) (fst a) 0)) (combine p ks))) /\
  (Forall positive_distribution p -> 0 <= v).
Proof.
  intros p y v H Hs Hy. split; [|now apply (cce_nonneg p y v)]. destruct (cce_eq p y v H Hs) as (_ & _ & ->). clear H.
  intros ks Hk. revert ks Hk. induction Hs as [|r s p y L Hs IH]; intros ks Hk; [reflexivity|].
  inversion Hk as [|? k ? ks' [K1 K2] Hk']; subst. inversion Hy as [|? ? (k0 & Hk0 & E0) Hy']; subst. unfold total in *. cbn [combine map fold_right fst snd].
  rewrite (IH Hy' ks' Hk'). f_equal. assert (k = k0).
  { rewrite (E0 k K1) in K2. destruct (Nat.eqb_spec k k0); auto. lra. }
  subst k0. apply (one_hot_pick s r k L K1 E0).
Qed.
Print Assumptions C52_categorical_value.

(** The mean squared error squares the sum of the differences: it is 0 exactly
    when the differences sum to 0. *)
Theorem C52_mse_value : forall n p y v, length p = length y -> mean_squared_error n p y = Ok v ->
  n <> 0%nat /\ 2 * INR n * v = (total p - total y) ^ 2 /\ (v = 0 <-> total p = total y).
Proof.
  intros n p y v L H. unfold mean_squared_error in H. destruct (Nat.eqb_spec n 0) as [|Hn]; [discriminate|]. split; auto.
  assert (P : 0 < INR n) by (apply lt_0_INR; lia).
  assert (S : rsum (zip2 Rminus p y) = total p - total y).
  { clear - L. revert y L. unfold zip2, rsum, total. induction p as [|q p IH]; intros [|l y] L; try discriminate; simpl; [lra|]. rewrite IH by (simpl in L; lia). lra. }
  assert (V : v = rsum (zip2 Rminus p y) ^ 2 / (2 * INR n)) by congruence. rewrite S in V.
  assert (E : 2 * INR n * v = (total p - total y) ^ 2) by (rewrite V; field; lra). split; auto.
  split; intros Z.
  - rewrite Z, Rmult_0_r in E. symmetry in E. assert (total p - total y = 0) by nra. lra.
  - rewrite V, Z. field. lra.
Qed.
Print Assumptions C52_mse_value.

(** So errors can cancel. *)
Theorem C52_mse_zero_means_equal_refuted : mean_squared_error 2 [1; 0] [0; 1] = Ok 0 /\ [1; 0] <> [0; 1].
Proof.
  split; [|intros E; injection E; lra]. apply mse_zero_iff; [lia|]. unfold zip2, rsum. simpl. lra.
Qed.
Print Assumptions C52_mse_zero_means_equal_refuted.

Example C52_ex : (exists v, binary_crossentropy [1 / 2; 3 / 4] [0; 1] = Ok v) /\ one_hot_row [0; 1; 0] /\
  (exists v, categorical_crossentropy [[1 / 2; 1 / 2]] [[0; 1]] = Ok v).
Proof.
  split; [apply C52_binary_defined; split; [reflexivity|split; [discriminate|repeat constructor; lra]]|]. split.
  - exists 1%nat. split; [simpl; lia|]. intros [|[|[|j]]] Hj; simpl in *; auto; lia.
  - unfold categorical_crossentropy. simpl. replace (Rleb (1 / 2) 0) with false by (symmetry; apply Rleb_false; lra). simpl. eauto.
Qed.
