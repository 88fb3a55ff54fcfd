(** C51: training of the radial basis function network. *)
From Coq Require Import List Reals Bool Arith Lia Lra.
From Verif.Model Require Import Base Activations Rbf.
From Verif.Spec Require Import Common Smo KMeans Logistic Rbf.
From Verif.Proof Require Import BaseLemmas Smo Kernels Gmm Activations Logistic Network Rbf.
Import ListNotations.
Local Open Scope R_scope.

(** Network [p] with centres of [d] features, rows [x] and labels [y] that fit. *)
Definition rbf_fits (d : nat) (p : rbf_params) (x : list (list R)) (y : list R) : Prop :=
  length (rw p) = length (rc p) /\ length (rbeta p) = length (rc p) /\ Forall (fun c => length c = d) (rc p) /\
  x <> [] /\ Forall (fun r => length r = d) x /\ length y = length x.

Theorem C51_prediction : forall d p x, rbf_shape d p -> Forall (fun r => length r = d) x ->
  rbf_predict p x = Ok (map (rbf_output (rw p) (rb p) (rc p) (rbeta p)) x).
Proof. intros d p x S F. unfold rbf_predict. rewrite (forward_value d) by auto. cbn [bind]. now rewrite map_map. Qed.
Print Assumptions C51_prediction.

(** The gradients of the weights and of the bias are those of half the mean squared
    error.  The gradient of the widths is that of half the mean squared output. *)
Theorem C51_gradients : forall d p x y, rbf_fits d p x y -> exists rows g,
  rbf_forward p x = Ok rows /\ rbf_backward (length (rc p)) rows y (rw p) = Ok g /\
  (forall u, (u < length (rc p))%nat ->
     derivable_pt_lim (fun t => half_error x y (with_param u t (rw p)) (rb p) (rc p) (rbeta p)) (nth u (rw p) 0) (nth u (dw g) 0)) /\
  derivable_pt_lim (fun t => half_error x y (rw p) t (rc p) (rbeta p)) (rb p) (db g) /\
  (forall u, (u < length (rc p))%nat ->
     derivable_pt_lim (fun t => half_mean_square x (rw p) (rb p) (rc p) (with_param u t (rbeta p))) (nth u (rbeta p) 0) (nth u (dbeta g) 0)).
Proof.
  intros d p x y (L1 & L2 & F & Hx & Fx & Ly). destruct (rbf_gradient d p x y (conj L1 (conj L2 F)) Fx Hx Ly) as (rows & g & A & _ & B & _ & _ & C).
  exists rows, g. auto.
Qed.
Print Assumptions C51_gradients.

(** One epoch moves the parameters by these gradients. *)
Theorem C51_epoch : forall rate d p x y, rbf_fits d p x y -> exists rows g p' l,
  rbf_forward p x = Ok rows /\ rbf_backward (length (rc p)) rows y (rw p) = Ok g /\
  rbf_epoch rate x (Column y) p = Ok (p', l) /\ rc p' = rc p /\ rb p' = rb p - rate * db g /\
  (forall u, (u < length (rc p))%nat -> nth u (rw p') 0 = nth u (rw p) 0 - rate * nth u (dw g) 0) /\
  (forall u, (u < length (rc p))%nat -> nth u (rbeta p') 0 = nth u (rbeta p) 0 - rate * nth u (dbeta g) 0).
Proof.
  intros rate d p x y (L1 & L2 & F & Hx & Fx & Ly). assert (S : rbf_shape d p) by (split; auto).
  destruct (rbf_gradient d p x y S Fx Hx Ly) as (rows & g & A & _ & B & G1 & G2 & _).
  destruct (epoch_value rate d x y Fx Hx Ly p S) as (g' & B' & E & _). rewrite (forward_value d) in A by auto. injection A as <-.
  rewrite B in B'. injection B' as <-. exists (map (row_of p) x), g, (rbf_update rate p g), (shown_loss x y p).
  split; [now apply (forward_value d)|]. split; [exact B|]. split; [exact E|]. split; [reflexivity|]. split; [reflexivity|].
  split; intros u Hu; unfold rbf_update; cbn [rw rbeta]; rewrite nth_zip2; auto; congruence.
Qed.
Print Assumptions C51_epoch.

(** The labels do not take part in the update of the widths. *)
Theorem C51_width_update_ignores_labels : forall rate d p x y y' p1 l1 p2 l2, rbf_fits d p x y -> length y' = length x ->
  rbf_epoch rate x (Column y) p = Ok (p1, l1) -> rbf_epoch rate x (Column y') p = Ok (p2, l2) -> rbeta p1 = rbeta p2.
Proof.
  intros rate d p x y y' p1 l1 p2 l2 (L1 & L2 & F & Hx & Fx & Ly) Ly' E1 E2. assert (S : rbf_shape d p) by (split; auto).
  destruct (epoch_value rate d x y Fx Hx Ly p S) as (g & B & E & _). destruct (epoch_value rate d x y' Fx Hx Ly' p S) as (g' & B' & E' & _).
  rewrite (backward_value d) in B, B' by auto. injection B as <-. injection B' as <-. rewrite E in E1. rewrite E' in E2. injection E1 as <- _. injection E2 as <- _. reflexivity.
Qed.
Print Assumptions C51_width_update_ignores_labels.

(** Distance to the derivative of the error: the labels weighted with the widths'
    own signal.  For labels that are not negative and a weight that is not
    negative, the width is always pushed up too far. *)
Theorem C51_width_gradient_error : forall d p x y u, rbf_fits d p x y -> (u < length (rc p))%nat -> exists rows g v,
  rbf_forward p x = Ok rows /\ rbf_backward (length (rc p)) rows y (rw p) = Ok g /\
  derivable_pt_lim (fun t => half_error x y (rw p) (rb p) (rc p) (with_param u t (rbeta p))) (nth u (rbeta p) 0) v /\
  v - nth u (dbeta g) 0 =
    nth u (rw p) 0 * total (map (fun q => snd q * sq_dist (fst q) (nth u (rc p) []) * bump (nth u (rbeta p) 0) (nth u (rc p) []) (fst q)) (combine x y)) / INR (length x) /\
  (0 <= nth u (rw p) 0 -> Forall (fun l => 0 <= l) y -> nth u (dbeta g) 0 <= v).
Proof.
  intros d p x y u (L1 & L2 & F & Hx & Fx & Ly) Hu. assert (S : rbf_shape d p) by (split; auto).
  exists (map (row_of p) x). eexists. eexists. split; [now apply (forward_value d)|]. split; [now apply (backward_value d)|]. split; [now apply (true_width_derivative d p x y S Fx Hx)|].
  cbn [dbeta]. rewrite (nth_map_in _ _ u _ 0%nat) by now rewrite seq_length. rewrite seq_nth by auto. cbn [plus].
  assert (Pn : 0 < INR (length x)) by (apply lt_0_INR; destruct x; [congruence|simpl; lia]).
  match goal with |- ?a / _ - ?b / _ = _ * ?c / _ /\ _ => assert (E : a - b = nth u (rw p) 0 * c) end.
  { change total with rsum. clear - Ly. revert y Ly. induction x as [|r l IH]; intros [|v y] Ly; simpl in *; try lia; [unfold rsum; simpl; lra|].
    specialize (IH y ltac:(lia)). unfold rsum in *. cbn [fold_right fst snd]. lra. }
  match goal with |- ?a / _ - ?b / _ = ?w * ?c / _ /\ _ => set (A := a) in *; set (B := b) in *; set (C := c) in *; set (W := w) in * end.
  split; [|intros HW Hl].
  - unfold Rdiv. rewrite <- E. ring.
  - assert (PC : 0 <= C). { unfold C. change total with rsum. apply rsum_nonneg. intros v Hv. apply in_map_iff in Hv. destruct Hv as ([r l] & <- & Hq). cbn [fst snd].
      apply in_combine_r in Hq. rewrite Forall_forall in Hl. specialize (Hl l Hq). assert (0 <= sq_dist r (nth u (rc p) [])).
      { unfold sq_dist. change total with rsum. apply rsum_nonneg. intros v Hv. apply in_map_iff in Hv. destruct Hv as (t & <- & _). apply pow2_ge_0. }
      assert (0 < bump (nth u (rbeta p) 0) (nth u (rc p) []) r) by apply exp_pos. apply Rmult_le_pos; [apply Rmult_le_pos; auto|lra]. }
    assert (0 < / INR (length x)) by now apply Rinv_0_lt_compat. unfold Rdiv. assert (0 <= W * C) by now apply Rmult_le_pos. nra.
Qed.
Print Assumptions C51_width_gradient_error.

(** A network that fits its data exactly does not stay: whatever the rate is, one
    epoch makes the error of this one positive. *)
Definition exact_net : rbf_params := {| rw := [1]; rb := 1 - exp (-1); rc := [[0; 0]]; rbeta := [1] |}.
Theorem C51_exact_fit_is_kept_refuted : forall rate, 0 < rate -> exists p' l,
  half_error [[1; 0]] [1] (rw exact_net) (rb exact_net) (rc exact_net) (rbeta exact_net) = 0 /\
  rbf_epoch rate [[1; 0]] (Column [1]) exact_net = Ok (p', l) /\
  0 < half_error [[1; 0]] [1] (rw p') (rb p') (rc p') (rbeta p').
Proof.
  intros rate Hr.
  assert (Q : sq_dist [1; 0] [0; 0] = 1) by (unfold sq_dist; simpl; ring).
  assert (O : rbf_output (rw exact_net) (rb exact_net) (rc exact_net) (rbeta exact_net) [1; 0] = 1).
  { unfold rbf_output, exact_net. cbn [rw rb rc rbeta length]. rewrite sum_below_S. cbn [nth]. unfold sum_below, bump. rewrite Q. cbn [seq map]. unfold total. cbn [fold_right]. replace (- (1) * 1) with (-1) by ring. ring. }
  destruct (epoch_value rate 2 [[1; 0]] [1] ltac:(repeat constructor) ltac:(discriminate) eq_refl exact_net ltac:(repeat constructor)) as (g & B & E & _).
  rewrite (backward_value 2) in B by (try discriminate; repeat constructor). injection B as <-.
  eexists. eexists. split; [|split; [exact E|]].
  - unfold half_error. cbn [combine map fst snd]. rewrite O. unfold total. simpl. field.
  - unfold half_error, rbf_update. cbn [rw rb rc rbeta dw db dbeta combine map fst snd length seq]. unfold rsum, total. cbn [fold_right]. 
    change (rbf_output [1] (1 - exp (-1)) [[0; 0]] [1] [1; 0]) with (rbf_output (rw exact_net) (rb exact_net) (rc exact_net) (rbeta exact_net) [1; 0]).
    rewrite !O, !Q. cbn [exact_net rw rb rc rbeta].
    unfold zip2. cbn [combine map fst snd]. unfold rbf_output. cbn [length]. rewrite sum_below_S. unfold sum_below at 1. cbn [seq map nth]. unfold total. cbn [fold_right]. unfold bump. rewrite !Q. cbn [INR].
    set (e := exp (- (1) * 1)). assert (He : 0 < e) by apply exp_pos. replace (exp (-1)) with e by (unfold e; f_equal; ring).
    match goal with |- context [exp (- ?b * 1)] => set (be := b) end. assert (Hbe : 1 < be) by (unfold be; assert (0 < rate * e) by (apply Rmult_lt_0_compat; assumption); lra).
    assert (exp (- be * 1) < e) by (unfold e; apply exp_increasing; lra).
    apply Rmult_lt_0_compat; [|lra]. match goal with |- 0 < ?a ^ 2 + 0 => assert (a < 0) by lra; pose proof (Rlt_0_sqr a ltac:(lra)) as Z; rewrite Rsqr_pow2 in Z end. lra.
Qed.
Print Assumptions C51_exact_fit_is_kept_refuted.

(** The whole training: it succeeds, the centres are never moved, and the loss
    recorded for an epoch is that of the parameters before its update, the square
    of the sum of the errors, which errors of both signs cancel. *)
Theorem C51_run : forall rate d p x y n, rbf_fits d p x y -> exists p' ls,
  rbf_run rate x (Column y) n p = Ok (p', ls) /\ length ls = n /\ rc p' = rc p /\ rbf_fits d p' x y /\
  forall k, (k < n)%nat -> exists pk lk, rbf_run rate x (Column y) k p = Ok (pk, lk) /\ rbf_fits d pk x y /\
    nth k ls 0 = total (map (fun q => rbf_output (rw pk) (rb pk) (rc pk) (rbeta pk) (fst q) - snd q) (combine x y)) ^ 2 / (2 * INR (length x)).
Proof.
  intros rate d p x y n (L1 & L2 & F & Hx & Fx & Ly). assert (S : rbf_shape d p) by (split; auto).
  destruct (run_value rate d x y Fx Hx Ly n p S) as (p' & ls & R & L & C & Sp & H). exists p', ls. split; [exact R|]. split; [exact L|]. split; [exact C|].
  assert (W : forall q, rbf_shape d q -> rbf_fits d q x y) by (intros q (A1 & A2 & A3); repeat (split; auto)).
  split; [now apply W|]. intros k Hk. destruct (H k Hk) as (pk & lk & Rk & Sk & V). exists pk, lk. split; [exact Rk|]. split; [now apply W|exact V].
Qed.
Print Assumptions C51_run.

(** Labels given as a vector instead of a column are refused from two rows on. *)
Theorem C51_vector_labels_fail : forall rate d p x y n, rbf_fits d p x y -> (2 <= length y)%nat ->
  rbf_run rate x (Flat y) (S n) p = Err ValueError.
Proof.
  intros rate d p x y n (L1 & L2 & F & Hx & Fx & Ly) H. apply (flat_error rate x y p n (map (row_of p) x) H), (forward_value d); auto. now split.
Qed.
Print Assumptions C51_vector_labels_fail.

(** The centres have two features.  A single feature is silently used for both
    coordinates, three or more are refused. *)
Theorem C51_other_widths : forall p vs r x, Forall (fun c => length c = 2%nat) (rc p) ->
  rbf_predict p (map (fun v => [v]) vs) = rbf_predict p (map (fun v => [v; v]) vs) /\
  (rc p <> [] -> (3 <= length r)%nat -> rbf_predict p (r :: x) = Err ValueError).
Proof.
  intros p vs r x F. split; [|intros N L; now apply three_features]. unfold rbf_predict, rbf_forward. f_equal.
  induction vs as [|v vs IH]; [reflexivity|]. cbn [map mapM]. rewrite one_feature by auto. now rewrite IH.
Qed.
Print Assumptions C51_other_widths.

Example C51_ex : rbf_fits 2 {| rw := [1; -2]; rb := / 2; rc := [[0; 1]; [1; / 3]]; rbeta := [1; - / 2] |} [[1; 0]; [3; 2]; [0; 0]] [1; 0; 1].
Proof. repeat (split; [first [reflexivity|discriminate|repeat constructor]|]). reflexivity. Qed.
