(** C81 to C87: scaling, activations, losses, densities and metrics in floating
    point, for 32 and 64 bits and every other format. *)
From Coq Require Import List Reals ZArith Bool Lia Lra Permutation.
From Flocq Require Import Core IEEE754.BinarySingleNaN.
From Verif.Model Require Import Base Ops Float FloatOps.
From Verif.Spec Require Import Common Preprocessing Float.
From Verif.Proof Require Import BaseLemmas Preprocessing Float FloatScale FloatSmo FloatAct FloatAct2 FloatLoss FloatEx FloatIEEE FloatLists.
Import ListNotations.
Local Open Scope R_scope.

(** ** C81: scaling *)

(** A finite range: results between 0 and 1, the minimum becomes exactly 0, the
    maximum exactly 1 and the order is kept (not strictly). *)
Theorem C81_scaled f data mn mx : good f -> Forall (fits f) data -> is_min mn data -> is_max mx data -> mn < mx ->
  rnd f (mx - mn) < bpow radix2 (emax f) ->
  exists out, minmax_float f data = Ok (map Num out) /\ length out = length data /\
    forall i, (i < length data)%nat ->
      0 <= nth i out 0 <= 1 /\ (nth i data 0 = mn -> nth i out 0 = 0) /\ (nth i data 0 = mx -> nth i out 0 = 1) /\
      forall j, (j < length data)%nat -> nth i data 0 <= nth j data 0 -> nth i out 0 <= nth j out 0.
Proof.
  intros G F Mn Mx L R1. destruct (min_max_of data mn mx Mn Mx) as [En Ex]. rewrite Forall_forall in F.
  assert (Fn : fits f mn) by apply F, Mn. assert (Fx : fits f mx) by apply F, Mx.
  exists (map (scaled f mn mx) data). split; [|split; [apply map_length|]].
  - unfold minmax_float. rewrite En, Ex. cbn [bind]. f_equal. rewrite map_map. apply map_ext_in. intros x I.
    apply (scale_finite f G mn mx x Fn Fx L R1). split; [now apply Mn|now apply Mx].
  - intros i I. rewrite (nth_map_in 0 0) by exact I.
    assert (In (nth i data 0) data) by now apply nth_In.
    split; [apply (scale_finite f G mn mx); auto; split; [now apply Mn|now apply Mx]|].
    split; [intros ->; apply scaled_min|]. split; [intros ->; now apply scaled_max|].
    intros j J Q. rewrite (nth_map_in 0 0) by exact J. now apply scaled_mono.
Qed.
Print Assumptions C81_scaled.

(** A constant column becomes NaN. *)
Theorem C81_constant f data x : good f -> data <> [] -> (forall y, In y data -> y = x) ->
  minmax_float f data = Ok (map (fun _ => NaN) data).
Proof.
  intros G N H. destruct data as [|d t]; [contradiction|]. assert (d = x) by (apply H; now left). subst d.
  assert (Mn : is_min x (x :: t)) by (split; [now left|intros y I; rewrite (H y I); apply Rle_refl]).
  assert (Mx : is_max x (x :: t)) by (split; [now left|intros y I; rewrite (H y I); apply Rle_refl]).
  destruct (min_max_of _ _ _ Mn Mx) as [En Ex]. unfold minmax_float. rewrite En, Ex. cbn [bind]. f_equal. apply map_ext_in.
  intros y I. rewrite (H y I). change (fsub f (Num x) (Num x)) with (make f (x - x)). replace (x - x) with 0 by ring. rewrite make_0.
  unfold fdiv, Reqb. destruct (Req_EM_T 0 0); [reflexivity|lra].
Qed.
Print Assumptions C81_constant.

(** A range beyond the largest number: every value becomes 0 or NaN. *)
Theorem C81_overflow f data mn mx : good f -> is_min mn data -> is_max mx data -> bpow radix2 (emax f) <= rnd f (mx - mn) ->
  exists out, minmax_float f data = Ok out /\ length out = length data /\
    forall i, (i < length data)%nat -> nth i out NaN =
      if Rltb (rnd f (nth i data 0 - mn)) (bpow radix2 (emax f)) then Num 0 else NaN.
Proof.
  intros G Mn Mx B. destruct (min_max_of data mn mx Mn Mx) as [En Ex].
  exists (map (fun x => if Rltb (rnd f (x - mn)) (bpow radix2 (emax f)) then Num 0 else NaN) data).
  split; [|split; [apply map_length|]].
  - unfold minmax_float. rewrite En, Ex. cbn [bind]. f_equal. apply map_ext_in. intros x I. apply scale_overflow; [exact G| |exact B].
    split; [now apply Mn|now apply Mx].
  - intros i I. now rewrite (nth_map_in 0 NaN) by exact I.
Qed.
Print Assumptions C81_overflow.

(** Undoing the scaling of a column gives back its minimum exactly and every
    other value up to a few roundings. *)
Theorem C81_inverse f data mn mx x : good f -> (4 <= prec f)%Z -> Forall (fits f) data -> is_min mn data -> is_max mx data -> mn < mx ->
  Rabs mn <= bpow radix2 (emax f - 2) -> Rabs mx <= bpow radix2 (emax f - 2) -> In x data ->
  exists z back, In (Num z) (match minmax_float f data with Ok out => out | Err _ => [] end) /\
    fdiv f (fsub f (Num x) (Num mn)) (fsub f (Num mx) (Num mn)) = Num z /\
    minmax_inverse_float f mn mx (Num z) = Num back /\
    (x = mn -> back = x) /\
    Rabs (back - x) <= 7 * unit_of f * (mx - mn) + unit_of f * Rabs x + 3 * tiny_of f.
Proof.
  intros G P F Mn Mx L Bn Bx I. rewrite Forall_forall in F.
  assert (Fn : fits f mn) by apply F, Mn. assert (Fx : fits f mx) by apply F, Mx.
  assert (X : mn <= x <= mx) by (split; [now apply Mn|now apply Mx]).
  destruct (restored_num f G mn mx x P Fn Fx L X Bn Bx) as [R1 E].
  destruct (scale_finite f G mn mx x Fn Fx L R1 X) as [Es _].
  exists (scaled f mn mx x), (restored f mn mx x). split; [|split; [exact Es|split; [exact E|split]]].
  - destruct (min_max_of data mn mx Mn Mx) as [En Ex]. unfold minmax_float. rewrite En, Ex. cbn [bind].
    apply in_map_iff. exists x. auto.
  - intros ->. now apply restored_min.
  - apply restored_close; auto.
Qed.
Print Assumptions C81_inverse.

Example C81_witness : exists data, Forall (fits f32) data /\ is_min 0 data /\ is_max 1 data /\
  rnd f32 (1 - 0) < bpow radix2 (emax f32) /\ In (/ 2) data.
Proof.
  exists [1; 0; / 2]. split; [|split; [|split; [|split]]].
  - repeat constructor; try apply (fits_1 f32 good32); try apply fits_0.
    + replace (/ 2) with (bpow radix2 (- 1)) by (cbn; lra). apply (format_bpow f32 good32). cbn; lia.
    + rewrite Rabs_pos_eq by lra. pose proof (emax_gt_1 f32 good32). lra.
  - split; [cbn; tauto|]. intros y [<-|[<-|[<-|[]]]]; lra.
  - split; [cbn; tauto|]. intros y [<-|[<-|[<-|[]]]]; lra.
  - rewrite Rminus_0_r, (rnd_1 f32 good32). apply (emax_gt_1 f32 good32).
  - cbn; tauto.
Qed.

(** ** C82: the sigmoid *)

(** Always a number between 0 and 1, one half at 0, never decreasing. *)
Theorem C82_sigmoid f ex z : good f -> exp_ok ex ->
  exists s, sigmoid_float f ex z = Num s /\ 0 <= s <= 1 /\ (0 <= z -> / 2 <= s) /\ (z <= 0 -> s <= / 2) /\
  forall z' s', z <= z' -> sigmoid_float f ex z' = Num s' -> s <= s'.
Proof.
  intros G (E0 & E1 & E2). destruct (sigmoid_unit f G ex E1 z) as (s & E & B). exists s. split; [exact E|]. split; [exact B|].
  pose proof (sigmoid_0 f G ex E0) as H. split; [|split].
  - intros Z. pose proof (sigmoid_mono f G ex E1 E2 0 z Z) as M. rewrite H, E in M. exact M.
  - intros Z. pose proof (sigmoid_mono f G ex E1 E2 z 0 Z) as M. rewrite H, E in M. exact M.
  - intros z' s' Z E'. pose proof (sigmoid_mono f G ex E1 E2 z z' Z) as M. rewrite E, E' in M. exact M.
Qed.
Print Assumptions C82_sigmoid.

(** It saturates: large scores give exactly 1 and very negative ones exactly 0. *)
Theorem C82_saturates f ex z : good f -> exp_ok ex ->
  (ex (- z) < unit_of f -> sigmoid_float f ex z = Num 1) /\
  (bpow radix2 (emax f) <= ex (- z) -> sigmoid_float f ex z = Num 0).
Proof.
  intros G (_ & E1 & _). split; [now apply sigmoid_saturates_1|now apply sigmoid_saturates_0].
Qed.
Print Assumptions C82_saturates.
Theorem C82_saturates_32 z : (20 <= z -> sigmoid_float f32 exp z = Num 1) /\ (z <= -100 -> sigmoid_float f32 exp z = Num 0).
Proof.
  split; intros H.
  - apply (sigmoid_saturates_1 f32 good32 exp exp_nonneg). now apply exp_20.
  - apply (sigmoid_saturates_0 f32 good32 exp exp_nonneg). now apply exp_100.
Qed.
Print Assumptions C82_saturates_32.
Theorem C82_saturates_64 z : (45 <= z -> sigmoid_float f64 exp z = Num 1) /\ (z <= -800 -> sigmoid_float f64 exp z = Num 0).
Proof.
  split; intros H.
  - apply (sigmoid_saturates_1 f64 good64 exp exp_nonneg). now apply exp_45.
  - apply (sigmoid_saturates_0 f64 good64 exp exp_nonneg). now apply exp_800.
Qed.
Print Assumptions C82_saturates_64.
Example C82_witness : exp_ok exp /\ sigmoid_float f32 exp 0 = Num (/ 2).
Proof. split; [exact (conj exp_0 (conj exp_nonneg exp_mono))|apply (sigmoid_0 f32 good32 exp exp_0)]. Qed.

(** ** C83: softmax *)

(** Each row of a batch is entirely NaN or entirely between 0 and 1. *)
Theorem C83_rows f ex sum z out : good f -> exp_ok ex -> (forall l, summed f l (sum l)) ->
  softmax_float f ex sum z = Ok out ->
  length out = length z /\
  forall row, In row out -> (forall v, In v row -> v = NaN) \/ (forall v, In v row -> exists p, v = Num p /\ 0 <= p <= 1).
Proof.
  intros G (E0 & E1 & E2) S H. apply softmax_ok in H as (m & M & ->). split; [apply map_length|].
  intros row I. apply in_map_iff in I as (r & <- & I). apply (softmax_row_values f G ex E0 E1 E2 sum S).
  intros x X. apply M. apply in_concat. eauto.
Qed.
Print Assumptions C83_rows.

(** A row is NaN exactly when each of its scores lies so far below the largest
    score of the whole batch that its exponential is stored as 0; the rows that
    hold the largest score never are. *)
Theorem C83_nan f ex sum z out m i row : good f -> exp_ok ex -> (forall l, summed f l (sum l)) ->
  softmax_float f ex sum z = Ok out -> is_max m (concat z) -> nth_error z i = Some row -> row <> [] ->
  exists r, nth_error out i = Some r /\
  (In NaN r <-> forall x, In x row -> fexp_of f ex (fsub f (Num x) (Num m)) = Num 0) /\
  (In m row -> ~ In NaN r).
Proof.
  intros G (E0 & E1 & E2) S H M I N. apply softmax_ok in H as (m' & M' & ->).
  replace m' with m in * by (apply Rle_antisym; [apply M'|apply M]; (apply M || apply M')).
  exists (softmax_row_float f ex sum m row). split; [rewrite nth_error_map, I; reflexivity|].
  assert (B : forall x, In x row -> x <= m) by (intros x X; apply M, in_concat; exists row; split; [now apply nth_error_In in I|exact X]).
  split; [now apply (softmax_row_nan f G ex E0 E1 E2 sum S)|]. intros X. now apply (softmax_row_max f G ex E0 E1 E2 sum S).
Qed.
Print Assumptions C83_nan.

(** In a row of numbers a larger score never has a smaller probability, and the
    probabilities add up to 1 up to rounding errors. *)
Theorem C83_probabilities f ex sum z out i row r : good f -> exp_ok ex -> (forall l, summed f l (sum l)) ->
  softmax_float f ex sum z = Ok out -> nth_error z i = Some row -> nth_error out i = Some r ->
  row <> [] -> ~ In NaN r -> (Z.of_nat (length row) < 2 ^ prec f)%Z ->
  length r = length row /\
  (1 - unit_of f) / (1 + unit_of f) ^ length row - INR (length row) * tiny_of f <= rsum (map value r)
    <= (1 + unit_of f) / (1 - unit_of f) ^ length row + INR (length row) * tiny_of f /\
  forall j k p q, (j < length row)%nat -> (k < length row)%nat -> nth j row 0 <= nth k row 0 ->
    nth_error r j = Some (Num p) -> nth_error r k = Some (Num q) -> p <= q.
Proof.
  intros G (E0 & E1 & E2) S H I R1 NE N L. apply softmax_ok in H as (m & M & ->).
  rewrite nth_error_map, I in R1. injection R1 as <-.
  assert (B : forall x, In x row -> x <= m) by (intros x X; apply M, in_concat; exists row; split; [now apply nth_error_In in I|exact X]).
  split; [unfold softmax_row_float; now rewrite !map_length|].
  split; [now apply (softmax_row_total f G ex E0 E1 E2 sum S)|].
  intros j k p q J K Q. now apply (softmax_row_order f G ex E0 E1 E2 sum S).
Qed.
Print Assumptions C83_probabilities.

(** What the network predicts for a sample depends on the other samples of the
    batch: the sample [0; 1] is of class 1 on its own and of class 0 beside
    [200; 0]. *)
Theorem C83_prediction_ignores_batch_refuted sum : (forall l, summed f32 l (sum l)) ->
  exists one many r, softmax_float f32 exp sum [[0; 1]] = Ok [one] /\ argmax_float one = Ok 1%nat /\
    softmax_float f32 exp sum [[0; 1]; [200; 0]] = Ok [many; r] /\ argmax_float many = Ok 0%nat.
Proof.
  intros S. destruct (alone sum S) as (a & b & A & L). destruct (batch_first sum S) as (r & B).
  exists [Num a; Num b], [NaN; NaN], r. split; [exact A|]. split; [now apply argmax_less|]. split; [exact B|reflexivity].
Qed.
Print Assumptions C83_prediction_ignores_batch_refuted.

(** The class that is predicted from a row of probabilities: the first NaN if there
    is one, otherwise the first of the largest. *)
Theorem C83_predicted_class : forall l k, argmax_float l = Ok k -> exists m, nth_error l k = Some m /\
  (In NaN l -> m = NaN) /\
  (forall j y, nth_error l j = Some y -> flt m y = false) /\
  (forall j y, (j < k)%nat -> nth_error l j = Some y -> y <> NaN /\ (m <> NaN -> flt y m = true)).
Proof.
  intros l k H. destruct (beats_spec l k H) as (m & Hm & B1 & B2). exists m. split; [exact Hm|]. split; [|split].
  - intros N. apply In_nth_error in N as (j & N). specialize (B1 j NaN N). now destruct m.
  - intros j y Hj. specialize (B1 j y Hj). destruct m as [?|[]|], y as [?|[]|]; try reflexivity; try discriminate; exact B1.
  - intros j y Hj Hy. specialize (B2 j y Hj Hy). split; [now destruct y|]. intros N. destruct m as [?|[]|], y as [?|[]|]; try reflexivity; try discriminate; try (now contradiction N); exact B2.
Qed.
Print Assumptions C83_predicted_class.
Example C83_predicted_class_case : argmax_float [Num 1; NaN; Inf false; NaN] = Ok 1%nat.
Proof. reflexivity. Qed.

(** A way of adding exists: from the left. *)
Lemma left_sum f l : summed f l (fold_right (fadd f) (Num 0) l).
Proof.
  induction l as [|x t IH]; [constructor|]. cbn [fold_right]. apply (summed_split f (x :: t) [x] t); [apply Permutation_refl|constructor|exact IH].
Qed.
Example C83_witness : exists sum, (forall l, summed f32 l (sum l)) /\ exp_ok exp /\
  exists out, softmax_float f32 exp sum [[0; 1]; [200; 0]] = Ok out.
Proof.
  exists (fold_right (fadd f32) (Num 0)). split; [intros l; apply left_sum|]. split; [exact (conj exp_0 (conj exp_nonneg exp_mono))|].
  destruct (batch_first _ (left_sum f32)) as (r & ->). eauto.
Qed.

(** ** C84: the cross-entropies *)

(** The binary loss is NaN exactly when a sample is predicted right with
    certainty; otherwise it is not negative, and infinite when a sample is
    predicted wrong with certainty. *)
Theorem C84_binary f lg sum y p : good f -> log_ok f lg -> (forall l, summed f l (sum l)) ->
  Forall label y -> Forall (prob f) p -> y <> [] -> length y = length p ->
  (crossentropy_float f lg sum y p = NaN <-> exists i v, nth_error y i = Some v /\ nth_error p i = Some v) /\
  (crossentropy_float f lg sum y p <> NaN -> not_negative (crossentropy_float f lg sum y p) /\
    forall i v w, nth_error y i = Some v -> nth_error p i = Some w -> label w -> crossentropy_float f lg sum y p = Inf false).
Proof.
  intros G O S Y P NE L. pose proof (crossentropy_nan f G lg O sum S y p Y P NE L) as N.
  assert (K : (exists q, In q (combine y p) /\ certain_right q) <-> exists i v, nth_error y i = Some v /\ nth_error p i = Some v).
  { split.
    - intros ([a b] & I & La & E). cbn in La, E. subst b. apply In_nth_error in I as (i & I). exists i, a. now apply nth_error_combine in I.
    - intros (i & v & A & B). exists (v, v). split; [apply (nth_error_In _ i), nth_error_combine; auto|]. split; [|reflexivity].
      cbn. rewrite Forall_forall in Y. apply Y. now apply nth_error_In in A. }
  split; [now rewrite N|]. intros NN.
  assert (C : forall q, In q (combine y p) -> ~ certain_right q) by (intros q I X; apply NN, N; eauto).
  destruct (crossentropy_up f G lg O sum S y p Y P NE C) as [U W]. split; [now apply (up_not_negative f)|].
  intros i v w A B Lw. apply W. exists (v, w). split; [apply (nth_error_In _ i), nth_error_combine; auto|].
  assert (Lv : label v) by (rewrite Forall_forall in Y; apply Y; now apply nth_error_In in A).
  assert (D : v <> w) by (intros <-; apply NN, N; apply K; eauto).
  destruct Lv as [-> | ->], Lw as [-> | ->]; [contradiction|left|right|contradiction]; auto.
Qed.
Print Assumptions C84_binary.

(** The categorical loss over the entries of one-hot labels is NaN exactly when
    a class that is not the label's has probability 0. *)
Theorem C84_categorical f lg sum n y p : good f -> log_ok f lg -> (forall l, summed f l (sum l)) ->
  Forall label y -> Forall (prob f) p -> (0 < n)%nat ->
  (categorical_float f lg sum n y p = NaN <-> exists i, nth_error y i = Some (Num 0) /\ nth_error p i = Some (Num 0)) /\
  (categorical_float f lg sum n y p <> NaN -> not_negative (categorical_float f lg sum n y p) /\
    forall i, nth_error y i = Some (Num 1) -> nth_error p i = Some (Num 0) -> categorical_float f lg sum n y p = Inf false).
Proof.
  intros G O S Y P N. pose proof (categorical_nan f G lg O sum S n y p Y P N) as Q.
  assert (K : forall a b, In (a, b) (combine y p) <-> exists i, nth_error y i = Some a /\ nth_error p i = Some b).
  { intros a b. split.
    - intros I. apply In_nth_error in I as (i & I). exists i. now apply nth_error_combine in I.
    - intros (i & A & B). apply (nth_error_In _ i), nth_error_combine; auto. }
  rewrite K in Q. split; [exact Q|]. intros NN.
  assert (C : ~ In (Num 0, Num 0) (combine y p)) by (rewrite K; intros X; now apply NN, Q).
  destruct (categorical_up f G lg O sum S n y p Y P N C) as [U W]. split; [now apply (up_not_negative f)|].
  intros i A B. apply W, K. eauto.
Qed.
Print Assumptions C84_categorical.

(** A network that is certain and right: the score 20 of a positive sample makes
    the loss NaN in 32 bits, the score 45 in 64. *)
Theorem C84_certain_network f lg sum z : good f -> log_ok f lg -> (forall l, summed f l (sum l)) ->
  (f = f32 /\ 20 <= z) \/ (f = f64 /\ 45 <= z) ->
  crossentropy_float f lg sum [Num 1] [sigmoid_float f exp z] = NaN.
Proof.
  intros G O S H. assert (E : sigmoid_float f exp z = Num 1).
  { destruct H as [[-> Z]|[-> Z]]; [now apply C82_saturates_32|now apply C82_saturates_64]. }
  rewrite E. apply (C84_binary f lg sum [Num 1] [Num 1]); auto; try discriminate.
  - constructor; [now right|constructor].
  - constructor; [|constructor]. exists 1. split; [reflexivity|]. split; [now apply fits_1|lra].
  - exists 0%nat, (Num 1). split; reflexivity.
Qed.
Print Assumptions C84_certain_network.
(** The likelihood of a logistic regression: one sample whose exponential is too
    large makes the loss infinite or NaN, even when it is predicted right. *)
Theorem C84_likelihood_overflow f ex lg sum y z i v x : good f -> exp_ok ex -> (forall l, summed f l (sum l)) ->
  nth_error y i = Some v -> label v -> nth_error z i = Some (Num x) -> fits f x -> bpow radix2 (emax f) <= ex x ->
  likelihood_float f lg sum ex y z = Inf false \/ likelihood_float f lg sum ex y z = NaN.
Proof.
  intros G (_ & E1 & _) S Y L Z F B. eapply sum_up_inf; [apply S|]. apply in_map_iff. exists (v, Num x).
  split; [|apply (nth_error_In _ i), nth_error_combine; auto]. cbn [fst snd fexp_of].
  rewrite (make_overflow f G) by exact B. cbn [fadd flog].
  destruct L as [-> | ->]; cbn [fneg fmul].
  - replace (- 0 * x) with 0 by ring. now rewrite make_0.
  - replace (- (1) * x) with (- x) by ring. rewrite (make_fits f); [reflexivity|]. destruct F as [F1 F2].
    split; [now apply generic_format_opp|now rewrite Rabs_Ropp].
Qed.
Print Assumptions C84_likelihood_overflow.
Theorem C84_likelihood_right_sample lg sum x : (forall l, summed f32 l (sum l)) -> fits f32 x -> 100 <= x ->
  sigmoid_float f32 exp x = Num 1 /\
  (likelihood_float f32 lg sum exp [Num 1] [Num x] = Inf false \/ likelihood_float f32 lg sum exp [Num 1] [Num x] = NaN).
Proof.
  intros S F H. split; [apply C82_saturates_32; lra|].
  apply (C84_likelihood_overflow f32 exp lg sum [Num 1] [Num x] 0 (Num 1) x good32); auto.
  - exact (conj exp_0 (conj exp_nonneg exp_mono)).
  - now right.
  - rewrite <- (Ropp_involutive x). apply exp_100. lra.
Qed.
Print Assumptions C84_likelihood_right_sample.
Example C84_witness : log_ok f32 ln /\ log_ok f64 ln /\ Forall label [Num 1; Num 0] /\ Forall (prob f32) [Num 1; Num 1].
Proof.
  split; [apply ln_ok; [exact good32|reflexivity]|]. split; [apply ln_ok; [exact good64|reflexivity]|].
  split; [constructor; [now right|constructor; [now left|constructor]]|].
  constructor; [|constructor; [|constructor]]; exists 1; (split; [reflexivity|]); (split; [apply (fits_1 f32 good32)|lra]).
Qed.

(** ** C85: densities *)

(** A density is always reported positive, so that its logarithm exists. *)
Theorem C85_positive f p : good f -> (3 - emax f - prec f <= -131)%Z -> 0 <= p -> flt (Num 0) (reported_density f p) = true.
Proof. intros G E. now apply density_positive. Qed.
Print Assumptions C85_positive.
(** Larger densities are not always reported larger: a density that is too small
    to be stored is reported above one that is not. *)
Theorem C85_order_kept_refuted f : good f -> (3 - emax f - prec f <= -131)%Z ->
  exists p q, 0 <= p < q /\ flt (reported_density f q) (reported_density f p) = true.
Proof.
  intros G E. exists 0, (bpow radix2 (- 130)). split; [split; [lra|apply bpow_gt_0]|]. now apply density_inverted.
Qed.
Print Assumptions C85_order_kept_refuted.
(** They are as soon as the larger one is at least 1e-36. *)
Theorem C85_order_above_floor f p q : good f -> (3 - emax f - prec f <= -131)%Z -> 0 <= p <= q -> 1 / 10 ^ 36 <= q ->
  flt (reported_density f q) (reported_density f p) = false.
Proof. intros G E. now apply density_mono. Qed.
Print Assumptions C85_order_above_floor.
Example C85_witness : (good f32 /\ 3 - emax f32 - prec f32 <= -131)%Z /\ (good f64 /\ 3 - emax f64 - prec f64 <= -131)%Z.
Proof. cbn. split; split; try exact good32; try exact good64; lia. Qed.

(** ** C86: accuracies *)

(** The stored quotient is between 0 and 1; it is 1 only when all are right and 0
    only when none is; more right samples give a larger value. *)
Theorem C86_quotient f k n : good f -> (k <= n)%nat -> (0 < n)%nat -> (Z.of_nat n < 2 ^ prec f)%Z ->
  exists a, share_float f k n = Num a /\ 0 <= a <= 1 /\ (a = 1 <-> k = n) /\ (a = 0 <-> k = 0%nat).
Proof.
  intros G K N B. destruct (share_unit f G k n K N) as [E U]. exists (rnd f (INR k / INR n)). split; [exact E|]. split; [exact U|].
  rewrite <- (share_1 f G k n K N B), <- (share_0 f G k n K N B), E.
  split; split; intros H; congruence.
Qed.
Print Assumptions C86_quotient.
Theorem C86_more_is_more f k k' n : good f -> (k < k')%nat -> (k' <= n)%nat -> (Z.of_nat n < 2 ^ (prec f - 2))%Z ->
  flt (share_float f k n) (share_float f k' n) = true.
Proof. intros G. now apply share_mono. Qed.
Print Assumptions C86_more_is_more.
(** The binary accuracy counts a sample whose prediction is NaN as right: a
    network that has diverged reports 100 %. *)
Theorem C86_nan_counts_as_right f p y : good f -> p <> [] -> (Z.of_nat (length p) < 2 ^ prec f)%Z ->
  (forall v, In v p -> v = NaN) -> binary_accuracy_float f p y = Num 1.
Proof.
  intros G NE B H. unfold binary_accuracy_float. replace (counted p y) with (length p).
  - apply (share_1 f G); [lia|destruct p; [contradiction|cbn; lia]|exact B|reflexivity].
  - unfold counted. replace (filter _ _) with (@nil (num * Z)); [cbn; lia|]. symmetry.
    apply filter_none. intros [v l] I. apply in_combine_l in I. rewrite (H v I). reflexivity.
Qed.
Print Assumptions C86_nan_counts_as_right.
(** Otherwise it counts the samples on the right side of one half. *)
Theorem C86_right_side f p y : good f -> length p = length y ->
  (forall v, In v p -> exists x, v = Num x) -> (forall l, In l y -> l = 0 \/ l = 1 \/ l = -1)%Z ->
  counted p y = length (filter (fun q => if Rltb (value (fst q)) (/ 2) then negb (snd q =? 1)%Z else (snd q =? 1)%Z) (combine p y)).
Proof.
  intros G L Hp Hy. unfold counted. rewrite <- (combine_len p y L).
  rewrite <- (filter_split (fun q => taken_off (fst q) (snd q)) (combine p y)).
  match goal with |- (?a + ?b - ?a)%nat = _ => replace (a + b - a)%nat with b by lia end.
  f_equal. apply filter_ext_in. intros [v l] I. cbn [fst snd].
  pose proof (in_combine_l _ _ _ _ I) as Iv. pose proof (in_combine_r _ _ _ _ I) as Il.
  destruct (Hp v Iv) as (x & ->). cbn [value]. unfold taken_off, flt, feq, Rltb, Reqb.
  destruct (Hy l Il) as [-> |[-> | ->]]; cbn; destruct (Rlt_dec x (/ 2)), (Rlt_dec (/ 2) x), (Req_EM_T (/ 2) x); cbn; try reflexivity; lra.
Qed.
Print Assumptions C86_right_side.
Example C86_witness : binary_accuracy_float f32 [NaN; NaN] [1; 0]%Z = Num 1.
Proof. apply C86_nan_counts_as_right; [exact good32|discriminate|reflexivity|]. intros v [<-|[<-|[]]]; reflexivity. Qed.

(** ** C87: the multipliers of the support vector machine *)

(** Whatever the attempts are, the stored multipliers leave the box from 0 to C
    by at most ten units of rounding. *)
Theorem C87_box f w C tiny y attempts : good f -> (forall o, finer f (w o)) -> (6 <= prec f)%Z -> 0 < C ->
  64 * tiny_of f <= unit_of f * C -> 46 * (unit_of f * C) <= tiny ->
  forall a, In a (training_float f w C tiny y attempts) -> - (10 * (unit_of f * C)) <= a <= C + 10 * (unit_of f * C).
Proof.
  intros G W P C0 Ht T a. pose proof (training_box f w G W P C tiny C0 Ht T y attempts) as H.
  rewrite Forall_forall in H. apply H.
Qed.
Print Assumptions C87_box.
(** Their sum with the signs of the labels, exactly 0 at the start, drifts by at
    most five units of rounding at each attempt. *)
Theorem C87_balance f w C tiny y attempts : good f -> (forall o, finer f (w o)) -> (6 <= prec f)%Z -> 0 < C ->
  64 * tiny_of f <= unit_of f * C -> 46 * (unit_of f * C) <= tiny ->
  Forall (fun l => l = 1 \/ l = -1)%Z y ->
  Forall (fun t => fst (fst t) < length y /\ snd (fst t) < length y)%nat attempts ->
  Rabs (balance y (training_float f w C tiny y attempts)) <= INR (length attempts) * (5 * (unit_of f * C)).
Proof. intros G W P C0 Ht T. now apply training_balance. Qed.
Print Assumptions C87_balance.
(** They do leave the box: three attempts that make a multiplier negative. *)
Theorem C87_never_negative_refuted f w : good f -> (forall o, finer f (w o)) -> w Span = f -> (12 <= prec f)%Z -> (20 <= emax f)%Z ->
  exists y attempts a, Forall (fun l => l = 1 \/ l = -1)%Z y /\
    Forall (fun t => fst (fst t) < length y /\ snd (fst t) < length y)%nat attempts /\
    In a (training_float f w 1 (/ 100000) y attempts) /\ a < 0.
Proof.
  intros G W WS P E. exists [1; -1; -1; 1]%Z, [(0%nat, 1%nat, witness f); (3%nat, 2%nat, 1); (0%nat, 2%nat, 0)], (- bpow radix2 (- (prec f + 7))).
  split; [repeat (apply Forall_cons; [lia|]); apply Forall_nil|]. split; [repeat (apply Forall_cons; [cbn; lia|]); apply Forall_nil|]. split.
  - rewrite (negative_training f w G W WS P E) by lra. now left.
  - pose proof (bpow_gt_0 radix2 (- (prec f + 7))). lra.
Qed.
Print Assumptions C87_never_negative_refuted.

(** Both settings of the library: 32 bits, where numpy computes with C in 64, and
    64 bits; C = 1 and the 1e-5 of the code. *)
Definition promoted (o : operation) : format := match o with Span => f32 | _ => f64 end.
Lemma C87_settings : (forall o, finer f32 (promoted o)) /\ (forall o : operation, finer f64 f64) /\
  (64 * tiny_of f32 <= unit_of f32 * 1 /\ 46 * (unit_of f32 * 1) <= / 100000) /\
  (64 * tiny_of f64 <= unit_of f64 * 1 /\ 46 * (unit_of f64 * 1) <= / 100000).
Proof.
  split; [intros []; unfold finer, good; cbn; lia|]. split; [intros _; unfold finer, good; cbn; lia|].
  assert (H : forall f, (8 <= emax f)%Z -> (23 <= prec f)%Z -> 64 * tiny_of f <= unit_of f * 1 /\ 46 * (unit_of f * 1) <= / 100000).
  { intros f H1 H2. unfold tiny_of, unit_of. split.
    - replace (64 * (/ 2 * bpow radix2 (3 - emax f - prec f))) with (bpow radix2 (5 + (3 - emax f - prec f))) by (rewrite bpow_plus; cbn [bpow]; cbn; lra).
      rewrite Rmult_1_r. apply bpow_le. lia.
    - assert (bpow radix2 (- prec f) <= bpow radix2 (- 23)) by (apply bpow_le; lia).
      assert (bpow radix2 (- 23) <= / 8000000) by (cbn; lra). lra. }
  split; apply H; cbn; lia.
Qed.
Theorem C87_box_32 y attempts a : In a (training_float f32 promoted 1 (/ 100000) y attempts) ->
  - (10 * unit_of f32) <= a <= 1 + 10 * unit_of f32.
Proof.
  destruct C87_settings as (W & _ & [A B] & _). rewrite <- (Rmult_1_r (unit_of f32)).
  apply (C87_box f32 promoted 1 (/ 100000) y attempts good32 W); auto; try lra; cbn; lia.
Qed.
Print Assumptions C87_box_32.
Theorem C87_box_64 y attempts a : In a (training_float f64 (fun _ => f64) 1 (/ 100000) y attempts) ->
  - (10 * unit_of f64) <= a <= 1 + 10 * unit_of f64.
Proof.
  destruct C87_settings as (_ & W & _ & [A B]). rewrite <- (Rmult_1_r (unit_of f64)).
  apply (C87_box f64 (fun _ => f64) 1 (/ 100000) y attempts good64 W); auto; try lra; cbn; lia.
Qed.
Print Assumptions C87_box_64.
Example C87_witness : exists a, In a (training_float f32 promoted 1 (/ 100000) [1; -1; -1; 1]%Z
  [(0%nat, 1%nat, witness f32); (3%nat, 2%nat, 1); (0%nat, 2%nat, 0)]) /\ a < 0.
Proof.
  exists (- bpow radix2 (- (24 + 7))). destruct C87_settings as (W & _). split.
  - rewrite (negative_training f32 promoted good32 W eq_refl) by (cbn; lia || lra). now left.
  - pose proof (bpow_gt_0 radix2 (- (24 + 7))). lra.
Qed.

(** ** The operations are those of IEEE 754 *)
Theorem C82_operations_are_ieee f (G : good f) (x y : binary_float (prec f) (emax f)) :
  read f (Bplus (prec_gt_0_ := prec_pos f G) (prec_lt_emax_ := prec_emax f G) mode_NE x y) = fadd f (read f x) (read f y) /\
  read f (Bminus (prec_gt_0_ := prec_pos f G) (prec_lt_emax_ := prec_emax f G) mode_NE x y) = fsub f (read f x) (read f y) /\
  read f (Bmult (prec_gt_0_ := prec_pos f G) (prec_lt_emax_ := prec_emax f G) mode_NE x y) = fmul f (read f x) (read f y) /\
  (y <> B754_zero true ->
   read f (Bdiv (prec_gt_0_ := prec_pos f G) (prec_lt_emax_ := prec_emax f G) mode_NE x y) = fdiv f (read f x) (read f y)) /\
  Bltb x y = flt (read f x) (read f y) /\ Beqb x y = feq (read f x) (read f y).
Proof.
  split; [apply plus_is_ieee|]. split; [apply minus_is_ieee|]. split; [apply mult_is_ieee|]. split; [apply div_is_ieee|].
  split; [apply less_is_ieee|apply equal_is_ieee].
Qed.
Print Assumptions C82_operations_are_ieee.
