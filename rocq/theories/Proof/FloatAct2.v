(** Proofs about activations in floating point: sigmoid and softmax. *)
From Coq Require Import List Reals ZArith Bool Lia Lra Permutation.
From Flocq Require Import Core.
From Verif.Model Require Import Base Ops Float FloatOps.
From Verif.Spec Require Import Float.
From Verif.Proof Require Import BaseLemmas Float FloatAct.
Import ListNotations.
Local Open Scope R_scope.

Section Act.
Variable f : format.
Hypothesis G : good f.
Variable ex : R -> R.
Hypothesis ex_0 : ex 0 = 1.
Hypothesis ex_pos : forall x, 0 <= ex x.
Hypothesis ex_mono : forall x y, x <= y -> ex x <= ex y.

(** ** Sigmoid *)
Definition inverse1 (e : num) : num := fdiv f (Num 1) (fadd f (Num 1) e).
Lemma fits1 : fits f 1. Proof. apply fits_1, G. Qed.

Lemma one_plus e : up f e -> (exists d, fadd f (Num 1) e = Num d /\ 1 <= d) \/ fadd f (Num 1) e = Inf false.
Proof.
  intros U. assert (O : up f (Num 1)) by (split; [exact fits1|lra]).
  pose proof (up_add f G _ _ O U) as A. pose proof (add_ge_l f G _ _ O U) as B.
  destruct (fadd f (Num 1) e) as [d|s|]; cbn in *; [left; exists d; tauto|right; now subst|contradiction].
Qed.
Lemma inverse_unit d : 1 <= d -> fdiv f (Num 1) (Num d) = Num (rnd f (1 / d)) /\ 0 <= rnd f (1 / d) <= 1.
Proof.
  intros H. unfold fdiv, Reqb. destruct (Req_EM_T d 0); [lra|].
  assert (0 <= 1 / d <= 1).
  { split; [apply Rlt_le, Rdiv_lt_0_compat; lra|]. apply (Rmult_le_reg_r d); [lra|]. unfold Rdiv. rewrite Rmult_assoc, Rinv_l; lra. }
  now apply (make_unit f G).
Qed.
Lemma inverse1_unit e : up f e -> exists s, inverse1 e = Num s /\ 0 <= s <= 1.
Proof.
  intros U. unfold inverse1. destruct (one_plus e U) as [(d & -> & D)| ->].
  - exists (rnd f (1 / d)). now apply inverse_unit.
  - exists 0. split; [reflexivity|lra].
Qed.
Lemma add_mono a b c : up f a -> up f b -> up f c -> nle b c -> nle (fadd f a b) (fadd f a c).
Proof.
  destruct a as [x|[]|], b as [y|[]|], c as [z|[]|]; cbn; try tauto; try discriminate; intros A B C H; try exact I.
  - apply (make_mono f G). lra.
  - pose proof (up_make f G (x + y) ltac:(lra)) as U. destruct (make f (x + y)) as [|[]|]; cbn in *; try exact I; contradiction.
Qed.
Lemma inverse1_anti e e' : up f e -> up f e' -> nle e e' -> value (inverse1 e') <= value (inverse1 e).
Proof.
  intros U U' H. pose proof (add_mono (Num 1) e e' ltac:(split; [exact fits1|lra]) U U' H) as M.
  unfold inverse1. destruct (one_plus e U) as [(d & E & D)|E], (one_plus e' U') as [(d' & E' & D')|E']; rewrite E, E' in *; cbn in M.
  - destruct (inverse_unit d D) as [-> _], (inverse_unit d' D') as [-> _]. cbn. apply (rnd_mono f G).
    unfold Rdiv. rewrite !Rmult_1_l. apply Rinv_le_contravar; lra.
  - destruct (inverse_unit d D) as [-> A]. cbn. lra.
  - contradiction.
  - cbn. lra.
Qed.
Lemma sigmoid_exp z : sigmoid_float f ex z = inverse1 (make f (ex (- z))).
Proof. reflexivity. Qed.
Lemma sigmoid_unit z : exists s, sigmoid_float f ex z = Num s /\ 0 <= s <= 1.
Proof. rewrite sigmoid_exp. apply inverse1_unit, (up_make f G), ex_pos. Qed.
Lemma sigmoid_mono z z' : z <= z' -> value (sigmoid_float f ex z) <= value (sigmoid_float f ex z').
Proof.
  intros H. rewrite !sigmoid_exp. apply inverse1_anti; try apply (up_make f G), ex_pos.
  apply (make_mono f G). split; [apply ex_pos|]. apply ex_mono. lra.
Qed.
Lemma half_format : rnd f (/ 2) = / 2.
Proof.
  apply rnd_id. replace (/ 2) with (bpow radix2 (- 1)) by (cbn; lra). apply (format_bpow f G). destruct G. lia.
Qed.
Lemma two_format : rnd f 2 = 2.
Proof.
  apply rnd_id. change 2 with (bpow radix2 1). apply (format_bpow f G). destruct G. lia.
Qed.
Lemma sigmoid_0 : sigmoid_float f ex 0 = Num (/ 2).
Proof.
  rewrite sigmoid_exp, Ropp_0, ex_0, (make_1 f G). unfold inverse1, fadd. replace (1 + 1) with 2 by ring.
  rewrite (make_fits f 2).
  - destruct (inverse_unit 2 ltac:(lra)) as [-> _]. f_equal. replace (1 / 2) with (/ 2) by lra. apply half_format.
  - split; [rewrite <- two_format; apply (rnd_format f G)|]. rewrite Rabs_pos_eq by lra. change 2 with (bpow radix2 1).
    apply bpow_lt. destruct G. lia.
Qed.
Lemma sigmoid_saturates_1 z : ex (- z) < unit_of f -> sigmoid_float f ex z = Num 1.
Proof.
  intros H. rewrite sigmoid_exp. pose proof (ex_pos (- z)) as P. pose proof (unit_small f G) as U.
  destruct (make_unit f G (ex (- z)) ltac:(lra)) as [-> [A B]].
  assert (C : rnd f (ex (- z)) <= unit_of f).
  { rewrite <- (rnd_id f (unit_of f)); [apply (rnd_mono f G); lra|]. unfold unit_of. apply (format_bpow f G). destruct G. lia. }
  (* one plus the unit is a tie, rounded to the even one *)
  assert (D : rnd f (1 + rnd f (ex (- z))) = 1).
  { destruct (Rlt_le_dec (rnd f (ex (- z))) (unit_of f)) as [L|L]; [now apply (rnd_one_plus f G)|].
    replace (rnd f (ex (- z))) with (unit_of f) by lra.
    apply (rnd_tie_1 f G). }
  unfold inverse1, fadd. rewrite (make_small f) by (rewrite D, Rabs_R1; apply (emax_gt_1 f G)). rewrite D.
  destruct (inverse_unit 1 ltac:(lra)) as [-> _]. f_equal. replace (1 / 1) with 1 by lra. apply (rnd_1 f G).
Qed.
Lemma sigmoid_saturates_0 z : bpow radix2 (emax f) <= ex (- z) -> sigmoid_float f ex z = Num 0.
Proof.
  intros H. rewrite sigmoid_exp. pose proof (ex_pos (- z)) as P.
  assert (Q : bpow radix2 (emax f) <= rnd f (ex (- z))).
  { rewrite <- (rnd_id f (bpow radix2 (emax f))); [now apply (rnd_mono f G)|]. apply (format_bpow f G). destruct G. lia. }
  destruct (make_nonneg f G (ex (- z)) P) as [[_ L]|[-> _]]; [lra|reflexivity].
Qed.

(** ** Softmax *)
Variable sum : list num -> num.
Hypothesis sums : forall l, summed f l (sum l).

(** The exponential of a shifted score. *)
Definition shifted (m x : R) : num := fexp_of f ex (fsub f (Num x) (Num m)).
Lemma shifted_unit m x : x <= m -> exists e, shifted m x = Num e /\ fits f e /\ 0 <= e <= 1.
Proof.
  intros H. unfold shifted. change (fsub f (Num x) (Num m)) with (make f (x - m)).
  destruct (make_nonpos f G (x - m) ltac:(lra)) as [[-> L]|[-> _]].
  - cbn. pose proof (rnd_nonpos f G (x - m) ltac:(lra)) as N.
    pose proof (ex_mono _ _ N) as M. rewrite ex_0 in M. pose proof (ex_pos (rnd f (x - m))) as P.
    destruct (make_unit f G _ (conj P M)) as [-> B]. exists (rnd f (ex (rnd f (x - m)))). split; [reflexivity|]. split; [|exact B].
    apply (fits_rnd f G). rewrite Rabs_pos_eq by lra. pose proof (emax_gt_1 f G). lra.
  - exists 0. split; [reflexivity|]. split; [apply fits_0|lra].
Qed.
Lemma shifted_self m : shifted m m = Num 1.
Proof.
  unfold shifted. change (fsub f (Num m) (Num m)) with (make f (m - m)). replace (m - m) with 0 by ring.
  rewrite (make_0 f). cbn. rewrite ex_0. apply (make_1 f G).
Qed.
Lemma shifted_mono m x y : x <= y -> y <= m -> value (shifted m x) <= value (shifted m y).
Proof.
  intros H H'. destruct (shifted_unit m y H') as (ey & Ey & _ & By).
  unfold shifted in *. change (fsub f (Num x) (Num m)) with (make f (x - m)). change (fsub f (Num y) (Num m)) with (make f (y - m)) in *.
  pose proof (rnd_mono f G (x - m) (y - m) ltac:(lra)) as M.
  destruct (make_nonpos f G (x - m) ltac:(lra)) as [[-> L]|[-> _]]; [|rewrite Ey; cbn; lra].
  destruct (make_nonpos f G (y - m) ltac:(lra)) as [[-> L']|[_ L']]; [|lra].
  cbn. pose proof (rnd_nonpos f G (y - m) ltac:(lra)) as N.
  pose proof (ex_mono _ _ N) as Y1. rewrite ex_0 in Y1. pose proof (ex_mono _ _ M) as M'.
  pose proof (ex_pos (rnd f (x - m))) as P.
  destruct (make_unit f G (ex (rnd f (x - m))) ltac:(lra)) as [-> _].
  destruct (make_unit f G (ex (rnd f (y - m))) ltac:(lra)) as [-> _]. cbn. now apply (rnd_mono f G).
Qed.
Lemma shifted_up m row : (forall x, In x row -> x <= m) -> Forall (up f) (map (shifted m) row).
Proof.
  intros H. apply Forall_forall. intros v I. apply in_map_iff in I as (x & <- & I).
  destruct (shifted_unit m x (H x I)) as (e & -> & F & B). split; [exact F|lra].
Qed.

Lemma softmax_row m row : softmax_row_float f ex sum m row =
  map (fun x => fdiv f (shifted m x) (sum (map (shifted m) row))) row.
Proof. unfold softmax_row_float. fold (shifted m). now rewrite map_map. Qed.

Lemma row_total_cases m row : (forall x, In x row -> x <= m) ->
  (sum (map (shifted m) row) = Num 0 /\ forall x, In x row -> shifted m x = Num 0)
  \/ (exists s, sum (map (shifted m) row) = Num s /\ 0 < s /\ forall x, In x row -> value (shifted m x) <= s)
  \/ sum (map (shifted m) row) = Inf false.
Proof.
  intros H. pose proof (shifted_up m row H) as F. pose proof (sum_up f G _ _ (sums _) F) as U.
  pose proof (sum_ge f G _ _ (sums _) F) as GE.
  destruct (sum (map (shifted m) row)) as [s|b|]; cbn in U; [|right; right; now subst|contradiction].
  destruct U as [_ U]. assert (V : forall x, In x row -> value (shifted m x) <= s).
  { intros x I. specialize (GE (shifted m x) (in_map _ _ _ I)). destruct (shifted_unit m x (H x I)) as (e & E & _). rewrite E in *. exact GE. }
  destruct (Req_EM_T s 0) as [-> |N].
  - left. split; [reflexivity|]. intros x I. specialize (V x I). destruct (shifted_unit m x (H x I)) as (e & E & _ & B). rewrite E in *.
    cbn in V. f_equal. lra.
  - right. left. exists s. split; [reflexivity|]. split; [lra|exact V].
Qed.

Lemma quotient_unit e s : 0 <= e <= s -> 0 < s -> fdiv f (Num e) (Num s) = Num (rnd f (e / s)) /\ 0 <= rnd f (e / s) <= 1.
Proof.
  intros A B. unfold fdiv, Reqb. destruct (Req_EM_T s 0); [lra|]. apply (make_unit f G).
  split; [apply Rmult_le_pos; [lra|apply Rlt_le, Rinv_0_lt_compat; lra]|].
  apply (Rmult_le_reg_r s); [lra|]. unfold Rdiv. rewrite Rmult_assoc, Rinv_l; lra.
Qed.

Lemma softmax_row_values m row : (forall x, In x row -> x <= m) ->
  (forall v, In v (softmax_row_float f ex sum m row) -> v = NaN) \/
  (forall v, In v (softmax_row_float f ex sum m row) -> exists p, v = Num p /\ 0 <= p <= 1).
Proof.
  intros H. rewrite softmax_row. destruct (row_total_cases m row H) as [[-> Z]|[(s & -> & P & V)| ->]].
  - left. intros v I. apply in_map_iff in I as (x & <- & I). rewrite (Z x I). unfold fdiv, Reqb.
    destruct (Req_EM_T 0 0); [reflexivity|lra].
  - right. intros v I. apply in_map_iff in I as (x & <- & I). specialize (V x I).
    destruct (shifted_unit m x (H x I)) as (e & E & _ & B). rewrite E in *. cbn in V.
    exists (rnd f (e / s)). apply quotient_unit; lra.
  - right. intros v I. apply in_map_iff in I as (x & <- & I). destruct (shifted_unit m x (H x I)) as (e & -> & _).
    exists 0. split; [reflexivity|lra].
Qed.
Lemma softmax_row_nan m row : row <> [] -> (forall x, In x row -> x <= m) ->
  (In NaN (softmax_row_float f ex sum m row) <-> forall x, In x row -> shifted m x = Num 0).
Proof.
  intros N H. split.
  - intros I. rewrite softmax_row in I. destruct (row_total_cases m row H) as [[E Z]|[(s & E & P & V)|E]]; [exact Z| |].
    + exfalso. rewrite E in I. apply in_map_iff in I as (x & Q & I). specialize (V x I).
      destruct (shifted_unit m x (H x I)) as (e & Ee & _ & B). rewrite Ee in *. cbn [value] in V.
      destruct (quotient_unit e s ltac:(lra) P) as [R1 _]. congruence.
    + exfalso. rewrite E in I. apply in_map_iff in I as (x & Q & I).
      destruct (shifted_unit m x (H x I)) as (e & Ee & _ & B). rewrite Ee in Q. discriminate.
  - intros Z. rewrite softmax_row. assert (S0 : sum (map (shifted m) row) = Num 0).
    { apply (sum_zero f _ _ (sums _)). apply Forall_forall. intros v I. apply in_map_iff in I as (x & <- & I). symmetry. auto. }
    rewrite S0. destruct row as [|x r]; [contradiction|]. left. rewrite (Z x (or_introl eq_refl)).
    unfold fdiv, Reqb. destruct (Req_EM_T 0 0); [reflexivity|lra].
Qed.
Lemma softmax_row_max m row : In m row -> (forall x, In x row -> x <= m) -> ~ In NaN (softmax_row_float f ex sum m row).
Proof.
  intros I H N0. assert (NE : row <> []) by (intros ->; destruct I).
  pose proof (proj1 (softmax_row_nan m row NE H) N0 m I) as N.
  rewrite shifted_self in N. injection N. lra.
Qed.
Lemma softmax_row_order m row i j : (forall x, In x row -> x <= m) -> (i < length row)%nat -> (j < length row)%nat ->
  nth i row 0 <= nth j row 0 -> forall p q, nth_error (softmax_row_float f ex sum m row) i = Some (Num p) ->
  nth_error (softmax_row_float f ex sum m row) j = Some (Num q) -> p <= q.
Proof.
  intros H I J L p q P Q. rewrite softmax_row in P, Q. rewrite nth_error_map in P, Q.
  rewrite (nth_error_nth' row 0 I) in P. rewrite (nth_error_nth' row 0 J) in Q. cbn [option_map] in P, Q.
  set (x := nth i row 0) in *. set (y := nth j row 0) in *.
  assert (Ix : In x row) by now apply nth_In. assert (Iy : In y row) by now apply nth_In.
  pose proof (shifted_mono m x y L (H y Iy)) as M.
  destruct (shifted_unit m x (H x Ix)) as (e & Ee & _ & B), (shifted_unit m y (H y Iy)) as (e' & Ee' & _ & B').
  destruct (row_total_cases m row H) as [[E Z]|[(s & E & S0 & V)|E]]; rewrite E in *.
  - rewrite (Z x Ix) in P. unfold fdiv, Reqb in P. destruct (Req_EM_T 0 0); [discriminate|lra].
  - pose proof (V x Ix) as Vx. pose proof (V y Iy) as Vy. rewrite Ee, Ee' in *. cbn [value] in *.
    destruct (quotient_unit e s ltac:(lra) S0) as [R1 _], (quotient_unit e' s ltac:(lra) S0) as [R2 _].
    rewrite R1 in P. rewrite R2 in Q. injection P as <-. injection Q as <-. apply (rnd_mono f G).
    apply Rmult_le_compat_r; [apply Rlt_le, Rinv_0_lt_compat; lra|lra].
  - rewrite Ee, Ee' in *. injection P as <-. injection Q as <-. lra.
Qed.

(** Few enough entries: the sum is finite. *)
Lemma int_fits n : (Z.of_nat n < 2 ^ prec f)%Z -> fits f (INR n).
Proof.
  intros H. rewrite INR_IZR_INZ. split.
  - replace (IZR (Z.of_nat n)) with (IZR (Z.of_nat n) * bpow radix2 0) by (cbn; ring). apply (format_int f); [rewrite Z.abs_eq; lia|].
    destruct G. lia.
  - rewrite Rabs_pos_eq by (apply IZR_le; lia). apply Rlt_trans with (bpow radix2 (prec f)); [|apply bpow_lt; destruct G; lia].
    rewrite <- IZR_Zpower by (destruct G; lia). now apply IZR_lt.
Qed.
Lemma sum_unit_bound l v : summed f l v -> Forall (fun e => exists x, e = Num x /\ fits f x /\ 0 <= x <= 1) l ->
  (Z.of_nat (length l) < 2 ^ prec f)%Z -> exists s, v = Num s /\ 0 <= s <= INR (length l).
Proof.
  induction 1 as [|v|l a b p q P Sa IHa Sb IHb]; intros F N.
  - exists 0. cbn. split; [reflexivity|lra].
  - inversion F as [|? ? (x & -> & _ & B)]; subst. exists x. cbn. split; [reflexivity|lra].
  - destruct (Forall_split _ _ _ _ P F) as [Fa Fb]. rewrite (Permutation_length P) in *. rewrite app_length in *.
    destruct (IHa Fa ltac:(lia)) as (x & -> & X). destruct (IHb Fb ltac:(lia)) as (y & -> & Y).
    destruct (int_fits _ N) as [I1 I2]. rewrite plus_INR in *.
    pose proof (rnd_mono f G (x + y) _ ltac:(apply Rplus_le_compat; [apply X|apply Y])) as M. rewrite (rnd_id f _ I1) in M.
    pose proof (rnd_nonneg f G (x + y) ltac:(lra)) as NN. rewrite Rabs_pos_eq in I2 by lra.
    exists (rnd f (x + y)). split; [|lra]. cbn. apply make_small. rewrite Rabs_pos_eq; lra.
Qed.

Lemma rsum_bounds {A} (g h : A -> R) (a b : R) l : (forall x, In x l -> a * h x - b <= g x) ->
  a * rsum (map h l) - INR (length l) * b <= rsum (map g l).
Proof.
  induction l as [|x t IH]; intros H; [cbn; lra|]. change (map h (x :: t)) with (h x :: map h t).
  change (map g (x :: t)) with (g x :: map g t). change (length (x :: t)) with (S (length t)). rewrite S_INR.
  change (rsum (h x :: map h t)) with (h x + rsum (map h t)). change (rsum (g x :: map g t)) with (g x + rsum (map g t)).
  specialize (IH (fun y I => H y (or_intror I))). specialize (H x (or_introl eq_refl)). lra.
Qed.
Lemma rsum_bounds_up {A} (g h : A -> R) (a b : R) l : (forall x, In x l -> g x <= a * h x + b) ->
  rsum (map g l) <= a * rsum (map h l) + INR (length l) * b.
Proof.
  intros H. pose proof (rsum_bounds (fun x => - g x) (fun x => - h x) a b l) as R1.
  assert (O : forall k : A -> R, rsum (map (fun x => - k x) l) = - rsum (map k l)).
  { intros k. clear. induction l as [|x t IH]; [cbn; ring|]. change (- k x + rsum (map (fun y => - k y) t) = - (k x + rsum (map k t))).
    rewrite IH. ring. }
  rewrite !O in R1. enough (a * - rsum (map h l) - INR (length l) * b <= - rsum (map g l)) by lra.
  apply R1. intros x I. specialize (H x I). lra.
Qed.

(** The outputs of a row add up to one, up to rounding errors. *)
Lemma softmax_row_total m row : (forall x, In x row -> x <= m) -> (Z.of_nat (length row) < 2 ^ prec f)%Z ->
  ~ In NaN (softmax_row_float f ex sum m row) -> row <> [] ->
  (1 - unit_of f) / (1 + unit_of f) ^ length row - INR (length row) * tiny_of f
    <= rsum (map value (softmax_row_float f ex sum m row))
    <= (1 + unit_of f) / (1 - unit_of f) ^ length row + INR (length row) * tiny_of f.
Proof.
  intros H N NN NE.
  assert (FU : Forall (fun e => exists x, e = Num x /\ fits f x /\ 0 <= x <= 1) (map (shifted m) row)).
  { apply Forall_forall. intros v I. apply in_map_iff in I as (x & <- & I). destruct (shifted_unit m x (H x I)) as (e & E & B). eauto. }
  destruct (sum_unit_bound _ _ (sums _) FU ltac:(rewrite map_length; exact N)) as (s & E & Sb).
  pose proof (sum_error f G _ _ (sums _) (shifted_up m row H) s E) as Er. rewrite map_length, map_map in Er.
  assert (P : 0 < s /\ forall x, In x row -> value (shifted m x) <= s).
  { destruct (row_total_cases m row H) as [[E' Z]|[(s' & E' & P & V)|E']]; rewrite E in E'; [|injection E' as <-; auto|discriminate].
    exfalso. apply NN, softmax_row_nan; assumption. }
  destruct P as [P V].
  rewrite softmax_row, E, map_map.
  set (u := unit_of f) in *. set (t := tiny_of f). set (W := rsum (map (fun x => value (shifted m x)) row)) in *.
  pose proof (unit_small f G) as U. pose proof (unit_pos f) as U0. fold u in U, U0.
  assert (Each : forall x, In x row -> exists e h, Rabs e <= u /\ Rabs h <= t /\
    value (fdiv f (shifted m x) (Num s)) = value (shifted m x) / s * (1 + e) + h /\ 0 <= value (shifted m x) / s).
  { intros x I. specialize (V x I). destruct (shifted_unit m x (H x I)) as (q & Q & _ & B). rewrite Q in *. cbn [value] in V.
    destruct (quotient_unit q s ltac:(lra) P) as [-> _]. cbn [value].
    destruct (rnd_error f G (q / s)) as (e & h & A1 & A2 & A3). exists e, h. split; [exact A1|]. split; [exact A2|]. split; [exact A3|].
    apply Rmult_le_pos; [lra|apply Rlt_le, Rinv_0_lt_compat; lra]. }
  pose proof (pow_pos_up f G (length row)) as PU. pose proof (pow_pos_down f G (length row)) as PD. cbv zeta in PU, PD. fold u in PU, PD.
  assert (D1 : 1 / (1 + u) ^ length row <= W / s).
  { apply (Rmult_le_reg_r (s * (1 + u) ^ length row)); [now apply Rmult_lt_0_compat|].
    replace (1 / (1 + u) ^ length row * (s * (1 + u) ^ length row)) with s by (field; lra).
    replace (W / s * (s * (1 + u) ^ length row)) with ((1 + u) ^ length row * W) by (field; lra). apply Er. }
  assert (D2 : W / s <= 1 / (1 - u) ^ length row).
  { apply (Rmult_le_reg_r (s * (1 - u) ^ length row)); [now apply Rmult_lt_0_compat|].
    replace (1 / (1 - u) ^ length row * (s * (1 - u) ^ length row)) with s by (field; lra).
    replace (W / s * (s * (1 - u) ^ length row)) with ((1 - u) ^ length row * W) by (field; lra). apply Er. }
  split.
  - pose proof (rsum_bounds (fun x => value (fdiv f (shifted m x) (Num s))) (fun x => value (shifted m x)) ((1 - u) / s) t row) as B.
    refine (Rle_trans _ _ _ _ (B _)).
    + replace ((1 - u) / (1 + u) ^ length row) with ((1 - u) * (1 / (1 + u) ^ length row)) by (field; lra).
      fold W. replace ((1 - u) / s * W) with ((1 - u) * (W / s)) by (field; lra).
      assert ((1 - u) * (1 / (1 + u) ^ length row) <= (1 - u) * (W / s)) by (apply Rmult_le_compat_l; lra). lra.
    + intros x I. destruct (Each x I) as (e & h & A1 & A2 & -> & A4). apply Rabs_le_inv in A1. apply Rabs_le_inv in A2.
      replace ((1 - u) / s * value (shifted m x)) with (value (shifted m x) / s * (1 - u)) by (field; lra).
      assert (value (shifted m x) / s * (1 - u) <= value (shifted m x) / s * (1 + e)) by (apply Rmult_le_compat_l; lra). lra.
  - pose proof (rsum_bounds_up (fun x => value (fdiv f (shifted m x) (Num s))) (fun x => value (shifted m x)) ((1 + u) / s) t row) as B.
    refine (Rle_trans _ _ _ (B _) _).
    + intros x I. destruct (Each x I) as (e & h & A1 & A2 & -> & A4). apply Rabs_le_inv in A1. apply Rabs_le_inv in A2.
      replace ((1 + u) / s * value (shifted m x)) with (value (shifted m x) / s * (1 + u)) by (field; lra).
      assert (value (shifted m x) / s * (1 + e) <= value (shifted m x) / s * (1 + u)) by (apply Rmult_le_compat_l; lra). lra.
    + replace ((1 + u) / (1 - u) ^ length row) with ((1 + u) * (1 / (1 - u) ^ length row)) by (field; lra).
      fold W. replace ((1 + u) / s * W) with ((1 + u) * (W / s)) by (field; lra).
      assert ((1 + u) * (W / s) <= (1 + u) * (1 / (1 - u) ^ length row)) by (apply Rmult_le_compat_l; lra). lra.
Qed.
End Act.
