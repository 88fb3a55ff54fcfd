(** The true exponential and logarithm; densities and accuracies in floating point. *)
From Coq Require Import List Reals ZArith Bool Lia Lra Permutation.
From Flocq Require Import Core.
From Verif.Model Require Import Base Ops Float FloatOps.
From Verif.Spec Require Import Float.
From Verif.Proof Require Import BaseLemmas Float FloatAct FloatAct2 FloatLoss.
Import ListNotations.
Local Open Scope R_scope.

(** ** Exponential *)
Lemma exp_quarters n : (5 / 4) ^ n <= exp (INR n / 4).
Proof.
  induction n as [|n IH]; [cbn; replace (0 / 4) with 0 by lra; rewrite exp_0; lra|].
  rewrite S_INR. replace ((INR n + 1) / 4) with (/ 4 + INR n / 4) by lra. rewrite exp_plus. cbn [pow].
  apply Rmult_le_compat; [lra|apply pow_le; lra| |exact IH].
  apply Rlt_le. replace (5 / 4) with (1 + / 4) by lra. apply exp_ineq1. lra.
Qed.
Lemma exp_big n k : (0 <= k)%Z -> (2 ^ k * 4 ^ Z.of_nat n < 5 ^ Z.of_nat n)%Z -> bpow radix2 k < exp (INR n / 4).
Proof.
  intros K H. apply Rlt_le_trans with ((5 / 4) ^ n); [|apply exp_quarters].
  apply IZR_lt in H. rewrite mult_IZR in H. rewrite <- !pow_IZR in H. rewrite <- (IZR_Zpower radix2 k K).
  change (IZR (2 ^ k)) with (IZR (radix2 ^ k)) in H.
  assert (P : 0 < IZR 4 ^ n) by (apply pow_lt; lra).
  apply (Rmult_lt_reg_r (IZR 4 ^ n)); [exact P|]. apply Rlt_le_trans with (1 := H). apply Req_le.
  rewrite <- Rpow_mult_distr. f_equal. lra.
Qed.
Lemma exp_small n k x : (0 <= k)%Z -> (2 ^ k * 4 ^ Z.of_nat n < 5 ^ Z.of_nat n)%Z -> x <= - (INR n / 4) -> exp x < bpow radix2 (- k).
Proof.
  intros K H X. pose proof (exp_big n k K H) as B. apply Rle_lt_trans with (exp (- (INR n / 4))).
  - destruct X as [X| ->]; [apply Rlt_le, exp_increasing, X|apply Rle_refl].
  - rewrite exp_Ropp, bpow_opp. apply Rinv_lt_contravar; [|exact B]. apply Rmult_lt_0_compat; [apply bpow_gt_0|apply exp_pos].
Qed.
Lemma exp_mono x y : x <= y -> exp x <= exp y.
Proof. intros [H| ->]; [apply Rlt_le, exp_increasing, H|apply Rle_refl]. Qed.
Lemma exp_nonneg x : 0 <= exp x. Proof. apply Rlt_le, exp_pos. Qed.

Lemma exp_20 z : 20 <= z -> exp (- z) < unit_of f32.
Proof.
  intros H. apply (exp_small 80); [cbn; lia|vm_compute; reflexivity|].
  replace (INR 80) with 80 by (rewrite INR_IZR_INZ; reflexivity). lra.
Qed.
Lemma exp_45 z : 45 <= z -> exp (- z) < unit_of f64.
Proof.
  intros H. apply (exp_small 180); [cbn; lia|vm_compute; reflexivity|].
  replace (INR 180) with 180 by (rewrite INR_IZR_INZ; reflexivity). lra.
Qed.
Lemma exp_100 z : z <= - 100 -> bpow radix2 (emax f32) <= exp (- z).
Proof.
  intros H. apply Rlt_le. apply Rlt_le_trans with (exp (INR 400 / 4)).
  - apply exp_big; [cbn; lia|vm_compute; reflexivity].
  - apply exp_mono. replace (INR 400) with 400 by (rewrite INR_IZR_INZ; reflexivity). lra.
Qed.
Lemma exp_800 z : z <= - 800 -> bpow radix2 (emax f64) <= exp (- z).
Proof.
  intros H. apply Rlt_le. apply Rlt_le_trans with (exp (INR 3200 / 4)).
  - apply exp_big; [cbn; lia|vm_compute; reflexivity].
  - apply exp_mono. replace (INR 3200) with 3200 by (rewrite INR_IZR_INZ; reflexivity). lra.
Qed.
Lemma exp_under32 x : x <= - 125 -> exp x < tiny_of f32.
Proof.
  intros H. unfold tiny_of. replace (/ 2 * bpow radix2 (3 - emax f32 - prec f32)) with (bpow radix2 (- 150)).
  - apply (exp_small 500 150); [lia|vm_compute; reflexivity|].
    replace (INR 500) with 500 by (rewrite INR_IZR_INZ; reflexivity). lra.
  - change (- 150)%Z with (-1 + -149)%Z. rewrite bpow_plus. reflexivity.
Qed.
Lemma exp_under64 x : x <= - 850 -> exp x < tiny_of f64.
Proof.
  intros H. unfold tiny_of. replace (/ 2 * bpow radix2 (3 - emax f64 - prec f64)) with (bpow radix2 (- 1075)).
  - apply (exp_small 3400 1075); [lia|vm_compute; reflexivity|].
    replace (INR 3400) with 3400 by (rewrite INR_IZR_INZ; reflexivity). lra.
  - change (- 1075)%Z with (-1 + -1074)%Z. rewrite bpow_plus. reflexivity.
Qed.

(** ** Logarithm *)
Lemma least f x : good f -> fits f x -> 0 < x -> bpow radix2 (3 - emax f - prec f) <= x.
Proof.
  intros G [F _] H. assert (P : Prec_gt_0 (prec f)) by (unfold Prec_gt_0; destruct G; lia).
  apply (FLT_format_generic radix2 (3 - emax f - prec f) (prec f)) in F.
  destruct F as [[m e] E0 _ E]. cbn [Fexp] in E. subst x. unfold F2R in *. cbn [Fnum Fexp] in *.
  assert (M : (1 <= m)%Z).
  { destruct (Z_lt_le_dec 0 m) as [|N]; [lia|].
    exfalso. apply IZR_le in N. pose proof (bpow_gt_0 radix2 e). nra. }
  apply IZR_le in M. apply Rle_trans with (bpow radix2 e); [now apply bpow_le|].
  pose proof (bpow_gt_0 radix2 e). nra.
Qed.
Lemma ln_bpow e : ln (bpow radix2 e) = IZR e * ln 2.
Proof.
  rewrite bpow_exp. rewrite ln_exp. reflexivity.
Qed.
Lemma ln_2_lt_1 : 0 < ln 2 < 1.
Proof.
  split; [rewrite <- ln_1; apply ln_increasing; lra|].
  rewrite <- (ln_exp 1). apply ln_increasing; [lra|]. pose proof (exp_ineq1 1). lra.
Qed.
Lemma ln_ok f : good f -> (emax f + prec f < 2 ^ prec f)%Z -> log_ok f ln.
Proof.
  intros G B x F H. pose proof (least f x G F ltac:(lra)) as L. pose proof ln_2_lt_1 as T.
  assert (U : ln x <= 0).
  { destruct (Req_EM_T x 1) as [-> |N]; [rewrite ln_1; lra|]. rewrite <- ln_1. apply Rlt_le, ln_increasing; lra. }
  assert (D : IZR (3 - emax f - prec f) <= ln x).
  { apply Rle_trans with (ln (bpow radix2 (3 - emax f - prec f))).
    - rewrite ln_bpow. assert (N : IZR (3 - emax f - prec f) <= 0) by (apply IZR_le; destruct G; lia). nra.
    - destruct L as [L| ->]; [apply Rlt_le, ln_increasing; [apply bpow_gt_0|exact L]|apply Rle_refl]. }
  pose proof (rnd_nonpos f G _ U) as U'. pose proof (rnd_mono f G _ _ D) as D'.
  rewrite (rnd_id f (IZR (3 - emax f - prec f))) in D'.
  2:{ rewrite <- (Rmult_1_r (IZR _)). change 1 with (bpow radix2 0). apply (format_int f); destruct G; lia. }
  exists (rnd f (ln x)). split; [|exact U']. apply make_small. rewrite Rabs_left1 by exact U'.
  apply Rle_lt_trans with (IZR (emax f + prec f - 3)).
  - replace (emax f + prec f - 3)%Z with (- (3 - emax f - prec f))%Z by ring. rewrite opp_IZR. lra.
  - apply Rlt_trans with (IZR (2 ^ prec f)); [apply IZR_lt; lia|]. change (2 ^ prec f)%Z with (radix2 ^ prec f)%Z.
    rewrite IZR_Zpower by (destruct G; lia). apply bpow_lt. destruct G. lia.
Qed.

(** ** Densities *)
Section Density.
Variable f : format.
Hypothesis G : good f.
Hypothesis E : (3 - emax f - prec f <= -131)%Z.
Let floor : R := 1 / 10 ^ 36.
Lemma floor_above : bpow radix2 (- 120) < floor.
Proof.
  unfold floor. change (bpow radix2 (- 120)) with (bpow radix2 (Z.opp 120)). rewrite bpow_opp, <- IZR_Zpower by lia. rewrite pow_IZR.
  replace (1 / IZR (10 ^ Z.of_nat 36)) with (/ IZR (10 ^ Z.of_nat 36)) by (unfold Rdiv; ring).
  apply Rinv_lt_contravar; [|apply IZR_lt; reflexivity].
  apply Rmult_lt_0_compat; apply IZR_lt; reflexivity.
Qed.
Lemma floor_below_1 : floor <= 1.
Proof.
  unfold floor. rewrite pow_IZR. apply (Rmult_le_reg_r (IZR (10 ^ Z.of_nat 36))); [apply IZR_lt; reflexivity|].
  unfold Rdiv. rewrite Rmult_assoc, Rinv_l by (apply not_0_IZR; discriminate). rewrite Rmult_1_l, Rmult_1_l. apply IZR_le. discriminate.
Qed.
Lemma floor_rnd : bpow radix2 (- 120) <= rnd f floor /\ make f floor = Num (rnd f floor).
Proof.
  pose proof floor_above. pose proof floor_below_1. pose proof (bpow_gt_0 radix2 (- 120)). split.
  - rewrite <- (rnd_id f (bpow radix2 (- 120))); [apply (rnd_mono f G); lra|]. apply (format_bpow f G). lia.
  - apply (make_unit f G). lra.
Qed.
Lemma density_cases p : 0 <= p ->
  (rnd f p = 0 /\ reported_density f p = Num (rnd f floor)) \/
  (0 < rnd f p /\ rnd f p < bpow radix2 (emax f) /\ reported_density f p = Num (rnd f p)) \/
  (bpow radix2 (emax f) <= rnd f p /\ reported_density f p = Inf false).
Proof.
  intros H. unfold reported_density. pose proof (rnd_nonneg f G p H) as N.
  destruct (make_nonneg f G p H) as [[-> L]|[-> L]]; [|right; right; auto].
  unfold Reqb. destruct (Req_EM_T (rnd f p) 0) as [Z|Z].
  - left. split; [exact Z|]. apply floor_rnd.
  - right. left. split; [lra|]. auto.
Qed.
Lemma density_positive p : 0 <= p -> flt (Num 0) (reported_density f p) = true.
Proof.
  intros H. pose proof (bpow_gt_0 radix2 (- 120)). pose proof floor_rnd as [F _].
  destruct (density_cases p H) as [[_ ->]|[(Q & _ & ->)|[_ ->]]]; cbn; unfold Rltb; try destruct (Rlt_dec _ _); try reflexivity; lra.
Qed.
Lemma density_inverted : flt (reported_density f (bpow radix2 (- 130))) (reported_density f 0) = true.
Proof.
  pose proof floor_rnd as [F _]. pose proof (bpow_gt_0 radix2 (- 130)) as P.
  assert (Q : rnd f (bpow radix2 (- 130)) = bpow radix2 (- 130)) by (apply rnd_id, (format_bpow f G); lia).
  assert (L : bpow radix2 (- 130) < bpow radix2 (- 120)) by (apply bpow_lt; lia).
  assert (X : bpow radix2 (- 130) < bpow radix2 (emax f)) by (apply bpow_lt; destruct G; lia).
  destruct (density_cases 0 ltac:(lra)) as [[_ ->]|[(Z & _)|[Z _]]]; [|rewrite rnd_0 in Z; lra|rewrite rnd_0 in Z; pose proof (bpow_gt_0 radix2 (emax f)); lra].
  destruct (density_cases (bpow radix2 (- 130)) ltac:(lra)) as [[Z _]|[(_ & _ & ->)|[Z _]]]; [lra| |lra].
  cbn [flt]. unfold Rltb. destruct (Rlt_dec _ _); [reflexivity|]. lra.
Qed.
Lemma density_mono p q : 0 <= p <= q -> floor <= q -> flt (reported_density f q) (reported_density f p) = false.
Proof.
  intros H Q. pose proof floor_rnd as [F _]. pose proof (bpow_gt_0 radix2 (- 120)).
  pose proof (rnd_mono f G p q ltac:(lra)). pose proof (rnd_mono f G floor q Q).
  destruct (density_cases p ltac:(lra)) as [[Z ->]|[(Z & Z' & ->)|[Z ->]]], (density_cases q ltac:(lra)) as [[Y ->]|[(Y & Y' & ->)|[Y ->]]];
    cbn [flt]; unfold Rltb; try destruct (Rlt_dec _ _); try reflexivity; try lra.
Qed.
End Density.

(** ** Accuracy *)
Section Accuracy.
Variable f : format.
Hypothesis G : good f.
Lemma share_unit k n : (k <= n)%nat -> (0 < n)%nat -> share_float f k n = Num (rnd f (INR k / INR n)) /\ 0 <= rnd f (INR k / INR n) <= 1.
Proof.
  intros K N. unfold share_float. apply (make_unit f G). apply le_INR in K. apply lt_INR in N. cbn in N. pose proof (pos_INR k).
  split; [apply Rmult_le_pos; [lra|apply Rlt_le, Rinv_0_lt_compat; lra]|].
  apply (Rmult_le_reg_r (INR n)); [lra|]. unfold Rdiv. rewrite Rmult_assoc, Rinv_l; lra.
Qed.
Lemma inv_above n : (0 < n)%nat -> (Z.of_nat n < 2 ^ prec f)%Z -> unit_of f < / INR n.
Proof.
  intros N H. unfold unit_of. rewrite bpow_opp. apply IZR_lt in H. change (2 ^ prec f)%Z with (radix2 ^ prec f)%Z in H.
  rewrite IZR_Zpower in H by (destruct G; lia). rewrite <- INR_IZR_INZ in H. apply lt_0_INR in N.
  apply Rinv_lt_contravar; [|exact H]. apply Rmult_lt_0_compat; [exact N|apply bpow_gt_0].
Qed.
Lemma share_0 k n : (k <= n)%nat -> (0 < n)%nat -> (Z.of_nat n < 2 ^ prec f)%Z -> (share_float f k n = Num 0 <-> k = 0%nat).
Proof.
  intros K N H. destruct (share_unit k n K N) as [-> B]. pose proof (inv_above n N H) as I. pose proof (unit_pos f) as U.
  assert (N0 : 0 < INR n) by now apply lt_0_INR. split.
  - intros E. injection E as E. destruct k as [|k]; [reflexivity|]. exfalso.
    assert (L : unit_of f <= INR (S k) / INR n).
    { rewrite S_INR. pose proof (pos_INR k). apply Rle_trans with (/ INR n); [lra|]. rewrite <- (Rmult_1_l (/ INR n)) at 1.
      apply Rmult_le_compat_r; lra. }
    apply (rnd_mono f G) in L. rewrite (rnd_id f (unit_of f)) in L by (unfold unit_of; apply (format_bpow f G); destruct G; lia). lra.
  - intros ->. cbn [INR]. unfold Rdiv. rewrite Rmult_0_l. now rewrite rnd_0.
Qed.
Lemma share_1 k n : (k <= n)%nat -> (0 < n)%nat -> (Z.of_nat n < 2 ^ prec f)%Z -> (share_float f k n = Num 1 <-> k = n).
Proof.
  intros K N H. destruct (share_unit k n K N) as [-> B]. pose proof (inv_above n N H) as I. pose proof (unit_pos f) as U.
  assert (N0 : 0 < INR n) by now apply lt_0_INR. split.
  - intros E. injection E as E. destruct (Nat.eq_dec k n) as [|D]; [assumption|]. exfalso.
    assert (L : INR k / INR n <= 1 - unit_of f).
    { assert (K' : INR k <= INR n - 1) by (replace (INR n - 1) with (INR (n - 1)) by (rewrite minus_INR by lia; reflexivity); apply le_INR; lia).
      apply Rle_trans with ((INR n - 1) / INR n); [apply Rmult_le_compat_r; [lra|exact K']|].
      unfold Rdiv. rewrite Rmult_minus_distr_r, Rinv_r by lra. lra. }
    apply (rnd_mono f G) in L. rewrite (rnd_id f (1 - unit_of f)) in L; [lra|].
    replace (1 - unit_of f) with (IZR (2 ^ prec f - 1) * bpow radix2 (- prec f)).
    + apply (format_int f); [|destruct G; lia]. assert (0 < 2 ^ prec f)%Z by (apply Z.pow_pos_nonneg; destruct G; lia). lia.
    + rewrite minus_IZR. change (2 ^ prec f)%Z with (radix2 ^ prec f)%Z. rewrite IZR_Zpower by (destruct G; lia).
      rewrite Rmult_minus_distr_r, <- bpow_plus, Z.add_opp_diag_r. unfold unit_of. cbn [bpow]. ring.
  - intros ->. unfold Rdiv. rewrite Rinv_r by lra. now rewrite (rnd_1 f G).
Qed.
Lemma share_mono k k' n : (k < k')%nat -> (k' <= n)%nat -> (Z.of_nat n < 2 ^ (prec f - 2))%Z ->
  flt (share_float f k n) (share_float f k' n) = true.
Proof.
  intros K K' H. destruct (share_unit k n ltac:(lia) ltac:(lia)) as [-> _], (share_unit k' n ltac:(lia) ltac:(lia)) as [-> _].
  assert (N0 : 0 < INR n) by (apply lt_0_INR; lia).
  cbn [flt]. unfold Rltb. destruct (Rlt_dec _ _) as [|Q]; [reflexivity|]. exfalso. apply Q. clear Q.
  assert (I : 4 * unit_of f < / INR n).
  { unfold unit_of. replace (4 * bpow radix2 (- prec f)) with (bpow radix2 (- (prec f - 2))).
    - rewrite bpow_opp. destruct G as [G1 G2]. destruct (Z.eq_dec (prec f) 1); [lia|].
      apply IZR_lt in H. change (2 ^ (prec f - 2))%Z with (radix2 ^ (prec f - 2))%Z in H.
      rewrite IZR_Zpower in H by lia. rewrite <- INR_IZR_INZ in H.
      apply Rinv_lt_contravar; [|exact H]. apply Rmult_lt_0_compat; [exact N0|apply bpow_gt_0].
    - replace (- (prec f - 2))%Z with (2 + - prec f)%Z by lia. rewrite bpow_plus. reflexivity. }
  destruct (rnd_error f G (INR k / INR n)) as (e & h & A1 & A2 & ->).
  destruct (rnd_error f G (INR k' / INR n)) as (e' & h' & B1 & B2 & ->).
  pose proof (tiny_small f G) as T. pose proof (unit_pos f) as U.
  apply Rabs_le_inv in A1. apply Rabs_le_inv in A2. apply Rabs_le_inv in B1. apply Rabs_le_inv in B2.
  set (x := INR k / INR n) in *. set (y := INR k' / INR n) in *.
  assert (XY : x + / INR n <= y).
  { unfold x, y. replace (INR k / INR n + / INR n) with ((INR k + 1) / INR n) by (field; lra).
    apply Rmult_le_compat_r; [apply Rlt_le, Rinv_0_lt_compat, N0|]. rewrite <- S_INR. apply le_INR. lia. }
  assert (X0 : 0 <= x) by (apply Rmult_le_pos; [apply pos_INR|apply Rlt_le, Rinv_0_lt_compat, N0]).
  assert (Y1 : y <= 1).
  { unfold y. apply (Rmult_le_reg_r (INR n)); [lra|]. unfold Rdiv. rewrite Rmult_assoc, Rinv_l, Rmult_1_r, Rmult_1_l by lra. apply le_INR. lia. }
  assert (x * e <= unit_of f) by nra. assert (- unit_of f <= y * e') by nra. lra.
Qed.
End Accuracy.

(** ** A batch in which a row vanishes *)
Section Batch.
Variable sum : list num -> num.
Hypothesis sums : forall l, summed f32 l (sum l).

Lemma vanish m x : x - m <= - 150 -> -1000 <= x - m -> shifted f32 exp m x = Num 0.
Proof.
  intros H H'. unfold shifted. change (fsub f32 (Num x) (Num m)) with (make f32 (x - m)).
  destruct (make_nonpos f32 good32 (x - m) ltac:(lra)) as [[-> _]|[-> _]]; [|reflexivity].
  cbn [fexp_of].
  assert (R1 : rnd f32 (x - m) <= -150).
  { replace (-150) with (rnd f32 (-150)); [now apply (rnd_mono f32 good32)|]. apply rnd_id.
    replace (-150) with (IZR (-150) * bpow radix2 0) by (cbn; ring). apply (format_int f32); cbn; lia. }
  assert (U : exp (rnd f32 (x - m)) < tiny_of f32) by (apply exp_under32; lra). pose proof (exp_pos (rnd f32 (x - m))) as P.
  pose proof (tiny_small f32 good32). pose proof (unit_small f32 good32).
  destruct (make_unit f32 good32 (exp (rnd f32 (x - m))) ltac:(lra)) as [-> _].
  now rewrite (rnd_underflow f32 good32) by lra.
Qed.
Lemma batch_first : exists r, softmax_float f32 exp sum [[0; 1]; [200; 0]] = Ok [[NaN; NaN]; r].
Proof.
  assert (M : np_max (concat [[0; 1]; [200; 0]]) = Ok 200).
  { cbn. unfold Rmax. repeat destruct (Rle_dec _ _); try lra; reflexivity. }
  unfold softmax_float. rewrite M. cbn [bind map]. eexists. f_equal. f_equal.
  unfold softmax_row_float. cbn [map]. change (fexp_of f32 exp (fsub f32 (Num 0) (Num 200))) with (shifted f32 exp 200 0).
  change (fexp_of f32 exp (fsub f32 (Num 1) (Num 200))) with (shifted f32 exp 200 1).
  rewrite !vanish by lra. rewrite (sum_zero f32 _ _ (sums _)) by (repeat constructor).
  unfold fdiv, Reqb. destruct (Req_EM_T 0 0); [reflexivity|lra].
Qed.
Lemma alone : exists a b, softmax_float f32 exp sum [[0; 1]] = Ok [[Num a; Num b]] /\ a < b.
Proof.
  assert (M : np_max (concat [[0; 1]]) = Ok 1).
  { cbn. unfold Rmax. repeat destruct (Rle_dec _ _); try lra; reflexivity. }
  unfold softmax_float. rewrite M. cbn [bind map].
  set (l := [0; 1]). assert (H : forall x, In x l -> x <= 1) by (intros x [<-|[<-|[]]]; lra).
  rewrite softmax_row. fold l. assert (X1 : shifted f32 exp 1 1 = Num 1) by (apply (shifted_self f32 good32 exp exp_0)).
  destruct (shifted_unit f32 good32 exp exp_0 exp_nonneg exp_mono 1 0 ltac:(lra)) as (e & E & _ & B).
  assert (FU : Forall (fun e => exists x, e = Num x /\ fits f32 x /\ 0 <= x <= 1) (map (shifted f32 exp 1) l)).
  { apply Forall_forall. intros v I. apply in_map_iff in I as (x & <- & I).
    destruct (shifted_unit f32 good32 exp exp_0 exp_nonneg exp_mono 1 x (H x I)) as (q & Q & R1). eauto. }
  destruct (sum_unit_bound f32 good32 _ _ (sums _) FU ltac:(cbn; lia)) as (s & Es & Bs). cbn in Bs.
  pose proof (sum_ge f32 good32 _ _ (sums (map (shifted f32 exp 1) l))
    (shifted_up f32 good32 exp exp_0 exp_nonneg exp_mono 1 l H) (Num 1)) as S1. rewrite Es in S1.
  assert (S1' : 1 <= s) by (apply S1; rewrite <- X1; apply in_map; right; now left). clear S1.
  assert (E4 : e <= 7 / 16).
  { unfold shifted in E. change (fsub f32 (Num 0) (Num 1)) with (make f32 (0 + - 1)) in E. replace (0 + - 1) with (-1) in E by ring.
    rewrite (make_fits f32 (-1)) in E.
    - cbn [fexp_of] in E.
      assert (Q : exp (-1) <= 7 / 16).
      { pose proof (exp_quarters 4) as Q. replace (INR 4 / 4) with 1 in Q by (cbn; lra).
        replace (-1) with (- (1)) by ring. rewrite exp_Ropp. apply Rle_trans with (/ (5 / 4) ^ 4); [|cbn; lra].
        apply Rinv_le_contravar; [cbn; lra|exact Q]. }
      pose proof (exp_nonneg (-1)). destruct (make_unit f32 good32 (exp (-1)) ltac:(lra)) as [Q' _]. rewrite Q' in E. injection E as <-.
      apply (rnd_mono f32 good32) in Q. rewrite (rnd_id f32 (7 / 16)) in Q; [exact Q|].
      replace (7 / 16) with (IZR 7 * bpow radix2 (- 4)) by (cbn; lra). apply (format_int f32); cbn; lia.
    - split; [|rewrite Rabs_left by lra; replace (- (-1)) with 1 by ring; apply (emax_gt_1 f32 good32)].
      replace (-1) with (IZR (-1) * bpow radix2 0) by (cbn; ring). apply (format_int f32); cbn; lia. }
  destruct (quotient_unit f32 good32 e s ltac:(lra) ltac:(lra)) as [Q1 _].
  destruct (quotient_unit f32 good32 1 s ltac:(lra) ltac:(lra)) as [Q2 _].
  exists (rnd f32 (e / s)), (rnd f32 (1 / s)). split.
  - unfold l at 2. cbn [map]. rewrite E, X1, Es, Q1, Q2. reflexivity.
  - assert (L1 : e / s <= 7 / 16).
    { apply (Rmult_le_reg_r s); [lra|]. unfold Rdiv. rewrite Rmult_assoc, Rinv_l by lra. nra. }
    assert (L2 : / 2 <= 1 / s) by (unfold Rdiv; rewrite Rmult_1_l; apply Rinv_le_contravar; lra).
    apply (rnd_mono f32 good32) in L1. apply (rnd_mono f32 good32) in L2. rewrite (half_format f32 good32) in L2.
    rewrite (rnd_id f32 (7 / 16)) in L1; [lra|].
    replace (7 / 16) with (IZR 7 * bpow radix2 (- 4)) by (cbn; lra). apply (format_int f32); cbn; lia.
Qed.
Lemma beats_spec l k : argmax_float l = Ok k -> exists m, nth_error l k = Some m /\
  (forall j y, nth_error l j = Some y -> beats y m = false) /\
  (forall j y, (j < k)%nat -> nth_error l j = Some y -> beats m y = true).
Proof.
  apply argmin_spec.
  - intros [x|s|]; unfold beats, flt; [|now destruct s|reflexivity]. unfold Rltb. destruct (Rlt_dec x x); [lra|reflexivity].
  - intros [x|[]|] [y|[]|] [z|[]|]; unfold beats, flt, Rltb; cbn; intros; try reflexivity; try discriminate;
      repeat (destruct (Rlt_dec _ _)); try reflexivity; try discriminate; lra.
  - intros [x|[]|] [y|[]|] [z|[]|]; unfold beats, flt, Rltb; cbn; intros; try reflexivity; try discriminate;
      repeat (destruct (Rlt_dec _ _)); try reflexivity; try discriminate; lra.
Qed.
Lemma argmax_nan : argmax_float [NaN; NaN] = Ok 0%nat. Proof. reflexivity. Qed.
Lemma argmax_less a b : a < b -> argmax_float [Num a; Num b] = Ok 1%nat.
Proof. intros H. unfold argmax_float, argmin, argmin_from, beats, flt, Rltb. destruct (Rlt_dec a b); [reflexivity|lra]. Qed.
End Batch.
