(** Basic facts about the floating point numbers of the model. *)
From Coq Require Import List Reals ZArith Bool Lia Lra.
From Flocq Require Import Core Relative Plus_error.
From Verif.Model Require Import Base Float.
From Verif.Spec Require Import Float.
From Verif.Proof Require Import BaseLemmas.
Import ListNotations.
Local Open Scope R_scope.

Lemma good32 : good f32. Proof. unfold good; cbn; lia. Qed.
Lemma good64 : good f64. Proof. unfold good; cbn; lia. Qed.

Section Facts.
Variable f : format.
Hypothesis G : good f.
Local Instance prec_pos : Prec_gt_0 (prec f). Proof. unfold Prec_gt_0. destruct G. lia. Qed.
Local Instance valid_fexp : Valid_exp (fexp f). Proof. apply FLT_exp_valid. exact prec_pos. Qed.
Local Instance monotone_fexp : Monotone_exp (fexp f). Proof. apply FLT_exp_monotone. Qed.

Lemma rnd_mono x y : x <= y -> rnd f x <= rnd f y.
Proof. apply round_le; typeclasses eauto. Qed.
Lemma rnd_id x : generic_format radix2 (fexp f) x -> rnd f x = x.
Proof. apply round_generic. typeclasses eauto. Qed.
Lemma rnd_format x : generic_format radix2 (fexp f) (rnd f x).
Proof. apply generic_format_round; typeclasses eauto. Qed.
Lemma format_0 : generic_format radix2 (fexp f) 0. Proof. apply generic_format_0. Qed.
Lemma format_bpow e : (3 - emax f - prec f <= e)%Z -> generic_format radix2 (fexp f) (bpow radix2 e).
Proof. intros H. apply generic_format_FLT_bpow; [exact prec_pos|exact H]. Qed.
Lemma format_1 : generic_format radix2 (fexp f) 1.
Proof. change 1 with (bpow radix2 0). apply format_bpow. destruct G. lia. Qed.
(** Integers times powers of two with few enough bits. *)
Lemma format_int m e : (Z.abs m < 2 ^ prec f)%Z -> (3 - emax f - prec f <= e)%Z ->
  generic_format radix2 (fexp f) (IZR m * bpow radix2 e).
Proof.
  intros H He. apply generic_format_FLT. exists (Float radix2 m e); [reflexivity|exact H|exact He].
Qed.
Lemma rnd_0 : rnd f 0 = 0. Proof. apply rnd_id, format_0. Qed.
Lemma rnd_1 : rnd f 1 = 1. Proof. apply rnd_id, format_1. Qed.
Lemma rnd_nonneg x : 0 <= x -> 0 <= rnd f x.
Proof. intros H. rewrite <- rnd_0. now apply rnd_mono. Qed.
Lemma rnd_nonpos x : x <= 0 -> rnd f x <= 0.
Proof. intros H. rewrite <- rnd_0. now apply rnd_mono. Qed.
Lemma rnd_le_1 x : x <= 1 -> rnd f x <= 1.
Proof. intros H. apply rnd_mono in H. now rewrite rnd_1 in H. Qed.
Lemma rnd_ge_1 x : 1 <= x -> 1 <= rnd f x.
Proof. intros H. apply rnd_mono in H. now rewrite rnd_1 in H. Qed.
Lemma rnd_opp x : rnd f (- x) = - rnd f x.
Proof. unfold rnd. rewrite round_NE_opp. reflexivity. Qed.
Lemma emax_gt_1 : 1 < bpow radix2 (emax f).
Proof. change 1 with (bpow radix2 0). apply bpow_lt. destruct G. lia. Qed.

Lemma fits_rnd x : Rabs (rnd f x) < bpow radix2 (emax f) -> fits f (rnd f x).
Proof. intros H. split; [apply rnd_format|exact H]. Qed.
Lemma fits_0 : fits f 0.
Proof. split; [apply format_0|]. rewrite Rabs_R0. apply bpow_gt_0. Qed.
Lemma fits_1 : fits f 1.
Proof. split; [apply format_1|]. rewrite Rabs_R1. apply emax_gt_1. Qed.

Lemma make_fits x : fits f x -> make f x = Num x.
Proof.
  intros [A B]. unfold make. rewrite rnd_id by exact A. unfold Rltb. destruct (Rlt_dec _ _); [reflexivity|contradiction].
Qed.
Lemma make_small x : Rabs (rnd f x) < bpow radix2 (emax f) -> make f x = Num (rnd f x).
Proof. intros H. unfold make, Rltb. destruct (Rlt_dec _ _); [reflexivity|contradiction]. Qed.
Lemma make_big x : bpow radix2 (emax f) <= Rabs (rnd f x) -> make f x = Inf (Rltb (rnd f x) 0).
Proof. intros H. unfold make. unfold Rltb at 1. destruct (Rlt_dec _ _); [lra|reflexivity]. Qed.
(** A non-negative result is finite or plus infinity. *)
Lemma make_nonneg x : 0 <= x ->
  (make f x = Num (rnd f x) /\ rnd f x < bpow radix2 (emax f)) \/ (make f x = Inf false /\ bpow radix2 (emax f) <= rnd f x).
Proof.
  intros H. pose proof (rnd_nonneg x H) as P.
  destruct (Rlt_le_dec (Rabs (rnd f x)) (bpow radix2 (emax f))) as [L|L].
  - left. split; [now apply make_small|]. rewrite Rabs_pos_eq in L; assumption.
  - right. rewrite Rabs_pos_eq in L by assumption. split; [|assumption]. rewrite make_big by (rewrite Rabs_pos_eq; assumption).
    f_equal. unfold Rltb. destruct (Rlt_dec _ _); [lra|reflexivity].
Qed.
Lemma make_nonpos x : x <= 0 ->
  (make f x = Num (rnd f x) /\ - bpow radix2 (emax f) < rnd f x) \/ (make f x = Inf true /\ rnd f x <= - bpow radix2 (emax f)).
Proof.
  intros H. pose proof (rnd_nonpos x H) as P.
  destruct (Rlt_le_dec (Rabs (rnd f x)) (bpow radix2 (emax f))) as [L|L].
  - left. split; [now apply make_small|]. rewrite Rabs_left1 in L by assumption. lra.
  - right. rewrite Rabs_left1 in L by assumption. split; [|lra]. rewrite make_big by (rewrite Rabs_left1; assumption).
    f_equal. pose proof (bpow_gt_0 radix2 (emax f)). unfold Rltb. destruct (Rlt_dec _ _); [reflexivity|lra].
Qed.
Lemma make_overflow x : bpow radix2 (emax f) <= x -> make f x = Inf false.
Proof.
  intros H. pose proof (bpow_gt_0 radix2 (emax f)). destruct (make_nonneg x ltac:(lra)) as [[_ B]|[E _]]; [|exact E].
  exfalso. assert (K : rnd f (bpow radix2 (emax f)) <= rnd f x) by now apply rnd_mono.
  rewrite rnd_id in K; [lra|]. apply format_bpow; destruct G; lia.
Qed.
Lemma make_unit x : 0 <= x <= 1 -> make f x = Num (rnd f x) /\ 0 <= rnd f x <= 1.
Proof.
  intros [A B]. pose proof (rnd_nonneg x A). pose proof (rnd_le_1 x B). pose proof emax_gt_1.
  split; [|lra]. apply make_small. rewrite Rabs_pos_eq; lra.
Qed.
Lemma make_0 : make f 0 = Num 0. Proof. apply make_fits, fits_0. Qed.
Lemma make_1 : make f 1 = Num 1. Proof. apply make_fits, fits_1. Qed.

(** The difference of different floats is not rounded to zero. *)
Lemma rnd_minus_neq x y : generic_format radix2 (fexp f) x -> generic_format radix2 (fexp f) y ->
  x <> y -> rnd f (x - y) <> 0.
Proof.
  intros A B N. unfold rnd, Rminus.
  apply round_plus_neq_0; try typeclasses eauto; [exact A|now apply generic_format_opp|]. lra.
Qed.

Lemma unit_pos : 0 < unit_of f. Proof. apply bpow_gt_0. Qed.
Lemma tiny_pos : 0 < tiny_of f.
Proof. unfold tiny_of. pose proof (bpow_gt_0 radix2 (3 - emax f - prec f)). lra. Qed.
Lemma unit_small : unit_of f <= / 4.
Proof.
  unfold unit_of. replace (/ 4) with (bpow radix2 (- 2)) by (cbn; lra). apply bpow_le. destruct G. lia.
Qed.
Lemma tiny_small : tiny_of f <= unit_of f / 2.
Proof.
  unfold tiny_of, unit_of. assert (bpow radix2 (3 - emax f - prec f) <= bpow radix2 (- prec f)); [|lra].
  apply bpow_le. destruct G. lia.
Qed.

Lemma rnd_error x : exists e h, Rabs e <= unit_of f /\ Rabs h <= tiny_of f /\ rnd f x = x * (1 + e) + h.
Proof.
  destruct (error_N_FLT radix2 (3 - emax f - prec f) (prec f) ltac:(destruct G; lia) (fun z => negb (Z.even z)) x)
    as (e & h & A & B & _ & D).
  exists e, h. repeat split; [|exact B|exact D].
  rewrite bpow_plus in A. replace (bpow radix2 1) with 2 in A by reflexivity. unfold unit_of. lra.
Qed.
Lemma rnd_plus_error x y : generic_format radix2 (fexp f) x -> generic_format radix2 (fexp f) y ->
  Rabs (rnd f (x + y) - (x + y)) <= unit_of f * Rabs (x + y).
Proof.
  intros A B. destruct (FLT_plus_error_N_ex radix2 (3 - emax f - prec f) (prec f) (fun z => negb (Z.even z)) x y A B) as (e & C & D).
  unfold rnd, fexp. rewrite D. replace ((x + y) * (1 + e) - (x + y)) with (e * (x + y)) by ring. rewrite Rabs_mult.
  apply Rmult_le_compat_r; [apply Rabs_pos|]. refine (Rle_trans _ _ _ C _).
  unfold u_ro. rewrite bpow_plus. replace (bpow radix2 1) with 2 by reflexivity.
  pose proof (bpow_gt_0 radix2 (- prec f)) as P. unfold unit_of.
  replace (/ 2 * (bpow radix2 (- prec f) * 2)) with (bpow radix2 (- prec f)) by field.
  apply (Rmult_le_reg_r (1 + bpow radix2 (- prec f))); [lra|]. unfold Rdiv. rewrite Rmult_assoc, Rinv_l by lra. nra.
Qed.
Lemma rnd_minus_error x y : generic_format radix2 (fexp f) x -> generic_format radix2 (fexp f) y ->
  Rabs (rnd f (x - y) - (x - y)) <= unit_of f * Rabs (x - y).
Proof. intros A B. apply rnd_plus_error; [exact A|now apply generic_format_opp]. Qed.

(** A number closer to a float than half the distance to its neighbours is
    rounded to it. *)
Lemma rnd_below u v : generic_format radix2 (fexp f) u -> v < (u + succ radix2 (fexp f) u) / 2 -> rnd f v <= u.
Proof. intros A B. unfold rnd. apply round_N_le_midp; try typeclasses eauto; assumption. Qed.
Lemma rnd_above u v : generic_format radix2 (fexp f) u -> (u + pred radix2 (fexp f) u) / 2 < v -> u <= rnd f v.
Proof. intros A B. unfold rnd. apply round_N_ge_midp; try typeclasses eauto; assumption. Qed.

(** Underflow: below half the smallest number everything becomes zero. *)
Lemma succ_0 : succ radix2 (fexp f) 0 = bpow radix2 (3 - emax f - prec f).
Proof. rewrite succ_eq_pos by lra. rewrite Rplus_0_l. apply ulp_FLT_0. exact prec_pos. Qed.
Lemma rnd_underflow x : 0 <= x -> x < tiny_of f -> rnd f x = 0.
Proof.
  intros A B. apply Rle_antisym; [|now apply rnd_nonneg]. apply rnd_below; [apply format_0|].
  rewrite succ_0. unfold tiny_of in B. lra.
Qed.
(** Saturation: one plus a small number is one. *)
Lemma succ_1 : succ radix2 (fexp f) 1 = 1 + 2 * unit_of f.
Proof.
  rewrite succ_eq_pos by lra. f_equal. change 1 with (bpow radix2 0) at 1. rewrite ulp_bpow.
  unfold fexp, FLT_exp, unit_of. destruct G. rewrite Z.max_l by lia. replace (0 + 1 - prec f)%Z with (1 + - prec f)%Z by lia.
  rewrite bpow_plus. reflexivity.
Qed.
Lemma rnd_one_plus e : 0 <= e -> e < unit_of f -> rnd f (1 + e) = 1.
Proof.
  intros A B. apply Rle_antisym; [|apply rnd_ge_1; lra]. apply rnd_below; [apply format_1|]. rewrite succ_1. lra.
Qed.
(** The midpoint between one and the next number is rounded to one. *)
Lemma rnd_tie_1 : rnd f (1 + unit_of f) = 1.
Proof.
  unfold rnd. destruct G as [G1 G2].
  assert (B : 1 + unit_of f = IZR (2 ^ prec f + 1) * bpow radix2 (- prec f)).
  { rewrite plus_IZR. change 2%Z with (radix_val radix2) at 1. rewrite IZR_Zpower by lia.
    rewrite Rmult_plus_distr_r, <- bpow_plus, Z.add_opp_diag_r. unfold unit_of. cbn [bpow]. ring. }
  pose proof unit_pos as U0. pose proof unit_small as U1.
  unfold round, scaled_mantissa, cexp. rewrite (mag_unique radix2 (1 + unit_of f) 1).
  2:{ rewrite Rabs_pos_eq by lra. cbn. lra. }
  unfold fexp, FLT_exp. rewrite Z.max_l by lia. rewrite B, Rmult_assoc, <- bpow_plus.
  replace (- prec f + - (1 - prec f))%Z with (-1)%Z by lia.
  replace (IZR (2 ^ prec f + 1) * bpow radix2 (-1)) with (IZR (2 ^ (prec f - 1)) + / 2).
  - assert (E : Z.even (2 ^ (prec f - 1)) = true).
    { rewrite Z.even_pow by lia. reflexivity. }
    assert (Q : ZnearestE (IZR (2 ^ (prec f - 1)) + / 2) = (2 ^ (prec f - 1))%Z).
    { unfold Znearest. rewrite (Zfloor_imp (2 ^ (prec f - 1))) by (rewrite plus_IZR; lra).
      replace (IZR (2 ^ (prec f - 1)) + / 2 - IZR (2 ^ (prec f - 1))) with (/ 2) by ring.
      rewrite Rcompare_Eq by reflexivity. now rewrite E. }
    rewrite Q. unfold F2R. cbn [Fnum Fexp]. change 2%Z with (radix_val radix2). rewrite IZR_Zpower by lia.
    rewrite <- bpow_plus. replace (prec f - 1 + (1 - prec f))%Z with 0%Z by lia. reflexivity.
  - replace (2 ^ prec f)%Z with (2 ^ (prec f - 1) * 2)%Z.
    + rewrite plus_IZR, mult_IZR. cbn. lra.
    + replace (prec f) with (Z.succ (prec f - 1)) at 2 by lia. rewrite Z.pow_succ_r by lia. ring.
Qed.
End Facts.
