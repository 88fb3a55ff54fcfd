(** Proofs about scaling in floating point. *)
From Coq Require Import List Reals ZArith Bool Lia Lra.
From Flocq Require Import Core Plus_error.
From Verif.Model Require Import Base Float FloatOps.
From Verif.Spec Require Import Float.
From Verif.Proof Require Import BaseLemmas Float.
Import ListNotations.
Local Open Scope R_scope.

Section Scale.
Variable f : format.
Hypothesis G : good f.

Lemma fsub_num x y : fsub f (Num x) (Num y) = make f (x - y).
Proof. reflexivity. Qed.

(** One scaled value, for a finite range. *)
Definition scaled (mn mx x : R) : R := rnd f (rnd f (x - mn) / rnd f (mx - mn)).

Lemma range_pos mn mx : fits f mn -> fits f mx -> mn < mx -> 0 < rnd f (mx - mn).
Proof.
  intros [A _] [B _] L. pose proof (rnd_nonneg f G (mx - mn) ltac:(lra)).
  pose proof (rnd_minus_neq f G mx mn B A ltac:(lra)). lra.
Qed.

Lemma scale_finite mn mx x : fits f mn -> fits f mx -> mn < mx -> rnd f (mx - mn) < bpow radix2 (emax f) ->
  mn <= x <= mx ->
  fdiv f (fsub f (Num x) (Num mn)) (fsub f (Num mx) (Num mn)) = Num (scaled mn mx x) /\ 0 <= scaled mn mx x <= 1.
Proof.
  intros A B L F H. pose proof (range_pos mn mx A B L) as P.
  pose proof (rnd_nonneg f G (x - mn) ltac:(lra)) as D0.
  pose proof (rnd_mono f G (x - mn) (mx - mn) ltac:(lra)) as D1.
  rewrite !fsub_num. rewrite (make_small f (mx - mn)) by (rewrite Rabs_pos_eq; lra).
  rewrite (make_small f (x - mn)) by (rewrite Rabs_pos_eq; lra).
  unfold fdiv. unfold Reqb at 1. destruct (Req_EM_T _ 0); [lra|].
  assert (U : 0 <= rnd f (x - mn) / rnd f (mx - mn) <= 1).
  { split; [apply Rmult_le_pos; [lra|apply Rlt_le, Rinv_0_lt_compat; lra]|].
    apply (Rmult_le_reg_r (rnd f (mx - mn))); [lra|]. unfold Rdiv. rewrite Rmult_assoc, Rinv_l; lra. }
  apply (make_unit f G _ U).
Qed.

Lemma scaled_mono mn mx x y : fits f mn -> fits f mx -> mn < mx -> x <= y -> scaled mn mx x <= scaled mn mx y.
Proof.
  intros A B L H. pose proof (range_pos mn mx A B L) as P. unfold scaled. apply (rnd_mono f G).
  apply Rmult_le_compat_r; [apply Rlt_le, Rinv_0_lt_compat; lra|]. apply (rnd_mono f G). lra.
Qed.
Lemma scaled_min mn mx : scaled mn mx mn = 0.
Proof. unfold scaled. replace (mn - mn) with 0 by lra. rewrite (rnd_0 f). unfold Rdiv. rewrite Rmult_0_l. apply rnd_0. Qed.
Lemma scaled_max mn mx : fits f mn -> fits f mx -> mn < mx -> scaled mn mx mx = 1.
Proof.
  intros A B L. pose proof (range_pos mn mx A B L) as P. unfold scaled.
  unfold Rdiv. rewrite Rinv_r by lra. apply (rnd_1 f G).
Qed.

(** Beyond the largest number the range is infinite. *)
Lemma scale_overflow mn mx x : mn <= x <= mx -> bpow radix2 (emax f) <= rnd f (mx - mn) ->
  fdiv f (fsub f (Num x) (Num mn)) (fsub f (Num mx) (Num mn)) =
    if Rltb (rnd f (x - mn)) (bpow radix2 (emax f)) then Num 0 else NaN.
Proof.
  intros H B. rewrite !fsub_num.
  destruct (make_nonneg f G (mx - mn) ltac:(lra)) as [[_ C]|[-> _]]; [lra|].
  destruct (make_nonneg f G (x - mn) ltac:(lra)) as [[-> C]|[-> C]]; unfold Rltb; destruct (Rlt_dec _ _); try lra; reflexivity.
Qed.

(** Undoing the scaling gives back the minimum exactly and every value up to
    rounding errors. *)
Definition restored (mn mx x : R) : R := rnd f (rnd f (scaled mn mx x * rnd f (mx - mn)) + mn).

Lemma restored_min mn mx : fits f mn -> restored mn mx mn = mn.
Proof.
  intros [A _]. unfold restored. rewrite scaled_min, Rmult_0_l, rnd_0, Rplus_0_l. now apply rnd_id.
Qed.

Lemma Rabs_bound e u : Rabs e <= u -> - u <= e <= u.
Proof. intros H. apply Rabs_le_inv in H. exact H. Qed.

Lemma restored_close mn mx x : fits f mn -> fits f mx -> fits f x -> mn < mx -> mn <= x <= mx ->
  Rabs (restored mn mx x - x) <= 7 * unit_of f * (mx - mn) + unit_of f * Rabs x + 3 * tiny_of f.
Proof.
  intros A B X L H. pose proof (range_pos mn mx A B L) as P. destruct A as [A _], B as [B _], X as [X _].
  pose proof (rnd_minus_error f G x mn X A) as E1.
  pose proof (rnd_minus_error f G mx mn B A) as ER.
  rewrite (Rabs_pos_eq (x - mn)) in E1 by lra. rewrite (Rabs_pos_eq (mx - mn)) in ER by lra.
  destruct (rnd_error f G (rnd f (x - mn) / rnd f (mx - mn))) as (e2 & h2 & B2 & C2 & D2).
  fold (scaled mn mx x) in D2.
  assert (M : scaled mn mx x * rnd f (mx - mn) = rnd f (x - mn) * (1 + e2) + h2 * rnd f (mx - mn)).
  { rewrite D2. field. lra. }
  destruct (rnd_error f G (scaled mn mx x * rnd f (mx - mn))) as (e3 & h3 & B3 & C3 & D3).
  set (t := rnd f (scaled mn mx x * rnd f (mx - mn))) in *.
  pose proof (rnd_plus_error f G t mn (rnd_format f G _) A) as E4. fold (restored mn mx x) in E4.
  unfold restored. fold t. 
  pose proof (unit_pos f) as U0. pose proof (unit_small f G) as U1. pose proof (tiny_pos f) as T0. pose proof (tiny_small f G) as T1.
  set (u := unit_of f) in *. set (w := tiny_of f) in *. set (r := rnd f (mx - mn)) in *. set (d := rnd f (x - mn)) in *.
  apply Rabs_bound in E1, ER, B2, C2, B3, C3.
  assert (Q : Rabs (t - (x - mn)) <= 5 * u * (mx - mn) + w * 2).
  { rewrite D3, M.
    replace ((d * (1 + e2) + h2 * r) * (1 + e3) + h3 - (x - mn))
      with ((d - (x - mn)) + d * (e2 + e3 + e2 * e3) + h2 * r * (1 + e3) + h3) by ring.
    assert (D : 0 <= d <= (mx - mn) * (1 + u)) by nra.
    assert (R' : 0 <= r <= (mx - mn) * (1 + u)) by nra.
    assert (S : Rabs (e2 + e3 + e2 * e3) <= 2 * u + u * u).
    { apply Rabs_le. split; nra. }
    apply Rabs_bound in S.
    assert (V : Rabs (d * (e2 + e3 + e2 * e3)) <= (mx - mn) * (1 + u) * (2 * u + u * u)).
    { rewrite Rabs_mult. apply Rmult_le_compat; try apply Rabs_pos; [rewrite Rabs_pos_eq; lra|apply Rabs_le; lra]. }
    assert (W : Rabs (h2 * r * (1 + e3)) <= w * ((mx - mn) * (1 + u)) * (1 + u)).
    { rewrite !Rabs_mult. apply Rmult_le_compat; try apply Rmult_le_pos; try apply Rabs_pos.
      - apply Rmult_le_compat; try apply Rabs_pos; apply Rabs_le; lra.
      - apply Rabs_le; lra. }
    assert (V' : (mx - mn) * (1 + u) * (2 * u + u * u) <= 3 * u * (mx - mn)).
    { replace ((mx - mn) * (1 + u) * (2 * u + u * u)) with (u * (mx - mn) * ((1 + u) * (2 + u))) by ring.
      replace (3 * u * (mx - mn)) with (u * (mx - mn) * 3) by ring.
      apply Rmult_le_compat_l; [apply Rmult_le_pos; lra|]. nra. }
    assert (W' : w * ((mx - mn) * (1 + u)) * (1 + u) <= u * (mx - mn)).
    { replace (w * ((mx - mn) * (1 + u)) * (1 + u)) with ((mx - mn) * (w * ((1 + u) * (1 + u)))) by ring.
      rewrite (Rmult_comm u). apply Rmult_le_compat_l; [lra|].
      apply Rle_trans with (u / 2 * 2); [|lra]. apply Rmult_le_compat; nra. }
    apply Rabs_bound in V, W. apply Rabs_le.
    assert (Z : u * (x - mn) <= u * (mx - mn)) by (apply Rmult_le_compat_l; lra). lra. }
  apply Rabs_bound in Q.
  assert (N : Rabs (t + mn) <= 5 * u * (mx - mn) + w * 2 + Rabs x).
  { replace (t + mn) with ((t - (x - mn)) + x) by ring. eapply Rle_trans; [apply Rabs_triang|].
    apply Rplus_le_compat_r. apply Rabs_le. lra. }
  apply Rabs_bound in E4. apply Rabs_le. unfold restored in E4. fold t in E4.
  assert (K : u * Rabs (t + mn) <= u * (5 * u * (mx - mn) + w * 2 + Rabs x)) by (apply Rmult_le_compat_l; lra).
  assert (Y : u * (5 * u * (mx - mn) + w * 2 + Rabs x) + 5 * u * (mx - mn) + w * 2 <=
     7 * u * (mx - mn) + u * Rabs x + 3 * w) by nra.
  lra.
Qed.

(** Undoing the scaling does not overflow in the middle half of the range. *)
Lemma restored_num mn mx x : (4 <= prec f)%Z -> fits f mn -> fits f mx -> mn < mx -> mn <= x <= mx ->
  Rabs mn <= bpow radix2 (emax f - 2) -> Rabs mx <= bpow radix2 (emax f - 2) ->
  rnd f (mx - mn) < bpow radix2 (emax f) /\
  minmax_inverse_float f mn mx (Num (scaled mn mx x)) = Num (restored mn mx x).
Proof.
  intros P4 A B L X Bn Bx. pose proof (range_pos mn mx A B L) as P. set (h := bpow radix2 (emax f - 2)) in *.
  assert (H0 : 0 < h) by apply bpow_gt_0.
  assert (H4 : bpow radix2 (emax f) = 4 * h).
  { unfold h. replace (emax f) with (2 + (emax f - 2))%Z at 1 by lia. rewrite bpow_plus. reflexivity. }
  apply Rabs_le_inv in Bn. apply Rabs_le_inv in Bx.
  assert (H2 : rnd f (2 * h) = 2 * h).
  { apply rnd_id. unfold h. apply (format_int f 2); [|destruct G; lia]. cbn. change 2%Z with (2 ^ 1)%Z at 1. apply Z.pow_lt_mono_r; lia. }
  assert (H3 : rnd f (3 * h) = 3 * h).
  { apply rnd_id. unfold h. apply (format_int f 3); [|destruct G; lia]. cbn. apply Z.lt_le_trans with (2 ^ 2)%Z; [reflexivity|]. apply Z.pow_le_mono_r; lia. }
  pose proof (rnd_mono f G (mx - mn) (2 * h) ltac:(lra)) as R1. rewrite H2 in R1.
  assert (F : rnd f (mx - mn) < bpow radix2 (emax f)) by lra. split; [exact F|].
  destruct (scale_finite mn mx x A B L F X) as [_ S].
  unfold minmax_inverse_float. rewrite fsub_num, (make_small f (mx - mn)) by (rewrite Rabs_pos_eq; lra).
  cbn [fmul]. set (r := rnd f (mx - mn)) in *.
  assert (M : 0 <= scaled mn mx x * r <= r) by nra.
  pose proof (rnd_nonneg f G _ (proj1 M)) as M0. pose proof (rnd_mono f G _ _ (proj2 M)) as M1.
  rewrite (rnd_id f r) in M1 by (unfold r; apply (rnd_format f G)).
  rewrite (make_small f (scaled mn mx x * r)) by (rewrite Rabs_pos_eq; lra). cbn [fadd].
  unfold restored. fold r. set (t := rnd f (scaled mn mx x * r)) in *.
  apply make_small. pose proof (rnd_mono f G (t + mn) (3 * h) ltac:(lra)) as U. rewrite H3 in U.
  pose proof (rnd_mono f G (- (3 * h)) (t + mn) ltac:(lra)) as D. rewrite (rnd_opp f), H3 in D.
  apply Rabs_def1; lra.
Qed.
End Scale.
