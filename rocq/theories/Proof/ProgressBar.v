(** Proofs for the progress bars. *)
From Coq Require Import List String Ascii Reals ZArith Bool Arith Lia Lra Psatz.
From Flocq Require Import Core Relative.
From Verif.Model Require Import Base ProgressBar.
From Verif.Proof Require Import BaseLemmas.
From Verif.Spec Require Import Training.
Import ListNotations.
Local Open Scope R_scope.

Lemma ceil_bounds : forall r, IZR (ceil r) - 1 < r <= IZR (ceil r).
Proof.
  intros r. unfold ceil. rewrite opp_IZR. destruct (base_Int_part (- r)) as [H1 H2]. lra.
Qed.
Lemma ceil_mono : forall a b, a <= b -> (ceil a <= ceil b)%Z.
Proof.
  intros a b H. destruct (ceil_bounds a) as [H1 _]. destruct (ceil_bounds b) as [_ H2].
  assert (H3 : IZR (ceil a) - 1 < IZR (ceil b)) by lra. rewrite <- minus_IZR in H3. apply lt_IZR in H3. lia.
Qed.

Lemma times_chars : forall c n, times (String c EmptyString) n = chars c (Z.to_nat n).
Proof.
  intros c n. unfold times. induction (Z.to_nat n) as [|k IH]; [reflexivity|].
  cbn [repeat chars]. rewrite <- IH. destruct k; reflexivity.
Qed.
Lemma full_chars : full = chars "=" 25.
Proof. reflexivity. Qed.
Lemma chars_length : forall c n, String.length (chars c n) = n.
Proof. induction n; cbn; congruence. Qed.
Lemma string_app_length : forall a b, String.length (a ++ b) = (String.length a + String.length b)%nat.
Proof. induction a; intros; cbn; [reflexivity|]. rewrite IHa. reflexivity. Qed.
Lemma shape_length : forall d a m s, bar_shape d a m s -> String.length s = (d + (if a then 1 else 0) + m)%nat.
Proof.
  intros d a m s ->. rewrite !string_app_length, !chars_length. destruct a; cbn; lia.
Qed.

Section Rounding.
Variable fl : R -> R.
Hypothesis Hfl : rounding fl.
Let u := / 2 ^ 53.
Lemma u_pos : 0 < u. Proof. unfold u. apply Rinv_0_lt_compat. lra. Qed.
Lemma u_small : u * 2 ^ 53 = 1. Proof. unfold u. field. Qed.
Lemma fl_bounds : forall x, 0 <= x -> x * (1 - u) <= fl x <= x * (1 + u).
Proof.
  intros x Hx. destruct Hfl as (_ & H & _). specialize (H x). fold u in H.
  rewrite (Rabs_pos_eq x Hx) in H. apply Rabs_le_inv in H. lra.
Qed.
Lemma fl_mono : forall x y, x <= y -> fl x <= fl y.
Proof. apply Hfl. Qed.

Lemma threshold_bounds : forall E, 0 <= E ->
  E * (24 - u) / 25 * (1 - u) <= fl (E - fl (E / 25)) <= E * (24 + u) / 25 * (1 + u).
Proof.
  intros E HE. pose proof u_pos as Hu. pose proof u_small as Hs.
  assert (Hu1 : u < 1 / 100) by nra.
  destruct (fl_bounds (E / 25)) as [H1 H2]; [lra|].
  assert (H3 : 0 <= E - fl (E / 25)) by nra.
  destruct (fl_bounds _ H3) as [H4 H5]. split.
  - apply Rle_trans with ((E - fl (E / 25)) * (1 - u)); [|exact H4].
    apply Rmult_le_compat_r; [lra|]. lra.
  - apply Rle_trans with ((E - fl (E / 25)) * (1 + u)); [exact H5|].
    apply Rmult_le_compat_r; [lra|]. lra.
Qed.

Lemma position_bounds : forall e E, 0 <= e -> 0 < E ->
  25 * (e / E) * (1 - u) * (1 - u) <= fl (fl (e / E) * 25) <= 25 * (e / E) * (1 + u) * (1 + u).
Proof.
  intros e E He HE. pose proof u_pos as Hu. pose proof u_small as Hs.
  assert (Hu1 : u < 1 / 100) by nra.
  assert (Ha : 0 <= e / E) by (apply Rmult_le_pos; [lra|left; apply Rinv_0_lt_compat; lra]).
  destruct (fl_bounds _ Ha) as [H1 H2].
  assert (H3 : 0 <= fl (e / E)) by nra.
  destruct (fl_bounds (fl (e / E) * 25)) as [H4 H5]; [lra|]. split.
  - apply Rle_trans with (fl (e / E) * 25 * (1 - u)); [|exact H4]. apply Rmult_le_compat_r; lra.
  - apply Rle_trans with (fl (e / E) * 25 * (1 + u)); [exact H5|]. apply Rmult_le_compat_r; lra.
Qed.

Lemma arrow_range : forall e E, (1 <= e)%nat -> (1 <= E)%nat -> at_end fl e E = false -> (1 <= arrow fl e E <= 25)%Z.
Proof.
  intros e E He HE H. unfold at_end in H. apply Rltb_false in H. apply Rnot_lt_le in H || idtac.
  assert (He' : 1 <= INR e) by (change 1 with (INR 1); apply le_INR; lia).
  assert (HE' : 1 <= INR E) by (change 1 with (INR 1); apply le_INR; lia).
  pose proof u_pos as Hu. pose proof u_small as Hs. assert (Hu1 : u < 1 / 10000) by nra.
  destruct (threshold_bounds (INR E)) as [_ H1]; [lra|].
  destruct (position_bounds (INR e) (INR E)) as [H2 H3]; [lra|lra|].
  set (a := INR e / INR E) in *.
  assert (Ha : 0 < a) by (apply Rmult_lt_0_compat; [lra|apply Rinv_0_lt_compat; lra]).
  assert (Hae : a * INR E = INR e) by (unfold a; field; lra).
  assert (Ha2 : a <= (24 + u) / 25 * (1 + u)).
  { apply (Rmult_le_reg_r (INR E)); [lra|]. rewrite Hae. lra. }
  unfold arrow. fold a. destruct (ceil_bounds (fl (fl a * 25))) as [H4 H5]. split.
  - assert (H6 : 0 < 25 * a * (1 - u) * (1 - u)).
    { apply Rmult_lt_0_compat; [apply Rmult_lt_0_compat; [apply Rmult_lt_0_compat|]|]; lra. }
    assert (H7 : IZR 0 < IZR (ceil (fl (fl a * 25)))) by lra. apply lt_IZR in H7. lia.
  - assert (Hp : (1 + u) * (1 + u) <= 1 + 3 * u) by nra.
    assert (H6 : 25 * a * (1 + u) * (1 + u) <= 25).
    { replace (25 * a * (1 + u) * (1 + u)) with (25 * a * ((1 + u) * (1 + u))) by ring.
      apply Rle_trans with (25 * a * (1 + 3 * u)); [apply Rmult_le_compat_l; lra|].
      apply Rle_trans with (25 * ((24 + u) / 25 * (1 + u)) * (1 + 3 * u)); [apply Rmult_le_compat_r; lra|]. nra. }
    assert (H7 : IZR (ceil (fl (fl a * 25))) < IZR 26) by lra. apply lt_IZR in H7. lia.
Qed.

Lemma end_upward : forall e e' E, (e <= e')%nat -> at_end fl e E = true -> at_end fl e' E = true.
Proof.
  intros e e' E H. unfold at_end. rewrite !Rltb_true. intros H1. apply Rlt_le_trans with (INR e); [exact H1|]. apply le_INR; lia.
Qed.
Lemma end_at_end : forall E, (1 <= E)%nat -> at_end fl E E = true.
Proof.
  intros E HE. unfold at_end. apply Rltb_true.
  assert (HE' : 1 <= INR E) by (change 1 with (INR 1); apply le_INR; lia).
  pose proof u_pos as Hu. pose proof u_small as Hs. assert (Hu1 : u < 1 / 10000) by nra.
  destruct (threshold_bounds (INR E)) as [_ H1]; [lra|].
  assert (H2 : (24 + u) / 25 * (1 + u) < 1) by nra.
  apply Rle_lt_trans with (1 := H1).
  replace (INR E * (24 + u) / 25 * (1 + u)) with (INR E * ((24 + u) / 25 * (1 + u))) by field. nra.
Qed.
Lemma arrow_mono : forall e e' E, (1 <= E)%nat -> (e <= e')%nat -> (arrow fl e E <= arrow fl e' E)%Z.
Proof.
  intros e e' E HE H. unfold arrow. apply ceil_mono, fl_mono, Rmult_le_compat_r; [lra|]. apply fl_mono.
  apply Rmult_le_compat_r; [left; apply Rinv_0_lt_compat, lt_0_INR; lia|apply le_INR; lia].
Qed.

(** The bar in terms of the number of equal signs. *)
Definition done_of (e E : nat) : nat := if at_end fl e E then 25 else Z.to_nat (arrow fl e E - 1).
Lemma draw_shape : forall e E, (1 <= e)%nat -> (1 <= E)%nat ->
  exists s, draw_bar fl e E = Ok s /\
  bar_shape (done_of e E) (negb (at_end fl e E)) (25 - done_of e E - (if at_end fl e E then 0 else 1)) s /\
  (done_of e E + (if at_end fl e E then 0 else 1) <= 25)%nat.
Proof.
  intros e E He HE. unfold draw_bar, done_of. destruct (at_end fl e E) eqn:Ee.
  - exists full. repeat split; try reflexivity.
  - destruct E as [|E']; [lia|]. cbn [Nat.eqb]. eexists. split; [reflexivity|].
    destruct (arrow_range e (S E') He HE Ee) as [H1 H2]. split; [|lia].
    unfold bar_shape, with_arrow. rewrite !times_chars. cbn [negb]. do 3 f_equal. lia.
Qed.

Lemma done_mono : forall e e' E, (1 <= e)%nat -> (e <= e')%nat -> (1 <= E)%nat -> (done_of e E <= done_of e' E)%nat.
Proof.
  intros e e' E He Hee HE. unfold done_of. destruct (at_end fl e E) eqn:E1.
  - rewrite (end_upward _ _ _ Hee E1). lia.
  - pose proof (arrow_range e E He HE E1). pose proof (arrow_mono e e' E HE Hee).
    destruct (at_end fl e' E); lia.
Qed.

Lemma pow46 : 2 ^ 53 = 128 * 2 ^ 46. Proof. lra. Qed.

(** Up to 2^46 epochs the arrow stands where the exact quotient says. *)
Lemma arrow_exact : forall e E, (1 <= e)%nat -> (1 <= E)%nat -> (Z.of_nat E <= 2 ^ 46)%Z -> at_end fl e E = false ->
  ((arrow fl e E - 1) * Z.of_nat E <= 25 * Z.of_nat e <= arrow fl e E * Z.of_nat E)%Z.
Proof.
  intros e E He HE Hmax H. pose proof (arrow_range e E He HE H) as Hr.
  assert (He' : 1 <= INR e) by (change 1 with (INR 1); apply le_INR; lia).
  assert (HE' : 1 <= INR E) by (change 1 with (INR 1); apply le_INR; lia).
  assert (Hm : INR E <= 2 ^ 46).
  { rewrite INR_IZR_INZ. apply IZR_le in Hmax. rewrite (pow_IZR 2 46). exact Hmax. }
  pose proof u_pos as Hu. pose proof u_small as Hs. assert (Hu1 : u < 1 / 10000) by nra.
  assert (HuE : u * INR E <= 1 / 128).
  { rewrite pow46 in Hs. assert (u * INR E <= u * 2 ^ 46) by (apply Rmult_le_compat_l; lra). lra. }
  destruct (position_bounds (INR e) (INR E)) as [H2 H3]; [lra|lra|].
  set (a := INR e / INR E) in *.
  assert (Ha : 0 < a) by (apply Rmult_lt_0_compat; [lra|apply Rinv_0_lt_compat; lra]).
  assert (Hae : a * INR E = INR e) by (unfold a; field; lra).
  destruct (ceil_bounds (fl (fl a * 25))) as [H4 H5].
  change (ceil (fl (fl a * 25))) with (arrow fl e E) in *.
  set (p := arrow fl e E) in *.
  assert (Hp1 : 1 <= IZR p) by (apply (IZR_le 1); lia). assert (Hp2 : IZR p <= 25) by (apply (IZR_le _ 25); lia).
  split.
  - destruct (Z_le_gt_dec ((p - 1) * Z.of_nat E) (25 * Z.of_nat e)) as [L|G]; [exact L|exfalso].
    assert (G' : IZR (25 * Z.of_nat e + 1) <= IZR ((p - 1) * Z.of_nat E)) by (apply IZR_le; lia).
    rewrite plus_IZR, !mult_IZR, minus_IZR, <- !INR_IZR_INZ in G'.
    (* 25 e + 1 <= (p-1) E < 25 e (1+u)^2 *)
    assert (K : IZR p - 1 < 25 * a * ((1 + u) * (1 + u))) by lra.
    assert (Hp : (1 + u) * (1 + u) <= 1 + 3 * u) by nra.
    assert (K2 : IZR p - 1 < 25 * a * (1 + 3 * u)).
    { apply Rlt_le_trans with (1 := K). apply Rmult_le_compat_l; lra. }
    assert (K3 : (IZR p - 1) * INR E < 25 * INR e * (1 + 3 * u)).
    { apply Rlt_le_trans with (25 * a * (1 + 3 * u) * INR E); [apply Rmult_lt_compat_r; lra|].
      rewrite <- Hae. right. ring. }
    (* 1 < 75 u e, with e <= E *)
    assert (K4 : 25 * INR e <= 24 * INR E) by (assert ((IZR p - 1) * INR E <= 24 * INR E) by (apply Rmult_le_compat_r; lra); lra).
    nra.
  - destruct (Z_le_gt_dec (25 * Z.of_nat e) (p * Z.of_nat E)) as [L|G]; [exact L|exfalso].
    assert (G' : IZR (p * Z.of_nat E + 1) <= IZR (25 * Z.of_nat e)) by (apply IZR_le; lia).
    rewrite plus_IZR, !mult_IZR, <- !INR_IZR_INZ in G'.
    assert (K : 25 * a * ((1 - u) * (1 - u)) <= IZR p) by lra.
    assert (Hp : 1 - 2 * u <= (1 - u) * (1 - u)) by nra.
    assert (K2 : 25 * a * (1 - 2 * u) <= IZR p).
    { apply Rle_trans with (2 := K). apply Rmult_le_compat_l; lra. }
    assert (K3 : 25 * INR e * (1 - 2 * u) <= IZR p * INR E).
    { apply Rle_trans with (25 * a * (1 - 2 * u) * INR E); [rewrite <- Hae; right; ring|]. apply Rmult_le_compat_r; lra. }
    assert (K4 : IZR p * INR E <= 25 * INR E) by (apply Rmult_le_compat_r; lra).
    assert (K5 : 25 * INR e <= 26 * INR E) by nra.
    nra.
Qed.

Lemma end_exact : forall e E, (Z.of_nat E <= 2 ^ 46)%Z -> (at_end fl e E = true <-> (24 * E < 25 * e)%nat).
Proof.
  intros e E Hmax. unfold at_end. rewrite Rltb_true.
  assert (HE' : 0 <= INR E) by apply pos_INR.
  assert (Hm : INR E <= 2 ^ 46).
  { rewrite INR_IZR_INZ. apply IZR_le in Hmax. rewrite (pow_IZR 2 46). exact Hmax. }
  pose proof u_pos as Hu. pose proof u_small as Hs. assert (Hu1 : u < 1 / 10000) by nra.
  assert (HuE : u * INR E <= 1 / 128).
  { rewrite pow46 in Hs. assert (u * INR E <= u * 2 ^ 46) by (apply Rmult_le_compat_l; lra). lra. }
  assert (HuE0 : 0 <= u * INR E) by (apply Rmult_le_pos; lra).
  destruct (threshold_bounds (INR E) HE') as [H1 H2].
  split.
  - intros H. destruct (le_lt_dec (25 * e) (24 * E)) as [L|G]; [exfalso|exact G].
    destruct (Nat.eq_dec (25 * e) (24 * E)) as [Eq|Ne].
    + (* the quotient is whole *)
      assert (exists k, E = (25 * k)%nat /\ e = (24 * k)%nat) as (k & -> & ->).
      { exists (E - e)%nat. lia. }
      destruct Hfl as (_ & _ & Hz).
      rewrite mult_INR in H. replace (INR 25 * INR k / 25) with (IZR (Z.of_nat k)) in H by (rewrite <- INR_IZR_INZ; cbn; lra).
      rewrite Hz in H by lia. replace (INR 25 * INR k - IZR (Z.of_nat k)) with (IZR (24 * Z.of_nat k)) in H by (rewrite mult_IZR, <- INR_IZR_INZ; cbn; lra).
      rewrite Hz in H by lia. rewrite mult_IZR, <- INR_IZR_INZ, mult_INR in H. cbn in H. lra.
    + assert (L' : INR (25 * e + 1) <= INR (24 * E)) by (apply le_INR; lia).
      rewrite plus_INR, !mult_INR in L'. replace (INR 25) with 25 in L' by (cbn; lra). replace (INR 24) with 24 in L' by (cbn; lra). cbn [INR] in L'.
      assert (K : INR E * (24 - u) / 25 * (1 - u) >= 24 / 25 * INR E - (25 * (u * INR E)) / 25).
      { replace (INR E * (24 - u) / 25 * (1 - u)) with (24 / 25 * INR E - 25 * (u * INR E) / 25 + u * (u * INR E) / 25) by field. nra. }
      lra.
  - intros G. apply Rle_lt_trans with (1 := H2).
    assert (L' : INR (24 * E + 1) <= INR (25 * e)) by (apply le_INR; lia).
    rewrite plus_INR, !mult_INR in L'. replace (INR 25) with 25 in L' by (cbn; lra). replace (INR 24) with 24 in L' by (cbn; lra). cbn [INR] in L'.
    replace (INR E * (24 + u) / 25 * (1 + u)) with (24 / 25 * INR E + 25 * (u * INR E) / 25 + u * (u * INR E) / 25) by field.
    nra.
Qed.
End Rounding.

(** The rounding of binary numbers with 53 digits. *)
Lemma exact_rounding : rounding (fun x => x).
Proof.
  split; [auto|]. split; [|auto]. intros x. rewrite Rminus_diag_eq by reflexivity. rewrite Rabs_R0.
  apply Rmult_le_pos; [left; apply Rinv_0_lt_compat; lra|apply Rabs_pos].
Qed.
#[local] Instance prec53 : Prec_gt_0 53 := eq_refl.
Lemma double_rounding : rounding double.
Proof.
  split; [|split].
  - intros x y H. apply round_le; [apply FLX_exp_valid; reflexivity|apply valid_rnd_N|exact H].
  - intros x. unfold double. pose proof (relative_error_N_FLX radix2 53 eq_refl (fun z => negb (Z.even z)) x) as H.
    replace (/ 2 * bpow radix2 (- (53) + 1)) with (/ 2 ^ 53) in H; [exact H|].
    change (- (53) + 1)%Z with (-52)%Z. cbn [bpow]. change (Z.pow_pos radix2 52) with 4503599627370496%Z. lra.
  - intros z Hz. apply round_generic; [apply valid_rnd_N|].
    destruct (Z.eq_dec (Z.abs z) (2 ^ 53)) as [E|N].
    + assert (Hz' : IZR z = F2R (Float radix2 (Z.sgn z) 53)).
      { unfold F2R. cbn [Fnum Fexp]. change (bpow radix2 53) with (IZR (2 ^ 53)). rewrite <- mult_IZR. f_equal. rewrite <- E. rewrite Z.mul_comm. symmetry. apply Z.abs_sgn. }
      rewrite Hz'. apply generic_format_FLX. exists (Float radix2 (Z.sgn z) 53); [reflexivity|]. cbn [Fnum].
      destruct z; cbn; lia.
    + apply generic_format_FLX. exists (Float radix2 z 0); [unfold F2R; cbn; lra|]. cbn [Fnum]. change (radix2 ^ 53)%Z with (2 ^ 53)%Z. lia.
Qed.

(** A correctly rounded quotient and product, computed. *)
Lemma double_at : forall x m e, bpow radix2 (e + 52) <= x < bpow radix2 (e + 53) ->
  Rabs (x * bpow radix2 (- e) - IZR m) < / 2 -> double x = IZR m * bpow radix2 e.
Proof.
  intros x m e Hx Hm. unfold double, round, scaled_mantissa, cexp, FLX_exp.
  rewrite (mag_unique_pos radix2 x (e + 53)).
  2:{ replace (e + 53 - 1)%Z with (e + 52)%Z by ring. exact Hx. }
  replace (e + 53 - 53)%Z with e by ring.
  rewrite (Znearest_imp _ _ m Hm). reflexivity.
Qed.

(** The C++ bar. *)
Lemma cc_before_end : forall e E, (e < E)%nat -> cc_at_end e E = false -> cc_draw_bar e E = Ok (String ">" (chars "." 25)).
Proof.
  intros e E H Ha. unfold cc_draw_bar. rewrite Ha. destruct E as [|E]; [lia|]. cbn [Nat.eqb].
  unfold cc_arrow. rewrite Z.div_small by lia. reflexivity.
Qed.
Lemma cc_end_iff : forall e E, cc_at_end e E = true <-> (E - E / 25 < e)%nat.
Proof. intros e E. unfold cc_at_end. apply Nat.ltb_lt. Qed.
