(** Proofs about the multipliers of a support vector machine in floating point. *)
From Coq Require Import List Reals ZArith Bool Lia Lra Permutation.
From Flocq Require Import Core.
From Verif.Model Require Import Base Ops Float FloatOps.
From Verif.Spec Require Import Float.
From Verif.Proof Require Import BaseLemmas Float.
Import ListNotations.
Local Open Scope R_scope.

Section Pair.
Variable f : format.
Variable w : operation -> format.
Hypothesis G : good f.
Hypothesis W : forall o, finer f (w o).
Hypothesis P6 : (6 <= prec f)%Z.
Variables C tiny : R.
Hypothesis C0 : 0 < C.
Let u := unit_of f.
Let k := u * C.
Hypothesis Ht : 64 * tiny_of f <= k.
Hypothesis Htiny : 46 * k <= tiny.

Local Lemma u_small : u <= / 64.
Proof.
  unfold u, unit_of. replace (/ 64) with (bpow radix2 (- 6)) by (cbn; lra). apply bpow_le. lia.
Qed.
Local Lemma k_pos : 0 < k. Proof. apply Rmult_lt_0_compat; [apply (unit_pos f)|exact C0]. Qed.
Local Lemma k_small : k <= C / 64.
Proof. unfold k. pose proof u_small. nra. Qed.

(** Rounding errors measured in [k]. *)
Local Lemma err g x a b : finer f g -> 0 <= b -> - (a * C + b * k) <= x <= a * C + b * k ->
  - (a * k + (b + 1) * k / 64) <= rnd g x - x <= a * k + (b + 1) * k / 64.
Proof.
  intros [F1 [F2 F3]] B H. destruct (rnd_error g F3 x) as (e & h & He & Hh & ->).
  assert (U : unit_of g <= u) by (unfold u, unit_of; apply bpow_le; lia).
  assert (T : tiny_of g <= tiny_of f)
    by (unfold tiny_of; apply Rmult_le_compat_l; [lra|apply bpow_le; lia]).
  assert (A : Rabs x <= a * C + b * k) by (apply Rabs_le; lra).
  assert (U0 : 0 <= u) by (apply Rlt_le, (unit_pos f)).
  assert (M : Rabs (e * x) <= u * (a * C + b * k)).
  { rewrite Rabs_mult. apply Rmult_le_compat; try apply Rabs_pos; [lra|exact A]. }
  assert (N : u * (a * C + b * k) <= a * k + b * k / 64).
  { replace (u * (a * C + b * k)) with (a * k + b * (u * k)) by (unfold k; ring).
    assert (u * k <= / 64 * k) by (apply Rmult_le_compat_r; [apply Rlt_le, k_pos|apply u_small]). nra. }
  apply Rabs_le_inv. replace (x * (1 + e) + h - x) with (e * x + h) by ring.
  apply Rle_trans with (Rabs (e * x) + Rabs h); [apply Rabs_triang|]. lra.
Qed.
Local Lemma finer_refl : finer f f. Proof. split; [lia|split; [lia|exact G]]. Qed.

Local Lemma clip_in c low high : low <= high -> low <= clip_alpha c low high <= high.
Proof. intros H. unfold clip_alpha, Rltb. destruct (Rlt_dec high c); [lra|]. destruct (Rlt_dec c low); lra. Qed.
Local Lemma clip_either c low high : high < low -> clip_alpha c low high = low \/ clip_alpha c low high = high.
Proof. intros H. unfold clip_alpha, Rltb. destruct (Rlt_dec high c); [auto|]. destruct (Rlt_dec c low); [auto|lra]. Qed.

(** A change below the threshold is refused. *)
Local Lemma refused g aj' aj : finer f g -> - (43 * k) <= aj' - aj <= 43 * k -> Rltb (Rabs (rnd g (aj' - aj))) tiny = true.
Proof.
  intros F H. pose proof (err g (aj' - aj) 0 43 F ltac:(lra) ltac:(lra)) as E. pose proof k_pos.
  unfold Rltb. destruct (Rlt_dec _ _) as [_|N]; [reflexivity|]. exfalso. apply N.
  apply Rle_lt_trans with (45 * k); [apply Rabs_le; lra|lra].
Qed.

Local Lemma low_cases x : (rnd f (Rmax 0 x) = 0 /\ x <= 0) \/ (rnd f (Rmax 0 x) = rnd f x /\ 0 <= x).
Proof. unfold Rmax. destruct (Rle_dec 0 x); [right|left; rewrite (rnd_0 f)]; lra. Qed.
Local Lemma high_cases x : (rnd f (Rmin C x) = rnd f C /\ C <= x) \/ (rnd f (Rmin C x) = rnd f x /\ x <= C).
Proof. unfold Rmin. destruct (Rle_dec C x); [left|right]; lra. Qed.

Definition boxed (a : R) : Prop := - (10 * k) <= a <= C + 10 * k.

Lemma pair_box same ai aj c ai' aj' : boxed ai -> boxed aj ->
  pair_float f w C tiny same ai aj c = Some (ai', aj') -> 
  boxed ai' /\ 0 <= aj' <= C + 3 * k /\
  - (5 * k) <= (if same then ai' + aj' - (ai + aj) else ai' - aj' - (ai - aj)) <= 5 * k.
Proof.
  unfold boxed. intros Bi Bj E. pose proof k_pos as K0. pose proof k_small as K1.
  pose proof (err f C 1 0 finer_refl ltac:(lra) ltac:(lra)) as EC.
  unfold pair_float in E. destruct same.
  - pose proof (err (w Span) (ai + aj) 2 20 (W _) ltac:(lra) ltac:(lra)) as ES.
    set (s := rnd (w Span) (ai + aj)) in *.
    pose proof (err (w Bound) (s - C) 1 23 (W _) ltac:(lra) ltac:(lra)) as EL.
    set (l := rnd (w Bound) (s - C)) in *.
    pose proof (err f l 1 25 finer_refl ltac:(lra) ltac:(lra)) as FL.
    pose proof (err f s 2 23 finer_refl ltac:(lra) ltac:(lra)) as FS.
    assert (FS' : s <= C -> - (k + 24 * k / 64) <= rnd f s - s <= k + 24 * k / 64).
    { intros Q. pose proof (err f s 1 23 finer_refl ltac:(lra) ltac:(lra)). lra. }
    set (low := rnd f (Rmax 0 l)) in *. set (high := rnd f (Rmin C s)) in *.
    pose proof (low_cases l) as LC. pose proof (high_cases s) as HC. fold low in LC. fold high in HC.
    destruct (Reqb low high); [discriminate|].
    destruct (Rlt_le_dec high low) as [Bad|Good].
    + exfalso. destruct (clip_either (rnd (w Candidate) c) low high Bad) as [Q|Q]; rewrite Q in E;
        (rewrite refused in E; [discriminate|apply W|]; clear E Q;
         destruct LC as [[M' ?]|[M' ?]], HC as [[M ?]|[M ?]]; try specialize (FS' ltac:(assumption)); lra).
    + pose proof (clip_in (rnd (w Candidate) c) low high Good) as Hc. set (a := clip_alpha (rnd (w Candidate) c) low high) in *.
      destruct (Rltb _ tiny); [discriminate|]. injection E as <- <-.
      assert (L0 : 0 <= low) by (unfold low; apply (rnd_nonneg f G), Rmax_l).
      assert (B : - (4 * k) <= ai + aj - a <= C + 6 * k /\ high <= C + 3 / 2 * k).
      { destruct LC as [[M' ?]|[M' ?]], HC as [[M ?]|[M ?]]; try specialize (FS' ltac:(assumption)); lra. }
      pose proof (err (w Step) (aj - a) 1 12 (W _) ltac:(lra) ltac:(lra)) as ED.
      set (d := rnd (w Step) (aj - a)) in *.
      pose proof (err (w Move) (ai + d) 1 8 (W _) ltac:(lra) ltac:(lra)) as EI.
      set (m := rnd (w Move) (ai + d)) in *.
      pose proof (err f m 1 10 finer_refl ltac:(lra) ltac:(lra)) as EM.
      pose proof (err f a 1 2 finer_refl ltac:(lra) ltac:(lra)) as EA.
      split; [lra|]. split; [split; [apply (rnd_nonneg f G); lra|lra]|lra].
  - pose proof (err (w Span) (aj - ai) 1 20 (W _) ltac:(lra) ltac:(lra)) as EL.
    set (l := rnd (w Span) (aj - ai)) in *.
    pose proof (err f l 1 22 finer_refl ltac:(lra) ltac:(lra)) as FL.
    pose proof (err (w Bound) (C + aj) 2 10 (W _) ltac:(lra) ltac:(lra)) as EB.
    set (b := rnd (w Bound) (C + aj)) in *.
    pose proof (err (w Bound) (b - ai) 2 23 (W _) ltac:(lra) ltac:(lra)) as EH.
    set (h := rnd (w Bound) (b - ai)) in *.
    assert (FS' : h <= C -> - (k + 26 * k / 64) <= rnd f h - h <= k + 26 * k / 64).
    { intros Q. pose proof (err f h 1 25 finer_refl ltac:(lra) ltac:(lra)). lra. }
    set (low := rnd f (Rmax 0 l)) in *. set (high := rnd f (Rmin C h)) in *.
    pose proof (low_cases l) as LC. pose proof (high_cases h) as HC. fold low in LC. fold high in HC.
    destruct (Reqb low high); [discriminate|].
    destruct (Rlt_le_dec high low) as [Bad|Good].
    + exfalso. destruct (clip_either (rnd (w Candidate) c) low high Bad) as [Q|Q]; rewrite Q in E;
        (rewrite refused in E; [discriminate|apply W|]; clear E Q;
         destruct LC as [[M' ?]|[M' ?]], HC as [[M ?]|[M ?]]; try specialize (FS' ltac:(assumption)); lra).
    + pose proof (clip_in (rnd (w Candidate) c) low high Good) as Hc. set (a := clip_alpha (rnd (w Candidate) c) low high) in *.
      destruct (Rltb _ tiny); [discriminate|]. injection E as <- <-.
      assert (L0 : 0 <= low) by (unfold low; apply (rnd_nonneg f G), Rmax_l).
      assert (B : - (4 * k) <= ai - (aj - a) <= C + 65 / 10 * k /\ high <= C + 3 / 2 * k).
      { destruct LC as [[M' ?]|[M' ?]], HC as [[M ?]|[M ?]]; try specialize (FS' ltac:(assumption)); lra. }
      pose proof (err (w Step) (aj - a) 1 12 (W _) ltac:(lra) ltac:(lra)) as ED.
      set (d := rnd (w Step) (aj - a)) in *.
      pose proof (err (w Move) (ai - d) 1 8 (W _) ltac:(lra) ltac:(lra)) as EI.
      set (m := rnd (w Move) (ai - d)) in *.
      pose proof (err f m 1 10 finer_refl ltac:(lra) ltac:(lra)) as EM.
      pose proof (err f a 1 2 finer_refl ltac:(lra) ltac:(lra)) as EA.
      split; [lra|]. split; [split; [apply (rnd_nonneg f G); lra|lra]|lra].
Qed.

Lemma boxed_0 : boxed 0.
Proof. unfold boxed. pose proof k_pos. lra. Qed.

Lemma Forall_set_nth {A} (P : A -> Prop) l i v : Forall P l -> P v -> Forall P (set_nth l i v).
Proof.
  revert i. induction l as [|h t IH]; intros i H V; [constructor|]. inversion H; subst.
  destruct i; cbn; constructor; auto.
Qed.
Lemma Forall_nth_d {A} (P : A -> Prop) l i d : Forall P l -> P d -> P (nth i l d).
Proof. intros H D. destruct (nth_in_or_default i l d) as [I| ->]; [|exact D]. rewrite Forall_forall in H. auto. Qed.

Lemma attempt_box y alphas i j c : Forall boxed alphas -> Forall boxed (attempt_float f w C tiny y alphas i j c).
Proof.
  intros H. unfold attempt_float. destruct (i =? j)%nat; [exact H|].
  destruct (pair_float _ _ _ _ _ _ _ _) as [[ai' aj']|] eqn:E; [|exact H].
  apply pair_box in E as (A & B & _); [|apply Forall_nth_d; [exact H|exact boxed_0]|apply Forall_nth_d; [exact H|exact boxed_0]].
  apply Forall_set_nth; [apply Forall_set_nth; assumption|]. unfold boxed. pose proof k_pos. lra.
Qed.

Lemma balance_set y alphas i v : length alphas = length y -> (i < length y)%nat ->
  balance y (set_nth alphas i v) = balance y alphas + IZR (nth i y 0%Z) * (v - nth i alphas 0).
Proof.
  revert alphas i. induction y as [|h t IH]; intros alphas i L I; [cbn in I; lia|].
  destruct alphas as [|a q]; [discriminate|]. cbn in L, I.
  change (balance (h :: t) (a :: q)) with (IZR h * a + balance t q). destruct i.
  - change (balance (h :: t) (set_nth (a :: q) 0 v)) with (IZR h * v + balance t q). cbn [nth]. ring.
  - change (balance (h :: t) (set_nth (a :: q) (S i) v)) with (IZR h * a + balance t (set_nth q i v)). cbn [nth].
    rewrite IH by lia. ring.
Qed.
Lemma balance_zeros y : balance y (repeat 0 (length y)) = 0.
Proof. induction y as [|h t IH]; [reflexivity|]. change (IZR h * 0 + balance t (repeat 0 (length t)) = 0). rewrite IH. ring. Qed.
Lemma attempt_length y alphas i j c : length (attempt_float f w C tiny y alphas i j c) = length alphas.
Proof.
  unfold attempt_float. destruct (i =? j)%nat; [reflexivity|].
  destruct (pair_float _ _ _ _ _ _ _ _) as [[ai' aj']|]; [|reflexivity]. now rewrite !set_nth_length.
Qed.

Lemma attempt_balance y alphas i j c : Forall (fun l => l = 1 \/ l = -1)%Z y -> length alphas = length y ->
  (i < length y)%nat -> (j < length y)%nat -> Forall boxed alphas ->
  Rabs (balance y (attempt_float f w C tiny y alphas i j c) - balance y alphas) <= 5 * k.
Proof.
  intros Y L I J H. pose proof k_pos as K0. unfold attempt_float. destruct (i =? j)%nat eqn:N.
  { rewrite Rminus_eq_0, Rabs_R0. lra. }
  apply Nat.eqb_neq in N.
  destruct (pair_float _ _ _ _ _ _ _ _) as [[ai' aj']|] eqn:E; [|rewrite Rminus_eq_0, Rabs_R0; lra].
  apply pair_box in E as (_ & _ & D); [|apply Forall_nth_d; [exact H|exact boxed_0]|apply Forall_nth_d; [exact H|exact boxed_0]].
  rewrite balance_set by (rewrite ?set_nth_length; assumption). rewrite balance_set by assumption.
  rewrite nth_set_nth_neq by assumption.
  assert (Yi : nth i y 0%Z = 1%Z \/ nth i y 0%Z = (-1)%Z) by (rewrite Forall_forall in Y; apply Y, nth_In, I).
  assert (Yj : nth j y 0%Z = 1%Z \/ nth j y 0%Z = (-1)%Z) by (rewrite Forall_forall in Y; apply Y, nth_In, J).
  destruct Yi as [Yi|Yi], Yj as [Yj|Yj]; rewrite Yi, Yj in *; cbn in D; apply Rabs_le; lra.
Qed.

Lemma training_box y attempts : Forall boxed (training_float f w C tiny y attempts).
Proof.
  unfold training_float. assert (H : Forall boxed (repeat 0 (length y))) by (apply Forall_forall; intros v V; apply repeat_spec in V as ->; exact boxed_0).
  revert H. generalize (repeat 0 (length y)). induction attempts as [|[[i j] c] r IH]; intros l H; [exact H|].
  cbn. apply IH, attempt_box, H.
Qed.
Lemma training_balance y attempts : Forall (fun l => l = 1 \/ l = -1)%Z y ->
  Forall (fun t => fst (fst t) < length y /\ snd (fst t) < length y)%nat attempts ->
  Rabs (balance y (training_float f w C tiny y attempts)) <= INR (length attempts) * (5 * k).
Proof.
  intros Y A. unfold training_float.
  assert (H : Forall boxed (repeat 0 (length y))) by (apply Forall_forall; intros v V; apply repeat_spec in V as ->; exact boxed_0).
  assert (L : length (repeat 0 (length y)) = length y) by apply repeat_length.
  pose proof (balance_zeros y) as B.
  assert (T : forall l, Forall boxed l -> length l = length y ->
    Rabs (balance y (fold_left (fun alphas t => attempt_float f w C tiny y alphas (fst (fst t)) (snd (fst t)) (snd t)) attempts l)
          - balance y l) <= INR (length attempts) * (5 * k)).
  { clear H L B. induction A as [|[[i j] c] r [I J] A IH]; intros l H L.
    - cbn. rewrite Rminus_eq_0, Rabs_R0. lra.
    - change (length (((i, j), c) :: r)) with (S (length r)). rewrite S_INR. cbn [fold_left fst snd] in *.
      pose proof (attempt_balance y l i j c Y L I J H) as D.
      specialize (IH (attempt_float f w C tiny y l i j c) (attempt_box y l i j c H) ltac:(now rewrite attempt_length)).
      revert IH. generalize (fold_left (fun alphas t => attempt_float f w C tiny y alphas (fst (fst t)) (snd (fst t)) (snd t)) r
        (attempt_float f w C tiny y l i j c)). intros z IH.
      replace (balance y z - balance y l) with ((balance y z - balance y (attempt_float f w C tiny y l i j c))
        + (balance y (attempt_float f w C tiny y l i j c) - balance y l)) by ring.
      eapply Rle_trans; [apply Rabs_triang|]. lra. }
  specialize (T _ H L). rewrite B, Rminus_0_r in T. exact T.
Qed.
End Pair.

(** Rounding a bound can push a multiplier below zero. *)
Section Negative.
Variable f : format.
Variable w : operation -> format.
Hypothesis G : good f.
Hypothesis W : forall o, finer f (w o).
Hypothesis WS : w Span = f.
Hypothesis P : (12 <= prec f)%Z.
Hypothesis E : (20 <= emax f)%Z.

Local Lemma exact_rnd g m e : finer f g -> (Z.abs m < 2 ^ prec f)%Z -> (3 - emax f - prec f <= e)%Z ->
  rnd g (IZR m * bpow radix2 e) = IZR m * bpow radix2 e.
Proof.
  intros (A & B & D) M Q. apply rnd_id, (format_int g); [|lia].
  apply Z.lt_le_trans with (1 := M). apply Z.pow_le_mono_r; lia.
Qed.
Local Lemma finer_f : finer f f. Proof. split; [lia|split; [lia|exact G]]. Qed.

Let q := bpow radix2 (- 10).
Let t := bpow radix2 (- (prec f + 7)).
Definition witness : R := bpow radix2 (- 10) - bpow radix2 (- (prec f + 7)).

Local Lemma q_val : q = / 1024. Proof. unfold q. cbn. lra. Qed.
Local Lemma t_pos : 0 < t. Proof. apply bpow_gt_0. Qed.
Local Lemma t_small : t <= q / 512.
Proof.
  unfold t, q. replace (bpow radix2 (- 10) / 512) with (bpow radix2 (- 19)) by (cbn; lra). apply bpow_le. lia.
Qed.
Local Lemma pow_big m : (2 ^ 11 >= m)%Z -> (m < 2 ^ prec f)%Z.
Proof. intros H. assert (2 ^ 12 <= 2 ^ prec f)%Z by (apply Z.pow_le_mono_r; lia). lia. Qed.

Local Lemma exact_0 g : rnd g 0 = 0. Proof. apply rnd_0. Qed.
Local Lemma exact_1 g : finer f g -> rnd g 1 = 1.
Proof. intros (_ & _ & H). now apply rnd_1. Qed.
Local Lemma exact_2 g : finer f g -> rnd g 2 = 2.
Proof.
  intros F. replace 2 with (IZR 2 * bpow radix2 0) by (cbn; lra). apply exact_rnd; [exact F|apply pow_big; cbn; lia|lia].
Qed.
Local Lemma exact_q g : finer f g -> rnd g q = q.
Proof.
  intros F. replace q with (IZR 1 * bpow radix2 (- 10)) by (unfold q; ring). apply exact_rnd; [exact F|apply pow_big; cbn; lia|lia].
Qed.
Local Lemma exact_t g : finer f g -> rnd g t = t.
Proof.
  intros F. replace t with (IZR 1 * bpow radix2 (- (prec f + 7))) by (unfold t; ring).
  apply exact_rnd; [exact F|apply pow_big; cbn; lia|lia].
Qed.
Local Lemma exact_w g : finer f g -> rnd g witness = witness.
Proof.
  intros F. replace witness with (IZR (2 ^ (prec f - 3) - 1) * bpow radix2 (- (prec f + 7))).
  - apply exact_rnd; [exact F| |lia]. assert (2 ^ (prec f - 3) < 2 ^ prec f)%Z by (apply Z.pow_lt_mono_r; lia).
    assert (0 < 2 ^ (prec f - 3))%Z by (apply Z.pow_pos_nonneg; lia). rewrite Z.abs_eq; lia.
  - unfold witness. rewrite minus_IZR. change 2%Z with (radix_val radix2) at 1. rewrite IZR_Zpower by lia.
    rewrite Rmult_minus_distr_r, <- bpow_plus, Rmult_1_l. f_equal. f_equal. lia.
Qed.
Local Lemma exact_L g : finer f g -> rnd g (1 - q) = 1 - q.
Proof.
  intros F. replace (1 - q) with (IZR 1023 * bpow radix2 (- 10)) by (rewrite q_val; cbn; lra).
  apply exact_rnd; [exact F|apply pow_big; cbn; lia|lia].
Qed.
Local Lemma round_L : rnd f (1 - witness) = 1 - q.
Proof.
  pose proof t_pos. pose proof t_small. unfold witness. fold q t.
  apply Rle_antisym.
  - apply rnd_below; [exact G|rewrite <- (exact_L f finer_f); apply rnd_format, G|].
    assert (A : ulp radix2 (fexp f) (1 - q) = bpow radix2 (- prec f)).
    { rewrite ulp_neq_0 by (rewrite q_val; lra). unfold cexp. f_equal.
      rewrite (mag_unique radix2 (1 - q) 0).
      - unfold fexp, FLT_exp. lia.
      - rewrite Rabs_pos_eq by (rewrite q_val; lra). rewrite q_val. cbn. lra. }
    rewrite succ_eq_pos by (rewrite q_val; lra). rewrite A.
    assert (B : t < bpow radix2 (- prec f) / 2).
    { unfold t. replace (bpow radix2 (- prec f) / 2) with (bpow radix2 (- prec f - 1)).
      - apply bpow_lt. lia.
      - unfold Z.sub. rewrite bpow_plus. cbn. lra. }
    lra.
  - rewrite <- (exact_L f finer_f) at 1. apply rnd_mono; [exact G|]. lra.
Qed.

Local Ltac cond := unfold Reqb, Rltb, Rleb; repeat (destruct (Req_EM_T _ _); [exfalso; lra|]).

Lemma opp_rnd g x : finer f g -> rnd g x = x -> rnd g (- x) = - x.
Proof. intros (_ & _ & H) Q. rewrite rnd_opp. now rewrite Q. Qed.

(** From zeros a first update with the labels differing. *)
Lemma first_update tiny c : tiny <= c -> 0 < c <= 1 -> (forall g, finer f g -> rnd g c = c) ->
  pair_float f w 1 tiny false 0 0 c = Some (c, c).
Proof.
  intros T C1 X. unfold pair_float. rewrite !Rminus_0_r, Rplus_0_r, exact_0, !(exact_1 _ (W _)), Rmax_left, Rmin_left by lra.
  rewrite exact_0, (exact_1 _ finer_f), (X _ (W _)).
  unfold Reqb. destruct (Req_EM_T 0 1); [lra|].
  replace (clip_alpha c 0 1) with c.
  2:{ unfold clip_alpha, Rltb. destruct (Rlt_dec 1 c); [lra|]. destruct (Rlt_dec c 0); lra. }
  rewrite (X _ (W _)), Rabs_pos_eq by lra. unfold Rltb. destruct (Rlt_dec c tiny); [lra|].
  rewrite (Rminus_0_l c), (opp_rnd _ _ (W _) (X _ (W _))).
  replace (0 - - c) with c by ring. now rewrite (X _ (W _)), !(X _ finer_f).
Qed.

Lemma negative_update tiny : tiny <= q ->
  pair_float f w 1 tiny false witness 1 0 = Some (- t, 1 - q).
Proof.
  intros T. pose proof t_pos as T0. pose proof t_small as T1. pose proof q_val as Q.
  assert (B : witness = q - t) by reflexivity.
  unfold pair_float. rewrite WS, round_L. rewrite (Rmax_right 0 (1 - q)) by lra. rewrite (exact_L _ finer_f).
  replace (1 + 1) with 2 by ring. rewrite (exact_2 _ (W _)).
  rewrite (Rmin_left 1) by (destruct (W Bound) as (_ & _ & H); apply (rnd_ge_1 _ H); lra).
  rewrite (exact_1 _ finer_f), exact_0.
  unfold Reqb. destruct (Req_EM_T (1 - q) 1); [lra|].
  replace (clip_alpha 0 (1 - q) 1) with (1 - q).
  2:{ unfold clip_alpha, Rltb. destruct (Rlt_dec 1 0); [lra|]. destruct (Rlt_dec 0 (1 - q)); lra. }
  replace (1 - q - 1) with (- q) by ring. rewrite (opp_rnd _ _ (W _) (exact_q _ (W _))), Rabs_Ropp, Rabs_pos_eq by lra.
  unfold Rltb. destruct (Rlt_dec q tiny); [lra|].
  replace (1 - (1 - q)) with q by ring. rewrite (exact_q _ (W _)).
  replace (witness - q) with (- t) by (rewrite B; ring).
  now rewrite (opp_rnd _ _ (W _) (exact_t _ (W _))), (opp_rnd _ _ finer_f (exact_t _ finer_f)), (exact_L _ finer_f).
Qed.

Lemma negative_training tiny : tiny <= / 2048 ->
  training_float f w 1 tiny [1; -1; -1; 1]%Z [(0%nat, 1%nat, witness); (3%nat, 2%nat, 1); (0%nat, 2%nat, 0)]
  = [- t; witness; 1 - q; 1].
Proof.
  intros T. pose proof t_pos as T0. pose proof t_small as T1. pose proof q_val as Q.
  assert (B : witness = q - t) by reflexivity.
  unfold training_float. cbn [length repeat fold_left fst snd]. unfold attempt_float at 3. cbn [Nat.eqb nth].
  change (1 =? -1)%Z with false. rewrite first_update by (try apply exact_w; lra). cbn [set_nth].
  unfold attempt_float at 2. cbn [Nat.eqb nth]. change (1 =? -1)%Z with false.
  rewrite first_update by (try (intros; now apply exact_1); lra). cbn [set_nth].
  unfold attempt_float. cbn [Nat.eqb nth]. change (1 =? -1)%Z with false. rewrite negative_update by lra. reflexivity.
Qed.
End Negative.
