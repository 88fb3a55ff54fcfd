(** Proofs about activations and losses in floating point. *)
From Coq Require Import List Reals ZArith Bool Lia Lra Permutation.
From Flocq Require Import Core.
From Verif.Model Require Import Base Ops Float FloatOps.
From Verif.Spec Require Import Float.
From Verif.Proof Require Import BaseLemmas Float.
Import ListNotations.
Local Open Scope R_scope.

Section Act.
Variable f : format.
Hypothesis G : good f.

(** ** Numbers *)
(** A finite number of the format at least zero, or plus infinity. *)
Definition up (v : num) : Prop := match v with Num x => fits f x /\ 0 <= x | Inf s => s = false | NaN => False end.
(** A finite number of the format at most zero, or minus infinity. *)
Definition down (v : num) : Prop := match v with Num x => fits f x /\ x <= 0 | Inf s => s = true | NaN => False end.
(** The order of the values that are not NaN. *)
Definition nle (a b : num) : Prop :=
  match a, b with
  | Num x, Num y => x <= y
  | Inf true, (Num _ | Inf _) => True
  | (Num _ | Inf _), Inf false => True
  | _, _ => False
  end.

Lemma up_make x : 0 <= x -> up (make f x).
Proof.
  intros H. destruct (make_nonneg f G x H) as [[-> B]|[-> _]]; [|reflexivity].
  pose proof (rnd_nonneg f G x H) as A. split; [|exact A]. apply fits_rnd; [exact G|]. now rewrite Rabs_pos_eq.
Qed.
Lemma down_make x : x <= 0 -> down (make f x).
Proof.
  intros H. destruct (make_nonpos f G x H) as [[-> B]|[-> _]]; [|reflexivity].
  pose proof (rnd_nonpos f G x H) as A. split; [|exact A]. apply fits_rnd; [exact G|]. pose proof (bpow_gt_0 radix2 (emax f)).
  apply Rabs_def1; lra.
Qed.
Lemma make_mono x y : 0 <= x <= y -> nle (make f x) (make f y).
Proof.
  intros H. pose proof (rnd_mono f G x y ltac:(lra)).
  destruct (make_nonneg f G x ltac:(lra)) as [[-> A]|[-> A]], (make_nonneg f G y ltac:(lra)) as [[-> B]|[-> B]]; cbn; try exact I; lra.
Qed.
Lemma up_0 : up (Num 0). Proof. split; [apply fits_0|lra]. Qed.
Lemma down_0 : down (Num 0). Proof. split; [apply fits_0|lra]. Qed.
Lemma up_add a b : up a -> up b -> up (fadd f a b).
Proof.
  destruct a as [x|s|], b as [y|s'|]; cbn; try tauto; try (intros -> ->; reflexivity).
  intros [A A'] [B B']. apply up_make. lra.
Qed.
Lemma down_add a b : down a -> down b -> down (fadd f a b).
Proof.
  destruct a as [x|s|], b as [y|s'|]; cbn; try tauto; try (intros -> ->; reflexivity).
  intros [A A'] [B B']. apply down_make. lra.
Qed.
Lemma down_add_inf a b : down a -> down b -> a = Inf true \/ b = Inf true -> fadd f a b = Inf true.
Proof. intros A B [-> | ->]; [destruct b|destruct a]; cbn in *; subst; tauto || reflexivity. Qed.
Lemma nan_add_l b : fadd f NaN b = NaN. Proof. destruct b; reflexivity. Qed.
Lemma nan_add_r a : fadd f a NaN = NaN. Proof. destruct a; reflexivity. Qed.

(** ** Sums *)
Lemma Forall_split {A} (P : A -> Prop) l a b : Permutation l (a ++ b) -> Forall P l -> Forall P a /\ Forall P b.
Proof. intros H F. rewrite H in F. now apply Forall_app in F. Qed.

Lemma sum_up l v : summed f l v -> Forall up l -> up v.
Proof.
  induction 1 as [|v|l a b u v P _ IHa _ IHb]; intros F; [apply up_0|now inversion F|].
  destruct (Forall_split _ _ _ _ P F). apply up_add; auto.
Qed.
Lemma sum_down l v : summed f l v -> Forall down l -> down v.
Proof.
  induction 1 as [|v|l a b u v P _ IHa _ IHb]; intros F; [apply down_0|now inversion F|].
  destruct (Forall_split _ _ _ _ P F). apply down_add; auto.
Qed.
Lemma sum_nan l v : summed f l v -> In NaN l -> v = NaN.
Proof.
  induction 1 as [|v|l a b u v P _ IHa _ IHb]; intros F; [now destruct F|now destruct F|].
  apply (Permutation_in _ P) in F. apply in_app_or in F as [F|F].
  - rewrite (IHa F). apply nan_add_l.
  - rewrite (IHb F). apply nan_add_r.
Qed.
Lemma sum_down_inf l v : summed f l v -> Forall down l -> In (Inf true) l -> v = Inf true.
Proof.
  induction 1 as [|v|l a b u v P Sa IHa Sb IHb]; intros F I; [now destruct I|now destruct I|].
  destruct (Forall_split _ _ _ _ P F) as [Fa Fb].
  apply (Permutation_in _ P) in I. apply down_add_inf; [now apply (sum_down a)|now apply (sum_down b)|].
  apply in_app_or in I as [I|I]; auto.
Qed.
(** A sum of numbers at least zero is at least each of them. *)
Lemma sum_up_inf l v : summed f l v -> In (Inf false) l -> v = Inf false \/ v = NaN.
Proof.
  induction 1 as [|v|l a b u v P Sa IHa Sb IHb]; intros I; [now destruct I|destruct I as [->|[]]; now left|].
  rewrite P in I. apply in_app_or in I as [I|I].
  - destruct (IHa I) as [-> | ->]; [|right; apply nan_add_l]. destruct v as [x|[]|]; cbn; auto.
  - destruct (IHb I) as [-> | ->]; [|right; apply nan_add_r]. destruct u as [x|[]|]; cbn; auto.
Qed.
Lemma add_ge_l a b : up a -> up b -> nle a (fadd f a b).
Proof.
  destruct a as [x|s|], b as [y|s'|]; cbn; try tauto; try (intros -> ->; exact I); try (intros _ ->; exact I); try (intros -> _; exact I).
  intros [A A'] [B B']. change (nle (Num x) (make f (x + y))). rewrite <- (make_fits f x A). apply make_mono. lra.
Qed.
Lemma fadd_comm a b : fadd f a b = fadd f b a.
Proof.
  destruct a as [x|s|], b as [y|s'|]; try reflexivity; cbn; [now rewrite Rplus_comm|].
  destruct s, s'; reflexivity.
Qed.
Lemma add_ge_r a b : up a -> up b -> nle b (fadd f a b).
Proof. intros A B. rewrite fadd_comm. now apply add_ge_l. Qed.
Lemma nle_trans a b c : nle a b -> nle b c -> nle a c.
Proof. destruct a as [x|[]|], b as [y|[]|], c as [z|[]|]; cbn; tauto || lra. Qed.
Lemma nle_refl a : a <> NaN -> nle a a.
Proof. destruct a as [x|[]|]; cbn; try tauto; lra. Qed.
Lemma up_not_nan v : up v -> v <> NaN. Proof. intros H ->. exact H. Qed.
Lemma sum_ge l v : summed f l v -> Forall up l -> forall e, In e l -> nle e v.
Proof.
  induction 1 as [|v|l a b u v P Sa IHa Sb IHb]; intros F e I; [now destruct I| |].
  - destruct I as [<-|[]]. apply nle_refl, up_not_nan. now inversion F.
  - destruct (Forall_split _ _ _ _ P F) as [Fa Fb].
    apply (Permutation_in _ P) in I.
    pose proof (sum_up a u Sa Fa). pose proof (sum_up b v Sb Fb).
    apply in_app_or in I as [I|I].
    + apply nle_trans with u; [auto|now apply add_ge_l].
    + apply nle_trans with v; [auto|now apply add_ge_r].
Qed.
Lemma sum_zero l v : summed f l v -> Forall (eq (Num 0)) l -> v = Num 0.
Proof.
  induction 1 as [|v|l a b u v P _ IHa _ IHb]; intros F; [reflexivity|now inversion F|].
  destruct (Forall_split _ _ _ _ P F) as [Fa Fb]. rewrite (IHa Fa), (IHb Fb). cbn. rewrite Rplus_0_r. apply (make_0 f).
Qed.
Lemma summed_len_0 v : summed f [] v -> v = Num 0.
Proof. intros H. apply (sum_zero [] v H). constructor. Qed.

(** The relative error of a sum of numbers at least zero. *)
Let u := unit_of f.
Local Lemma u01 : 0 < u <= / 4. Proof. split; [apply unit_pos|apply unit_small, G]. Qed.
Lemma pow_up n m : (n <= m)%nat -> (1 + u) ^ n <= (1 + u) ^ m.
Proof. intros H. apply Rle_pow; [pose proof u01; lra|exact H]. Qed.
Lemma pow_down n m : (n <= m)%nat -> (1 - u) ^ m <= (1 - u) ^ n.
Proof.
  intros H. pose proof u01. replace m with (n + (m - n))%nat by lia. rewrite pow_add.
  assert (A : 0 <= (1 - u) ^ n) by (apply pow_le; lra).
  pose proof (pow_incr (1 - u) 1 (m - n) ltac:(lra)) as B. rewrite pow1 in B. nra.
Qed.
Lemma pow_pos_down n : 0 < (1 - u) ^ n. Proof. apply pow_lt. pose proof u01. lra. Qed.
Lemma pow_pos_up n : 0 < (1 + u) ^ n. Proof. apply pow_lt. pose proof u01. lra. Qed.

Lemma add_num a b x : up a -> up b -> fadd f a b = Num x -> exists p q, a = Num p /\ b = Num q /\ x = rnd f (p + q).
Proof.
  destruct a as [p|s|], b as [q|s'|]; cbn; try tauto; intros A B H; subst; try discriminate.
  exists p, q. split; [reflexivity|]. split; [reflexivity|].
  destruct (make_nonneg f G (p + q) ltac:(lra)) as [[E _]|[E _]]; rewrite E in H; congruence.
Qed.
Lemma sum_perm (l l' : list num) : Permutation l l' -> rsum (map value l) = rsum (map value l').
Proof.
  intros H. induction H as [|x l l' _ IH|x y l|l l' l'' _ IH _ IH']; [reflexivity| | |now rewrite IH].
  - change (value x + rsum (map value l) = value x + rsum (map value l')). lra.
  - change (value y + (value x + rsum (map value l)) = value x + (value y + rsum (map value l))). lra.
Qed.
Lemma values_nonneg l : Forall up l -> 0 <= rsum (map value l).
Proof.
  intros F. apply rsum_nonneg. intros x I. apply in_map_iff in I as (v & <- & I). rewrite Forall_forall in F.
  specialize (F v I). destruct v; cbn in *; lra.
Qed.
Lemma sum_error l v : summed f l v -> Forall up l -> forall s, v = Num s ->
  (1 - u) ^ length l * rsum (map value l) <= s <= (1 + u) ^ length l * rsum (map value l).
Proof.
  pose proof u01 as U.
  induction 1 as [|v|l a b p q P Sa IHa Sb IHb]; intros F s E.
  - injection E as <-. cbn. lra.
  - subst v. cbn. inversion F as [|? ? A]; subst. destruct A as [_ A]. nra.
  - destruct (Forall_split _ _ _ _ P F) as [Fa Fb].
    rewrite (sum_perm _ _ P), map_app, rsum_app. rewrite (Permutation_length P), app_length.
    pose proof (values_nonneg a Fa) as Va. pose proof (values_nonneg b Fb) as Vb.
    pose proof (sum_up a p Sa Fa) as Up. pose proof (sum_up b q Sb Fb) as Uq.
    destruct (add_num p q s Up Uq E) as (x & y & -> & -> & ->).
    specialize (IHa Fa x eq_refl). specialize (IHb Fb y eq_refl).
    destruct Up as [[X _] X0], Uq as [[Y _] Y0].
    destruct a as [|a0 a].
    { apply summed_len_0 in Sa. injection Sa as ->. replace (0 + y) with y by ring. rewrite (rnd_id f y Y).
      change (rsum (map value [])) with 0. rewrite Rplus_0_l. exact IHb. }
    destruct b as [|b0 b].
    { apply summed_len_0 in Sb. injection Sb as ->. replace (x + 0) with x by ring. rewrite (rnd_id f x X).
      change (rsum (map value [])) with 0. rewrite Rplus_0_r. cbn [length] in *. rewrite Nat.add_0_r. exact IHa. }
    pose proof (rnd_plus_error f G x y X Y) as Er. fold u in Er. rewrite (Rabs_pos_eq (x + y)) in Er by lra. apply Rabs_le_inv in Er.
    set (na := length (a0 :: a)) in *. set (nb := length (b0 :: b)) in *.
    assert (Na : (1 <= na)%nat) by (unfold na; cbn; lia). assert (Nb : (1 <= nb)%nat) by (unfold nb; cbn; lia).
    set (A := rsum (map value (a0 :: a))) in *. set (B := rsum (map value (b0 :: b))) in *.
    assert (L : (na + nb = S (na + nb - 1))%nat) by lia. rewrite L. cbn [pow].
    pose proof (pow_up na (na + nb - 1) ltac:(lia)) as M1. pose proof (pow_up nb (na + nb - 1) ltac:(lia)) as M2.
    pose proof (pow_down na (na + nb - 1) ltac:(lia)) as M3. pose proof (pow_down nb (na + nb - 1) ltac:(lia)) as M4.
    set (hi := (1 + u) ^ (na + nb - 1)) in *. set (lo := (1 - u) ^ (na + nb - 1)) in *.
    assert (Hx : x <= hi * A) by (apply Rle_trans with ((1 + u) ^ na * A); [lra|apply Rmult_le_compat_r; lra]).
    assert (Hy : y <= hi * B) by (apply Rle_trans with ((1 + u) ^ nb * B); [lra|apply Rmult_le_compat_r; lra]).
    assert (Lx : lo * A <= x) by (apply Rle_trans with ((1 - u) ^ na * A); [apply Rmult_le_compat_r; lra|lra]).
    assert (Ly : lo * B <= y) by (apply Rle_trans with ((1 - u) ^ nb * B); [apply Rmult_le_compat_r; lra|lra]).
    split.
    + apply Rle_trans with ((1 - u) * (x + y)); [|lra]. rewrite Rmult_assoc. apply Rmult_le_compat_l; lra.
    + apply Rle_trans with ((1 + u) * (x + y)); [lra|]. rewrite Rmult_assoc. apply Rmult_le_compat_l; lra.
Qed.
End Act.
