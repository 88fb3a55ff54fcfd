(** Proofs for C40 to C43. *)
From Coq Require Import List ZArith Reals Bool Arith Lia Lra.
From Verif.Model Require Import Base Ops Stump Ensemble.
From Verif.Spec Require Import Common Ops Stump Ensemble.
From Verif.Proof Require Import BaseLemmas Counting Ops Stump TwoLevel.
Import ListNotations.
Local Open Scope R_scope.

(** ** Bagging *)
Section Bagging.
Variable choice : Z -> nat -> list nat.
Variable w : nat.

Lemma sampled (x : list (list R)) (y : list Z) idx : length x = length y -> Forall (fun i => (i < length x)%nat) idx ->
  exists xs ys, mapM (get_at x) idx = Ok xs /\ mapM (get_at (map (fun v => [v]) y)) idx = Ok ys /\
    combine xs (map (fun r => nth 0 r 0%Z) ys) = drawn x y idx.
Proof.
  intros Hl. induction 1 as [|i idx Hi Hf (xs & ys & E1 & E2 & E3)]; [exists [], []; auto|].
  exists (nth i x [] :: xs), ([nth i y 0%Z] :: ys). simpl. unfold get_at at 1 3.
  rewrite (nth_error_nth' x [] Hi).
  assert (Hy : nth_error y i = Some (nth i y 0%Z)) by (apply nth_error_nth'; lia).
  rewrite (map_nth_error (fun v => [v]) i y Hy). simpl.
  rewrite E1, E2. simpl. now rewrite E3.
Qed.

Definition learner x y s := stump_fit w (drawn x y (choice s (length x))).

Lemma bag_round_eq x y b : length x = length y -> valid_choice (choice (bag_seed b)) -> seed_ok (bag_seed b) = true ->
  bag_round choice w x y b = Ok {| bag_seed := (bag_seed b + 1)%Z; bag_stumps := bag_stumps b ++ [learner x y (bag_seed b)] |}.
Proof.
  intros Hl Hc Hs. unfold bag_round, bootstrap_sampling. rewrite Hs. cbn [negb]. simpl as_rows. rewrite map_length, <- Hl, Nat.eqb_refl. cbn [negb].
  destruct (sampled x y (choice (bag_seed b) (length x)) Hl) as (xs & ys & -> & -> & E); [apply Hc|].
  cbn [bind]. now rewrite E.
Qed.

Lemma seed_in s : seed_ok s = true <-> (0 <= s < 2 ^ 32)%Z.
Proof. unfold seed_ok. rewrite andb_true_iff, Z.leb_le, Z.ltb_lt. reflexivity. Qed.

Lemma bag_fit_eq k x y : length x = length y -> (forall s, valid_choice (choice s)) -> forall b,
  (forall j, (j < k)%nat -> 0 <= bag_seed b + Z.of_nat j < 2 ^ 32)%Z ->
  bag_fit choice k w x y b = Ok {| bag_seed := (bag_seed b + Z.of_nat k)%Z;
    bag_stumps := bag_stumps b ++ map (fun j => learner x y (bag_seed b + Z.of_nat j)) (seq 0 k) |}.
Proof.
  intros Hl Hc. induction k as [|k IH]; intros b Hs.
  - simpl. rewrite app_nil_r, Z.add_0_r. now destruct b.
  - simpl bag_fit. rewrite bag_round_eq by (auto; apply seed_in; specialize (Hs 0%nat ltac:(lia)); lia). cbn [bind].
    rewrite IH by (intros j Hj; cbn [bag_seed]; specialize (Hs (S j) ltac:(lia)); lia). cbn [bag_seed bag_stumps]. f_equal. f_equal; [lia|].
    rewrite <- app_assoc. f_equal. simpl. f_equal; [f_equal; lia|]. rewrite <- seq_shift, map_map.
    apply map_ext. intros j. f_equal. lia.
Qed.

Lemma bag_fit_mismatch k x y b : length x <> length y -> bag_fit choice (S k) w x y b = Err ValueError.
Proof.
  intros Hl. simpl. unfold bag_round, bootstrap_sampling. destruct (seed_ok _); [|reflexivity]. simpl as_rows. rewrite map_length.
  apply Nat.eqb_neq in Hl. now rewrite Hl.
Qed.

Lemma bag_fit_seed k x y : length x = length y -> (forall s, valid_choice (choice s)) -> forall b j, (j < k)%nat ->
  ~ (0 <= bag_seed b + Z.of_nat j < 2 ^ 32)%Z -> bag_fit choice k w x y b = Err ValueError.
Proof.
  intros Hl Hc. induction k as [|k IH]; intros b j Hj Hs; [lia|]. simpl bag_fit.
  destruct (seed_ok (bag_seed b)) eqn:E; [|unfold bag_round; now rewrite E].
  rewrite bag_round_eq by auto. cbn [bind]. apply seed_in in E. destruct j as [|j]; [exfalso; apply Hs; lia|].
  apply (IH _ j); [lia|]. cbn [bag_seed]. intros H; apply Hs; lia.
Qed.
End Bagging.

(** Sum of answers 1 and -1. *)
Lemma pm_sum (f : stump -> Z) ss : (forall s, In s ss -> f s = 1 \/ f s = -1)%Z ->
  (fold_right Z.add 0 (map f ss) = Z.of_nat (count (fun s => f s =? 1) ss) - Z.of_nat (count (fun s => f s =? -1) ss))%Z.
Proof.
  unfold count. induction ss as [|s ss IH]; intros Hs; cbn [map fold_right filter]; auto.
  rewrite IH by (intros; apply Hs; simpl; auto). destruct (Hs s) as [-> | ->]; [simpl; auto| |];
    cbn [Z.eqb Pos.eqb length]; lia.
Qed.

Lemma bag_answers b x a : mapM (fun s => stump_predict s x) (bag_stumps b) = Ok a ->
  a = map (fun s => map (fun r => match s with Some (j, t, m) => stump_label j t m r | None => 0%Z end) x) (bag_stumps b) /\
  forall s, In s (bag_stumps b) -> s <> None.
Proof.
  revert a. induction (bag_stumps b) as [|s ss IH]; intros a Ha; simpl in Ha.
  - injection Ha as <-. simpl. tauto.
  - destruct s as [[[j t] m]|]; simpl in Ha; [|discriminate].
    destruct (mapM _ ss) as [a'|] eqn:E; simpl in Ha; [|discriminate]. injection Ha as <-.
    destruct (IH _ eq_refl) as [-> IH']. split; auto. intros s [<-|Hs]; [discriminate|auto].
Qed.

Lemma bag_majority b x ls : bag_predict b x = Ok ls -> length ls = length x /\
  forall i r l p n, nth_error x i = Some r -> nth_error ls i = Some l ->
    how_many (fun s => stump_predict s [r] = Ok [1%Z]) (bag_stumps b) p ->
    how_many (fun s => stump_predict s [r] = Ok [(-1)%Z]) (bag_stumps b) n ->
    (p + n = length (bag_stumps b))%nat /\ (l = 1%Z /\ (n <= p)%nat \/ l = (-1)%Z /\ (p < n)%nat).
Proof.
  unfold bag_predict. destruct (mapM _ _) as [a|] eqn:E; simpl; [|discriminate]. intros Hls. injection Hls as <-.
  destruct (bag_answers _ _ _ E) as [-> Hs]. split; [now rewrite map_length, seq_length|].
  intros i r l p n Hr Hl Hp Hn.
  assert (Hi : (i < length x)%nat) by (apply nth_error_Some; congruence).
  assert (Hq : nth_error (seq 0 (length x)) i = Some i).
  { rewrite (nth_error_nth' _ 0%nat) by (rewrite seq_length; lia). now rewrite seq_nth by lia. }
  rewrite (map_nth_error _ _ _ Hq) in Hl. injection Hl as Hl. rewrite map_map in Hl.
  set (f := fun s : stump => match s with Some (j, t, m) => stump_label j t m r | None => 0%Z end).
  assert (Hf : forall s, nth i (map (fun r0 => match s with Some (j, t, m) => stump_label j t m r0 | None => 0%Z end) x) 0%Z = f s).
  { intros s. erewrite nth_error_nth; [reflexivity|]. now apply (map_nth_error (fun r0 => match s with Some (j, t, m) => stump_label j t m r0 | None => 0%Z end)). }
  rewrite (map_ext _ f Hf) in Hl.
  assert (Hpm : forall s, In s (bag_stumps b) -> (f s = 1 \/ f s = -1)%Z).
  { intros [[[j t] m]|] Hin; [apply stump_label_pm|]. now apply Hs in Hin. }
  rewrite pm_sum in Hl by auto.
  assert (HP : forall v s, In s (bag_stumps b) -> ((f s =? v)%Z = true <-> stump_predict s [r] = Ok [v])).
  { intros v [[[j t] m]|] Hin; [|now apply Hs in Hin]. simpl. rewrite Z.eqb_eq. split; congruence. }
  assert (Ep : p = count (fun s => f s =? 1)%Z (bag_stumps b)).
  { eapply hm_is_count; [|exact Hp]. intros; now apply HP. }
  assert (En : n = count (fun s => f s =? -1)%Z (bag_stumps b)).
  { eapply hm_is_count; [|exact Hn]. intros; now apply HP. }
  split.
  - rewrite Ep, En. clear - Hpm. unfold count. induction (bag_stumps b) as [|s ss IH]; simpl; auto.
    assert (H := IH ltac:(intros; apply Hpm; simpl; auto)). destruct (Hpm s) as [-> | ->]; simpl; auto; lia.
  - rewrite <- Ep, <- En in Hl. destruct (Z.leb_spec 0 (Z.of_nat p - Z.of_nat n)); subst l; [left|right]; split; auto; lia.
Qed.

(** Two rows with opposite labels. *)
Lemma toy_candidates l l' : candidates 1 [([1], l); ([2], l')] = [(0%nat, (1 + 2) / 2, Gte); (0%nat, (1 + 2) / 2, Le)].
Proof.
  unfold candidates, neighbour_midpoints, sort_by, feat; cbn [seq flat_map map fst nth fold_right insert_by app].
  rewrite (proj2 (Rleb_true 1 2)) by lra; reflexivity.
Qed.
Ltac toy_pm := intros p [<- | [<- | []]]; cbn; auto.
Lemma toy_right : stump_fit 1 [([1], 1%Z); ([2], (-1)%Z)] = Some (0%nat, (1 + 2) / 2, Gte).
Proof.
  unfold stump_fit; rewrite toy_candidates; cbn [fold_left].
  rewrite !evaluate_eq by (try discriminate; toy_pm).
  match goal with |- context [Rltb ?a ?b] => destruct (Rltb a b) eqn:E end; [|reflexivity].
  apply Rltb_true in E; revert E; unfold count, wrong, stump_label, feat; cbn [filter nth fst snd].
  rewrite (proj2 (Rleb_false _ _)), (proj2 (Rleb_true ((1+2)/2) 2)) by lra; cbn.
  pose proof (pos_INR (List.length (filter (wrong (0%nat, (1 + 2) / 2, Le)) [([1], 1%Z); ([2], (-1)%Z)]))) as P.
  unfold wrong, stump_label, feat in P; cbn in P; intros E; lra.
Qed.
Lemma toy_wrong : stump_fit 1 [([1], (-1)%Z); ([2], 1%Z)] = Some (0%nat, (1 + 2) / 2, Le).
Proof.
  unfold stump_fit; rewrite toy_candidates; cbn [fold_left].
  rewrite !evaluate_eq by (try discriminate; toy_pm).
  match goal with |- context [Rltb ?a ?b] => destruct (Rltb a b) eqn:E end; [reflexivity|].
  apply Rltb_false in E; revert E; unfold count, wrong, stump_label, feat; cbn [filter nth fst snd].
  rewrite (proj2 (Rleb_false _ _)), (proj2 (Rleb_true ((1+2)/2) 2)) by lra.
  rewrite (proj2 (Rltb_true _ _)), (proj2 (Rltb_false 2 _)) by lra; cbn; lra.
Qed.
