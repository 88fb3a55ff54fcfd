(** Lemmas for C109: the decision stump with the features in another order. *)
From Coq Require Import List ZArith Reals Lra Lia Bool Arith Permutation.
From Verif.Model Require Import Base Metrics Stump.
From Verif.Spec Require Import Common Stump Units Columns.
From Verif.Proof Require Import BaseLemmas Counting Stump ColumnsMx Columns.
Import ListNotations.
Local Open Scope R_scope.

Section Stump.
Variables (d : nat) (s : list nat).
Hypothesis Hs : new_order d s.
Definition rows_re (D : list (list R * Z)) : list (list R * Z) := map (fun p => (reordered s (fst p), snd p)) D.
Lemma label_re j t m r : (j < d)%nat -> stump_label j t m (reordered s r) = stump_label (nth j s 0%nat) t m r.
Proof. intros H. unfold stump_label, feat. now rewrite (nth_re d s Hs). Qed.
Lemma count_re j t m D : (j < d)%nat -> count (wrong (j, t, m)) (rows_re D) = count (wrong (nth j s 0%nat, t, m)) D.
Proof.
  intros H. unfold rows_re, count. induction D as [|p D IH]; [reflexivity|]. cbn [map filter].
  assert (W : wrong (j, t, m) (reordered s (fst p), snd p) = wrong (nth j s 0%nat, t, m) p) by (unfold wrong; cbn [fst snd]; now rewrite label_re).
  rewrite W. destruct (wrong (nth j s 0%nat, t, m) p); cbn [length]; now rewrite IH.
Qed.
Lemma values_re j D : (j < d)%nat -> map (fun p => feat j (fst p)) (rows_re D) = map (fun p => feat (nth j s 0%nat) (fst p)) D.
Proof. intros H. unfold rows_re. rewrite map_map. apply map_ext. intros p. cbn [fst]. unfold feat. now apply (nth_re d s Hs). Qed.
Lemma candidates_re j t m D : (j < d)%nat -> In (j, t, m) (candidates d (rows_re D)) <-> In (nth j s 0%nat, t, m) (candidates d D).
Proof. intros H. rewrite !candidates_In, values_re by auto. pose proof (order_lt Hs H). tauto. Qed.
Lemma order_onto k : (k < d)%nat -> exists j, (j < d)%nat /\ nth j s 0%nat = k.
Proof.
  intros H. assert (I : In k s) by (apply (Permutation_in _ (Permutation_sym Hs)), in_seq; lia). destruct (In_nth s k 0%nat I) as (j & Hj & E). exists j. rewrite (order_length Hs) in Hj. auto.
Qed.
Lemma pm_re D : plus_minus D -> plus_minus (rows_re D).
Proof. intros H p I. apply in_map_iff in I as (q & <- & I). cbn. auto. Qed.
Lemma stump_re D : plus_minus D ->
  match stump_fit d D, stump_fit d (rows_re D) with
  | Some c, Some c' => count (wrong c') (rows_re D) = count (wrong c) D
  | None, None => True
  | _, _ => False
  end.
Proof.
  intros P. assert (N : forall E, stump_fit d E = None <-> (d = 0)%nat \/ (length E <= 1)%nat).
  { intros E. split; [|apply stump_none]. intros H. destruct (Nat.eq_dec d 0) as [Z|Z]; [now left|]. destruct (le_lt_dec (length E) 1) as [L|L]; [now right|].
    destruct (stump_some d E) as (j & t & m & Q & _); [lia|lia|congruence]. }
  assert (L : length (rows_re D) = length D) by apply map_length.
  destruct (stump_fit d D) as [[[j t] m]|] eqn:E, (stump_fit d (rows_re D)) as [[[j' t'] m']|] eqn:E'; auto.
  - destruct (stump_best d D j t m P E) as [I B]. destruct (stump_best d (rows_re D) j' t' m' (pm_re D P) E') as [I' B'].
    assert (Hj : (j < d)%nat) by (now apply candidates_In in I). assert (Hj' : (j' < d)%nat) by (now apply candidates_In in I').
    rewrite (count_re j' t' m' D Hj'). pose proof (B _ (proj1 (candidates_re j' t' m' D Hj') I')) as B1.
    destruct (order_onto j Hj) as (k & Hk & Ek). rewrite <- Ek in I, B1 |- *. pose proof (B' _ (proj2 (candidates_re k t m D Hk) I)) as B2. rewrite !count_re in B2 by auto. lia.
  - apply (proj1 (N (rows_re D))) in E'. rewrite L in E'. apply (proj2 (N D)) in E'. congruence.
  - apply (proj1 (N D)) in E. rewrite <- L in E. apply (proj2 (N (rows_re D))) in E. congruence.
Qed.
End Stump.

(** * Two features that are both perfect *)
Definition twin : list (list R * Z) := [([0; 0], 1%Z); ([2; 2], (-1)%Z)].
Lemma twin_fit : stump_fit 2 twin = Some (0%nat, 1, Gte).
Proof.
  assert (P : plus_minus twin) by (intros p H; simpl in H; intuition (subst; simpl; auto)).
  assert (V : forall j, (j < 2)%nat -> neighbour_midpoints (map (fun p => feat j (fst p)) twin) = [1]).
  { intros [|[|j]] H; [| |lia]; unfold neighbour_midpoints, twin, feat, sort_by; cbn [map fst nth fold_right insert_by];
      (destruct (Rleb 0 2) eqn:E; [|apply Rleb_false in E; lra]); cbn [tl combine map fst snd]; f_equal; lra. }
  assert (C : candidates 2 twin = [(0%nat, 1, Gte); (0%nat, 1, Le); (1%nat, 1, Gte); (1%nat, 1, Le)]).
  { unfold candidates. cbn [seq flat_map]. rewrite !V by lia. reflexivity. }
  assert (Z : evaluate twin 0 1 Gte = 0).
  { rewrite evaluate_eq; [|discriminate|exact P]. replace (count (wrong (0%nat, 1, Gte)) twin) with 0%nat; [simpl; lra|].
    unfold count, twin, wrong, stump_label, feat. cbn [filter fst snd nth].
    destruct (Rleb 1 0) eqn:E1; [apply Rleb_true in E1; lra|]. destruct (Rleb 1 2) eqn:E2; [|apply Rleb_false in E2; lra]. reflexivity. }
  assert (G : forall j t m, Rltb (evaluate twin j t m) 0 = false).
  { intros j t m. apply Rltb_false. rewrite evaluate_eq; [|discriminate|exact P]. apply Rmult_le_pos; [apply pos_INR|]. simpl. lra. }
  unfold stump_fit. rewrite C. cbn [fold_left]. rewrite Z, !G. reflexivity.
Qed.
