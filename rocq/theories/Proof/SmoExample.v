(** A run of the SMO optimiser on which the stale error cache lowers the dual. *)
From Coq Require Import List ZArith Reals Lra Lia Bool Arith Permutation.
From Verif.Model Require Import Base Ops Kernels Smo.
From Verif.Spec Require Import Common Smo.
From Verif.Proof Require Import BaseLemmas Ops Smo Kernels.
Import ListNotations.
Local Open Scope R_scope.

Lemma update_intro K x y C s i j ei ej eta low high aj' ai' b' : i <> j ->
  eta = K (nth i x []) (nth i x []) + K (nth j x []) (nth j x []) - 2 * K (nth i x []) (nth j x []) -> 0 < eta ->
  low = (if Reqb (nth i y 0) (nth j y 0) then Rmax 0 (nth i (alphas s) 0 + nth j (alphas s) 0 - C)
         else Rmax 0 (nth j (alphas s) 0 - nth i (alphas s) 0)) ->
  high = (if Reqb (nth i y 0) (nth j y 0) then Rmin C (nth i (alphas s) 0 + nth j (alphas s) 0)
          else Rmin C (C + nth j (alphas s) 0 - nth i (alphas s) 0)) ->
  low <> high ->
  aj' = clip_alpha (nth j (alphas s) 0 + nth j y 0 * (ei - ej) / eta) low high ->
  1 / 100000 <= Rabs (aj' - nth j (alphas s) 0) ->
  ai' = nth i (alphas s) 0 + nth i y 0 * nth j y 0 * (nth j (alphas s) 0 - aj') ->
  b' = ((- ei - nth i y 0 * K (nth i x []) (nth i x []) * (ai' - nth i (alphas s) 0)
                    - nth j y 0 * K (nth j x []) (nth i x []) * (aj' - nth j (alphas s) 0) + bias s) +
                   (- ej - nth i y 0 * K (nth i x []) (nth j x []) * (ai' - nth i (alphas s) 0)
                    - nth j y 0 * K (nth j x []) (nth j x []) * (aj' - nth j (alphas s) 0) + bias s)) / 2 ->
  update_alpha K x y C s i j ei ej =
  Some {| alphas := set_nth (set_nth (alphas s) i ai') j aj';
          non_bound := set_nth (set_nth (non_bound s) i (Rltb 0 ai' && Rltb ai' C)) j (Rltb 0 aj' && Rltb aj' C);
          non_zero := set_nth (set_nth (non_zero s) i (Rltb 0 ai')) j (Rltb 0 aj');
          error_cache := update_error_cache K x y (set_nth (set_nth (alphas s) i ai') j aj') (non_bound s) (non_zero s) b' (error_cache s);
          bias := b' |}.
Proof.
  intros Hij Heta He Hlow Hhigh Hne Haj Hm Hai Hb. unfold update_alpha.
  rewrite (proj2 (Nat.eqb_neq i j) Hij). cbv zeta. rewrite <- Hlow, <- Hhigh, (proj2 (Reqb_false _ _) Hne), <- Heta,
    (proj2 (Rleb_false _ _) He), <- Haj, (proj2 (Rltb_false _ _) Hm), <- Hai, <- Hb. reflexivity.
Qed.

Definition ex_x : list (list R) := [[-3]; [-2]; [-1]].
Definition ex_y : list R := [-1; 1; 1].
Definition ex_perms (d : nat) : list nat := [0; 2; 1]%nat.

Ltac yes t := rewrite (proj2 (Rltb_true _ _) ltac:(t)).
Ltac norm := repeat match goal with
  | |- context [Rltb ?a ?b] => first
      [ rewrite (proj2 (Rltb_true a b)) by lra | rewrite (proj2 (Rltb_false a b)) by lra ]
  | |- context [Reqb ?a ?b] => first
      [ rewrite (proj2 (Reqb_true a b)) by lra | rewrite (proj2 (Reqb_false a b)) by lra ]
  end.

Definition ex_1 : smo := {| alphas := [1/2; 0; 1/2]; non_bound := [true; false; true]; non_zero := [true; false; true];
  error_cache := [0; 0; 0]; bias := 2 |}.
Definition ex_2 : smo := {| alphas := [3/2; 1; 1/2]; non_bound := [true; true; true]; non_zero := [true; true; true];
  error_cache := [-6; 0; 0]; bias := 5 |}.
Definition ex_3 : smo := {| alphas := [1/2; 0; 1/2]; non_bound := [true; false; true]; non_zero := [true; false; true];
  error_cache := [7/2; 5/2; 7/2]; bias := 11/2 |}.

Ltac minmax := unfold Rmax, Rmin; repeat destruct (Rle_dec _ _); lra.
Ltac absv := unfold Rabs; destruct (Rcase_abs _); lra.

Lemma ex_step1 : update_alpha linear ex_x ex_y 2 (smo_init ex_x) 0 2 1 (-1) = Some ex_1.
Proof.
  rewrite (update_intro linear ex_x ex_y 2 (smo_init ex_x) 0 2 1 (-1) 4 0 2 (1/2) (1/2) 2); try discriminate; simpl.
  - unfold ex_1, update_error_cache, nonzero, enumerate. simpl. norm. reflexivity.
  - unfold linear. simpl. lra.
  - lra.
  - norm. minmax.
  - norm. minmax.
  - lra.
  - unfold clip_alpha. replace (0 + 1 * (1 - -1) / 4) with (1/2) by field. norm. reflexivity.
  - absv.
  - lra.
  - unfold linear. simpl. lra.
Qed.

Lemma ex_step2 : update_alpha linear ex_x ex_y 2 ex_1 1 0 (-1) 0 = Some ex_2.
Proof.
  rewrite (update_intro linear ex_x ex_y 2 ex_1 1 0 (-1) 0 1 (1/2) 2 (3/2) 1 5); try discriminate; simpl.
  - unfold ex_2, update_error_cache, nonzero, enumerate, calculate_error, linear, nonzero, enumerate. simpl. norm. repeat first [lra | f_equal].
  - unfold linear. simpl. lra.
  - lra.
  - norm. minmax.
  - norm. minmax.
  - lra.
  - unfold clip_alpha. replace (1 / 2 + -1 * (-1 - 0) / 1) with (3/2) by field. norm. reflexivity.
  - absv.
  - lra.
  - unfold linear. simpl. lra.
Qed.
Lemma ex_step3 : update_alpha linear ex_x ex_y 2 ex_2 0 1 (-6) 0 = Some ex_3.
Proof.
  rewrite (update_intro linear ex_x ex_y 2 ex_2 0 1 (-6) 0 1 0 (3/2) 0 (1/2) (11/2)); try discriminate; simpl.
  - unfold ex_3, update_error_cache, nonzero, enumerate, calculate_error, linear, nonzero, enumerate. simpl. norm. repeat first [lra | f_equal].
  - unfold linear. simpl. lra.
  - lra.
  - norm. minmax.
  - norm. minmax.
  - lra.
  - unfold clip_alpha. replace (1 + 1 * (-6 - 0) / 1) with (-5) by field. norm. reflexivity.
  - absv.
  - lra.
  - unfold linear. simpl. lra.
Qed.

Lemma ex_pass : pass linear ex_x ex_y 2 (1 / 1000) ex_perms (seq 0 3) (smo_init ex_x, 0%nat) = ((ex_2, 1%nat), 2%nat).
Proof.
  assert (P0 : update_parameters linear ex_x ex_y 2 (1 / 1000) ex_perms (smo_init ex_x, 0%nat) 0 = ((ex_1, 1%nat), true)).
  { unfold update_parameters, calculate_error. cbn -[update_alpha Rltb smo_init]. simpl (alphas _). simpl (non_zero _). simpl (non_bound _). simpl (bias _).
    simpl nth. cbn [existsb].
    norm. cbn [orb andb]. cbn [try_pairs ex_perms].
    replace (update_alpha linear ex_x ex_y 2 (smo_init ex_x) 0 0 _ _) with (@None smo) by reflexivity.
    unfold calculate_error. simpl (non_zero _). cbn [existsb orb]. simpl (bias _). simpl nth.
    replace (0 - -1) with 1 by ring. replace (0 - 1) with (-1) by ring. rewrite ex_step1. norm. reflexivity. }
  assert (P1 : update_parameters linear ex_x ex_y 2 (1 / 1000) ex_perms (ex_1, 1%nat) 1 = ((ex_2, 1%nat), true)).
  { unfold update_parameters, calculate_error, nonzero, enumerate. cbn -[update_alpha Rltb select_second_alpha linear].
    unfold linear. cbn -[update_alpha Rltb select_second_alpha linear].
    norm. cbn [orb andb].
    match goal with |- context [select_second_alpha ?e _ _] => replace e with (-1) by lra end.
    unfold select_second_alpha, nonzero, enumerate. cbn -[update_alpha Rltb linear]. norm.
    cbn -[update_alpha Rltb linear]. fold ex_1. change (fun x_i x_j : list R => dot x_j x_i) with linear. rewrite ex_step2. reflexivity. }
  assert (P2 : update_parameters linear ex_x ex_y 2 (1 / 1000) ex_perms (ex_2, 1%nat) 2 = ((ex_2, 1%nat), false)).
  { unfold update_parameters. cbn -[update_alpha Rltb select_second_alpha linear]. norm. reflexivity. }
  unfold pass. cbn [seq fold_left]. rewrite P0, P1, P2. reflexivity.
Qed.
Lemma ex_next : update_parameters linear ex_x ex_y 2 (1 / 1000) ex_perms (ex_2, 1%nat) 0 = ((ex_3, 1%nat), true).
Proof.
  unfold update_parameters. cbn -[update_alpha Rltb select_second_alpha linear]. norm. cbn [orb andb].
  unfold select_second_alpha, nonzero, enumerate. cbn -[update_alpha Rltb linear].
  replace (Rabs (-6 - -6)) with 0 by absv. replace (Rabs (-6 - 0)) with 6 by absv. norm.
  cbn -[update_alpha Rltb linear]. norm. cbn -[update_alpha Rltb linear]. fold ex_2. rewrite ex_step3. reflexivity.
Qed.
Lemma ex_duals : dual linear ex_x ex_y (alphas ex_2) = 1 /\ dual linear ex_x ex_y (alphas ex_3) = 1 / 2.
Proof. unfold dual, sum_below, linear. simpl. split; field. Qed.
Lemma ex_exact : exact_error linear ex_x ex_y (alphas ex_2) (bias ex_2) 0 = 0.
Proof. unfold exact_error, decision, sum_below, linear. simpl. field. Qed.
