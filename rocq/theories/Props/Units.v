(** C98: the answers do not depend on the units of measurement. *)
From Coq Require Import List ZArith Reals Lra Lia Bool Arith String.
From Verif.Model Require Import Base Ops Stump Ensemble Tree Pruner.
From Verif.Spec Require Import Units.
From Verif.Proof Require Import BaseLemmas Tree TreeGen Pruner Units UnitsTree.
Import ListNotations.
Local Open Scope R_scope.
Local Notation length := List.length.

(** ** C98: trees and ensembles of trees *)
Theorem C98_stump : forall fs D x, Forall unit_change fs -> width (length fs) (map fst D) -> width (length fs) x ->
  stump_predict (stump_fit (length fs) (labelled_in fs D)) (map (in_units fs) x) = stump_predict (stump_fit (length fs) D) x.
Proof. intros fs D x F W Wx; now apply stump_units. Qed.
Print Assumptions C98_stump.

(** Bagging of a new model: the same draws give the same answers. *)
Theorem C98_bagging : forall fs choice seed n x y q, Forall unit_change fs -> width (length fs) x -> width (length fs) q ->
  (b <- bag_fit choice n (length fs) (map (in_units fs) x) y {| bag_seed := seed; bag_stumps := [] |} ;; bag_predict b (map (in_units fs) q)) =
  (b <- bag_fit choice n (length fs) x y {| bag_seed := seed; bag_stumps := [] |} ;; bag_predict b q).
Proof.
  intros fs choice seed n x y q F W Wq.
  pose proof (bag_fit_in fs choice n (length fs) x y {| bag_seed := seed; bag_stumps := [] |} F eq_refl W) as H; change (stumps_in fs {| bag_seed := seed; bag_stumps := [] |}) with {| bag_seed := seed; bag_stumps := [] |} in H; rewrite H.
  destruct (bag_fit choice n (length fs) x y _) as [b|] eqn:E; cbn [bind]; [|reflexivity].
  apply (bag_predict_in fs (length fs)); auto; apply (bag_fit_features choice n (length fs) x y) in E; [exact E|constructor].
Qed.
Print Assumptions C98_bagging.

(** The two-level tree on weighted rows. *)
Theorem C98_two_level_tree : forall fs D r, Forall unit_change fs -> width (length fs) (map (fun p => fst (fst p)) D) -> length r = length fs ->
  (t <- tl_fit (length fs) (map (fun p => (in_units fs (fst (fst p)), snd (fst p), snd p)) D) ;; Ok (tl_predict t (in_units fs r))) =
  (t <- tl_fit (length fs) D ;; Ok (tl_predict t r)).
Proof.
  intros fs D r F W L; unfold tl_fit; pose proof (tl_units fs D 2 F W) as T.
  destruct (tl_generate 2 (length fs) D) as [t|e]; cbn [bind].
  - destruct T as (t' & E & P); change (map (fun p => (in_units fs (fst (fst p)), snd (fst p), snd p)) D) with (map (sample_in fs) D); rewrite E; cbn [bind]; now rewrite P.
  - change (map (fun p => (in_units fs (fst (fst p)), snd (fst p), snd p)) D) with (map (sample_in fs) D); now rewrite T.
Qed.
Print Assumptions C98_two_level_tree.

(** AdaBoost with its default learner, on a new model. *)
Theorem C98_adaboost : forall fs n D r, Forall unit_change fs -> width (length fs) (map fst D) -> length r = length fs ->
  let learn := tl_learn (length fs) in let fresh := {| members := []; alpha_is_array := false |} in
  (b <- ada_fit tltree learn tl_predict n (labelled_in fs D) fresh ;; ada_predict tltree tl_predict b (in_units fs r)) =
  (b <- ada_fit tltree learn tl_predict n D fresh ;; ada_predict tltree tl_predict b r).
Proof.
  intros fs n D r F W L; cbv zeta; unfold ada_fit; cbn [alpha_is_array members andb]; rewrite labelled_length.
  pose proof (ada_loop_in fs F D W n (uniform (length D))) as H.
  destruct (ada_loop tltree (tl_learn (length fs)) tl_predict n D (uniform (length D))) as [ms|]; cbn [bind]; [|now rewrite H].
  destruct H as (ms' & -> & Fm); cbn [bind]; apply (ada_predict_in fs); [exact Fm|exact L].
Qed.
Print Assumptions C98_adaboost.

(** Decision trees, with exact dividing points, as long as whole numbers stay whole. *)
Theorem C98_tree : forall top c fs D r, Forall unit_change fs -> width (length fs) (map fst D) -> keeps_whole fs (map fst D) -> length r = length fs ->
  (t <- fit_tree top (fun x => x) c (length fs) (table_in fs D) ;; predict t (row_in fs r)) =
  (t <- fit_tree top (fun x => x) c (length fs) D ;; predict t r).
Proof.
  intros top c fs D r F W K L; rewrite fit_tree_in by (auto; now apply whole_keeps).
  destruct (fit_tree top (fun x => x) c (length fs) D) as [t|]; cbn [bind]; [|reflexivity]; now apply predict_in.
Qed.
Print Assumptions C98_tree.
(** The same with rounding of the dividing points that commutes with the units. *)
Theorem C98_tree_rounded : forall top rnd c fs D r, Forall unit_change fs -> Forall (fun f => forall t, rnd (f t) = f (rnd t)) fs ->
  width (length fs) (map fst D) -> keeps_whole fs (map fst D) -> length r = length fs ->
  (t <- fit_tree top rnd c (length fs) (table_in fs D) ;; predict t (row_in fs r)) =
  (t <- fit_tree top rnd c (length fs) D ;; predict t r).
Proof.
  intros top rnd c fs D r F Fr W K L; rewrite Forall_forall in Fr; rewrite fit_tree_in by (auto; now apply whole_keeps).
  destruct (fit_tree top rnd c (length fs) D) as [t|]; cbn [bind]; [|reflexivity]; now apply predict_in.
Qed.
Print Assumptions C98_tree_rounded.
Theorem C98_post_pruned_tree : forall top c fs (D V : list (row * Z)) r, Forall unit_change fs -> width (length fs) (map fst D) -> width (length fs) (map fst V) ->
  keeps_whole fs (map fst D) -> length r = length fs ->
  (t <- fit_pruned top (fun x => x) c Post (length fs) (table_in fs D) (Some (table_in fs V)) ;; predict t (row_in fs r)) =
  (t <- fit_pruned top (fun x => x) c Post (length fs) D (Some V) ;; predict t r).
Proof.
  intros top c fs D V r F W Wv K L; rewrite fit_post_in by (auto; now apply whole_keeps).
  destruct (fit_pruned top (fun x => x) c Post (length fs) D (Some V)) as [t|]; cbn [bind]; [|reflexivity]; now apply predict_in.
Qed.
Print Assumptions C98_post_pruned_tree.

(** Columns of text and whole offsets meet the hypotheses. *)
Definition celsius (x : R) : R := 1 * x + (-273).
Definition miles (x : R) : R := 5 / 8 * x + 0.
Example C98_units_example : Forall unit_change [celsius; miles] /\ Forall unit_change [celsius; celsius] /\
  width 2 [[Num (601 / 2); Txt "a"]; [Num 300; Txt "b"]]%string /\ keeps_whole [celsius; celsius] [[Num (601 / 2); Txt "a"]; [Num 300; Txt "b"]]%string /\
  row_in [celsius; celsius] [Num 300; Txt "b"]%string = [Num (1 * 300 + -273); Txt "b"]%string /\ in_units [celsius; miles] [300; 16] = [1 * 300 + -273; 5 / 8 * 16 + 0].
Proof.
  assert (C : unit_change celsius) by (exists 1, (-273); split; [lra|reflexivity]).
  assert (M : unit_change miles) by (exists (5 / 8), 0; split; [lra|reflexivity]).
  split; [repeat constructor; assumption|]; split; [repeat constructor; assumption|]; split; [repeat constructor|]; split; [|split; reflexivity].
  assert (G : forall v, whole (celsius v) <-> whole v).
  { intros v; unfold celsius; split; intros (n & E).
    - exists (n + 273)%Z; rewrite plus_IZR; lra.
    - exists (n + -273)%Z; rewrite plus_IZR; lra. }
  intros r j f v _ E _; destruct j as [|[|j]]; cbn in E; [injection E as <-; apply G|injection E as <-; apply G|destruct j; discriminate].
Qed.

(** Whole numbers are branches of their own, others are compared: halves measured
    in halves become whole, and rows between the training rows have no branch. *)
Definition halves : list (row * Z) := [([Num (1 / 2)], 0%Z); ([Num (3 / 2)], 1%Z)].
Lemma half_not_whole k : (Z.odd k = true) -> has_frac (IZR k / 2) = true.
Proof.
  intros O; apply has_frac_true; intros z E; assert (H : IZR k = IZR (2 * z)) by (rewrite mult_IZR; lra); apply eq_IZR in H; subst k.
  rewrite Z.odd_mul in O; discriminate.
Qed.
Lemma whole_no_frac k : has_frac (IZR k) = false.
Proof.
  destruct (has_frac (IZR k)) eqn:E; [|reflexivity]; exfalso; exact (proj1 (has_frac_true _) E k eq_refl).
Qed.
Lemma halves_division : exists v, optimal_division Gini (map fst halves) halves (seq 0 1) = Some (0%nat, (v, Some ((1 / 2 + 3 / 2) / 2))).
Proof.
  unfold optimal_division; cbn [seq fold_left]; unfold attribute_value, is_continuous; cbn [halves map fst snd cell_at nth forallb is_num existsb num_of andb].
  rewrite (half_not_whole 1 eq_refl); cbn [orb]; unfold get_value_continuous, best_threshold, np_unique; cbn [map fst fold_right insert_uniq leb ROrder].
  replace (Rleb (1 / 2) (3 / 2)) with true by (symmetry; apply Rleb_true; lra); replace (Rleb (3 / 2) (1 / 2)) with false by (symmetry; apply Rleb_false; lra).
  cbn [midpoints combine tl map fst snd fold_left]; eexists; reflexivity.
Qed.
Lemma doubled_division fs : fs = [fun x => 2 * x + 0] ->
  exists v, optimal_division Gini (map fst (table_in fs halves)) (table_in fs halves) (seq 0 1) = Some (0%nat, (v, None)).
Proof.
  intros ->; unfold optimal_division; cbn [seq fold_left]; unfold attribute_value, is_continuous; cbn [halves table_in row_in cell_in combine map fst snd cell_at nth forallb is_num existsb num_of andb].
  replace (2 * (1 / 2) + 0) with (IZR 1) by lra; replace (2 * (3 / 2) + 0) with (IZR 3) by lra; rewrite !whole_no_frac; cbn [orb]; eexists; reflexivity.
Qed.
Theorem C98_whole_numbers_refuted : exists fs D r, Forall unit_change fs /\ width (length fs) (map fst D) /\ length r = length fs /\ forall top,
  (t <- fit_tree top (fun x => x) Gini (length fs) D ;; predict t r) = Ok 1%Z /\
  (t <- fit_tree top (fun x => x) Gini (length fs) (table_in fs D) ;; predict t (row_in fs r)) = Err KeyError.
Proof.
  exists [fun x => 2 * x + 0], halves, [Num 1].
  split; [constructor; [|constructor]; exists 2, 0; split; [lra|reflexivity]|]; split; [repeat constructor|]; split; [reflexivity|]; intros top; split.
  - destruct halves_division as (v & E); unfold fit_tree; cbn [length]; rewrite generate_unfold; cbv zeta.
    replace (length (nodup Z.eq_dec (map snd halves)) =? 1)%nat with false by reflexivity.
    replace (false || (length (seq 0 1) =? 0)%nat || (length halves =? 0)%nat) with false by reflexivity.
    rewrite E; cbn [halves filter cell_at nth cell_ge cell_lt fst].
    replace (Rleb ((1 / 2 + 3 / 2) / 2) (1 / 2)) with false by (symmetry; apply Rleb_false; lra).
    replace (Rleb ((1 / 2 + 3 / 2) / 2) (3 / 2)) with true by (symmetry; apply Rleb_true; lra).
    replace (Rltb (1 / 2) ((1 / 2 + 3 / 2) / 2)) with true by (symmetry; apply Rltb_true; lra).
    replace (Rltb (3 / 2) ((1 / 2 + 3 / 2) / 2)) with false by (symmetry; apply Rltb_false; lra).
    change (length halves + 1)%nat with 3%nat; rewrite !generate_unfold; cbv zeta; cbn [map snd].
    change (length (nodup Z.eq_dec [1%Z]) =? 1)%nat with true; change (length (nodup Z.eq_dec [0%Z]) =? 1)%nat with true; cbn [bind predict get_at nth_error].
    replace (Rleb ((1 / 2 + 3 / 2) / 2) 1) with true by (symmetry; apply Rleb_true; lra); reflexivity.
  - destruct (doubled_division _ eq_refl) as (v & E); unfold fit_tree; cbn [length]; rewrite generate_unfold; cbv zeta.
    replace (length (nodup Z.eq_dec (map snd (table_in [fun x : R => (2 * x + 0)%R] halves))) =? 1)%nat with false by reflexivity.
    replace (false || (length (seq 0 1) =? 0)%nat || (length (table_in [fun x : R => (2 * x + 0)%R] halves) =? 0)%nat) with false by reflexivity.
    rewrite E; cbn [halves table_in row_in cell_in combine map fst snd cell_at nth].
    replace (2 * (1 / 2) + 0) with 1 by lra; replace (2 * (3 / 2) + 0) with 3 by lra; replace (2 * 1 + 0) with 2 by lra.
    assert (U : pd_unique cell_eq_dec [Num 1; Num 3] = [Num 1; Num 3]).
    { unfold pd_unique; cbn [rev app]; cbn [nodup]; destruct (in_dec cell_eq_dec (Num 3) [Num 1]) as [[H|[]]|H]; [injection H; lra|]; destruct (in_dec cell_eq_dec (Num 1) []) as [[]|_]; reflexivity. }
    rewrite U; cbn [mapM filter fst cell_at nth].
    destruct (cell_eq_dec (Num 1) (Num 1)) as [_|N]; [|congruence]; destruct (cell_eq_dec (Num 3) (Num 1)) as [H|_]; [injection H; lra|].
    destruct (cell_eq_dec (Num 1) (Num 3)) as [H|_]; [injection H; lra|]; destruct (cell_eq_dec (Num 3) (Num 3)) as [_|N]; [|congruence].
    cbn [length Nat.add Nat.eqb]; rewrite !generate_unfold; cbv zeta; cbn [map snd].
    change (length (nodup Z.eq_dec [1%Z]) =? 1)%nat with true; change (length (nodup Z.eq_dec [0%Z]) =? 1)%nat with true; cbn [bind predict get_at nth_error].
    destruct (cell_eq_dec (Num 2) (Num 1)) as [H|_]; [injection H; lra|]; destruct (cell_eq_dec (Num 2) (Num 3)) as [H|_]; [injection H; lra|]; reflexivity.
Qed.
Print Assumptions C98_whole_numbers_refuted.
