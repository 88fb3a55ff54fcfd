(** C40 to C43: bagging and AdaBoost. *)
From Coq Require Import List ZArith Reals Bool Arith Lia Lra.
From Verif.Model Require Import Base Ops Stump Ensemble.
From Verif.Spec Require Import Common Ops Stump Ensemble.
From Verif.Proof Require Import BaseLemmas Counting Stump TwoLevel Ensemble AdaBoost.
Import ListNotations.
Local Open Scope R_scope.

(** ** C40 *)
(** The answer is the majority vote, ties going to +1. *)
Theorem C40_majority : forall b x ls, bag_predict b x = Ok ls -> length ls = length x /\
  forall i r l p n, nth_error x i = Some r -> nth_error ls i = Some l ->
    how_many (fun s => stump_predict s [r] = Ok [1%Z]) (bag_stumps b) p ->
    how_many (fun s => stump_predict s [r] = Ok [(-1)%Z]) (bag_stumps b) n ->
    (p + n = length (bag_stumps b))%nat /\ (l = 1%Z /\ (n <= p)%nat \/ l = (-1)%Z /\ (p < n)%nat).
Proof. exact bag_majority. Qed.
Print Assumptions C40_majority.

(** [fit] adds [k] stumps; the j-th is trained on the rows drawn with the j-th
    next seed.  Earlier learners stay. *)
Theorem C40_fit_appends : forall choice k w x y b, length x = length y -> (forall s, valid_choice (choice s)) ->
  (forall j, (j < k)%nat -> 0 <= bag_seed b + Z.of_nat j < 2 ^ 32)%Z ->
  exists new, bag_fit choice k w x y b = Ok {| bag_seed := (bag_seed b + Z.of_nat k)%Z; bag_stumps := bag_stumps b ++ new |} /\
    length new = k /\
    forall j, (j < k)%nat ->
      nth_error new j = Some (stump_fit w (drawn x y (choice (bag_seed b + Z.of_nat j)%Z (length x)))).
Proof.
  intros choice k w x y b Hl Hc Hs. eexists. split; [apply bag_fit_eq; auto|]. split; [now rewrite map_length, seq_length|].
  intros j Hj. erewrite map_nth_error; [reflexivity|].
  rewrite (nth_error_nth' _ 0%nat) by (rewrite seq_length; lia). now rewrite seq_nth by lia.
Qed.
Print Assumptions C40_fit_appends.

(** After any history of calls the number of learners is the sum of the
    requested numbers. *)
Theorem C40_learners_accumulate : forall choice (calls : list (nat * nat * list (list R) * list Z)) b,
  (forall s, valid_choice (choice s)) -> (forall k w x y, In (k, w, x, y) calls -> length x = length y) ->
  (0 <= bag_seed b /\ bag_seed b + Z.of_nat (list_sum (map (fun c => fst (fst (fst c))) calls)) <= 2 ^ 32)%Z ->
  exists b', foldM (fun b c => match c with (k, w, x, y) => bag_fit choice k w x y b end) calls b = Ok b' /\
    length (bag_stumps b') = (length (bag_stumps b) + list_sum (map (fun c => fst (fst (fst c))) calls))%nat /\
    bag_seed b' = (bag_seed b + Z.of_nat (list_sum (map (fun c => fst (fst (fst c))) calls)))%Z /\
    exists new, bag_stumps b' = bag_stumps b ++ new.
Proof.
  intros choice calls b Hc. revert b. induction calls as [|[[[k w] x] y] calls IH]; intros b Hl Hs.
  - exists b. simpl. split; auto. split; [lia|]. split; [lia|]. exists []. now rewrite app_nil_r.
  - destruct (C40_fit_appends choice k w x y b) as (new & E & Hlen & _); auto; [eapply Hl; simpl; eauto|intros j Hj; cbn [map list_sum fst fold_right] in Hs; lia|].
    simpl. rewrite E. simpl.
    destruct (IH {| bag_seed := (bag_seed b + Z.of_nat k)%Z; bag_stumps := bag_stumps b ++ new |}) as (b' & -> & L & S & n' & E').
    + intros; eapply Hl; simpl; eauto.
    + cbn [map list_sum fst fold_right bag_seed] in *; unfold list_sum; lia.
    + simpl in *. exists b'. split; auto. rewrite app_length in L. split; [lia|]. split; [lia|]. exists (new ++ n'). now rewrite app_assoc.
Qed.
Print Assumptions C40_learners_accumulate.

Theorem C40_length_mismatch : forall choice k w x y b, length x <> length y -> bag_fit choice (S k) w x y b = Err ValueError.
Proof. intros. now apply bag_fit_mismatch. Qed.
Print Assumptions C40_length_mismatch.

(** The seeds of the rounds must be ones that numpy accepts: bagging stops at the
    first that is not. *)
Theorem C40_seed_range : forall choice k w x y b, length x = length y -> (forall s, valid_choice (choice s)) ->
  ((exists b', bag_fit choice k w x y b = Ok b') <-> (forall j, (j < k)%nat -> 0 <= bag_seed b + Z.of_nat j < 2 ^ 32)%Z) /\
  ((exists j, (j < k)%nat /\ ~ (0 <= bag_seed b + Z.of_nat j < 2 ^ 32)%Z) -> bag_fit choice k w x y b = Err ValueError).
Proof.
  intros choice k w x y b Hl Hc. split; [split|].
  - intros [b' H] j Hj. destruct (Z_le_dec 0 (bag_seed b + Z.of_nat j)) as [L|L]; [destruct (Z_lt_dec (bag_seed b + Z.of_nat j) (2 ^ 32)) as [U|U]; [auto|]|];
      rewrite (bag_fit_seed choice w k x y Hl Hc b j Hj) in H by lia; discriminate.
  - intros Hs. eexists. apply bag_fit_eq; auto.
  - intros (j & Hj & Hs). exact (bag_fit_seed choice w k x y Hl Hc b j Hj Hs).
Qed.
Print Assumptions C40_seed_range.
Example C40_seed_range_witness : forall x y, length x = length y ->
  bag_fit (fun s n => seq 0 n) 2 1 x y {| bag_seed := 2 ^ 32 - 1; bag_stumps := [] |} = Err ValueError /\
  exists b, bag_fit (fun s n => seq 0 n) 1 1 x y {| bag_seed := 2 ^ 32 - 1; bag_stumps := [] |} = Ok b.
Proof.
  intros x y Hl. assert (V : forall s : Z, valid_choice (fun n => seq 0 n)).
  { intros _ n. split; [apply seq_length|]. apply Forall_forall. intros i Hi. apply in_seq in Hi. lia. }
  split.
  - apply (proj2 (C40_seed_range (fun _ n => seq 0 n) 2 1 x y _ Hl V)). exists 1%nat. split; [lia|cbn [bag_seed]; lia].
  - apply (proj1 (C40_seed_range (fun _ n => seq 0 n) 1 1 x y _ Hl V)). intros j Hj. cbn [bag_seed]. lia.
Qed.

(** Without learners everything is positive. *)
Theorem C40_no_learner : forall b x, bag_stumps b = [] -> bag_predict b x = Ok (map (fun _ => 1%Z) x).
Proof.
  intros b x E. unfold bag_predict. rewrite E. simpl. f_equal. generalize 0%nat.
  induction x as [|r x IH]; intros n; simpl; auto. now rewrite IH.
Qed.
Print Assumptions C40_no_learner.

Example C40_witness : exists b,
  bag_fit (fun s n => seq 0 n) 2 1 [[1]; [2]] [1%Z; (-1)%Z] {| bag_seed := 7; bag_stumps := [] |} = Ok b /\
  length (bag_stumps b) = 2%nat /\ exists ls, bag_predict b [[1]; [5]] = Ok ls /\ length ls = 2%nat.
Proof.
  destruct (C40_fit_appends (fun s n => seq 0 n) 2 1 [[1]; [2]] [1%Z; (-1)%Z] {| bag_seed := 7; bag_stumps := [] |}) as (new & E & L & N); auto.
  - intros s n. split; [apply seq_length|]. apply Forall_forall. intros i Hi. apply in_seq in Hi. lia.
  - intros j Hj. cbn [bag_seed]. lia.
  - eexists. split; [exact E|]. split; [exact L|]. simpl app.
    destruct new as [|s1 [|s2 [|]]]; try discriminate.
    pose proof (N 0%nat ltac:(lia)) as N1. pose proof (N 1%nat ltac:(lia)) as N2. simpl in N1, N2.
    destruct (stump_some 1 [([1], 1%Z); ([2], (-1)%Z)]) as (j & t & m & Es & _); [lia|simpl; lia|].
    unfold drawn in N1, N2. simpl in N1, N2. rewrite Es in N1, N2.
    assert (s1 = Some (j, t, m)) by congruence. assert (s2 = Some (j, t, m)) by congruence. subst.
    eexists. split; [reflexivity|]. reflexivity.
Qed.

(** ** C41 *)
Theorem C41_weights_stay_a_distribution : forall H learn answer D, D <> [] -> forall n w,
  ada_weights H learn answer n D (uniform (length D)) = Ok w -> distribution (length D) w.
Proof. exact weights_dist. Qed.
Print Assumptions C41_weights_stay_a_distribution.

(** One round from any distribution: the learner's weight is determined by its
    weighted error and the samples are reweighted as in the algorithm. *)
Theorem C41_round : forall H learn answer D w h a w' e, distribution (length D) w ->
  ada_round H learn answer D w = Ok (h, a, w') -> error_of H answer D w h e ->
  learn D w = Ok h /\ e < 1 /\ a = ln ((1 - e) / Rmax e EPSILON) / 2 /\
  boosted H answer D h a w w' /\ distribution (length D) w'.
Proof.
  intros H learn answer D w h a w' e Hw E He. destruct (round_main _ _ _ _ _ _ _ _ _ Hw E He) as (A & B & C & F & _).
  split; auto. split; auto. split; auto. split; auto. eapply round_dist; eauto.
Qed.
Print Assumptions C41_round.

(** ** C42 *)
(** The learner just added is no better than guessing under the new weights. *)
Theorem C42_new_weights_make_error_half : forall H learn answer D w h a w' e, distribution (length D) w ->
  ada_round H learn answer D w = Ok (h, a, w') -> error_of H answer D w h e -> EPSILON <= e ->
  error_of H answer D w' h (1/2).
Proof. intros H learn answer D w h a w' e Hw E He. now apply (round_main _ _ _ _ _ _ _ _ _ Hw E He). Qed.
Print Assumptions C42_new_weights_make_error_half.

(** Training performs a run of the algorithm, and the share of training rows
    the ensemble gets wrong is bounded by the product over the rounds. *)
Theorem C42_training_error : forall H learn answer k D b n, D <> [] -> plus_minus D ->
  (forall w h r, learn D w = Ok h -> answer h r = 1 \/ answer h r = -1)%Z ->
  ada_fit H learn answer k D {| members := []; alpha_is_array := false |} = Ok b -> 0 < total (map snd (members H b)) ->
  how_many (fun p => exists l, ada_predict H answer b (fst p) = Ok l /\ l <> snd p) D n ->
  exists es, run H answer D (fun w h => learn D w = Ok h) EPSILON k (uniform (length D)) (members H b) es /\
    INR n / INR (length D) <= product_of (map (shrink EPSILON) es).
Proof. exact training_bound. Qed.
Print Assumptions C42_training_error.

Theorem C42_factor_below_one : forall e, 0 <= e < 1/2 -> 0 < shrink EPSILON e < 1.
Proof. exact shrink_less. Qed.
Print Assumptions C42_factor_below_one.

(** With the default base learner and labels 1 and -1, training always succeeds,
    every error is at most 1/2, and a learner's weight is positive unless its
    error is exactly 1/2. *)
Theorem C42_two_level_training : forall nf D k, (1 <= nf)%nat -> D <> [] -> plus_minus D ->
  exists b es, ada_fit tltree (tl_learn nf) tl_predict k D {| members := []; alpha_is_array := false |} = Ok b /\
    run tltree tl_predict D (fun w h => tl_learn nf D w = Ok h) EPSILON k (uniform (length D)) (members tltree b) es /\
    Forall (fun e => 0 <= e <= 1/2) es /\
    Forall2 (fun m e => 0 <= snd m /\ (snd m = 0 <-> e = 1/2)) (members tltree b) es.
Proof. exact tl_fit_main. Qed.
Print Assumptions C42_two_level_training.

(** A round of the default learner on two separable rows. *)
Example C41_witness : exists h a w', ada_round tltree (tl_learn 1) tl_predict [([0], 1%Z); ([1], (-1)%Z)] (uniform 2) = Ok (h, a, w') /\
  distribution 2 (uniform 2).
Proof.
  destruct (C42_two_level_training 1 [([0], 1%Z); ([1], (-1)%Z)] 1) as (b & es & F & _); [lia|discriminate| |].
  - intros p [<-|[<-|[]]]; simpl; auto.
  - unfold ada_fit in F. cbn [alpha_is_array andb length ada_loop] in F.
    destruct (ada_round _ _ _ _ _) as [[[h a] w']|]; [|discriminate].
    exists h, a, w'. split; [reflexivity|]. apply uniform_dist. lia.
Qed.

Theorem C42_two_level_training_error : forall nf D k b n, (1 <= nf)%nat -> D <> [] -> plus_minus D ->
  ada_fit tltree (tl_learn nf) tl_predict k D {| members := []; alpha_is_array := false |} = Ok b ->
  0 < total (map snd (members tltree b)) ->
  how_many (fun p => exists l, ada_predict tltree tl_predict b (fst p) = Ok l /\ l <> snd p) D n ->
  exists es, run tltree tl_predict D (fun w h => tl_learn nf D w = Ok h) EPSILON k (uniform (length D)) (members tltree b) es /\
    INR n / INR (length D) <= product_of (map (shrink EPSILON) es).
Proof.
  intros nf D k b n Hnf HD Hpm Hf HN Hn. eapply training_bound; eauto. intros w h r E. eapply tl_generate_pm; eauto.
Qed.
Print Assumptions C42_two_level_training_error.

(** ** C43 *)
Theorem C43_second_fit_fails : forall nf D k b, (1 <= nf)%nat -> D <> [] -> plus_minus D -> (0 < k)%nat ->
  alpha_is_array tltree b = true -> ada_fit tltree (tl_learn nf) tl_predict k D b = Err AttributeError.
Proof.
  intros nf D k b Hnf HD Hpm Hk Hb. apply refit; auto.
  - intros w h Hw El e He. pose proof (tl_half nf D w h e Hpm Hw El He). lra.
  - apply tl_total; auto. apply tl_wpm; auto. apply uniform_dist. destruct D; [congruence|simpl; lia].
Qed.
Print Assumptions C43_second_fit_fails.

(** So two calls of [fit] never succeed. *)
Theorem C43_fit_fit : forall nf D D' k k' b b', (1 <= nf)%nat -> D' <> [] -> plus_minus D' -> (0 < k')%nat ->
  ada_fit tltree (tl_learn nf) tl_predict k D b = Ok b' ->
  ada_fit tltree (tl_learn nf) tl_predict k' D' b' = Err AttributeError.
Proof.
  intros nf D D' k k' b b' Hnf HD Hpm Hk E. apply C43_second_fit_fails; auto.
  unfold ada_fit in E. destruct (_ && _); [destruct (ada_round _ _ _ _ _); discriminate|].
  destruct (ada_loop _ _ _ _ _ _); simpl in E; [|discriminate]. injection E as <-. auto.
Qed.
Print Assumptions C43_fit_fit.

(** A successful [fit] keeps the members there were and appends at most the
    requested number; a fitted model accepts only 0 rounds and stays as it is. *)
Theorem C43_members_kept : forall H learn answer k D b b',
  ada_fit H learn answer k D b = Ok b' -> exists new, members H b' = members H b ++ new /\ (length new <= k)%nat.
Proof.
  intros H learn answer k D b b' E. unfold ada_fit in E.
  destruct (_ && _); [destruct (ada_round _ _ _ _ _); discriminate|].
  destruct (ada_loop _ _ _ _ _ _) as [ms|] eqn:L; simpl in E; [|discriminate]. injection E as <-.
  exists ms. split; [reflexivity|]. revert L. generalize (uniform (length D)). revert ms.
  induction k as [|k IH]; intros ms w L; simpl in L; [injection L as <-; auto|].
  destruct (ada_round _ _ _ _ _) as [[[h a] w']|]; simpl in L; [|discriminate].
  destruct (_ || _); simpl in L; [injection L as <-; simpl; lia|].
  destruct (ada_loop _ _ _ k D w') as [r|] eqn:E; simpl in L; [|discriminate]. injection L as <-. simpl.
  apply IH in E. lia.
Qed.
Print Assumptions C43_members_kept.
Theorem C43_no_rounds : forall H learn answer D b, alpha_is_array H b = true -> ada_fit H learn answer 0 D b = Ok b.
Proof. intros H learn answer D [ms a] E. simpl in E. subst a. unfold ada_fit. simpl. now rewrite app_nil_r. Qed.
Print Assumptions C43_no_rounds.

Theorem C43_prediction : forall H answer b r,
  let F := vote answer (members H b) r in let N := total (map snd (members H b)) in
  (0 < N -> (ada_predict H answer b r = Ok 1%Z <-> 0 <= F) /\ (ada_predict H answer b r = Ok (-1)%Z <-> F < 0)) /\
  (N < 0 -> (ada_predict H answer b r = Ok 1%Z <-> F <= 0) /\ (ada_predict H answer b r = Ok (-1)%Z <-> 0 < F)) /\
  (N = 0 -> ada_predict H answer b r = Err NotANumber).
Proof.
  intros H answer b r F N. destruct (predict_cases H answer b r) as (Z & P & M). fold F N in Z, P, M.
  split; [|split]; auto; intros HN; [rewrite (P HN)|rewrite (M HN)].
  - destruct (Rleb 0 F) eqn:E; [apply Rleb_true in E|apply Rleb_false in E]; split; split; intros; auto; try discriminate; lra.
  - destruct (Rleb F 0) eqn:E; [apply Rleb_true in E|apply Rleb_false in E]; split; split; intros; auto; try discriminate; lra.
Qed.
Print Assumptions C43_prediction.

(** Rows that cannot be told apart with balanced labels: training succeeds but
    every weight is zero, and every prediction is 0 / 0. *)
Lemma balanced_loop k : ada_loop tltree (tl_learn 1) tl_predict k [([0], 1%Z); ([0], (-1)%Z)] [1/2; 1/2] =
  Ok (repeat (TLeaf (-1)%Z, 0) k).
Proof.
  induction k as [|k IH]; simpl; auto.
  assert (El : leaf_label [([0], 1%Z, 1/2); ([0], (-1)%Z, 1/2)] = (-1)%Z).
  { unfold leaf_label, weight, rsum. simpl. unfold s_w. simpl. destruct (Rltb _ _) eqn:E; auto. apply Rltb_true in E. lra. }
  assert (Eh : tl_learn 1 [([0], 1%Z); ([0], (-1)%Z)] [1/2; 1/2] = Ok (TLeaf (-1)%Z)).
  { unfold tl_learn, tl_fit. simpl. now rewrite El. }
  unfold ada_round. rewrite Eh. cbn [bind].
  assert (Ee : weighted_error tltree tl_predict [([0], 1%Z); ([0], (-1)%Z)] [1/2; 1/2] (TLeaf (-1)%Z) = 1/2).
  { unfold weighted_error, rsum. simpl. lra. }
  unfold learner_weight. rewrite Ee. destruct (Rleb 1 (1/2)) eqn:E1; [apply Rleb_true in E1; lra|]. simpl bind.
  pose proof EPS_pos as EP. rewrite Rmax_left by lra. replace ((1 - 1/2) / (1/2)) with 1 by field. rewrite ln_1.
  replace (0 / 2) with 0 by lra. cbn [bind]. rewrite Ee.
  destruct (Rltb (1/2) (1/2)) eqn:E2; [apply Rltb_true in E2; lra|].
  destruct (Rltb (1/2) EPSILON) eqn:E3; [apply Rltb_true in E3; lra|]. cbn [orb].
  assert (Er : reweight tltree tl_predict [([0], 1%Z); ([0], (-1)%Z)] [1/2; 1/2] (TLeaf (-1)%Z) 0 = [1/2; 1/2]).
  { unfold reweight, rsum. simpl. rewrite !Rmult_0_r, exp_0. f_equal; [lra|f_equal; lra]. }
  rewrite Er, IH. reflexivity.
Qed.

Theorem C43_prediction_always_defined_refuted : exists D, D <> [] /\ plus_minus D /\ forall k, exists b,
  ada_fit tltree (tl_learn 1) tl_predict k D {| members := []; alpha_is_array := false |} = Ok b /\
  length (members tltree b) = k /\ forall r, ada_predict tltree tl_predict b r = Err NotANumber.
Proof.
  exists [([0], 1%Z); ([0], (-1)%Z)]. split; [discriminate|]. split.
  - intros p [<-|[<-|[]]]; simpl; auto.
  - intros k. unfold ada_fit. simpl. replace (uniform 2) with [1/2; 1/2] by reflexivity.
    rewrite balanced_loop. simpl. eexists. split; [reflexivity|]. split; [apply repeat_length|].
    intros r. apply C43_prediction. cbn [members]. unfold total. induction k as [|k IH]; [reflexivity|].
    cbn [repeat map fold_right snd]. rewrite IH. lra.
Qed.
Print Assumptions C43_prediction_always_defined_refuted.

Example C43_witness : forall k, exists b,
  ada_fit tltree (tl_learn 1) tl_predict k [([0], 1%Z); ([1], (-1)%Z)] {| members := []; alpha_is_array := false |} = Ok b /\
  forall k', (0 < k')%nat -> ada_fit tltree (tl_learn 1) tl_predict k' [([0], 1%Z); ([1], (-1)%Z)] b = Err AttributeError.
Proof.
  intros k. assert (P : plus_minus [([0], 1%Z); ([1], (-1)%Z)]) by (intros p [<-|[<-|[]]]; simpl; auto).
  destruct (C42_two_level_training 1 [([0], 1%Z); ([1], (-1)%Z)] k) as (b & es & F & _); [lia|discriminate|exact P|].
  exists b. split; [exact F|]. intros k' Hk. eapply C43_fit_fit; eauto. discriminate.
Qed.


Example C42_witness : exists b,
  ada_fit tltree (tl_learn 1) tl_predict 3 [([1], 1%Z); ([2], (-1)%Z); ([3], (-1)%Z)] {| members := []; alpha_is_array := false |} = Ok b /\
  plus_minus [([1], 1%Z); ([2], (-1)%Z); ([3], (-1)%Z)] /\
  distribution 3 (uniform 3) /\ 0 < total (map snd (members tltree b)).
Proof.
  assert (P : plus_minus [([1], 1%Z); ([2], (-1)%Z); ([3], (-1)%Z)]) by (intros p [<-|[<-|[<-|[]]]]; simpl; auto).
  destruct (fun N => C42_two_level_training 1 [([1], 1%Z); ([2], (-1)%Z); ([3], (-1)%Z)] 3 ltac:(lia) N P) as (b & es & E & Hr & He & Hf); [discriminate|].
  exists b. split; [exact E|]. split; [exact P|]. split; [apply uniform_dist; lia|].
  assert (K : exists m ms e es', members tltree b = m :: ms /\ es = e :: es' /\ e <= 1/3).
  { assert (G : forall h e, tl_learn 1 [([1], 1%Z); ([2], (-1)%Z); ([3], (-1)%Z)] (uniform 3) = Ok h ->
        error_of tltree tl_predict [([1], 1%Z); ([2], (-1)%Z); ([3], (-1)%Z)] (uniform 3) h e -> e <= 1/3).
    { intros h e Hl Hm. eapply (tl_error_main 1 _ h e (1/3 + 0) (1/3 + (1/3 + 0))) in Hl; [lra| |exact Hm| |].
      - intros s Hs. cbv [uniform repeat combine] in Hs. destruct Hs as [<-|[<-|[<-|[]]]]; unfold s_lab; simpl; auto.
      - cbv [uniform repeat combine]. replace (INR 3) with 3 by (simpl; lra). apply mass_in; [reflexivity|].
        apply mass_out; [discriminate|]. apply mass_out; [discriminate|]. constructor.
      - cbv [uniform repeat combine]. replace (INR 3) with 3 by (simpl; lra). apply mass_out; [discriminate|].
        apply mass_in; [reflexivity|]. apply mass_in; [reflexivity|]. constructor. }
    inversion Hr as [|k w h a e Hl Hm|k w h a e w' ms es' Hl Hm]; subst; do 4 eexists; split; try reflexivity; split; try reflexivity; eauto. }
  destruct K as (m & ms & e & es' & Em & Ees & Le). rewrite Em, Ees in Hf. rewrite Em.
  inversion Hf as [|m0 e0 ms0 es0 [H0 H1] H2]; subst. cbn [map]. unfold total. cbn [fold_right].
  assert (0 < snd m) by (destruct H0 as [|H0]; auto; assert (e = 1/2) by (apply H1; auto); lra).
  assert (0 <= fold_right Rplus 0 (map snd ms)); [|lra].
  clear - H2. induction H2 as [|m' e' ms es' [H _] _ IH]; simpl; lra.
Qed.
