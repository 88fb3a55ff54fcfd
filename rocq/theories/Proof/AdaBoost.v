(** Proofs for C41 to C43. *)
From Coq Require Import List ZArith Reals Bool Arith Lia Lra Psatz.
From Verif.Model Require Import Base Stump Ensemble.
From Verif.Spec Require Import Common Stump Ensemble.
From Verif.Proof Require Import BaseLemmas Counting Stump TwoLevel.
Import ListNotations.
Local Open Scope R_scope.

Lemma EPS_pos : 0 < EPSILON < 1/2.
Proof.
  unfold EPSILON. assert (1 < 10 ^ 36) by (apply Rlt_pow_R1; [lra|lia]).
  assert (10 <= 10 ^ 36). { change 36%nat with (S 35). rewrite <- tech_pow_Rmult. pose proof (pow_R1_Rle 10 35 ltac:(lra)). lra. }
  unfold Rdiv. rewrite !Rmult_1_l. split; [apply Rinv_0_lt_compat; lra|apply Rinv_lt_contravar; lra].
Qed.

Lemma exp_half_ln q : 0 < q -> exp (ln q / 2) = sqrt q.
Proof. intros H. rewrite <- Rpower_sqrt by auto. unfold Rpower. f_equal. lra. Qed.

Lemma sqrt_pull a b : 0 < a -> 0 < b -> a * sqrt (b / a) = sqrt (a * b).
Proof.
  intros Ha Hb. rewrite <- (sqrt_square a) at 1 by lra. rewrite <- sqrt_mult_alt by nra. f_equal. field. lra.
Qed.

Lemma combine_map_snd {A B} (f : A * B -> B) (l : list A) (m : list B) :
  combine l (map f (combine l m)) = map (fun p => (fst p, f p)) (combine l m).
Proof. revert m. induction l as [|a l IH]; intros [|b m]; simpl; auto. now rewrite IH. Qed.

Lemma combine_fst_snd {A B} (l : list A) (m : list B) : length m = length l ->
  map fst (combine l m) = l /\ map snd (combine l m) = m.
Proof. revert m. induction l as [|a l IH]; intros [|b m]; simpl; intros E; try discriminate; auto. destruct (IH m); [lia|]. split; congruence. Qed.

Lemma uniform_dist n : (0 < n)%nat -> distribution n (uniform n).
Proof.
  intros Hn. assert (0 < INR n) by now apply lt_0_INR. unfold uniform. split; [apply repeat_length|]. split.
  - intros v Hv. apply repeat_spec in Hv. subst. unfold Rdiv. rewrite Rmult_1_l. now apply Rinv_0_lt_compat.
  - assert (G : forall m c, total (repeat c m) = INR m * c).
    { induction m as [|m IH]; intros c; [simpl; lra|]. rewrite S_INR. simpl. unfold total in IH. rewrite IH. lra. }
    rewrite G. field. lra.
Qed.

Section AdaBoost.
Variable H : Type.
Variable learn : list (list R * Z) -> list R -> result H.
Variable answer : H -> list R -> Z.
Notation right := (right H answer).
Notation weighted_error := (weighted_error H answer).
Notation reweight := (reweight H answer).

Definition wrongb (h : H) (s : sample) : bool := negb (right h (fst s)).
Lemma wrongb_iff h s : wrongb h s = true <-> answer h (fst (fst s)) <> snd (fst s).
Proof. unfold wrongb, Ensemble.right. now rewrite negb_true_iff, Z.eqb_neq. Qed.

Lemma error_is D w h e : error_of H answer D w h e <-> e = weighted_error D w h.
Proof.
  unfold error_of. split.
  - intros Hm. apply (mass_is _ (wrongb h)) in Hm; [exact Hm|]. intros s _. apply wrongb_iff.
  - intros ->. apply (mass_filter _ (wrongb h)). intros s _. apply wrongb_iff.
Qed.

(** The sum after the multiplication. *)
Lemma split_sum h a (C : list sample) :
  rsum (map (fun p => snd p * exp ((if right h (fst p) then -1 else 1) * a)) C) =
  (weight C - weight (filter (wrongb h) C)) * exp (- a) + weight (filter (wrongb h) C) * exp a.
Proof.
  induction C as [|[p v] C IH]; [unfold weight, rsum; simpl; lra|].
  cbn [map filter]. replace (wrongb h (p, v)) with (negb (right h p)) by reflexivity.
  cbn [fst snd]. destruct (right h p); cbn [negb]; rewrite !weight_cons;
    change (s_w (p, v)) with v; unfold rsum in *; cbn [fold_right]; rewrite IH;
    [replace (-1 * a) with (-a) by lra|replace (1 * a) with a by lra]; ring.
Qed.

Lemma reweight_combine D w h a :
  combine D (reweight D w h a) =
  map (fun p => (fst p, snd p * exp ((if right h (fst p) then -1 else 1) * a) /
     rsum (map (fun p => snd p * exp ((if right h (fst p) then -1 else 1) * a)) (combine D w)))) (combine D w).
Proof. unfold Ensemble.reweight. cbv zeta. rewrite map_map. apply (combine_map_snd (fun p => _ / _)). Qed.

Lemma wsum_filter_map h c (C : list sample) (f : sample -> R) :
  (forall p, wrongb h p = true -> f p = s_w p * c) ->
  weight (filter (wrongb h) (map (fun p => (fst p, f p)) C)) = weight (filter (wrongb h) C) * c.
Proof.
  intros Hf. unfold weight, rsum. induction C as [|p C IH]; simpl; [lra|].
  assert (E : wrongb h (fst p, f p) = wrongb h p) by reflexivity. rewrite E.
  destruct (wrongb h p) eqn:W; auto. cbn [map fold_right]. rewrite IH. unfold s_w at 1. cbn [snd]. rewrite (Hf p W). lra.
Qed.

Section Round.
Variables (D : list (list R * Z)) (w : list R).
Hypothesis Hw : distribution (length D) w.

Lemma weight_one : weight (combine D w) = 1.
Proof.
  destruct Hw as (L & _ & T). unfold weight. replace (map s_w (combine D w)) with w; [exact T|].
  symmetry. now apply combine_fst_snd.
Qed.
Lemma weights_pos s : In s (combine D w) -> 0 < s_w s.
Proof. intros Hs. destruct s as [p v]. apply in_combine_r in Hs. now apply Hw. Qed.

Lemma D_nonempty : D <> [].
Proof. destruct Hw as (L & _ & T). intros ->. destruct w; [simpl in T; lra|discriminate]. Qed.

Lemma filter_weight (f g : sample -> bool) (C : list sample) : (forall s, In s C -> 0 < s_w s) ->
  (forall s, f s = true -> g s = true) -> 0 <= weight (filter f C) <= weight (filter g C).
Proof.
  intros Hp Hfg. unfold weight, rsum. induction C as [|s C IH]; simpl; [lra|].
  assert (IH' := IH ltac:(intros; apply Hp; simpl; auto)). assert (Hs := Hp s ltac:(simpl; auto)).
  destruct (f s) eqn:Ef; [rewrite (Hfg s Ef)|destruct (g s)]; simpl; lra.
Qed.

Lemma error_range h : 0 <= weighted_error D w h <= 1.
Proof.
  rewrite <- weight_one. change (weighted_error D w h) with (weight (filter (wrongb h) (combine D w))).
  replace (combine D w) with (filter (fun _ => true) (combine D w)) at 3.
  - apply filter_weight; auto. exact weights_pos.
  - clear. induction (combine D w); simpl; congruence.
Qed.

Definition znorm h a := rsum (map (fun p => snd p * exp ((if right h (fst p) then -1 else 1) * a)) (combine D w)).
Lemma znorm_eq h a : znorm h a = (1 - weighted_error D w h) * exp (- a) + weighted_error D w h * exp a.
Proof. unfold znorm. rewrite split_sum, weight_one. reflexivity. Qed.
Lemma znorm_pos h a : 0 < znorm h a.
Proof. rewrite znorm_eq. pose proof (error_range h). pose proof (exp_pos a). pose proof (exp_pos (-a)). nra. Qed.

Lemma reweight_dist h a : distribution (length D) (reweight D w h a).
Proof.
  pose proof (znorm_pos h a) as Z. destruct Hw as (L & P & T). unfold znorm in Z. split; [|split].
  - unfold Ensemble.reweight. rewrite !map_length, combine_length. lia.
  - intros v Hv. unfold Ensemble.reweight in Hv. cbv zeta in Hv. apply in_map_iff in Hv. destruct Hv as (u & <- & Hu).
    apply in_map_iff in Hu. destruct Hu as (s & <- & Hs). apply Rdiv_lt_0_compat; auto.
    apply Rmult_lt_0_compat; [now apply weights_pos|apply exp_pos].
  - unfold Ensemble.reweight. cbv zeta. change total with rsum. unfold Rdiv.
    rewrite rsum_map_scal_r, map_id. apply Rinv_r. lra.
Qed.

Lemma reweight_boosted h a : boosted H answer D h a w (reweight D w h a).
Proof.
  destruct (reweight_dist h a) as (L & _ & T). split; auto. split; auto.
  exists (znorm h a). split; [apply znorm_pos|]. intros i r l Hi.
  assert (E : nth i (reweight D w h a) 0 = nth i w 0 * exp ((if right h (r, l) then -1 else 1) * a) / znorm h a).
  { unfold Ensemble.reweight. cbv zeta.
    assert (Hc : nth_error (combine D w) i = Some ((r, l), nth i w 0)).
    { destruct Hw as (Lw & _). clear - Hi Lw. revert i w Lw Hi. induction D as [|d D' IH]; intros [|i] [|v w'] Lw Hi; simpl in *; try discriminate; try congruence. apply IH; auto; lia. }
    erewrite nth_error_nth; [|apply map_nth_error, map_nth_error, Hc]. reflexivity. }
  rewrite E. pose proof (znorm_pos h a). unfold Ensemble.right. cbn [fst snd]. split; intros A.
  - rewrite A, Z.eqb_refl. replace (-1 * a) with (-a) by lra. field. lra.
  - apply Z.eqb_neq in A. rewrite A. replace (1 * a) with a by lra. field. lra.
Qed.

Lemma new_error h e : e = weighted_error D w h -> EPSILON <= e < 1 ->
  weighted_error D (reweight D w h (ln ((1 - e) / Rmax e EPSILON) / 2)) h = 1 / 2.
Proof.
  intros He Hr. rewrite Rmax_left by lra. set (a := ln ((1 - e) / e) / 2).
  change (weight (filter (wrongb h) (combine D (reweight D w h a))) = 1/2).
  pose proof (znorm_pos h a) as Z. pose proof EPS_pos as EP.
  rewrite reweight_combine. rewrite (wsum_filter_map h (exp a / znorm h a)).
  2:{ intros p Hp. unfold wrongb in Hp. apply negb_true_iff in Hp. rewrite Hp. replace (1 * a) with a by lra. unfold s_w, Rdiv. unfold znorm. ring. }
  change (weighted_error D w h * (exp a / znorm h a) = 1/2). rewrite znorm_eq, <- He in *.
  assert (E1 : exp a = sqrt ((1 - e) / e)) by (apply exp_half_ln; apply Rdiv_lt_0_compat; lra).
  assert (E2 : exp (-a) = sqrt (e / (1 - e))).
  { rewrite exp_Ropp, E1, <- sqrt_inv. f_equal. field. lra. }
  assert (K : e * exp a = (1 - e) * exp (-a)).
  { rewrite E1, E2, !sqrt_pull by lra. f_equal. ring. }
  pose proof (exp_pos a). rewrite <- K. replace (e * (exp a / (e * exp a + e * exp a))) with (1/2); auto. field. nra.
Qed.
End Round.

(** The normalising constant is at most the shrink factor. *)
Lemma z_shrink e : 0 <= e < 1 -> let a := ln ((1 - e) / Rmax e EPSILON) / 2 in
  (1 - e) * exp (- a) + e * exp a <= shrink EPSILON e.
Proof.
  intros He a. pose proof EPS_pos. set (m := Rmax e EPSILON) in *.
  assert (Hm : e <= m) by apply Rmax_l. assert (0 < m) by (pose proof (Rmax_r e EPSILON); unfold m; lra).
  assert (E1 : exp a = sqrt ((1 - e) / m)) by (apply exp_half_ln; apply Rdiv_lt_0_compat; lra).
  assert (E2 : exp (-a) = sqrt (m / (1 - e))).
  { rewrite exp_Ropp, E1, <- sqrt_inv. f_equal. field. lra. }
  assert (K1 : m * exp a = sqrt (m * (1 - e))) by (rewrite E1; apply sqrt_pull; lra).
  assert (K2 : (1 - e) * exp (-a) = sqrt (m * (1 - e))).
  { rewrite E2, sqrt_pull by lra. f_equal. ring. }
  unfold shrink. fold m. pose proof (exp_pos a). rewrite K2. nra.
Qed.

Lemma shrink_less e : 0 <= e < 1/2 -> 0 < shrink EPSILON e < 1.
Proof.
  intros He. pose proof EPS_pos. unfold shrink. set (m := Rmax e EPSILON).
  assert (Hem : e <= m) by apply Rmax_l. assert (Hm : 0 < m < 1/2).
  { subst m. clear Hem. unfold Rmax. destruct (Rle_dec e EPSILON); lra. }
  assert (P : 0 < m * (1 - e) ). { apply Rmult_lt_0_compat; lra. }
  assert (EP : EPSILON <= 1/10). { unfold EPSILON. apply Rmult_le_reg_r with (10 ^ 36); [apply pow_lt; lra|].
    unfold Rdiv. rewrite Rmult_1_l, Rinv_l by (apply pow_nonzero; lra). change 36%nat with (S 35). rewrite <- tech_pow_Rmult.
    pose proof (pow_R1_Rle 10 35 ltac:(lra)). lra. }
  assert (P4 : m * (1 - e) < 1/4).
  { clear P Hm Hem. subst m. unfold Rmax. destruct (Rle_dec e EPSILON); [|nra].
    assert (EPSILON * (1 - e) <= EPSILON * 1) by (apply Rmult_le_compat_l; lra). lra. }
  split; [pose proof (sqrt_lt_R0 _ P); lra|].
  assert (sqrt (m * (1 - e)) < 1/2).
  { replace (1/2) with (sqrt (1/4)); [apply sqrt_lt_1; lra|]. replace (1/4) with (1/2 * (1/2)) by lra. apply sqrt_square. lra. }
  lra.
Qed.

(** ** Runs *)
Lemma loop_run D : forall k w ms, distribution (length D) w -> ada_loop H learn answer k D w = Ok ms ->
  exists es, run H answer D (fun w h => learn D w = Ok h) EPSILON k w ms es.
Proof.
  induction k as [|k IH]; intros w ms Hw; simpl; [intros E; injection E as <-; eexists; constructor|].
  unfold ada_round, learner_weight. destruct (learn D w) as [h|] eqn:El; simpl; [|discriminate].
  destruct (Rleb 1 _) eqn:E1; simpl; [discriminate|]. apply Rleb_false in E1.
  set (e := weighted_error D w h) in *. set (a := ln _ / 2).
  destruct (Rltb (1/2) e || Rltb e EPSILON) eqn:Es; simpl.
  - intros E; injection E as <-. exists [e]. apply run_stop; auto; [now apply error_is|].
    apply orb_true_iff in Es. rewrite !Rltb_true in Es. lra.
  - apply orb_false_iff in Es. destruct Es as [Es1 Es2]. apply Rltb_false in Es1, Es2.
    destruct (ada_loop _ _ _ k D _) as [rest|] eqn:Er; simpl; [|discriminate]. intros E; injection E as <-.
    destruct (IH _ _ (reweight_dist D w Hw h a) Er) as (es & Hes).
    exists (e :: es). eapply run_more; eauto; [now apply error_is|]. now apply reweight_boosted.
Qed.

Section Bound.
Variable D : list (list R * Z).
Hypothesis Hpm : plus_minus D.
Hypothesis Hans : forall w h r, learn D w = Ok h -> (answer h r = 1 \/ answer h r = -1)%Z.

Definition loss w (F : list R -> R) := rsum (map (fun s => s_w s * exp (- (IZR (s_lab s) * F (s_row s)))) (combine D w)).

Lemma loss_step w w' h a F z : (forall r, answer h r = 1 \/ answer h r = -1)%Z -> length w = length D -> length w' = length D ->
  (forall i r l, nth_error D i = Some (r, l) ->
    (answer h r = l -> nth i w' 0 * z = nth i w 0 * exp (- a)) /\
    (answer h r <> l -> nth i w' 0 * z = nth i w 0 * exp a)) ->
  loss w (fun r => a * IZR (answer h r) + F r) = z * loss w' F.
Proof.
  intros Hh. unfold loss, rsum. clear Hans. revert w w'. induction D as [|[r l] D' IH]; intros [|v w] [|v' w'] L L' E; try discriminate; [simpl; lra|].
  cbn [combine map fold_right]. rewrite (IH (fun p Hp => Hpm p (or_intror Hp)) w w').
  2,3: simpl in *; lia.
  2:{ intros i r0 l0 Hi. exact (E (S i) r0 l0 Hi). }
  unfold s_w, s_lab, s_row. cbn [fst snd].
  rewrite (Rmult_plus_distr_l z). apply f_equal2; [|reflexivity].
  destruct (E 0%nat r l eq_refl) as [Er Ew]. simpl in Er, Ew.
  replace (- (IZR l * (a * IZR (answer h r) + F r))) with (- (a * (IZR l * IZR (answer h r))) + - (IZR l * F r)) by ring.
  rewrite exp_plus. pose proof (Hpm (r, l) (or_introl eq_refl)) as Hl. simpl in Hl.
  destruct (Z.eq_dec (answer h r) l) as [A|A].
  - specialize (Er A). rewrite A. replace (a * (IZR l * IZR l)) with a by (destruct Hl as [-> | ->]; lra).
    rewrite <- Rmult_assoc, <- Er. ring.
  - specialize (Ew A). replace (- (a * (IZR l * IZR (answer h r)))) with a.
    + rewrite <- Rmult_assoc, <- Ew. ring.
    + destruct (Hh r) as [B|B]; destruct Hl as [-> | ->]; rewrite B in *; try congruence; lra.
Qed.

Lemma loss_ext w F G : (forall r, F r = G r) -> loss w F = loss w G.
Proof. intros E. unfold loss. f_equal. apply map_ext. intros s. now rewrite E. Qed.

Lemma loss_zero w : distribution (length D) w -> loss w (fun _ => 0) = 1.
Proof.
  intros Hw. rewrite <- (weight_one D w Hw). unfold loss, weight. f_equal. apply map_ext. intros s.
  rewrite Rmult_0_r, Ropp_0, exp_0. lra.
Qed.

Lemma boosted_z w w' h a z e : distribution (length D) w -> length w' = length D -> total w' = 1 ->
  (forall i r l, nth_error D i = Some (r, l) ->
    (answer h r = l -> nth i w' 0 * z = nth i w 0 * exp (- a)) /\
    (answer h r <> l -> nth i w' 0 * z = nth i w 0 * exp a)) -> e = weighted_error D w h ->
  z = (1 - e) * exp (- a) + e * exp a.
Proof.
  intros Hw L T E He. rewrite He, <- znorm_eq by auto. unfold znorm.
  assert (G : rsum (map (fun v => v * z) w') = z).
  { unfold rsum. change (fold_right Rplus 0) with rsum. rewrite rsum_map_scal_r, map_id. change rsum with total. rewrite T. lra. }
  rewrite <- G at 1. f_equal. destruct Hw as (Lw & _). clear - L Lw E.
  revert w w' L Lw E. induction D as [|[r l] D' IH]; intros [|v w] [|v' w'] L Lw E; try discriminate; auto.
  simpl. f_equal.
  - destruct (E 0%nat r l eq_refl) as [Er Ew]. simpl in Er, Ew. unfold Ensemble.right. simpl.
    destruct (Z.eqb_spec (answer h r) l) as [A|A]; [rewrite Er by auto; f_equal; f_equal; lra|rewrite Ew by auto; f_equal; f_equal; lra].
  - apply IH; simpl in *; try lia. intros i r0 l0 Hi. exact (E (S i) r0 l0 Hi).
Qed.

Lemma boosted_dist w w' h a : distribution (length D) w -> boosted H answer D h a w w' -> distribution (length D) w'.
Proof.
  intros (L & P & _) (L' & T & z & Hz & E). split; auto. split; auto. intros v Hv.
  destruct (In_nth w' v 0 Hv) as (i & Hi & <-). rewrite L' in Hi.
  destruct (nth_error D i) as [[r l]|] eqn:Ei; [|apply nth_error_None in Ei; lia].
  assert (Pi : 0 < nth i w 0) by (apply P, nth_In; lia).
  destruct (E i r l Ei) as [Er Ew]. pose proof (exp_pos a). pose proof (exp_pos (-a)).
  destruct (Z.eq_dec (answer h r) l) as [A|A]; [specialize (Er A)|specialize (Ew A)]; nra.
Qed.

Lemma run_loss k w ms es : distribution (length D) w -> run H answer D (fun w h => learn D w = Ok h) EPSILON k w ms es ->
  loss w (vote answer ms) <= product_of (map (shrink EPSILON) es).
Proof.
  intros Hw Hr. revert Hw. induction Hr as [w|k w h a e Hl He Ha Hs|k w h a e w' ms es Hl He Ha Hs Hb Hr IH]; intros Hw.
  - simpl. unfold vote. simpl. rewrite loss_zero; auto. lra.
  - apply error_is in He. pose proof (error_range D w Hw h) as Rg. rewrite <- He in Rg.
    pose proof (reweight_boosted D w Hw h a) as (L' & T' & z & Hz & E).
    rewrite (loss_ext _ _ (fun r => a * IZR (answer h r) + 0)) by (intros; unfold vote; simpl; lra).
    rewrite (loss_step w (reweight D w h a) h a (fun _ => 0) z); auto; [|intros; eapply Hans; eauto|apply Hw].
    rewrite loss_zero by now apply reweight_dist.
    assert (Ez : z = (1 - e) * exp (- a) + e * exp a) by (eapply boosted_z; eauto).
    simpl. pose proof EPS_pos.
    assert (e < 1) by (destruct Hs as [?|?]; lra).
    pose proof (z_shrink e ltac:(lra)) as Zs. simpl in Zs. rewrite <- Ha, <- Ez in Zs. lra.
  - apply error_is in He. pose proof (error_range D w Hw h) as Rg. rewrite <- He in Rg.
    pose proof (boosted_dist _ _ _ _ Hw Hb) as Hw'. specialize (IH Hw').
    destruct Hb as (L' & T' & z & Hz & E).
    rewrite (loss_ext _ _ (fun r => a * IZR (answer h r) + vote answer ms r)) by (intros; unfold vote; simpl; lra).
    rewrite (loss_step w w' h a _ z); auto; [|intros; eapply Hans; eauto|apply Hw].
    assert (Ez : z = (1 - e) * exp (- a) + e * exp a) by (exact (boosted_z w w' h a z e Hw L' T' E He)).
    pose proof (z_shrink e ltac:(lra)) as Zs. simpl in Zs. rewrite <- Ha, <- Ez in Zs. simpl.
    apply Rmult_le_compat; auto; try lra. unfold loss. apply rsum_nonneg.
    intros v Hv. apply in_map_iff in Hv. destruct Hv as (s & <- & Hs').
    apply Rmult_le_pos; [left; now apply (weights_pos D w' Hw')|left; apply exp_pos].
Qed.

Lemma wrong_loss n w F : distribution (length D) w ->
  how_many (fun p => IZR (snd p) * F (fst p) <= 0) D n -> w = uniform (length D) ->
  INR n / INR (length D) <= loss w F.
Proof.
  intros Hw Hn ->. unfold loss, uniform. set (c := 1 / INR (length D)).
  assert (Hc : 0 < c).
  { assert (0 < INR (length D)) by (apply lt_0_INR; pose proof (D_nonempty D _ Hw); destruct D; simpl; [congruence|lia]).
    unfold c. apply Rdiv_lt_0_compat; lra. }
  replace (INR n / INR (length D)) with (INR n * c) by (unfold c, Rdiv; ring).
  clearbody c. clear Hw Hpm Hans. induction Hn as [|p l n Hp Hn IH|p l n Hp Hn IH].
  - simpl. lra.
  - rewrite S_INR. cbn [length repeat combine map]. unfold rsum in *. cbn [fold_right]. unfold s_w at 1, s_lab at 1, s_row at 1. cbn [fst snd].
    assert (1 <= exp (- (IZR (snd p) * F (fst p)))).
    { rewrite <- exp_0 at 1. destruct Hp as [Hp|Hp]; [left; apply exp_increasing; lra|rewrite Hp, Ropp_0; lra]. }
    nra.
  - cbn [length repeat combine map]. unfold rsum in *. cbn [fold_right]. unfold s_w at 1, s_lab at 1, s_row at 1. cbn [fst snd].
    pose proof (exp_pos (- (IZR (snd p) * F (fst p)))). nra.
Qed.
End Bound.

(** ** Prediction *)
Lemma predict_cases b r : let F := vote answer (members H b) r in let N := total (map snd (members H b)) in
  (N = 0 -> ada_predict H answer b r = Err NotANumber) /\
  (0 < N -> ada_predict H answer b r = Ok (if Rleb 0 F then 1 else -1)%Z) /\
  (N < 0 -> ada_predict H answer b r = Ok (if Rleb F 0 then 1 else -1)%Z).
Proof.
  intros F N. unfold ada_predict. change (rsum (map snd (members H b))) with N.
  change (rsum (map (fun m => snd m * IZR (answer (fst m) r)) (members H b))) with F. cbv zeta.
  split; [|split]; intros HN.
  - replace (Reqb N 0) with true; auto. symmetry. now apply Reqb_true.
  - destruct (Reqb N 0) eqn:E; [apply Reqb_true in E; lra|]. f_equal.
    assert (K : 0 <= F / N <-> 0 <= F).
    { split; intros. - replace F with (F / N * N) by (field; lra). nra. - apply Rmult_le_pos; auto. left. now apply Rinv_0_lt_compat. }
    destruct (Rleb 0 (F/N)) eqn:A, (Rleb 0 F) eqn:B; auto; [apply Rleb_true in A; apply Rleb_false in B|apply Rleb_false in A; apply Rleb_true in B]; apply K in A || apply K in B; lra.
  - destruct (Reqb N 0) eqn:E; [apply Reqb_true in E; lra|]. f_equal.
    assert (K : 0 <= F / N <-> F <= 0).
    { split; intros. - replace F with (F / N * N) by (field; lra). nra. - replace (F/N) with ((-F) * / (-N)) by (field; lra). apply Rmult_le_pos; [lra|]. left. apply Rinv_0_lt_compat. lra. }
    destruct (Rleb 0 (F/N)) eqn:A, (Rleb F 0) eqn:B; auto; [apply Rleb_true in A; apply Rleb_false in B|apply Rleb_false in A; apply Rleb_true in B]; apply K in A || apply K in B; lra.
Qed.

(** ** Main statements *)
Definition fresh : adaboost H := {| members := []; alpha_is_array := false |}.

Lemma round_dist D w h a w' : distribution (length D) w -> ada_round H learn answer D w = Ok (h, a, w') ->
  distribution (length D) w'.
Proof.
  intros Hw. unfold ada_round. destruct (learn D w) as [h0|]; simpl; [|discriminate].
  destruct (learner_weight _) as [a0|]; simpl; [|discriminate]. intros E.
  assert (w' = reweight D w h0 a0) by congruence. subst w'. now apply reweight_dist.
Qed.

Lemma weights_dist D : D <> [] -> forall n w, ada_weights H learn answer n D (uniform (length D)) = Ok w -> distribution (length D) w.
Proof.
  intros HD n. assert (Hw : distribution (length D) (uniform (length D))) by (apply uniform_dist; destruct D; [congruence|simpl; lia]).
  revert Hw. generalize (uniform (length D)). induction n as [|n IH]; intros v Hv w; simpl; [intros E; injection E as <-; auto|].
  destruct (ada_round _ _ _ D v) as [[[h a] v']|] eqn:E; simpl; [|discriminate]. apply IH. eapply round_dist; eauto.
Qed.

Lemma round_main D w h a w' e : distribution (length D) w -> ada_round H learn answer D w = Ok (h, a, w') ->
  error_of H answer D w h e ->
  learn D w = Ok h /\ e < 1 /\ a = ln ((1 - e) / Rmax e EPSILON) / 2 /\ boosted H answer D h a w w' /\
  (EPSILON <= e -> error_of H answer D w' h (1/2)).
Proof.
  intros Hw E He. apply error_is in He. unfold ada_round in E. destruct (learn D w) as [h0|] eqn:El; simpl in E; [|discriminate].
  unfold learner_weight in E. destruct (Rleb 1 _) eqn:E1; simpl in E; [discriminate|]. apply Rleb_false in E1.
  assert (h = h0) by congruence. subst h0. rewrite <- He in *.
  assert (Ea : a = ln ((1 - e) / Rmax e EPSILON) / 2) by congruence.
  assert (Ew : w' = reweight D w h a) by congruence. split; auto. split; auto. split; auto.
  split; [rewrite Ew; now apply reweight_boosted|]. intros Hl. apply error_is. rewrite Ew, Ea. symmetry. apply new_error; auto.
Qed.

Lemma fit_run k D b : D <> [] -> ada_fit H learn answer k D fresh = Ok b ->
  alpha_is_array H b = true /\
  exists es, run H answer D (fun w h => learn D w = Ok h) EPSILON k (uniform (length D)) (members H b) es.
Proof.
  intros HD. unfold ada_fit. simpl. destruct (ada_loop _ _ _ k D _) as [ms|] eqn:E; simpl; [|discriminate].
  intros Eb. assert (Eb' : b = {| members := ms; alpha_is_array := true |}) by congruence. subst b. split; auto.
  apply loop_run in E; auto. apply uniform_dist. destruct D; [congruence|simpl; lia].
Qed.

Lemma training_bound k D b n : D <> [] -> plus_minus D ->
  (forall w h r, learn D w = Ok h -> answer h r = 1 \/ answer h r = -1)%Z ->
  ada_fit H learn answer k D fresh = Ok b -> 0 < total (map snd (members H b)) ->
  how_many (fun p => exists l, ada_predict H answer b (fst p) = Ok l /\ l <> snd p) D n ->
  exists es, run H answer D (fun w h => learn D w = Ok h) EPSILON k (uniform (length D)) (members H b) es /\
    INR n / INR (length D) <= product_of (map (shrink EPSILON) es).
Proof.
  intros HD Hpm Hans Hf HN Hn. destruct (fit_run k D b HD Hf) as (_ & es & Hr). exists es. split; auto.
  assert (Hw : distribution (length D) (uniform (length D))) by (apply uniform_dist; destruct D; [congruence|simpl; lia]).
  set (F := vote answer (members H b)).
  apply Rle_trans with (INR (count (fun p => Rleb (IZR (snd p) * F (fst p)) 0) D) / INR (length D)).
  - apply Rmult_le_compat_r; [left; apply Rinv_0_lt_compat, lt_0_INR; destruct D; [congruence|simpl; lia]|].
    apply le_INR. clear Hr Hf Hw Hans HD. induction Hn as [|p l n Hp Hn IH|p l n Hp Hn IH]; unfold count in *; simpl; [lia| |].
    + specialize (IH (fun q Hq => Hpm q (or_intror Hq))). destruct Hp as (v & Ev & Nv).
      destruct (predict_cases b (fst p)) as (_ & Hpos & _). rewrite (Hpos HN) in Ev. fold F in Ev.
      replace (Rleb (IZR (snd p) * F (fst p)) 0) with true; [simpl; lia|]. symmetry. apply Rleb_true.
      assert (Hv : v = (if Rleb 0 (F (fst p)) then 1 else -1)%Z) by congruence.
      pose proof (Hpm p (or_introl eq_refl)) as Hl.
      destruct (Rleb 0 (F (fst p))) eqn:A; [apply Rleb_true in A|apply Rleb_false in A]; destruct Hl as [Hl|Hl]; rewrite Hl in *; try congruence; lra.
    + specialize (IH (fun q Hq => Hpm q (or_intror Hq))). destruct (Rleb _ 0); simpl; lia.
  - eapply Rle_trans; [|exact (run_loss D Hpm Hans k _ _ _ Hw Hr)].
    apply wrong_loss; auto. apply hm_count. intros p _. apply Rleb_true.
Qed.

(** With learners of error at most 1/2. *)
Lemma run_half D k w ms es : distribution (length D) w ->
  (forall w h e, distribution (length D) w -> learn D w = Ok h -> error_of H answer D w h e -> e <= 1/2) ->
  run H answer D (fun w h => learn D w = Ok h) EPSILON k w ms es ->
  Forall (fun e => 0 <= e <= 1/2) es /\ Forall2 (fun m e => 0 <= snd m /\ (snd m = 0 <-> e = 1/2)) ms es.
Proof.
  intros Hw Hh Hr. revert Hw.
  assert (G : forall e, 0 <= e <= 1/2 -> let a := ln ((1 - e) / Rmax e EPSILON) / 2 in 0 <= a /\ (a = 0 <-> e = 1/2)).
  { intros e He a. pose proof EPS_pos. set (m := Rmax e EPSILON) in *.
    assert (Hm : 0 < m <= 1/2 /\ e <= m).
    { subst m. unfold Rmax. destruct (Rle_dec e EPSILON); lra. }
    assert (Q : 1 <= (1 - e) / m). { apply Rmult_le_reg_r with m; [lra|]. replace ((1 - e) / m * m) with (1 - e) by (field; lra). lra. }
    assert (Hln : 0 <= ln ((1 - e) / m)) by (rewrite <- ln_1; destruct Q as [Q|Q]; [left; apply ln_increasing; lra|rewrite <- Q; lra]).
    split; [unfold a; lra|]. split.
    - intros Ha. assert (L0 : ln ((1 - e) / m) = ln 1) by (rewrite ln_1; unfold a in Ha; lra).
      apply ln_inv in L0; [|lra|lra]. assert (1 - e = m) by (replace (1 - e) with ((1 - e) / m * m) by (field; lra); rewrite L0; lra). lra.
    - intros Ee. assert (Em : m = 1/2) by lra. unfold a. rewrite Em, Ee. replace ((1 - 1/2) / (1/2)) with 1 by field. rewrite ln_1. lra. }
  induction Hr as [w|k w h a e Hl He Ha Hs|k w h a e w' ms es Hl He Ha Hs Hb Hr IH]; intros Hw; auto.
  - assert (E1 := Hh w h e Hw Hl He). apply error_is in He. pose proof (error_range D w Hw h) as Rg. rewrite <- He in Rg.
    split; constructor; auto; [lra|]. simpl. rewrite Ha. apply G. lra.
  - assert (E1 := Hh w h e Hw Hl He). apply error_is in He. pose proof (error_range D w Hw h) as Rg. rewrite <- He in Rg.
    destruct (IH (boosted_dist D _ _ _ _ Hw Hb)) as [I1 I2].
    split; constructor; auto; [lra|]. simpl. rewrite Ha. apply G. lra.
Qed.

Lemma refit D k b : alpha_is_array H b = true -> (0 < k)%nat -> D <> [] ->
  (forall w h, distribution (length D) w -> learn D w = Ok h -> forall e, error_of H answer D w h e -> e < 1) ->
  (exists e, ada_fit H learn answer k D b = Err e) /\
  ((exists h, learn D (uniform (length D)) = Ok h) -> ada_fit H learn answer k D b = Err AttributeError).
Proof.
  intros Hb Hk HD He. unfold ada_fit. rewrite Hb. destruct k as [|k]; [lia|]. simpl.
  assert (Hw : distribution (length D) (uniform (length D))) by (apply uniform_dist; destruct D; [congruence|simpl; lia]).
  unfold ada_round. destruct (learn D _) as [h|e] eqn:El; simpl.
  - unfold learner_weight. specialize (He _ _ Hw El _ (proj2 (error_is _ _ _ _) eq_refl)).
    destruct (Rleb 1 _) eqn:E1; [apply Rleb_true in E1; lra|]. simpl. eauto.
  - split; eauto. intros [h E]. discriminate.
Qed.
End AdaBoost.

(** ** The default base learner *)
Lemma tl_wpm D w : distribution (length D) w -> plus_minus D -> weighted_plus_minus (combine D w).
Proof.
  intros Hw Hpm s Hs. split; [|now apply (weights_pos D w Hw)]. destruct s as [p v]. apply in_combine_l in Hs. now apply Hpm.
Qed.

Lemma tl_generate_pm nf n : forall D t r, tl_generate n nf D = Ok t -> (tl_predict t r = 1 \/ tl_predict t r = -1)%Z.
Proof.
  assert (L : forall D, (leaf_label D = 1 \/ leaf_label D = -1)%Z) by (intros D; unfold leaf_label; destruct (Rltb _ _); auto).
  induction n as [|n IH]; intros D t r; simpl.
  - intros E; injection E as <-. apply L.
  - destruct (length D <=? 2)%nat; [intros E; injection E as <-; apply L|].
    destruct (choose_feature nf D) as [[j p]|]; [|discriminate].
    destruct (tl_generate n nf (up j p D)) as [u|] eqn:Eu; simpl; [|discriminate].
    destruct (tl_generate n nf (low j p D)) as [l|] eqn:El; simpl; [|discriminate].
    intros E; injection E as <-. simpl. destruct (Rleb _ _); eauto.
Qed.

Lemma tl_half nf D w h e : plus_minus D -> distribution (length D) w -> tl_learn nf D w = Ok h ->
  error_of tltree tl_predict D w h e -> e <= 1/2.
Proof.
  intros Hpm Hw Hl He. pose proof (tl_wpm D w Hw Hpm) as Hwp.
  destruct (tl_error_main nf (combine D w) h e (wpos (combine D w)) (wneg (combine D w))) as [A B]; auto.
  - intros s Hs. now apply Hwp.
  - apply mass_filter. intros s _. unfold lab_is, s_lab. apply Z.eqb_eq.
  - apply mass_filter. intros s _. unfold lab_is, s_lab. apply Z.eqb_eq.
  - pose proof (pos_neg _ Hwp) as P. rewrite (weight_one D w Hw) in P. lra.
Qed.

Lemma tl_loop_total nf D k : (1 <= nf)%nat -> plus_minus D -> forall w, distribution (length D) w ->
  exists ms, ada_loop tltree (tl_learn nf) tl_predict k D w = Ok ms.
Proof.
  intros Hnf Hpm. induction k as [|k IH]; intros w Hw; simpl; [eauto|].
  destruct (tl_total nf Hnf 2 (combine D w) (tl_wpm D w Hw Hpm)) as (h & Eh).
  assert (El : tl_learn nf D w = Ok h) by exact Eh. unfold ada_round. rewrite El. simpl. unfold learner_weight.
  pose proof (tl_half nf D w h _ Hpm Hw El (proj2 (error_is tltree tl_predict D w h _) eq_refl)) as L.
  destruct (Rleb 1 _) eqn:E1; [apply Rleb_true in E1; lra|]. simpl.
  destruct (Rltb (1/2) _ || Rltb _ EPSILON); simpl; [eauto|].
  match goal with |- context [ada_loop _ _ _ k D ?v] => destruct (IH v) as (ms & ->); [now apply reweight_dist|] end.
  simpl. eauto.
Qed.

Lemma tl_fit_main nf D k : (1 <= nf)%nat -> D <> [] -> plus_minus D ->
  exists b es, ada_fit tltree (tl_learn nf) tl_predict k D (fresh tltree) = Ok b /\
    run tltree tl_predict D (fun w h => tl_learn nf D w = Ok h) EPSILON k (uniform (length D)) (members tltree b) es /\
    Forall (fun e => 0 <= e <= 1/2) es /\
    Forall2 (fun m e => 0 <= snd m /\ (snd m = 0 <-> e = 1/2)) (members tltree b) es.
Proof.
  intros Hnf HD Hpm.
  assert (Hw : distribution (length D) (uniform (length D))) by (apply uniform_dist; destruct D; [congruence|simpl; lia]).
  destruct (tl_loop_total nf D k Hnf Hpm _ Hw) as (ms & E).
  destruct (loop_run _ _ _ D k _ ms Hw E) as (es & Hr).
  exists {| members := ms; alpha_is_array := true |}, es. split; [unfold ada_fit; simpl; now rewrite E|]. split; auto.
  apply (run_half _ (tl_learn nf) tl_predict D k (uniform (length D))); auto. intros. eapply tl_half; eauto.
Qed.
