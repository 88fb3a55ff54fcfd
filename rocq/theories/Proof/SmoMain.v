(** Closed statements about SVM training. *)
From Coq Require Import List ZArith Reals Lra Lia Bool Arith Permutation Sorted.
From Verif.Model Require Import Base Ops Kernels Smo.
From Verif.Spec Require Import Common Smo.
From Verif.Proof Require Import BaseLemmas Ops Smo Kernels SmoExample.
Import ListNotations.
Local Open Scope R_scope.

Lemma every_moment K x y C s :
  length x = length y -> pm_labels y -> 0 <= C -> reached K x y C s -> feasible C y (alphas s).
Proof. intros H P HC R. exact (g_feas _ _ _ (reached_good K x y C (fun _ => []) H P HC s R)). Qed.

Lemma perms_valid x (y : list R) perms : length x = length y -> permutations_of (@length (list R) x) perms -> valid_perms y perms.
Proof. intros H HP d j Hj. apply (Permutation_in j (HP d)) in Hj. apply in_seq in Hj. lia. Qed.

Lemma training_history K x y C tol perms fuel epochs s :
  length x = length y -> pm_labels y -> 0 <= C -> permutations_of (length x) perms ->
  smo_run K x y C tol perms fuel epochs = Ok s -> reached K x y C s /\ feasible C y (alphas s).
Proof.
  intros H P HC HP R. assert (Q : reached K x y C s) by (eapply run_reached; eauto using perms_valid).
  split; auto. eapply every_moment; eauto.
Qed.

Lemma training_ends K x y C tol perms epochs :
  (0 <= epochs)%Z -> exists s, smo_run K x y C tol perms (S (Z.to_nat epochs)) epochs = Ok s.
Proof. intros H. apply loop_total; lia. Qed.

Lemma flags_agree K x y C s :
  length x = length y -> pm_labels y -> 0 <= C -> reached K x y C s ->
  forall m, (m < length x)%nat ->
    (nth m (non_zero s) false = true <-> 0 < nth m (alphas s) 0) /\
    (nth m (non_bound s) false = true <-> 0 < nth m (alphas s) 0 < C).
Proof.
  intros H P HC R m Hm. pose proof (reached_good K x y C (fun _ => []) H P HC s R) as G. rewrite H in Hm.
  split; [apply (g_nz _ _ _ G)|apply (g_nb _ _ _ G)]; auto.
Qed.

Lemma nonzero_sorted flags : StronglySorted lt (nonzero flags).
Proof.
  induction flags as [|b flags IH] using rev_ind; [constructor|]. rewrite nonzero_app. destruct b; [|now rewrite app_nil_r].
  assert (A : Forall (fun m => (m < length flags)%nat) (nonzero flags)) by (apply Forall_forall; apply nonzero_lt).
  revert IH A. generalize (length flags). induction (nonzero flags) as [|m l IHl]; intros k S A; simpl.
  - constructor; constructor.
  - inversion S as [|? ? S1 S2]; subst. inversion A as [|? ? A1 A2]; subst. constructor; auto.
    apply Forall_app. split; auto.
Qed.

Lemma support_set K x y C tol perms fuel epochs m :
  length x = length y -> pm_labels y -> 0 <= C -> permutations_of (length x) perms ->
  svc_fit K x y C tol perms fuel epochs = Ok m ->
  exists al, feasible C y al /\
    (forall k, In k (support m) <-> (k < length x)%nat /\ 0 < nth k al 0) /\
    StronglySorted lt (support m) /\
    support_vector m = map (fun k => nth k x []) (support m) /\
    support_alpha m = map (fun k => nth k al 0) (support m) /\
    support_y m = map (fun k => nth k y 0) (support m) /\
    Forall (fun a => 0 < a <= C) (support_alpha m) /\
    total (map (fun p => fst p * snd p) (combine (support_alpha m) (support_y m))) = 0.
Proof.
  intros H P HC HP F. unfold svc_fit in F. apply bind_Ok in F. destruct F as (s & R & F). injection F as <-.
  destruct (training_history _ _ _ _ _ _ _ _ _ H P HC HP R) as (Rs & Fe).
  pose proof (reached_good K x y C (fun _ => []) H P HC s Rs) as G.
  exists (alphas s). split; auto.
  assert (S : forall k, In k (nonzero (non_zero s)) <-> (k < length x)%nat /\ 0 < nth k (alphas s) 0).
  { intros k. rewrite nonzero_In. split.
    - intros E. assert (L : (k < length y)%nat). { destruct (Nat.lt_ge_cases k (length y)); auto. rewrite nth_overflow in E; [discriminate|]. rewrite (g_nz_len _ _ _ G). auto. }
      split; [lia|]. now apply (g_nz _ _ _ G).
    - intros (L & A). apply (g_nz _ _ _ G); auto. lia. }
  simpl. split; [exact S|]. split; [apply nonzero_sorted|]. repeat (split; [reflexivity|]). split.
  - apply Forall_forall. intros a Ha. apply in_map_iff in Ha. destruct Ha as (k & <- & Hk). apply S in Hk.
    destruct Fe as (_ & HB & _). destruct Hk as (Lk & Hk). specialize (HB k ltac:(lia)). lra.
  - rewrite combine_map_same, map_map. simpl. change total with rsum. rewrite sum_nonzero, (g_nz_len _ _ _ G).
    destruct Fe as (_ & HB & HS). refine (eq_trans _ HS). apply sum_below_ext. intros k Hk.
    destruct (nth k (non_zero s) false) eqn:E; [reflexivity|].
    assert (~ 0 < nth k (alphas s) 0) by (intros Q; apply (g_nz _ _ _ G k Hk) in Q; congruence).
    specialize (HB k Hk). assert (Z : nth k (alphas s) 0 = 0) by lra. rewrite Z. ring.
Qed.

Lemma exact_update K x y C s i j s' :
  length x = length y -> pm_labels y -> 0 <= C -> symmetric K -> reached K x y C s ->
  (i < length x)%nat -> (j < length x)%nat ->
  let e := exact_error K x y (alphas s) (bias s) in
  update_alpha K x y C s i j (e i) (e j) = Some s' ->
  (forall al, differ_at i j (alphas s) al -> feasible C y al -> dual K x y al <= dual K x y (alphas s')) /\
  dual K x y (alphas s) < dual K x y (alphas s') /\
  differ_at i j (alphas s) (alphas s').
Proof.
  intros H P HC Sy R Hi Hj e U. pose proof (reached_good K x y C (fun _ => []) H P HC s R) as G. rewrite H in Hi, Hj.
  destruct (update_optimal K x y C H P s i j s' Sy G Hi Hj U) as (A & B). split; auto. split; auto.
  destruct (update_pair K x y C _ _ _ _ _ _ U) as (eta & low & high & aj' & ai' & PU).
  apply (differ_update K x y C _ _ _ _ _ _ _ _ _ _ _ G Hi Hj PU).
Qed.

Lemma fresh_errors K x y C s i :
  length x = length y -> pm_labels y -> 0 <= C -> reached K x y C s ->
  calculate_error K x y i (alphas s) (non_zero s) (bias s) = exact_error K x y (alphas s) (bias s) i.
Proof. intros H P HC R. apply (good_error K x y C H). exact (reached_good K x y C (fun _ => []) H P HC s R). Qed.

Lemma cache_after_update K x y C s i j ei ej s' k :
  length x = length y -> pm_labels y -> 0 <= C -> reached K x y C s ->
  (i < length x)%nat -> (j < length x)%nat -> (k < length x)%nat ->
  update_alpha K x y C s i j ei ej = Some s' ->
  nth k (error_cache s') 0 =
  if nth k (non_bound s) false then
    exact_error K x y (alphas s') (bias s') k
    - (if nth i (non_zero s) false then 0 else nth i (alphas s') 0 * nth i y 0 * K (nth i x []) (nth k x []))
    - (if nth j (non_zero s) false then 0 else nth j (alphas s') 0 * nth j y 0 * K (nth j x []) (nth k x []))
  else nth k (error_cache s) 0.
Proof.
  intros H P HC R Hi Hj Hk U. rewrite H in Hi, Hj, Hk.
  exact (cache_after K x y C (fun _ => []) H s i j ei ej s' k (reached_good K x y C (fun _ => []) H P HC s R) Hi Hj U Hk).
Qed.

Lemma ex_labels : pm_labels ex_y.
Proof. intros m Hm. simpl in Hm. destruct m as [|[|[|m]]]; simpl; auto; lia. Qed.
Lemma ex_permutations : permutations_of 3 ex_perms.
Proof. intros d. simpl. unfold ex_perms. apply perm_skip. apply perm_swap. Qed.
Lemma ex_reached : reached linear ex_x ex_y 2 ex_2.
Proof.
  eapply (reached_update _ _ _ _ ex_1 1 0); [|simpl; lia|simpl; lia|exact ex_step2].
  eapply (reached_update _ _ _ _ (smo_init ex_x) 0 2); [apply reached_start|simpl; lia|simpl; lia|exact ex_step1].
Qed.

Lemma dual_lowered : exists x y C tol perms s d s' d',
  length x = length y /\ pm_labels y /\ 0 < C /\ permutations_of (length x) perms /\
  pass linear x y C tol perms (seq 0 (length x)) (smo_init x, 0%nat) = ((s, d), 2%nat) /\
  update_parameters linear x y C tol perms (s, d) 0 = ((s', d'), true) /\
  nth 0 (error_cache s) 0 <> exact_error linear x y (alphas s) (bias s) 0 /\
  dual linear x y (alphas s') < dual linear x y (alphas s).
Proof.
  exists ex_x, ex_y, 2, (1 / 1000), ex_perms, ex_2, 1%nat, ex_3, 1%nat.
  split; [reflexivity|]. split; [exact ex_labels|]. split; [lra|]. split; [exact ex_permutations|].
  split; [exact ex_pass|]. split; [exact ex_next|]. split; [rewrite ex_exact; simpl; lra|].
  destruct ex_duals as (-> & ->). lra.
Qed.

Lemma ex_exact_update : exists s', reached linear ex_x ex_y 2 (smo_init ex_x) /\
  update_alpha linear ex_x ex_y 2 (smo_init ex_x) 0 2 (exact_error linear ex_x ex_y (alphas (smo_init ex_x)) 0 0)
    (exact_error linear ex_x ex_y (alphas (smo_init ex_x)) 0 2) = Some s'.
Proof.
  exists ex_1. split; [apply reached_start|].
  replace (exact_error linear ex_x ex_y (alphas (smo_init ex_x)) 0 0) with 1 by (unfold exact_error, decision, sum_below, linear; simpl; lra).
  replace (exact_error linear ex_x ex_y (alphas (smo_init ex_x)) 0 2) with (-1) by (unfold exact_error, decision, sum_below, linear; simpl; lra).
  exact ex_step1.
Qed.

Lemma kernels_symmetric gamma degree beta theta :
  symmetric linear /\ symmetric (polynomial gamma degree) /\ symmetric (rbf gamma) /\ symmetric (sigmoid_kernel gamma beta theta).
Proof. auto using linear_sym, polynomial_sym, rbf_sym, sigmoid_sym. Qed.
Lemma rbf_values gamma a b : 0 <= gamma -> 0 < rbf gamma a b <= 1 /\ rbf gamma a a = 1.
Proof. auto using rbf_range, rbf_diag. Qed.
Lemma kernels_psd gamma degree : 0 <= gamma ->
  positive_semidefinite linear /\ positive_semidefinite (polynomial gamma degree) /\ positive_semidefinite (rbf gamma).
Proof. auto using linear_psd, polynomial_psd, rbf_psd. Qed.
Lemma kernels_curvature gamma degree a b : 0 <= gamma -> length a = length b ->
  0 <= curvature linear a b /\ 0 <= curvature (polynomial gamma degree) a b /\ 0 <= curvature (rbf gamma) a b /\
  (a <> b -> 0 < curvature linear a b) /\ (0 < gamma -> a <> b -> 0 < curvature (rbf gamma) a b).
Proof.
  intros Hg H. destruct (kernels_psd gamma degree Hg) as (A & B & D).
  repeat split; try (apply psd_curvature; auto using linear_sym, polynomial_sym, rbf_sym); auto using linear_curvature_pos, rbf_curvature_pos.
Qed.
Lemma sigmoid_refuted : exists a b, length a = length b /\ curvature (sigmoid_kernel 1 1 (-1)) a b < 0.
Proof. exists [1], [2]. split; [reflexivity|exact sigmoid_curvature_neg]. Qed.
Lemma gram_example : gram_form linear [1; -1] [[1]; [3]] = 4.
Proof. unfold gram_form, sum_below, linear. simpl. ring. Qed.

Lemma support_suffices K x y C tol perms fuel epochs m :
  length x = length y -> pm_labels y -> 0 <= C -> symmetric K -> permutations_of (length x) perms ->
  svc_fit K x y C tol perms fuel epochs = Ok m ->
  exists al b, feasible C y al /\ forall q,
    svc_decision K m q = decision K x y al b q /\
    (decision K x y al b q < 0 -> svc_predict K m q = (-1)%Z) /\
    (0 <= decision K x y al b q -> svc_predict K m q = 1%Z).
Proof.
  intros H P HC Sy HP F. unfold svc_fit in F. apply bind_Ok in F. destruct F as (s & R & F). injection F as <-.
  destruct (training_history _ _ _ _ _ _ _ _ _ H P HC HP R) as (Rs & Fe).
  exists (alphas s), (bias s). split; auto. intros q.
  pose proof (decision_support K x y C H s q Sy (reached_good K x y C (fun _ => []) H P HC s Rs)) as E. split; auto.
  unfold svc_predict. rewrite E. split; intros L.
  - now rewrite (proj2 (Rltb_true _ _) L).
  - now rewrite (proj2 (Rltb_false _ _) L).
Qed.
Lemma ex_predict : exists m, svc_fit linear ex_x ex_y 2 (1 / 1000) ex_perms 1 0 = Ok m /\ svc_predict linear m [1] = 1%Z.
Proof.
  eexists. split; [reflexivity|]. unfold svc_predict, svc_decision. simpl. rewrite (proj2 (Rltb_false _ _)) by lra. reflexivity.
Qed.

Lemma converged_run K x y C tol perms fuel s :
  length x = length y -> pm_labels y -> 0 <= C -> permutations_of (length x) perms ->
  smo_run K x y C tol perms fuel (-1) = Ok s ->
  forall i, (i < length x)%nat ->
  let e := if nth i (non_bound s) false then nth i (error_cache s) 0 else exact_error K x y (alphas s) (bias s) i in
  kkt C tol (nth i y 0) (nth i (alphas s) 0) e \/
  forall j, (j < length x)%nat -> update_alpha K x y C s i j e (exact_error K x y (alphas s) (bias s) j) = None.
Proof. intros H P HC HP R. exact (converged K x y C tol perms H P HC fuel s HP R). Qed.

Lemma run_schedule K x y C tol perms fuel epochs s :
  length x = length y -> pm_labels y -> 0 <= C -> permutations_of (length x) perms ->
  smo_run K x y C tol perms fuel epochs = Ok s ->
  exists sweeps settled d,
    schedule (fun idx sd sd' k => pass K x y C tol perms idx sd = (sd', k)) (seq 0 (length x))
             (fun sd idx => between_bounds C (length x) (alphas (fst sd)) idx)
             true sweeps settled (smo_init x, 0%nat) (s, d) /\
    (settled = false -> epochs <> (-1)%Z /\ Z.of_nat sweeps = Z.max 0 epochs) /\
    (epochs <> (-1)%Z -> (Z.of_nat sweeps <= Z.max 0 epochs)%Z).
Proof.
  intros H P HC HP R. unfold smo_run in R.
  assert (Gen : forall fuel epoch entire sd, reached K x y C (fst sd) -> (0 <= epoch)%Z ->
    run_loop K x y C tol perms fuel epochs epoch entire sd = Ok s ->
    exists sweeps settled d,
    schedule (fun idx sd sd' k => pass K x y C tol perms idx sd = (sd', k)) (seq 0 (length x))
             (fun sd idx => between_bounds C (length x) (alphas (fst sd)) idx) entire sweeps settled sd (s, d) /\
    (settled = false -> epochs <> (-1)%Z /\ Z.of_nat sweeps = Z.max 0 (epochs - epoch)) /\
    (epochs <> (-1)%Z -> (Z.of_nat sweeps <= Z.max 0 (epochs - epoch))%Z)).
  { clear fuel R. induction fuel as [|fuel IH]; intros epoch entire sd Rs He R; cbn [run_loop] in R; [discriminate|].
    destruct (((epochs =? -1)%Z || (epoch <? epochs)%Z)%bool) eqn:Go.
    2: { injection R as <-. apply orb_false_iff in Go. destruct Go as (G1 & G2). apply Z.eqb_neq in G1. apply Z.ltb_ge in G2.
         exists 0%nat, false, (snd sd). destruct sd as [s d]. split; [constructor|]. split; intros; [split; auto|]; simpl; lia. }
    assert (Go' : epochs <> (-1)%Z -> (epoch < epochs)%Z).
    { intros N. apply orb_true_iff in Go. destruct Go as [G|G]; [apply Z.eqb_eq in G; congruence|now apply Z.ltb_lt in G]. }
    set (idx := if entire then _ else _) in R. destruct (pass K x y C tol perms idx sd) as [sd' k] eqn:E.
    pose proof (reached_good K x y C (fun _ => []) H P HC _ Rs) as G.
    assert (Rs' : reached K x y C (fst sd')).
    { change sd' with (fst (sd', k)). rewrite <- E. eapply pass_reached; eauto using perms_valid. intros i Hi. unfold idx in Hi. destruct entire.
      - apply in_seq in Hi. lia.
      - apply nonzero_lt in Hi. rewrite (g_nb_len _ _ _ G) in Hi. auto. }
    destruct entire.
    - destruct (Nat.eqb_spec k 0) as [->|Nk].
      + injection R as <-. exists 1%nat, true, (snd sd'). destruct sd' as [s d]. split; [now apply schedule_settled|]. split; intros; [discriminate|].
        specialize (Go' H0). lia.
      + destruct k as [|k]; [congruence|]. destruct (IH (epoch + 1)%Z false sd' Rs' ltac:(lia) R) as (sw & st & d & S1 & S2 & S3).
        exists (S sw), st, d. split; [eapply schedule_full; eauto|]. split; [intros Ef; destruct (S2 Ef) as (N & Q); split; auto; specialize (Go' N); lia|].
        intros N. specialize (S3 N). specialize (Go' N). lia.
    - assert (B : between_bounds C (length x) (alphas (fst sd)) idx).
      { unfold idx. split; [apply nonzero_sorted|]. intros m. rewrite nonzero_In. split.
        - intros F. assert (Hm : (m < length x)%nat).
          { destruct (Nat.lt_ge_cases m (length x)); auto. rewrite nth_overflow in F; [discriminate|]. rewrite (g_nb_len _ _ _ G), <- H. auto. }
          split; auto. now apply (flags_agree K x y C (fst sd) H P HC Rs m Hm).
        - intros (Hm & F). now apply (flags_agree K x y C (fst sd) H P HC Rs m Hm). }
      destruct (IH (epoch + 1)%Z (k =? 0)%nat sd' Rs' ltac:(lia) R) as (sw & st & d & S1 & S2 & S3).
      exists (S sw), st, d. split.
      + destruct k as [|k]; [eapply schedule_back; eauto|eapply schedule_again; eauto].
      + split; [intros Ef; destruct (S2 Ef) as (N & Q); split; auto; specialize (Go' N); lia|].
        intros N. specialize (S3 N). specialize (Go' N). lia. }
  destruct (Gen fuel 0%Z true (smo_init x, 0%nat) (reached_start K x y C) (Z.le_refl 0) R) as (sw & st & d & A & B & D). rewrite Z.sub_0_r in B, D. exists sw, st, d. auto.
Qed.

(** A run that settles after three sweeps. *)
Definition two_x : list (list R) := [[1]; [-1]].
Definition two_y : list R := [1; -1].
Definition two_perms (d : nat) : list nat := [0; 1]%nat.
Definition two_1 : smo := {| alphas := [1/2; 1/2]; non_bound := [true; true]; non_zero := [true; true]; error_cache := [0; 0]; bias := 0 |}.
Lemma two_step : update_alpha linear two_x two_y 2 (smo_init two_x) 0 1 (-1) 1 = Some two_1.
Proof.
  rewrite (update_intro linear two_x two_y 2 (smo_init two_x) 0 1 (-1) 1 4 0 2 (1/2) (1/2) 0); try discriminate; simpl.
  - unfold two_1, update_error_cache, nonzero, enumerate. simpl. norm. reflexivity.
  - unfold linear. simpl. lra.
  - lra.
  - norm. minmax.
  - norm. minmax.
  - lra.
  - unfold clip_alpha. replace (0 + -1 * (-1 - 1) / 4) with (1/2) by field. norm. reflexivity.
  - absv.
  - lra.
  - unfold linear. simpl. lra.
Qed.
Lemma two_run : smo_run linear two_x two_y 2 (1 / 1000) two_perms 3 (-1) = Ok two_1.
Proof.
  assert (P0 : update_parameters linear two_x two_y 2 (1 / 1000) two_perms (smo_init two_x, 0%nat) 0 = ((two_1, 1%nat), true)).
  { unfold update_parameters, calculate_error. cbn -[update_alpha Rltb smo_init]. simpl (alphas _). simpl (non_zero _). simpl (non_bound _). simpl (bias _).
    simpl nth. cbn [existsb].
    norm. cbn [orb andb]. cbn [try_pairs two_perms].
    replace (update_alpha linear two_x two_y 2 (smo_init two_x) 0 0 _ _) with (@None smo) by reflexivity.
    unfold calculate_error. simpl (non_zero _). cbn [existsb orb]. simpl (bias _). simpl nth.
    replace (0 - -1) with 1 by ring. replace (0 - 1) with (-1) by ring. rewrite two_step. norm. reflexivity. }
  assert (P1 : forall i, (i < 2)%nat -> update_parameters linear two_x two_y 2 (1 / 1000) two_perms (two_1, 1%nat) i = ((two_1, 1%nat), false)).
  { intros [|[|i]] Hi; [| |lia]; unfold update_parameters; cbn -[update_alpha Rltb select_second_alpha linear]; norm; reflexivity. }
  assert (Q : pass linear two_x two_y 2 (1 / 1000) two_perms [0; 1]%nat (two_1, 1%nat) = ((two_1, 1%nat), 0%nat)).
  { unfold pass. cbn [fold_left]. now rewrite !P1 by lia. }
  unfold smo_run. cbn [run_loop]. change ((-1 =? -1)%Z) with true. cbn [orb]. cbv iota.
  change (seq 0 (length two_x)) with [0; 1]%nat.
  assert (F : pass linear two_x two_y 2 (1 / 1000) two_perms [0; 1]%nat (smo_init two_x, 0%nat) = ((two_1, 1%nat), 1%nat)).
  { unfold pass. cbn [fold_left]. rewrite P0. cbv iota beta. rewrite P1 by lia. reflexivity. }
  rewrite F. cbn [Nat.eqb fst]. change (nonzero (non_bound two_1)) with [0; 1]%nat. rewrite Q. cbn [Nat.eqb fst]. rewrite Q. reflexivity.
Qed.
Lemma two_permutations : permutations_of 2 two_perms.
Proof. intros d. apply Permutation_refl. Qed.
Lemma two_labels : pm_labels two_y.
Proof. intros m Hm. simpl in Hm. destruct m as [|[|m]]; simpl; auto; lia. Qed.
