(** C108: training with other names for the classes. *)
From Coq Require Import String List ZArith Reals Lra Lia Bool.
From Verif.Model Require Import Base Matrix Logistic Lda Bayes Tree Pruner.
From Verif.Spec Require Import Common Bayes BayesUnits Labels.
From Verif.Proof Require Import BaseLemmas TreeBest Labels LabelsBayes LabelsTree.
From Verif.Props Require Import Bayes Lda.
Import ListNotations.
Local Open Scope R_scope.
Local Notation length := List.length.

(** Logistic regression with the labels 0 and 1 exchanged and started from the opposite
    weights: the weights are opposite and every probability [v] becomes [1 - v]. *)
Theorem C108_logistic_regression_exchanged : forall o init epochs d x y m,
  both (fun m1 m2 => m2 = opposite m1 /\
                     forall q, both (fun p p' => p' = map (fun v => 1 - v) p) (lr_predict q m1) (lr_predict q m2))
    (lr_fit o init epochs d x y m) (lr_fit o (negated init) epochs d x (map exchanged y) (opposite m)).
Proof.
  intros. rewrite lr_fit_exchanged. destruct (lr_fit o init epochs d x y m) as [m1|]; cbn [bind both]; [|reflexivity]. split; [reflexivity|].
  intros q. rewrite lr_predict_exchanged. now destruct (lr_predict q m1).
Qed.
Print Assumptions C108_logistic_regression_exchanged.

(** The linear discriminant: the answers are exchanged, except for rows equally far from
    both means, which get 0 from both models. *)
Theorem C108_discriminant_exchanged : forall svd d x y,
  both (fun m m' => lda_w m' = negated (lda_w m) /\ lda_mu0 m' = lda_mu1 m /\ lda_mu1 m' = lda_mu0 m /\
                    forall r, (equally_far m r -> lda_predict m r = 0%Z /\ lda_predict m' r = 0%Z) /\
                              (~ equally_far m r -> lda_predict m' r = exchanged (lda_predict m r)))
    (lda_fit svd d x y) (lda_fit svd d x (map exchanged y)).
Proof.
  intros. rewrite lda_fit_exchanged. destruct (lda_fit svd d x y) as [m|]; cbn [bind both]; [|reflexivity]. split; [reflexivity|]. split; [reflexivity|]. split; [reflexivity|].
  intros r. apply lda_predict_exchanged.
Qed.
Print Assumptions C108_discriminant_exchanged.

(** Naive Bayes: the scores change places; the answers are exchanged, except for scores
    that cannot be told apart, which get 1 from both models. *)
Theorem C108_naive_bayes_exchanged : forall A (O : TotalOrder A) num cont vc rnd cols y smoothing, two_classes y smoothing ->
  both (fun m m' => forall q,
          both (fun s s' => s' = crossed s /\ nb_pair s' = option_map crossed (nb_pair s)) (nb_scores O num rnd m q) (nb_scores O num rnd m' q) /\
          both (fun l l' => forall s, nb_scores O num rnd m q = Ok s -> answers_exchanged s l l') (nb_predict O num rnd m q) (nb_predict O num rnd m' q))
    (nb_fit O num cont vc cols y smoothing) (nb_fit O num cont vc cols (map exchanged y) smoothing).
Proof.
  intros A O num cont vc rnd cols y smoothing T. rewrite (nb_fit_exchanged O num cont vc cols y smoothing T). destruct (nb_fit O num cont vc cols y smoothing) as [m|]; cbn [bind both]; [|reflexivity].
  intros q. unfold nb_predict. rewrite scores_swapped. destruct (nb_scores O num rnd m q) as [s|]; cbn [bind both]; [|now split].
  split; [split; [reflexivity|apply pair_swapped]|]. intros s' E. injection E as <-. apply label_swapped.
Qed.
Print Assumptions C108_naive_bayes_exchanged.

(** One super parent, whatever the labels are. *)
Theorem C108_super_parent_exchanged : forall A (O : TotalOrder A) num cont rnd cols y smoothing k,
  both (fun st st' => forall q,
          both (fun s s' => s' = crossed s) (sp_scores O num rnd st q) (sp_scores O num rnd st' q) /\
          both (fun l l' => forall s, sp_scores O num rnd st q = Ok s -> answers_exchanged s l l') (sp_predict O num rnd st q) (sp_predict O num rnd st' q))
    (sp_fit O num cont [] cols y smoothing k) (sp_fit O num cont [] cols (map exchanged y) smoothing k).
Proof.
  intros A O num cont rnd cols y smoothing k. pose proof (sp_fit_exchanged O num cont rnd cols y smoothing k [] [] (made_nil O num cont rnd cols)) as M.
  destruct (sp_fit O num cont [] cols y smoothing k) as [st|], (sp_fit O num cont [] cols (map exchanged y) smoothing k) as [st'|]; cbn [both] in *; auto.
  intros q. unfold sp_predict. rewrite (sp_scores_exchanged O num cont rnd cols st st' q M). destruct (sp_scores O num rnd st q) as [s|]; cbn [bind both]; [|now split].
  split; [reflexivity|]. intros s' E. injection E as <-. apply label_swapped.
Qed.
Print Assumptions C108_super_parent_exchanged.

(** Averaged super parents, whatever the labels are. *)
Theorem C108_averaged_exchanged : forall A (O : TotalOrder A) num cont rnd cols y smoothing k,
  both (fun t t' => forall q,
          both (fun s s' => s' = crossed s) (ao_scores O num rnd (snd t) q) (ao_scores O num rnd (snd t') q) /\
          both (fun l l' => forall s, ao_scores O num rnd (snd t) q = Ok s -> answers_exchanged s l l') (ao_predict O num rnd (snd t) q) (ao_predict O num rnd (snd t') q))
    (ao_fit O num cont [] cols y smoothing k) (ao_fit O num cont [] cols (map exchanged y) smoothing k).
Proof.
  intros A O num cont rnd cols y smoothing k. pose proof (ao_fit_exchanged O num cont rnd cols y smoothing k [] [] (made_nil O num cont rnd cols)) as M.
  destruct (ao_fit O num cont [] cols y smoothing k) as [t|], (ao_fit O num cont [] cols (map exchanged y) smoothing k) as [t'|]; cbn [both] in *; auto.
  destruct M as [_ M]. intros q. unfold ao_predict. rewrite (ao_scores_exchanged O num cont rnd cols (snd t) (snd t') q M). destruct (ao_scores O num rnd (snd t) q) as [s|]; cbn [bind both]; [|now split].
  split; [reflexivity|]. intros s' E. injection E as <-. apply label_swapped.
Qed.
Print Assumptions C108_averaged_exchanged.

(** Decision trees, with and without pruning: any different names for any number of
    classes, when the most common label is found without looking at the names. *)
Theorem C108_tree_other_names : forall f top top' rnd c how w D V, one_to_one f -> blind_to_names f top top' ->
  both (fun t t' => t' = tree_named f t /\ forall r, both (fun l l' => l' = f l) (predict t r) (predict t' r))
    (fit_pruned top rnd c how w D V) (fit_pruned top' rnd c how w (relabelled f D) (option_map (relabelled f) V)).
Proof.
  intros f top top' rnd c how w D V J T. pose proof (fit_pruned_named f J top top' T rnd c how w D V) as E. change (named f) with (relabelled f) in E.
  replace (option_map (named f) V) with (option_map (relabelled f) V) in E by reflexivity. rewrite E.
  destruct (fit_pruned top rnd c how w D V) as [t|]; cbn [bind both]; [|reflexivity]. split; [reflexivity|]. intros r. rewrite predict_named. now destruct (predict t r).
Qed.
Print Assumptions C108_tree_other_names.

(** Taking the first of the most common labels looks at no names. *)
Theorem C108_first_seen_looks_at_no_names : forall f, one_to_one f ->
  blind_to_names f mode mode /\ forall y z, y <> [] -> (count_occ Z.eq_dec y z <= count_occ Z.eq_dec y (mode y))%nat.
Proof. intros f J. split; [now apply mode_named|exact mode_top]. Qed.
Print Assumptions C108_first_seen_looks_at_no_names.

(** A choice that settles ties by the names: the tree is not the renamed one. *)
Definition majority (y : list Z) : Z := if (count_occ Z.eq_dec y 1%Z <=? count_occ Z.eq_dec y 0%Z)%nat then 0%Z else 1%Z.
Theorem C108_ties_by_name_refuted : exists D t t',
  (forall y z, Forall (fun l => l = 0 \/ l = 1)%Z y -> (count_occ Z.eq_dec y z <= count_occ Z.eq_dec y (majority y))%nat) /\
  fit_pruned majority (fun r => r) Gini NoPruning 1 D None = Ok t /\
  fit_pruned majority (fun r => r) Gini NoPruning 1 (relabelled exchanged D) None = Ok t' /\
  predict t [Txt "a"] = Ok 0%Z /\ predict t' [Txt "a"] = Ok 0%Z.
Proof.
  exists [([Txt "a"], 0%Z); ([Txt "a"], 1%Z)]. do 2 eexists. split.
  - intros y z H. unfold majority. assert (Q : forall l, l <> 0%Z -> l <> 1%Z -> count_occ Z.eq_dec y l = 0%nat).
    { intros l N0 N1. apply count_occ_not_In. intros I. rewrite Forall_forall in H. destruct (H l I); congruence. }
    destruct (Nat.leb_spec (count_occ Z.eq_dec y 1%Z) (count_occ Z.eq_dec y 0%Z)); (destruct (Z.eq_dec z 0) as [->|N0]; [lia|]); (destruct (Z.eq_dec z 1) as [->|N1]; [lia|]); rewrite (Q z N0 N1); lia.
  - split; [reflexivity|]. split; [reflexivity|]. split; reflexivity.
Qed.
Print Assumptions C108_ties_by_name_refuted.

(** Naive Bayes with smoothing and a single class: the probability of the missing class
    is 0 if that is class 1 but positive if it is class 0, so a classifier that has seen
    only class 1 may answer 0. *)
Definition rare : list Z := [0; 0; 0; 0; 1]%Z.
Theorem C108_single_class_refuted : exists m m',
  nb_fit ZOrder IZR (fun _ => false) (unique ZOrder) [rare; rare; rare] [0; 0; 0; 0; 0]%Z true = Ok m /\
  nb_fit ZOrder IZR (fun _ => false) (unique ZOrder) [rare; rare; rare] (map exchanged [0; 0; 0; 0; 0]%Z) true = Ok m' /\
  nb_p1 m = 0 /\ nb_p0 m' = 1 / 6 /\
  nb_predict ZOrder IZR (fun r => r) m [1; 1; 1]%Z = Ok 0%Z /\
  nb_predict ZOrder IZR (fun r => r) m' [1; 1; 1]%Z = Ok 0%Z.
Proof.
  do 2 eexists. split; [reflexivity|]. split; [reflexivity|]. split; [cbn; lra|]. split; [cbn; lra|]. split.
  - assert (E1 : elog (Some 1) = Fin (ln 1)) by (unfold elog, Rltb; destruct (Rlt_dec 0 1); [reflexivity|lra]).
    assert (E0 : elog (Some 0) = NegInf) by (unfold elog, Rltb, Reqb; destruct (Rlt_dec 0 0); [lra|]; destruct (Req_EM_T 0 0); [reflexivity|lra]).
    assert (P : forall a b, (0 < a)%nat -> (0 < b)%nat -> elog (Some (INR a / INR b)) = Fin (ln (INR a / INR b))).
    { intros a b Ha Hb. unfold elog, Rltb. destruct (Rlt_dec _ _) as [|N]; auto. exfalso. apply N. apply Rdiv_lt_0_compat; apply lt_0_INR; auto. }
    unfold nb_predict, nb_scores. cbn [nb_p0 nb_p1 nb_pi nb_smoothing fst snd].
    replace (INR (count (fun c => (c =? 0)%Z) [0; 0; 0; 0; 0]%Z + 1) / INR (length [0; 0; 0; 0; 0]%Z + length (nodup Z.eq_dec [0; 0; 0; 0; 0]%Z))) with 1 by (cbn; lra).
    replace (1 - 1) with 0 by lra. rewrite E1, E0. cbn -[elog INR Rdiv ln]. rewrite !P by lia. reflexivity.
  - rewrite (C69_label_compares_products _ _ _ _ _ _ [(1 / 2, 2 / 7); (1 / 2, 2 / 7); (1 / 2, 2 / 7)]).
    + cbn. destruct (Rlt_dec _ _) as [|N]; auto. exfalso. lra.
    + reflexivity.
    + cbn. lra.
    + cbn. lra.
    + repeat constructor; cbn -[elog]; try lra; repeat first [lra | f_equal].
Qed.
Print Assumptions C108_single_class_refuted.

(** Concrete cases. *)
Example C108_logistic_example : let m := {| lr_beta := None; lr_loaded := false; lr_trained := false |} in
  exists m1 b, lr_fit (GradientDescent 1) [0; 0] 1 1 [[1]; [-1]] [1; 0]%Z m = Ok m1 /\ opposite m = m /\ map exchanged [1; 0]%Z = [0; 1]%Z /\ lr_beta m1 = Some b /\ b = [1; 0].
Proof.
  intros m. do 2 eexists. split; [reflexivity|]. split; [reflexivity|]. split; [reflexivity|]. split; [reflexivity|].
  assert (F : forall v, forward_row [0; 0] [v] = 1 / 2).
  { intros v. unfold forward_row, Activations.sigmoid. replace (- dot (with_one [v]) [0; 0]) with 0 by (cbn; lra). rewrite exp_0. lra. }
  cbn -[forward_row]. rewrite !F. f_equal; [lra|]. f_equal. lra.
Qed.
Example C108_discriminant_example : exists m, lda_fit one_svd 1 [[0]; [2]; [5]; [7]] [0; 0; 1; 1]%Z = Ok m /\ ~ equally_far m [0].
Proof.
  destruct C47_witness as (_ & m & E & W). exists m. split; [exact E|]. unfold equally_far. rewrite W.
  unfold lda_fit in E. cbn -[get_w_v2 within_class_scatter] in E. destruct (get_w_v2 _ _ _ _ _) as [w|]; cbn [bind] in E; [|discriminate]. injection E as <-. cbn [lda_mu0 lda_mu1 dot].
  unfold rmean. cbn. unfold Rabs. repeat destruct (Rcase_abs _); lra.
Qed.
Example C108_naive_bayes_example : two_classes [0; 1; 1]%Z true /\ exists m s,
  nb_fit ZOrder IZR (fun _ => false) (unique ZOrder) [[0; 0; 1]%Z] [0; 1; 1]%Z true = Ok m /\ nb_scores ZOrder IZR (fun r => r) m [1%Z] = Ok s /\ ~ tied s.
Proof.
  split; [split; [repeat constructor; auto|]; intros _; cbn; auto|]. do 2 eexists. split; [reflexivity|].
  assert (P : forall a b, (0 < a)%nat -> (0 < b)%nat -> elog (Some (INR a / INR b)) = Fin (ln (INR a / INR b))).
  { intros a b Ha Hb. unfold elog, Rltb. destruct (Rlt_dec _ _) as [|N]; auto. exfalso. apply N. apply Rdiv_lt_0_compat; apply lt_0_INR; auto. }
  unfold nb_scores. cbn [nb_p0 nb_p1 nb_pi nb_smoothing fst snd]. cbn -[elog INR Rdiv ln]. rewrite !P by lia. replace (1 - INR 2 / INR 5) with (INR 3 / INR 5) by (cbn; lra). rewrite P by lia.
  split; [reflexivity|]. unfold tied. cbn [fst snd eadd]. intros [E|[E|E]]; try discriminate. injection E as E. apply Rlt_not_eq in E; [contradiction|].
  rewrite <- !ln_mult by (cbn; lra). apply ln_increasing; cbn; lra.
Qed.
Example C108_estimators_example : exists st t, sp_fit ZOrder IZR (fun _ => false) [] [rare; rare] [0; 1; 1; 0; 1]%Z true 1 = Ok st /\ length st = 4%nat /\
  ao_fit ZOrder IZR (fun _ => false) [] [rare; rare] [0; 1; 1; 0; 1]%Z true 0 = Ok t /\ length (snd t) = 2%nat.
Proof. do 2 eexists. split; [reflexivity|]. split; [reflexivity|]. split; reflexivity. Qed.
Example C108_tree_example : one_to_one (fun l => 10 - 3 * l)%Z /\ blind_to_names (fun l => 10 - 3 * l)%Z mode mode /\
  exists t, fit_pruned mode (fun r => r) Gini Post 1 [([Txt "a"], 0%Z); ([Txt "b"], 1%Z); ([Txt "b"], 2%Z); ([Txt "a"], 0%Z)]%string
              (Some [([Txt "a"], 0%Z); ([Txt "b"], 1%Z)]%string) = Ok t /\ predict t [Txt "b"%string] = Ok 1%Z.
Proof.
  assert (J : one_to_one (fun l => 10 - 3 * l)%Z) by (intros u v E; lia). split; [exact J|]. split; [now apply C108_first_seen_looks_at_no_names|].
  eexists. split; reflexivity.
Qed.
