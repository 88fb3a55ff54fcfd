(** Proofs for C100: [fit] of objects that were never compiled, and of objects that
    have loaded a file. *)
From Coq Require Import List String Reals ZArith Bool Arith Lia Lra.
From Verif.Model Require Import Base Matrix Ops Stump Tree Pruner Bayes Ensemble Logistic Lda Network Rbf KMeans Gmm Kernels Smo Training Store Life Svc Fit.
From Verif.Model Require Process.
From Verif.Spec Require Import Store Fit Resume.
From Verif.Proof Require Import BaseLemmas Store StoreNet StoreCrash RoundTrip StoreMain Fit FitFail Svc.
Import ListNotations.
Local Open Scope string_scope.

Ltac agreement Ha := unfold agree in Ha;
  repeat match type of Ha with Forall _ (_ :: _) => let Hx := fresh "F" in inversion Ha as [| ? ? Hx Ha']; clear Ha; subst; rename Ha' into Ha end.

Section Resume.
Context {A : Type}.
Notation obj := (@obj A).
Notation value := (value A).

(** ** Never compiled *)
Lemma tree_without_generator : forall top rnd w D val (i : obj), field i "generator" = VNone ->
  tree_fit_effect top rnd w D val i = stopped [] AttributeError.
Proof.
  intros top rnd w D val i H; unfold tree_fit_effect; rewrite H; cbn [criterion_of].
  destruct (field i "pruner"), val; reflexivity.
Qed.
Lemma means_text : forall randint d x n epochs (i : obj) s, field i "init" = VText s -> s <> "random" ->
  km_fit_effect randint d x n epochs i = stopped [] TypeError.
Proof.
  intros randint d x n epochs i s H Hs; unfold km_fit_effect; rewrite H; cbn [init_of].
  apply String.eqb_neq in Hs; rewrite Hs; reflexivity.
Qed.
Lemma mixture_text : forall rnd randint d x n epochs (i : obj) s, field i "init" = VText s -> s <> "random" ->
  gm_fit_effect rnd randint d x n epochs i = stopped [] TypeError.
Proof.
  intros rnd randint d x n epochs i s H Hs; unfold gm_fit_effect; rewrite H; cbn [init_of].
  apply String.eqb_neq in Hs; rewrite Hs; reflexivity.
Qed.
Lemma new_bag_fails : forall choice n w x y (i : obj), field i "seed" = VInt (-1) -> field i "BaseLearner" = VNone ->
  bagging_fit_effect choice n w x y i = if (n =? 0)%nat then finished [] else stopped [] ValueError.
Proof. intros choice n w x y i H1 H2; unfold bagging_fit_effect; rewrite H1, H2; destruct (n =? 0)%nat; reflexivity. Qed.

(** ** Loaded *)
Lemma field_set_fields : forall (l : @attrs A) (i j : obj) f, field j f = field i f -> field (set_fields j l) f = field (set_fields i l) f.
Proof.
  induction l as [| [k v] l IH]; intros i j f H; cbn; [ exact H |].
  apply IH; cbn; destruct (f =? k)%string; [ reflexivity | exact H ].
Qed.
Lemma field_after : forall e (i j : obj) f, field j f = field i f -> field (after_fit e j) f = field (after_fit e i) f.
Proof. intros e i j f H; exact (field_set_fields (changed e) i j f H). Qed.
Lemma agree_after : forall fs e (i j : obj), agree fs i j -> agree fs (after_fit e i) (after_fit e j).
Proof. intros fs e i j H; unfold agree in *; revert H; apply Forall_impl; intros f; apply field_after. Qed.
Lemma ready_after : forall e (i : obj), ready i -> ready (after_fit e i).
Proof. intros e i [H | H]; [ left | right; exact H ]; unfold after_fit; cbv zeta; cbn [is_trained]; rewrite H; reflexivity. Qed.

Lemma resume_nb : forall author now (i j0 : obj) k k', ready i -> save NaiveBayesClassifier author now i k = (k', None) ->
  exists j, load NaiveBayesClassifier k' j0 = (j, None) /\ forall O num cont vc cols y,
    let e := nb_fit_effect O num cont vc cols y i in
    nb_fit_effect O num cont vc cols y j = e /\
    forall O' num' rnd q, predict_naive_bayes O' num' rnd (after_fit e j) q = predict_naive_bayes O' num' rnd (after_fit e i) q.
Proof.
  intros author now i j0 k k' Hr H; destruct (rt_nb _ _ _ j0 _ _ H) as (j & Hj & Hl & Ha); exists j; split; [ exact Hj |].
  intros O num cont vc cols y e; split.
  - agreement Ha; unfold e, nb_fit_effect; rewrite F, F2, F3; reflexivity.
  - intros O' num' rnd q; apply (agree_after _ e) in Ha; agreement Ha; clearbody e.
    pose proof (ready_after e i Hr) as R1; pose proof (ready_after e j (or_intror Hl)) as R2.
    unfold predict_naive_bayes; rewrite !guarded_ready by assumption; rewrite F, F0, F1, F2, F3; reflexivity.
Qed.
Lemma resume_sp : forall author now (i j0 : obj) k k', ready i -> save SuperParentOneDependentEstimator author now i k = (k', None) ->
  exists j, load SuperParentOneDependentEstimator k' j0 = (j, None) /\ forall O num cont index cols y,
    let e := sp_fit_effect O num cont index cols y i in
    sp_fit_effect O num cont index cols y j = e /\
    forall O' num' rnd q, predict_super_parent O' num' rnd (after_fit e j) q = predict_super_parent O' num' rnd (after_fit e i) q.
Proof.
  intros author now i j0 k k' Hr H; destruct (rt_sp _ _ _ j0 _ _ H) as (j & Hj & Hl & Ha); exists j; split; [ exact Hj |].
  intros O num cont index cols y e; split.
  - agreement Ha; unfold e, sp_fit_effect; rewrite F0, F1; reflexivity.
  - intros O' num' rnd q; apply (agree_after _ e) in Ha; agreement Ha; clearbody e.
    pose proof (ready_after e i Hr) as R1; pose proof (ready_after e j (or_intror Hl)) as R2.
    unfold predict_super_parent; rewrite !guarded_ready by assumption; rewrite ?F0, F1; reflexivity.
Qed.
(** The table of the earlier training is not in the file, and not used: [fit] writes
    the lists of the attributes anew. *)
Lemma resume_ao : forall author now (i : obj) k k', ready i -> save AveragedOneDependentEstimator author now i k = (k', None) ->
  exists j, load AveragedOneDependentEstimator k' (fresh AveragedOneDependentEstimator) = (j, None) /\ forall O num cont cols y,
    let e := ao_fit_effect O num cont cols y (set_field i "_list_of_p_c" (VEntries [])) in
    ao_fit_effect O num cont cols y j = e /\
    forall O' num' rnd q, predict_averaged O' num' rnd (after_fit e j) q = predict_averaged O' num' rnd (after_fit e i) q.
Proof.
  intros author now i k k' Hr H; destruct (rt_ao _ _ _ (fresh AveragedOneDependentEstimator) _ _ H) as (j & Hj & Hl & Ha); exists j; split; [ exact Hj |].
  assert (E : field j "_list_of_p_c" = VEntries []).
  { clear - H Hj; save_inv @AveragedOneDependentEstimator H; repeat save_step H; inversion H; clear H; subst k'.
    unfold load in Hj; cbn in Hj; now inversion Hj. }
  intros O num cont cols y e; split.
  - agreement Ha; unfold e, ao_fit_effect; cbn [set_field field String.eqb Ascii.eqb Bool.eqb]; rewrite E, F, F0; reflexivity.
  - intros O' num' rnd q; apply (agree_after _ e) in Ha; agreement Ha; clearbody e.
    pose proof (ready_after e i Hr) as R1; pose proof (ready_after e j (or_intror Hl)) as R2.
    unfold predict_averaged; rewrite !guarded_ready by assumption; rewrite ?F, ?F0, F1; reflexivity.
Qed.
Lemma resume_km : forall author now (i j0 : obj) k k', ready i -> save KMeansModel author now i k = (k', None) ->
  exists j, load KMeansModel k' j0 = (j, None) /\ forall randint d x n epochs,
    let e := km_fit_effect randint d x n epochs i in
    km_fit_effect randint d x n epochs j = e /\ forall q, predict_kmeans (after_fit e j) q = predict_kmeans (after_fit e i) q.
Proof.
  intros author now i j0 k k' Hr H; destruct (rt_kmeans _ _ _ j0 _ _ H) as (j & Hj & Hl & Ha); exists j; split; [ exact Hj |].
  intros randint d x n epochs e; split.
  - agreement Ha; unfold e, km_fit_effect; rewrite F, F0; reflexivity.
  - intros q; apply (agree_after _ e) in Ha; agreement Ha; clearbody e.
    pose proof (ready_after e i Hr) as R1; pose proof (ready_after e j (or_intror Hl)) as R2.
    unfold predict_kmeans; rewrite !guarded_ready by assumption; rewrite F1; reflexivity.
Qed.
Lemma resume_gm : forall author now (i j0 : obj) k k', ready i -> save GaussianMixture author now i k = (k', None) ->
  exists j, load GaussianMixture k' j0 = (j, None) /\ forall rnd randint d x n epochs,
    let e := gm_fit_effect rnd randint d x n epochs i in
    gm_fit_effect rnd randint d x n epochs j = e /\
    forall rnd' d' q, predict_mixture rnd' d' (after_fit e j) q = predict_mixture rnd' d' (after_fit e i) q.
Proof.
  intros author now i j0 k k' Hr H; destruct (rt_mixture _ _ _ j0 _ _ H) as (j & Hj & Hl & Ha); exists j; split; [ exact Hj |].
  intros rnd randint d x n epochs e; split.
  - agreement Ha; unfold e, gm_fit_effect; rewrite F, F0, F1, F2; reflexivity.
  - intros rnd' d' q; apply (agree_after _ e) in Ha; agreement Ha; clearbody e.
    pose proof (ready_after e i Hr) as R1; pose proof (ready_after e j (or_intror Hl)) as R2.
    unfold predict_mixture; rewrite !guarded_ready by assumption; rewrite F3, F4, F5; reflexivity.
Qed.
Lemma resume_bag : forall author now (i j0 : obj) k k', ready i -> save BaggingClassifier author now i k = (k', None) ->
  exists j, load BaggingClassifier k' j0 = (j, None) /\ forall choice n w x y,
    let e := bagging_fit_effect choice n w x y i in
    bagging_fit_effect choice n w x y j = e /\ forall q, predict_bagging (after_fit e j) q = predict_bagging (after_fit e i) q.
Proof.
  intros author now i j0 k k' Hr H; destruct (rt_bagging _ _ _ j0 _ _ H) as (j & Hj & Hl & Ha); exists j; split; [ exact Hj |].
  intros choice n w x y e; split.
  - agreement Ha; unfold e, bagging_fit_effect; rewrite F, F0, F1; reflexivity.
  - intros q; apply (agree_after _ e) in Ha; agreement Ha; clearbody e.
    pose proof (ready_after e i Hr) as R1; pose proof (ready_after e j (or_intror Hl)) as R2.
    unfold predict_bagging; rewrite !guarded_ready by assumption; rewrite ?F0, ?F1; reflexivity.
Qed.
Lemma resume_ada : forall author now (i j0 : obj) k k', ready i -> save AdaBoostClassifier author now i k = (k', None) ->
  exists j, load AdaBoostClassifier k' j0 = (j, None) /\ forall w n D,
    let e := adaboost_fit_effect w n D i in
    adaboost_fit_effect w n D j = e /\ forall q, predict_adaboost (after_fit e j) q = predict_adaboost (after_fit e i) q.
Proof.
  intros author now i j0 k k' Hr H; destruct (rt_adaboost _ _ _ j0 _ _ H) as (j & Hj & Hl & Ha); exists j; split; [ exact Hj |].
  intros w n D e; split.
  - agreement Ha; unfold e, adaboost_fit_effect; rewrite F, F0, F1, Hl.
    assert (E : is_trained i || is_loaded i = true) by (destruct Hr as [-> | ->]; [ reflexivity | apply orb_true_r ]).
    rewrite E, orb_true_r; reflexivity.
  - intros q; apply (agree_after _ e) in Ha; agreement Ha; clearbody e.
    pose proof (ready_after e i Hr) as R1; pose proof (ready_after e j (or_intror Hl)) as R2.
    unfold predict_adaboost; rewrite !guarded_ready by assumption; rewrite F0, F1; reflexivity.
Qed.
Lemma resume_svc : forall author now (i j0 : obj) k k' c, ready i -> save SupportVectorClassifier author now i k = (k', None) ->
  field i "kernel" = VKernel c -> usual_kernel (number (field i "gamma")) c ->
  exists j, load SupportVectorClassifier k' j0 = (j, None) /\ forall d x y perms fuel epochs,
    let e := svc_fit_effect d x y perms fuel epochs i in
    svc_fit_effect d x y perms fuel epochs j = e /\ forall q, predict_svc (after_fit e j) q = predict_svc (after_fit e i) q.
Proof.
  intros author now i j0 k k' c Hr H Hk Hu; destruct (rt_svc _ _ _ j0 _ _ _ H Hk Hu) as (j & Hj & Hl & Ha); exists j; split; [ exact Hj |].
  clear Hk; intros d x y perms fuel epochs e; split.
  - agreement Ha; unfold e, svc_fit_effect; rewrite F, F0, F1, F2; reflexivity.
  - intros q; apply (agree_after _ e) in Ha; agreement Ha; clearbody e.
    pose proof (ready_after e i Hr) as R1; pose proof (ready_after e j (or_intror Hl)) as R2.
    unfold predict_svc; rewrite !guarded_ready by assumption.
    repeat match goal with F : field _ _ = field _ _ |- _ => rewrite F; clear F end; reflexivity.
Qed.
Lemma resume_lda : forall author now (i j0 : obj) k k', ready i -> save LinearDiscriminantAnalysis author now i k = (k', None) ->
  exists j, load LinearDiscriminantAnalysis k' j0 = (j, None) /\ forall svd d x y r,
    let e := lda_fit_effect svd d x y in predict_lda (after_fit e j) r = predict_lda (after_fit e i) r.
Proof.
  intros author now i j0 k k' Hr H; destruct (rt_lda _ _ _ j0 _ _ H) as (j & Hj & Hl & Ha); exists j; split; [ exact Hj |].
  intros svd d x y r e; apply (agree_after _ e) in Ha; agreement Ha; clearbody e.
  pose proof (ready_after e i Hr) as R1; pose proof (ready_after e j (or_intror Hl)) as R2.
  unfold predict_lda; rewrite !guarded_ready by assumption; rewrite F, F0, F1; reflexivity.
Qed.

(** The file of a tree has no generator; [compile] makes one, and then the tree of the
    file is kept. *)
Lemma resume_tree : forall author now (i : obj) k k', save DecisionTreeClassifier author now i k = (k', None) ->
  exists j, load DecisionTreeClassifier k' (fresh DecisionTreeClassifier) = (j, None) /\
    (forall top rnd w D val, tree_fit_effect top rnd w D val j = stopped [] AttributeError) /\
    (forall s pr a top rnd w D val, compile_tree s pr = Ok a ->
       let j1 := set_fields j a in
       match pr with
       | NoArg => tree_fit_effect top rnd w D val j1 = finished [("tree", field i "tree")]
       | _ => forall t V, field i "tree" = VTree t -> val = Some V -> forall p t', get_pruner pr = Ok (Some p) ->
           (match kind p with PrePruner => pre_prune top t D V | PostPruner => post_prune top t D V end) = Ok t' ->
           tree_fit_effect top rnd w D val j1 = finished [("tree", VTree t')]
       end).
Proof.
  intros author now i k k' H; destruct (rt_tree _ _ _ (fresh DecisionTreeClassifier) _ _ H eq_refl) as (j & Hj & Hl & Ha); exists j.
  split; [ exact Hj |]; split.
  - intros; apply tree_without_generator.
    unfold load in Hj; destruct (open_weights _ k') as [f |]; [| discriminate ]; destruct (forallb _ _); [| discriminate ].
    cbn [reads DecisionTreeClassifier do_reads keep do_read] in Hj.
    destruct (get_attr f Compile "criterion") as [v |]; [| discriminate ]; cbn [bind raw] in Hj.
    change (field (set_field (fresh DecisionTreeClassifier) "criterion" v) "pruner") with (@VNone A) in Hj; cbv iota in Hj.
    destruct (get_attr f Weights "tree") as [u |]; [| discriminate ]; cbn [bind] in Hj.
    destruct (unpickle _ u) as [tv |]; [| discriminate ]; cbn [bind] in Hj; injection Hj as <-; reflexivity.
  - intros s pr a top rnd w D val Hc j1; unfold compile_tree in Hc.
    destruct (negb _) eqn:Es in Hc; [ discriminate |]; agreement Ha.
    assert (Ec : exists c, criterion_of (A := A) (VText s) = Ok c).
    { cbn [criterion_of]; apply negb_false_iff in Es; destruct (s =? "gain")%string; [ eexists; reflexivity |].
      destruct (s =? "gini")%string; [ eexists; reflexivity |]; destruct (s =? "entropy")%string; [ eexists; reflexivity | discriminate ]. }
    destruct Ec as [c Ec].
    destruct (get_pruner pr) as [p |] eqn:Ep; [| discriminate ]; cbn [bind] in Hc; injection Hc as <-.
    assert (L1 : is_loaded j1 = true) by exact Hl.
    assert (G1 : field j1 "generator" = VText s) by reflexivity.
    assert (T1 : field j1 "tree" = field i "tree") by exact F0.
    assert (P1 : field j1 "pruner" = match p with Some c => VPruner c | None => VNone end) by reflexivity.
    clearbody j1; unfold tree_fit_effect; rewrite G1, Ec, L1, T1, P1.
    destruct pr; cbn in Ep; [| |injection Ep as <-; destruct val; reflexivity |];
      intros t V Et Ev q t' Eq Hp; injection Eq as Eq; subst p val; rewrite Et;
      destruct (kind q); rewrite Hp; reflexivity.
Qed.

(** Models with an optimizer: the parameters of the file, and the optimizer with its
    default settings. *)
Lemma by_usual_name : forall kd, get_optimizer (ByName (usual_optimizer_name kd)) = Ok (comp (default_settings kd) (usual_optimizer_name kd)).
Proof. destruct kd; reflexivity. Qed.
Lemma resume_logistic : forall author now (i j0 : obj) k k' o, save LogisticRegression author now i k = (k', None) ->
  field i "optimizer" = VOptimizer o -> cname o = usual_optimizer_name (kind o) ->
  exists j, load LogisticRegression k' j0 = (j, None) /\
    (forall init d x y epochs, logistic_fit_effect init d x y epochs j =
       logistic_fit_effect init d x y epochs (loaded_with i (default_settings (kind o)) (cname o))) /\
    (forall ar c l m a init d x y epochs, get_optimizer ar = Ok c -> compile_trainer ar l m = Ok a ->
       logistic_fit_effect init d x y epochs (set_fields j a) = logistic_fit_effect init d x y epochs (loaded_with i (kind c) (cname c))).
Proof.
  intros author now i j0 k k' o H Ho Hn.
  assert (G : exists j, load LogisticRegression k' j0 = (j, None) /\ is_loaded j = true /\ field j "beta" = field i "beta" /\
    field j "optimizer" = VOptimizer (comp (default_settings (kind o)) (cname o))).
  { save_inv @LogisticRegression H.
    destruct (self_name "optimizer" i) as [vo | e] eqn:E1; cbn [bind until_error app] in H; [| discriminate H ].
    unfold self_name in E1; rewrite Ho in E1; inversion E1; subst vo; clear E1.
    destruct (self_name "loss" i) as [vl | e] eqn:E2; cbn [bind until_error app storable] in H; [| discriminate H ].
    destruct (self_name_text _ _ _ E2) as [sl ->].
    destruct (self_name "metric" i) as [vm | e] eqn:E3; cbn [bind until_error app storable] in H; [| discriminate H ].
    destruct (self_name_text _ _ _ E3) as [sm ->].
    cbn [bind until_error app storable] in H.
    save_step H; inversion H; clear H; subst k'.
    destruct (@metric_by_name A sm) as [m Em].
    destruct o as [kd nm]; cbn [kind cname] in *; subst nm.
    destruct kd; (eexists; split;
      [ unfold load; cbn -[to_metric get_loss field]; rewrite Em; cbn; reflexivity |]); repeat split; repeat constructor. }
  destruct G as (j & Hj & Hl & Hb & Ho'); exists j; split; [ exact Hj |]; split.
  - intros init d x y epochs; unfold logistic_fit_effect; cbn [loaded_with is_loaded field String.eqb Ascii.eqb Bool.eqb]; rewrite Hl, Hb, Ho'; reflexivity.
  - intros ar c l m a init d x y epochs Hc Ha; unfold compile_trainer in Ha; rewrite Hc in Ha; cbn [bind] in Ha.
    destruct (get_metric m) as [m' |]; [| discriminate ]; cbn [bind] in Ha; injection Ha as <-.
    unfold logistic_fit_effect; cbn [loaded_with set_fields fold_left fst snd set_field is_loaded field String.eqb Ascii.eqb Bool.eqb].
    rewrite Hl, Hb; destruct c; reflexivity.
Qed.
Lemma network_loaded_again : forall c s author now (i j0 : obj) k k' o d, is_network c s ->
  save c author now i k = (k', None) ->
  field i "optimizer" = VOptimizer o -> cname o = usual_optimizer_name (kind o) ->
  field i "parameters" = VDict d -> NoDup (map fst d) -> field j0 "parameters" = VDict [] ->
  exists j, load c k' j0 = (j, None) /\ is_loaded j = true /\ field j "parameters" = VDict d /\
    field j "optimizer" = VOptimizer (comp (default_settings (kind o)) (cname o)).
Proof.
  intros c s author now i j0 k k' o d Hc H Ho Hn Hd Hnd H0.
  destruct (network_saved c s author now i k k' d Hc H Hd) as (no & nl & nm & Eo & _ & ->).
  rewrite put_all_fresh by exact Hnd; cbn [app].
  unfold self_name in Eo; rewrite Ho in Eo; inversion Eo; subst no; rewrite Hn.
  destruct (network_loaded c s author now i j0 nl nm (kind o) d [] Hc H0) as (j & o' & Hj & Hl & _ & Hp & Ho' & Hu).
  rewrite put_all_fresh in Hp by exact Hnd; cbn [app] in Hp.
  exists j; repeat split; try assumption; rewrite Ho'; f_equal.
  clear - Hj Ho' H0 Hc.
  destruct (@metric_by_name A nm) as [m Em].
  destruct Hc as [[-> ->] | [-> ->]]; destruct (kind o);
    (unfold load in Hj; cbn -[to_metric get_loss field fold_left put] in Hj; rewrite Em in Hj; cbn -[field fold_left put] in Hj;
     unfold set_field, merge_into in Hj; cbn [field String.eqb Ascii.eqb Bool.eqb] in Hj; rewrite H0 in Hj; cbn [bind] in Hj;
     injection Hj as <-; cbn in Ho'; injection Ho' as <-; reflexivity).
Qed.
Lemma resume_network : forall author now (i j0 : obj) k k' o d,
  save BackPropagationNeuralNetwork author now i k = (k', None) ->
  field i "optimizer" = VOptimizer o -> cname o = usual_optimizer_name (kind o) ->
  field i "parameters" = VDict d -> NoDup (map fst d) -> field j0 "parameters" = VDict [] ->
  exists j, load BackPropagationNeuralNetwork k' j0 = (j, None) /\
    (forall init draws x y, network_fit_effect init draws x y j =
       network_fit_effect init draws x y (loaded_with i (default_settings (kind o)) (cname o))) /\
    (forall ar c l m a init draws x y, get_optimizer ar = Ok c -> compile_trainer ar l m = Ok a ->
       network_fit_effect init draws x y (set_fields j a) = network_fit_effect init draws x y (loaded_with i (kind c) (cname c))).
Proof.
  intros author now i j0 k k' o d H Ho Hn Hd Hnd H0.
  destruct (network_loaded_again _ _ _ _ _ _ _ _ _ _ (or_introl (conj eq_refl eq_refl)) H Ho Hn Hd Hnd H0) as (j & Hj & Hl & Hp & Ho').
  exists j; split; [ exact Hj |]; split.
  - intros init draws x y; unfold network_fit_effect; cbn [loaded_with is_loaded field String.eqb Ascii.eqb Bool.eqb]; rewrite Hl, Hp, Hd, Ho'; reflexivity.
  - intros ar c l m a init draws x y Hc Ha; unfold compile_trainer in Ha; rewrite Hc in Ha; cbn [bind] in Ha.
    destruct (get_metric m) as [m' |]; [| discriminate ]; cbn [bind] in Ha; injection Ha as <-.
    unfold network_fit_effect; cbn [loaded_with set_fields fold_left fst snd set_field is_loaded field String.eqb Ascii.eqb Bool.eqb].
    rewrite Hl, Hp, Hd; destruct c; reflexivity.
Qed.
Lemma resume_rbf : forall author now (i j0 : obj) k k' o d,
  save RadialBasisFunctionNetwork author now i k = (k', None) ->
  field i "optimizer" = VOptimizer o -> cname o = usual_optimizer_name (kind o) ->
  field i "parameters" = VDict d -> NoDup (map fst d) -> field j0 "parameters" = VDict [] ->
  exists j, load RadialBasisFunctionNetwork k' j0 = (j, None) /\
    (forall init x y epochs, rbf_fit_effect init x y epochs j =
       rbf_fit_effect init x y epochs (loaded_with i (default_settings (kind o)) (cname o))) /\
    (forall ar c l m a init x y epochs, get_optimizer ar = Ok c -> compile_trainer ar l m = Ok a ->
       rbf_fit_effect init x y epochs (set_fields j a) = rbf_fit_effect init x y epochs (loaded_with i (kind c) (cname c))).
Proof.
  intros author now i j0 k k' o d H Ho Hn Hd Hnd H0.
  destruct (network_loaded_again _ _ _ _ _ _ _ _ _ _ (or_intror (conj eq_refl eq_refl)) H Ho Hn Hd Hnd H0) as (j & Hj & Hl & Hp & Ho').
  exists j; split; [ exact Hj |]; split.
  - intros init x y epochs; unfold rbf_fit_effect; cbn [loaded_with is_loaded field String.eqb Ascii.eqb Bool.eqb]; rewrite Hl, Hp, Hd, Ho'; reflexivity.
  - intros ar c l m a init x y epochs Hc Ha; unfold compile_trainer in Ha; rewrite Hc in Ha; cbn [bind] in Ha.
    destruct (get_metric m) as [m' |]; [| discriminate ]; cbn [bind] in Ha; injection Ha as <-.
    unfold rbf_fit_effect; cbn [loaded_with set_fields fold_left fst snd set_field is_loaded field String.eqb Ascii.eqb Bool.eqb].
    rewrite Hl, Hp, Hd; destruct c; reflexivity.
Qed.

(** ** Never compiled, all classes *)
Lemma not_compiled : forall (c : @cls A) er (e : @fit_effect A), fit_call (fresh c) c e ->
  In (c, er) [(LogisticRegression, TypeError); (BackPropagationNeuralNetwork, TypeError); (RadialBasisFunctionNetwork, TypeError);
              (DecisionTreeClassifier, AttributeError); (SupportVectorClassifier, AttributeError);
              (KMeansModel, TypeError); (GaussianMixture, TypeError)] ->
  raised e = Some er /\ marked e = false.
Proof.
  intros c er e H; remember (fresh c) as i eqn:Ei; destruct H; intros Hin; cbn [In] in Hin;
    repeat (destruct Hin as [Hin | Hin];
      [ pose proof (f_equal (fun p => model_name (fst p)) Hin) as Hm; pose proof (f_equal snd Hin) as He; cbn in Hm, He;
        first [ discriminate Hm | subst er i; clear Hin Hm ] |]); try contradiction; try (split; reflexivity).
Qed.
(** Objects that are trained with the settings that None stands for. *)
Lemma nb_not_compiled : forall O num cont vc cols y, let i := fresh NaiveBayesClassifier in
  let i1 := set_fields i (compile_naive_bayes false) in let e := nb_fit_effect (A := A) O num cont vc cols y i1 in
  nb_fit_effect O num cont vc cols y i = e /\
  (forall O' num' rnd q, predict_naive_bayes O' num' rnd (after_fit e i) q = predict_naive_bayes O' num' rnd (after_fit e i1) q) /\
  forall author now k, snd (save NaiveBayesClassifier author now (after_fit e i) k) = Some TypeError.
Proof.
  intros O num cont vc cols y i i1 e; split; [ reflexivity |].
  assert (G : forall f, f <> "smoothing" -> field (after_fit e i) f = field (after_fit e i1) f).
  { intros f Hf; apply field_after; cbn; apply String.eqb_neq in Hf; rewrite Hf; reflexivity. }
  assert (S : forall j, field (after_fit e j) "smoothing" = field j "smoothing").
  { intros j; unfold e, nb_fit_effect; destruct (get_prior_probability _ _ _); [| reflexivity ].
    destruct (nb_attributes _ _ _ _ _ _) as [l [er |]]; reflexivity. }
  split.
  - intros O' num' rnd q; unfold predict_naive_bayes; rewrite !G, !S by discriminate.
    unfold guarded, after_fit; cbv zeta; cbn [is_trained is_loaded]; reflexivity.
  - intros author now k; unfold save, save_ops; cbn [NaiveBayesClassifier writes model_name flat_map app do_write write_field write_one self bind until_error].
    rewrite S; reflexivity.
Qed.
Lemma ao_not_compiled : forall O num cont cols y, let i := fresh AveragedOneDependentEstimator in
  let i1 := set_fields i (compile_averaged false 0) in let e := ao_fit_effect (A := A) O num cont cols y i1 in
  ao_fit_effect O num cont cols y i = e /\
  (forall O' num' rnd q, predict_averaged O' num' rnd (after_fit e i) q = predict_averaged O' num' rnd (after_fit e i1) q) /\
  forall author now k, snd (save AveragedOneDependentEstimator author now (after_fit e i) k) = Some TypeError.
Proof.
  intros O num cont cols y i i1 e; split; [ reflexivity |].
  assert (G : forall f, f <> "smoothing" -> f <> "m" -> field (after_fit e i) f = field (after_fit e i1) f).
  { intros f Hf Hm; apply field_after; cbn; apply String.eqb_neq in Hf, Hm; rewrite Hf, Hm; reflexivity. }
  assert (S : forall j, field (after_fit e j) "smoothing" = field j "smoothing").
  { intros j; unfold e, ao_fit_effect; destruct (ao_fit _ _ _ _ _ _ _ _); reflexivity. }
  split.
  - intros O' num' rnd q; unfold predict_averaged; rewrite !G by discriminate.
    unfold guarded, after_fit; cbv zeta; cbn [is_trained is_loaded]; reflexivity.
  - intros author now k; unfold save, save_ops; cbn [AveragedOneDependentEstimator writes model_name flat_map app do_write write_field write_one self bind until_error].
    rewrite S; reflexivity.
Qed.
Lemma ensembles_not_compiled :
  (forall choice n w x y, let e := bagging_fit_effect choice n w x y (fresh (@BaggingClassifier A)) in
     raised e = if (n =? 0)%nat then None else Some ValueError) /\
  (forall w n D, let e := adaboost_fit_effect w n D (fresh (@AdaBoostClassifier A)) in
     raised e = if (n =? 0)%nat then None else Some TypeError).
Proof.
  split; [ intros choice n w x y e; unfold e; rewrite new_bag_fails by reflexivity; destruct (n =? 0)%nat; reflexivity |].
  intros w n D e; unfold e, adaboost_fit_effect; destruct (n =? 0)%nat; reflexivity.
Qed.

(** ** Witnesses *)
Lemma ships_saved : forall c (i : obj) P, here_and_there c i P -> forall author now k, exists k', save c author now i k = (k', None).
Proof. intros c i P [_ H] author now k; destruct (H author now k) as (k' & j & E & _); exists k'; exact E. Qed.
Lemma answered_ready : forall B (i : obj) (v r : result B), guarded i v = Answer r -> ready i.
Proof.
  intros B i v r; unfold guarded, ready; destruct (is_trained i); [ intros _; left; reflexivity |].
  destruct (is_loaded i); [ intros _; right; reflexivity | discriminate ].
Qed.
End Resume.
