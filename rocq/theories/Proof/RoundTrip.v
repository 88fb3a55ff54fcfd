(** Proofs about saving and loading again, class by class. *)
From Coq Require Import List String Reals ZArith Bool Arith Lia.
From Verif.Model Require Import Base Network Rbf Training Store Life.
From Verif.Spec Require Import Store.
From Verif.Proof Require Import BaseLemmas Store StoreNet StoreCrash.
Import ListNotations.
Local Open Scope string_scope.

Ltac save_step H :=
  match type of H with
  | context [storable ?v] => let E := fresh "E" in destruct (storable v) eqn:E; cbn [bind until_error fst snd app] in H; [| discriminate H ]
  end.
Ltac save_inv c H :=
  unfold save, save_ops in H;
  cbn [c writes model_name flat_map app do_write write_field write_one self pickled bind until_error] in H.

Section RoundTrip.
Context {A : Type}.
Notation attrs := (@attrs A).
Notation obj := (@obj A).
Notation cls := (@cls A).
Notation value := (value A).

Lemma guarded_ready : forall {B} (i : obj) (r : result B), ready i -> guarded i r = Answer r.
Proof. intros B i r [H | H]; unfold guarded; rewrite H; [ reflexivity | now rewrite andb_false_r ]. Qed.
Lemma self_name_text : forall fld (i : obj) v, self_name fld i = Ok v -> exists s, v = VText s.
Proof. intros fld i v H; unfold self_name in H; destruct (field i fld); inversion H; eexists; reflexivity. Qed.

(** The saved object [i] and the loaded object [j] agree on the fields. *)
Definition agree (fs : list string) (i j : obj) : Prop := Forall (fun f => field j f = field i f) fs.

Ltac finish := eexists; split; [ vm_compute; reflexivity |]; repeat split; repeat constructor.
Ltac table c H := save_inv c H; repeat save_step H; inversion H; clear H; subst; finish.

Lemma rt_lda : forall author now (i j0 : obj) k k', save LinearDiscriminantAnalysis author now i k = (k', None) ->
  exists j, load LinearDiscriminantAnalysis k' j0 = (j, None) /\ is_loaded j = true /\ agree ["w"; "mu_0"; "mu_1"] i j.
Proof. intros author now i j0 k k' H; table @LinearDiscriminantAnalysis H. Qed.
Lemma rt_nb : forall author now (i j0 : obj) k k', save NaiveBayesClassifier author now i k = (k', None) ->
  exists j, load NaiveBayesClassifier k' j0 = (j, None) /\ is_loaded j = true /\
            agree ["smoothing"; "p_0"; "p_1"; "pi_0"; "pi_1"] i j.
Proof. intros author now i j0 k k' H; table @NaiveBayesClassifier H. Qed.
Lemma rt_sp : forall author now (i j0 : obj) k k', save SuperParentOneDependentEstimator author now i k = (k', None) ->
  exists j, load SuperParentOneDependentEstimator k' j0 = (j, None) /\ is_loaded j = true /\
            agree ["super_parent_name"; "smoothing"; "_list_of_p_c"] i j.
Proof. intros author now i j0 k k' H; table @SuperParentOneDependentEstimator H. Qed.
Lemma rt_ao : forall author now (i j0 : obj) k k', save AveragedOneDependentEstimator author now i k = (k', None) ->
  exists j, load AveragedOneDependentEstimator k' j0 = (j, None) /\ is_loaded j = true /\
            agree ["smoothing"; "m"; "_attribute_list"] i j.
Proof. intros author now i j0 k k' H; table @AveragedOneDependentEstimator H. Qed.
Lemma rt_kmeans : forall author now (i j0 : obj) k k', save KMeansModel author now i k = (k', None) ->
  exists j, load KMeansModel k' j0 = (j, None) /\ is_loaded j = true /\
            agree ["init"; "tol"; "centroids"; "clusters"] i j.
Proof. intros author now i j0 k k' H; table @KMeansModel H. Qed.
Lemma rt_mixture : forall author now (i j0 : obj) k k', save GaussianMixture author now i k = (k', None) ->
  exists j, load GaussianMixture k' j0 = (j, None) /\ is_loaded j = true /\
            agree ["init"; "covariances_init"; "mixture_coefficient_init"; "tol"; "mu"; "sigma"; "alpha"; "clusters"] i j.
Proof. intros author now i j0 k k' H; table @GaussianMixture H. Qed.
Lemma rt_bagging : forall author now (i j0 : obj) k k', save BaggingClassifier author now i k = (k', None) ->
  exists j, load BaggingClassifier k' j0 = (j, None) /\ is_loaded j = true /\
            agree ["BaseLearner"; "estimators"; "seed"] i j.
Proof. intros author now i j0 k k' H; table @BaggingClassifier H. Qed.
Lemma rt_adaboost : forall author now (i j0 : obj) k k', save AdaBoostClassifier author now i k = (k', None) ->
  exists j, load AdaBoostClassifier k' j0 = (j, None) /\ is_loaded j = true /\
            agree ["BaseLearner"; "estimators"; "alpha_list"] i j.
Proof. intros author now i j0 k k' H; table @AdaBoostClassifier H. Qed.

(** The decision tree: the pruner is looked for only if the object that loads has
    one. *)
Lemma rt_tree : forall author now (i j0 : obj) k k', save DecisionTreeClassifier author now i k = (k', None) ->
  field j0 "pruner" = VNone ->
  exists j, load DecisionTreeClassifier k' j0 = (j, None) /\ is_loaded j = true /\
            agree ["criterion"; "tree"] i j.
Proof.
  intros author now i j0 k k' H Hp.
  save_inv @DecisionTreeClassifier H; save_step H.
  assert (E2 : exists w, flat_map (do_write i) [PutIfSet Compile "pruning" "pruner" (self_name "pruner")] = w) by (eexists; reflexivity).
  destruct (field i "pruner") eqn:Ep;
    cbn [app until_error flat_map do_write write_one bind self_name pickled storable] in H;
    unfold self_name in H; rewrite ?Ep in H; cbn [bind until_error storable app] in H; try discriminate H;
    inversion H; clear H; subst;
    (eexists; split; [ unfold load; cbn -[field]; cbn [set_field field String.eqb Ascii.eqb Bool.eqb]; rewrite Hp; reflexivity |]);
    repeat split; repeat constructor.
Qed.

Lemma metric_by_name : forall s, exists m, forall (i : obj), to_metric i (VText s) = Ok m.
Proof.
  intros s; unfold to_metric; cbn [as_arg get_metric];
    repeat (destruct (_ =? _); [ eexists; reflexivity |]); eexists; reflexivity.
Qed.
(** Logistic regression: the optimizer is rebuilt from its name. *)
Lemma rt_logistic : forall author now (i j0 : obj) k k' o, save LogisticRegression author now i k = (k', None) ->
  field i "optimizer" = VOptimizer o -> cname o = usual_optimizer_name (kind o) ->
  exists j o', load LogisticRegression k' j0 = (j, None) /\ is_loaded j = true /\ agree ["beta"] i j /\
               field j "optimizer" = VOptimizer o' /\ usual_optimizer_name (kind o') = usual_optimizer_name (kind o).
Proof.
  intros author now i j0 k k' o H Ho Hn.
  save_inv @LogisticRegression H.
  destruct (self_name "optimizer" i) as [vo | e] eqn:E1; cbn [bind until_error app] in H; [| discriminate H ].
  unfold self_name in E1; rewrite Ho in E1; inversion E1; subst vo; clear E1.
  destruct (self_name "loss" i) as [vl | e] eqn:E2; cbn [bind until_error app storable] in H; [| discriminate H ].
  destruct (self_name_text _ _ _ E2) as [sl ->].
  destruct (self_name "metric" i) as [vm | e] eqn:E3; cbn [bind until_error app storable] in H; [| discriminate H ].
  destruct (self_name_text _ _ _ E3) as [sm ->].
  cbn [bind until_error app storable] in H.
  save_step H; inversion H; clear H; subst k'.
  destruct (metric_by_name sm) as [m Em].
  destruct o as [kd nm]; cbn [kind cname] in *; subst nm.
  destruct kd; (eexists; eexists; split;
    [ unfold load; cbn -[to_metric get_loss field]; rewrite Em; cbn; reflexivity |]); repeat split; repeat constructor.
Qed.

(** Support vector classifier: the kernel is rebuilt from its name and gamma. *)
Lemma rt_svc : forall author now (i j0 : obj) k k' c, save SupportVectorClassifier author now i k = (k', None) ->
  field i "kernel" = VKernel c -> usual_kernel (number (field i "gamma")) c ->
  exists j, load SupportVectorClassifier k' j0 = (j, None) /\ is_loaded j = true /\
    agree ["C"; "gamma"; "kernel"; "tol"; "support"; "support_vector"; "support_alpha"; "support_y"; "b"] i j.
Proof.
  intros author now i j0 k k' c H Hk Hu.
  save_inv @SupportVectorClassifier H; save_step H.
  unfold self_name in H; rewrite Hk in H; cbn [bind until_error app storable] in H.
  repeat save_step H; inversion H; clear H; subst k'.
  unfold usual_kernel in Hu; cbn [In] in Hu.
  destruct Hu as [<- | [<- | [<- | [<- | [<- | []]]]]];
    (eexists; split; [ unfold load; cbn -[field get_kernel number]; cbn [get_kernel set_field field String.eqb Ascii.eqb Bool.eqb]; cbn; reflexivity |]);
    repeat split; repeat constructor; cbn; now rewrite Hk.
Qed.

(** The networks: any moment from the end of the [compile] part on. *)
Definition network_file (c : cls) (author now : value) (s : string) (i : obj) (no nl nm : string) (d : attrs) : @file A :=
  {| description := description (started c author now); parameters := true;
     compile_ds := Some [(s, field i s); ("optimizer", VText no); ("loss", VText nl); ("metric", VText nm)];
     weights_ds := Some d |}.
Definition is_network (c : cls) (s : string) : Prop :=
  (c = BackPropagationNeuralNetwork /\ s = "network_structure") \/ (c = RadialBasisFunctionNetwork /\ s = "hidden_units").
Lemma network_saved : forall c s author now (i : obj) k k' d, is_network c s ->
  save c author now i k = (k', None) -> field i "parameters" = VDict d ->
  exists no nl nm, self_name "optimizer" i = Ok (VText no) /\
    (forall t, save_interrupted c author now i (14 + t) k =
               Hdf5 (network_file c author now s i no nl nm (fold_left (fun d kv => put d (fst kv) (snd kv)) (firstn t d) []))) /\
    k' = Hdf5 (network_file c author now s i no nl nm (fold_left (fun d kv => put d (fst kv) (snd kv)) d [])).
Proof.
  intros c s author now i k k' d Hc H Hd.
  assert (Hw : writes c = [write_field Compile s; Put Compile "optimizer" (self_name "optimizer"); Put Compile "loss" (self_name "loss");
                           Put Compile "metric" (self_name "metric"); PutAll Weights "parameters"])
    by (destruct Hc as [[-> ->] | [-> ->]]; reflexivity).
  assert (Hl : forall t, save_interrupted c author now i (14 + t) k =
    run_ops (firstn (4 + t) (fst (until_error (flat_map (do_write i) (writes c))))) (Hdf5 (started c author now))).
  { intros t; rewrite interrupted_late by lia; do 2 f_equal. }
  rewrite save_run in H; rewrite Hw in H, Hl; cbn [flat_map do_write write_field self write_one bind] in H, Hl; rewrite Hd in H, Hl.
  destruct (storable (field i s)); cbn [app until_error] in H, Hl; [| discriminate H ].
  destruct (self_name "optimizer" i) as [vo | e] eqn:E1; cbn [bind until_error app] in H; [| discriminate H ].
  destruct (self_name_text _ _ _ E1) as [no ->].
  destruct (self_name "loss" i) as [vl | e] eqn:E2; cbn [bind until_error app storable] in H; [| discriminate H ].
  destruct (self_name_text _ _ _ E2) as [nl ->].
  destruct (self_name "metric" i) as [vm | e] eqn:E3; cbn [bind until_error app storable] in H; [| discriminate H ].
  destruct (self_name_text _ _ _ E3) as [nm ->].
  cbn [bind until_error app storable] in H, Hl; rewrite app_nil_r in H, Hl.
  destruct (until_error (map _ d)) as [ops e] eqn:Ed; cbn [fst snd] in H, Hl.
  destruct e as [e |]; [ discriminate H |].
  apply all_written in Ed; [| reflexivity ]; subst ops.
  exists no, nl, nm; split; [ reflexivity |]; split.
  - intros t; rewrite Hl; cbn [plus firstn write_one bind storable fst]; rewrite firstn_map, !run_cons.
    cbn [exec on_file set_part part_of started compile_ds option_map put String.eqb Ascii.eqb Bool.eqb description parameters weights_ds].
    rewrite (run_dict _ _ []) by reflexivity.
    destruct Hc as [[-> ->] | [-> ->]]; reflexivity.
  - cbn [write_one bind storable fst] in H; apply (f_equal fst) in H; cbn [fst] in H; rewrite <- H, !run_cons.
    cbn [exec on_file set_part part_of started compile_ds option_map put String.eqb Ascii.eqb Bool.eqb description parameters weights_ds].
    rewrite (run_dict _ _ []) by reflexivity.
    destruct Hc as [[-> ->] | [-> ->]]; reflexivity.
Qed.
(** Loading such a file into an object that holds the dictionary [d0]. *)
Lemma network_loaded : forall c s author now (i j0 : obj) nl nm kd d d0, is_network c s ->
  field j0 "parameters" = VDict d0 ->
  exists j o', load c (Hdf5 (network_file c author now s i (usual_optimizer_name kd) nl nm d)) j0 = (j, None) /\ is_loaded j = true /\
    agree [s] i j /\ field j "parameters" = VDict (fold_left (fun d kv => put d (fst kv) (snd kv)) d d0) /\
    field j "optimizer" = VOptimizer o' /\ usual_optimizer_name (kind o') = usual_optimizer_name kd.
Proof.
  intros c s author now i j0 nl nm kd d d0 Hc Hd0.
  destruct (metric_by_name nm) as [m Em].
  destruct Hc as [[-> ->] | [-> ->]]; destruct kd; (eexists; eexists; split;
    [ unfold load; cbn -[to_metric get_loss field fold_left put]; rewrite Em; cbn -[field fold_left put]; unfold set_field, merge_into;
      cbn [field String.eqb Ascii.eqb Bool.eqb]; rewrite Hd0; cbn [bind]; reflexivity |]); repeat split; repeat constructor.
Qed.
End RoundTrip.
