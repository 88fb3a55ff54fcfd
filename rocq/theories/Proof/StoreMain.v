(** Main proofs about the weight files. *)
From Coq Require Import List String Reals ZArith Bool Arith Lia Lra.
From Verif.Model Require Import Base Ops Stump Tree Bayes Gmm KMeans Kernels Smo Activations Network Rbf Training Store Life.
From Verif.Spec Require Import Store.
From Verif.Proof Require Import BaseLemmas Activations Store StoreNet StoreCrash RoundTrip Life.
Import ListNotations.
Local Open Scope string_scope.

Section Main.
Context {A : Type}.
Notation attrs := (@attrs A).
Notation obj := (@obj A).
Notation cls := (@cls A).
Notation value := (value A).

(** ** C54 *)
Lemma guard_history : forall (c : cls) d ks, In c classes -> marks_early c = false -> fits_possible c ks ->
  let i := fst (perform_all c (fresh c, d) ks) in
  (some_success (transcript c (fresh c, d) ks) -> all_answer i) /\
  (~ some_success (transcript c (fresh c, d) ks) -> all_refuse i).
Proof.
  intros c d ks Hc Hm Hf i; destruct (history c ks (fresh c, d) Hf) as [H1 H2]; split; intros H.
  - apply answers, H1; now right.
  - apply refuses; intros Hr; destruct (H2 Hm Hr) as [G | G]; [ exact (fresh_not_ready c Hc G) | exact (H G) ].
Qed.
Lemma success_enables : forall (c : cls) d ks, In c classes -> fits_possible c ks ->
  some_success (transcript c (fresh c, d) ks) -> all_answer (fst (perform_all c (fresh c, d) ks)).
Proof. intros c d ks Hc Hf H; destruct (history c ks (fresh c, d) Hf) as [H1 _]; apply answers, H1; now right. Qed.
Lemma mixture_failed_fit : exists rnd d randint x n i_mu i_cov i_mix tol epochs,
  let e := mixture_fit_effect (A := A) rnd d randint x n i_mu i_cov i_mix tol epochs in
  fits_possible GaussianMixture [FitCall e] /\ raised e <> None /\
  forall disk, ~ some_success (transcript GaussianMixture (fresh GaussianMixture, disk) [FitCall e]) /\
               all_answer (fst (perform_all GaussianMixture (fresh GaussianMixture, disk) [FitCall e])).
Proof.
  exists (fun x => x), 2%nat, (fun _ _ => []), [[0; 0]]%R, 2%nat,
    (InitArray {| shape := [2; 2]%nat; data := Floats [0; 0; 1; 1]%R |}),
    (CovArray {| shape := [2; 2; 2]%nat; data := Floats [0; 0; 0; 0; 0; 0; 0; 0]%R |}), CovNone, (1 / 1000)%R, 0%nat.
  split; [ intros e [E | []]; inversion E; apply mixture_possible |].
  rewrite singular_fit; split; [ discriminate |].
  intros disk; split.
  - intros (k & [E | []] & _); inversion E.
  - apply answers; left; reflexivity.
Qed.
Lemma untrained_file : forall (c : cls),
  In c [SuperParentOneDependentEstimator; AveragedOneDependentEstimator; DecisionTreeClassifier; BaggingClassifier;
        AdaBoostClassifier; BackPropagationNeuralNetwork; RadialBasisFunctionNetwork] ->
  exists l, forall disk path author now,
    all_answer (fst (perform_all c (fresh c, disk) [CompileCall l; SaveCall path author now; LoadCall path])).
Proof.
  assert (G : forall (c : cls) l, snd (save c VNone VNone (set_fields (fresh c) l) Absent) = None ->
    (forall author now k, snd (load c (fst (save c author now (set_fields (fresh c) l) k)) (set_fields (fresh c) l)) = None) ->
    forall disk path author now,
      all_answer (fst (perform_all c (fresh c, disk) [CompileCall l; SaveCall path author now; LoadCall path]))).
  { intros c l _ H disk path author now; apply answers; right.
    cbn [perform_all perform fst snd].
    specialize (H author now (disk path)).
    destruct (save c author now (set_fields (fresh c) l) (disk path)) as [k e]; cbn [fst snd] in *.
    unfold store; rewrite String.eqb_refl.
    pose proof (load_flags c k (set_fields (fresh c) l)) as [_ E]; rewrite H in E.
    destruct (load c k (set_fields (fresh c) l)) as [j e']; exact E. }
  intros c H.
  repeat (destruct H as [<- | H]); [ | | | | | | | contradiction ].
  - exists [("super_parent_name", VText "a"); ("smoothing", VBool true)]; apply G; reflexivity.
  - exists [("smoothing", VBool true); ("m", VInt 0)]; apply G; reflexivity.
  - exists [("criterion", VText "gain"); ("pruner", VNone)]; apply G; reflexivity.
  - exists [("BaseLearner", VText "DecisionStumpClassifier"); ("seed", VInt 7)]; apply G; reflexivity.
  - exists [("BaseLearner", VText "TwoLevelDecisionTreeClassifier")]; apply G; reflexivity.
  - exists [("network_structure", VNats [2; 1]%nat); ("optimizer", VOptimizer (comp (Sgd (1 / 100)) "stochastic_gradient_descent"));
            ("loss", VLoss (comp Crossentropy "crossentropy")); ("metric", VMetric (comp Accuracy "accuracy"))]; apply G; reflexivity.
  - exists [("hidden_units", VInt 2); ("optimizer", VOptimizer (comp (RbfOptimizer (1 / 100)) "rbf"));
            ("loss", VLoss (comp Mse "mean_squared_error")); ("metric", VMetric (comp Accuracy "accuracy"))]; apply G; reflexivity.
Qed.
Lemma untrained_not_saved : forall (c : cls) fld,
  In (c, fld) [(LogisticRegression, "beta"); (LinearDiscriminantAnalysis, "w"); (NaiveBayesClassifier, "p_0");
               (SupportVectorClassifier, "support"); (KMeansModel, "centroids"); (GaussianMixture, "mu")] ->
  field (fresh c) fld = VNone /\
  forall i author now k, field i fld = VNone -> exists e, snd (save c author now i k) = Some e.
Proof.
  assert (G : forall (c : cls) fld ws1 ws2 p, writes c = (ws1 ++ Put p fld (self fld) :: ws2)%list ->
    forall i author now k, field i fld = VNone -> exists e, snd (save c author now i k) = Some e).
  { intros c fld ws1 ws2 p Hw i author now k Hi; rewrite save_run; cbn [snd]; rewrite Hw, flat_map_app, until_error_app.
    destruct (until_error (flat_map (do_write i) ws1)) as [bs [e |]]; cbn [snd]; [ now exists e |].
    cbn [flat_map do_write self write_one]; unfold self; rewrite Hi; cbn; eexists; reflexivity. }
  intros c fld H; repeat (destruct H as [E | H]); [ | | | | | | contradiction ];
    inversion E; subst c fld; clear E; (split; [ reflexivity |]).
  - exact (G LogisticRegression "beta" (firstn 3 (writes LogisticRegression)) [] Weights eq_refl).
  - exact (G LinearDiscriminantAnalysis "w" [] (skipn 1 (writes LinearDiscriminantAnalysis)) Weights eq_refl).
  - exact (G NaiveBayesClassifier "p_0" (firstn 1 (writes NaiveBayesClassifier)) (skipn 2 (writes NaiveBayesClassifier)) Weights eq_refl).
  - exact (G SupportVectorClassifier "support" (firstn 4 (writes SupportVectorClassifier)) (skipn 5 (writes SupportVectorClassifier)) Weights eq_refl).
  - exact (G KMeansModel "centroids" (firstn 2 (writes KMeansModel)) (skipn 3 (writes KMeansModel)) Weights eq_refl).
  - exact (G GaussianMixture "mu" (firstn 4 (writes GaussianMixture)) (skipn 5 (writes GaussianMixture)) Weights eq_refl).
Qed.

(** ** C55 *)
Ltac agreement Ha := unfold agree in Ha;
  repeat match type of Ha with Forall _ (_ :: _) => let Hx := fresh "F" in inversion Ha as [| ? ? Hx Ha']; clear Ha; subst; rename Ha' into Ha end.
Ltac same Hl Hr Ha := intros; rewrite !guarded_ready by (exact Hr || (right; exact Hl)); f_equal;
  repeat match goal with F : field _ _ = field _ _ |- _ => rewrite F; clear F end; reflexivity.

Lemma again_lda : forall author now (i j0 : obj) k k', ready i -> save LinearDiscriminantAnalysis author now i k = (k', None) ->
  exists j, load LinearDiscriminantAnalysis k' j0 = (j, None) /\ forall r, predict_lda j r = predict_lda i r.
Proof.
  intros author now i j0 k k' Hr H; destruct (rt_lda _ _ _ j0 _ _ H) as (j & Hj & Hl & Ha).
  exists j; split; [ exact Hj |]; agreement Ha; unfold predict_lda; same Hl Hr Ha.
Qed.
Lemma again_nb : forall author now (i j0 : obj) k k', ready i -> save NaiveBayesClassifier author now i k = (k', None) ->
  exists j, load NaiveBayesClassifier k' j0 = (j, None) /\
    forall O num_of rnd q, predict_naive_bayes O num_of rnd j q = predict_naive_bayes O num_of rnd i q.
Proof.
  intros author now i j0 k k' Hr H; destruct (rt_nb _ _ _ j0 _ _ H) as (j & Hj & Hl & Ha).
  exists j; split; [ exact Hj |]; agreement Ha; unfold predict_naive_bayes; same Hl Hr Ha.
Qed.
Lemma again_sp : forall author now (i j0 : obj) k k', ready i -> save SuperParentOneDependentEstimator author now i k = (k', None) ->
  exists j, load SuperParentOneDependentEstimator k' j0 = (j, None) /\
    forall O num_of rnd q, predict_super_parent O num_of rnd j q = predict_super_parent O num_of rnd i q.
Proof.
  intros author now i j0 k k' Hr H; destruct (rt_sp _ _ _ j0 _ _ H) as (j & Hj & Hl & Ha).
  exists j; split; [ exact Hj |]; agreement Ha; unfold predict_super_parent; same Hl Hr Ha.
Qed.
Lemma again_ao : forall author now (i j0 : obj) k k', ready i -> save AveragedOneDependentEstimator author now i k = (k', None) ->
  exists j, load AveragedOneDependentEstimator k' j0 = (j, None) /\
    forall O num_of rnd q, predict_averaged O num_of rnd j q = predict_averaged O num_of rnd i q.
Proof.
  intros author now i j0 k k' Hr H; destruct (rt_ao _ _ _ j0 _ _ H) as (j & Hj & Hl & Ha).
  exists j; split; [ exact Hj |]; agreement Ha; unfold predict_averaged; same Hl Hr Ha.
Qed.
Lemma again_tree : forall author now (i j0 : obj) k k', ready i -> save DecisionTreeClassifier author now i k = (k', None) ->
  field j0 "pruner" = VNone ->
  exists j, load DecisionTreeClassifier k' j0 = (j, None) /\ forall x, predict_tree j x = predict_tree i x.
Proof.
  intros author now i j0 k k' Hr H Hp; destruct (rt_tree _ _ _ j0 _ _ H Hp) as (j & Hj & Hl & Ha).
  exists j; split; [ exact Hj |]; agreement Ha; unfold predict_tree; same Hl Hr Ha.
Qed.
Lemma tree_pruner : forall author now (i j0 : obj) k k' p,
  save DecisionTreeClassifier author now i k = (k', None) -> field i "pruner" = VNone -> field j0 "pruner" = VPruner p ->
  exists j, load DecisionTreeClassifier k' j0 = (j, Some KeyError) /\ field j "criterion" = field i "criterion" /\
            field j "tree" = field j0 "tree".
Proof.
  intros author now i j0 k k' p H Hi Hp; save_inv @DecisionTreeClassifier H; save_step H.
  rewrite Hi in H; cbn [app until_error write_one bind pickled storable] in H.
  inversion H; clear H; subst.
  (eexists; split; [ unfold load; cbn -[field]; cbn [set_field field String.eqb Ascii.eqb Bool.eqb]; rewrite Hp; reflexivity |]).
  split; reflexivity.
Qed.
Lemma again_kmeans : forall author now (i j0 : obj) k k', ready i -> save KMeansModel author now i k = (k', None) ->
  exists j, load KMeansModel k' j0 = (j, None) /\ forall x, predict_kmeans j x = predict_kmeans i x.
Proof.
  intros author now i j0 k k' Hr H; destruct (rt_kmeans _ _ _ j0 _ _ H) as (j & Hj & Hl & Ha).
  exists j; split; [ exact Hj |]; agreement Ha; unfold predict_kmeans; same Hl Hr Ha.
Qed.
Lemma again_mixture : forall author now (i j0 : obj) k k', ready i -> save GaussianMixture author now i k = (k', None) ->
  exists j, load GaussianMixture k' j0 = (j, None) /\ forall rnd d x, predict_mixture rnd d j x = predict_mixture rnd d i x.
Proof.
  intros author now i j0 k k' Hr H; destruct (rt_mixture _ _ _ j0 _ _ H) as (j & Hj & Hl & Ha).
  exists j; split; [ exact Hj |]; agreement Ha; unfold predict_mixture; same Hl Hr Ha.
Qed.
Lemma again_bagging : forall author now (i j0 : obj) k k', ready i -> save BaggingClassifier author now i k = (k', None) ->
  exists j, load BaggingClassifier k' j0 = (j, None) /\ forall x, predict_bagging j x = predict_bagging i x.
Proof.
  intros author now i j0 k k' Hr H; destruct (rt_bagging _ _ _ j0 _ _ H) as (j & Hj & Hl & Ha).
  exists j; split; [ exact Hj |]; agreement Ha; unfold predict_bagging; same Hl Hr Ha.
Qed.
Lemma again_adaboost : forall author now (i j0 : obj) k k', ready i -> save AdaBoostClassifier author now i k = (k', None) ->
  exists j, load AdaBoostClassifier k' j0 = (j, None) /\ forall r, predict_adaboost j r = predict_adaboost i r.
Proof.
  intros author now i j0 k k' Hr H; destruct (rt_adaboost _ _ _ j0 _ _ H) as (j & Hj & Hl & Ha).
  exists j; split; [ exact Hj |]; agreement Ha; unfold predict_adaboost; same Hl Hr Ha.
Qed.
Lemma again_svc : forall author now (i j0 : obj) k k' c, ready i -> save SupportVectorClassifier author now i k = (k', None) ->
  field i "kernel" = VKernel c -> usual_kernel (number (field i "gamma")) c ->
  exists j, load SupportVectorClassifier k' j0 = (j, None) /\ forall x, predict_svc j x = predict_svc i x.
Proof.
  intros author now i j0 k k' c Hr H Hk Hu; destruct (rt_svc _ _ _ j0 _ _ _ H Hk Hu) as (j & Hj & Hl & Ha).
  exists j; split; [ exact Hj |]; clear Hk; agreement Ha; unfold predict_svc; same Hl Hr Ha.
Qed.
Lemma kernel_constants :
  let changes c g b x :=
    let i := trained_svc A c g b in
    exists k' j, save SupportVectorClassifier VNone VNone i Absent = (k', None) /\
      load SupportVectorClassifier k' new_svc = (j, None) /\ predict_svc j x <> predict_svc i x in
  changes (comp (KPoly (Some 1%R) 2) "poly") 1%R 0%R [[-1]]%R /\
  changes (comp (KSigmoid (Some 1%R) 1 0) "sigmoid") 1%R 0%R [[1 / 2]]%R /\
  changes (comp (KRbf (Some 10%R)) "rbf") (1 / 10)%R (- 1 / 2)%R [[0]]%R.
Proof.
  assert (P : (forall K sv sa sy b x, 0 <= rsum (map (fun p => fst (fst p) * snd (fst p) * K x (snd p)) (combine (combine sa sy) sv)) + b ->
            svc_predict K {| support := [0%nat]; support_vector := sv; support_alpha := sa; support_y := sy; svc_b := b |} x = 1%Z)%R).
  { intros K sv sa sy b x H; unfold svc_predict, svc_decision; cbn [support_alpha support_y support_vector svc_b].
    now rewrite (proj2 (Rltb_false _ _) H). }
  assert (N : (forall K sv sa sy b x, rsum (map (fun p => fst (fst p) * snd (fst p) * K x (snd p)) (combine (combine sa sy) sv)) + b < 0 ->
            svc_predict K {| support := [0%nat]; support_vector := sv; support_alpha := sa; support_y := sy; svc_b := b |} x = (-1)%Z)%R).
  { intros K sv sa sy b x H; unfold svc_predict, svc_decision; cbn [support_alpha support_y support_vector svc_b].
    now rewrite (proj2 (Rltb_true _ _) H). }
  assert (T : forall z, (0 < z -> 0 < tanh z)%R).
  { intros z Hz; unfold tanh; apply Rdiv_lt_0_compat.
    - assert (exp (- z) < exp z)%R as Hlt by (apply exp_increasing; lra); lra.
    - pose proof (exp_pos z); pose proof (exp_pos (- z)); lra. }
  assert (T' : forall z, tanh (- z) = (- tanh z)%R).
  { intros z; unfold tanh; rewrite Ropp_involutive; pose proof (exp_pos z); pose proof (exp_pos (- z)); field; lra. }
  intros changes; unfold changes; split; [| split ];
    (eexists; eexists; split; [ reflexivity | split; [ reflexivity |] ]);
    unfold predict_svc, guarded; cbn [is_trained is_loaded set_loaded set_field trained_svc trained field lookup String.eqb Ascii.eqb Bool.eqb negb andb
      kind comp kernel_fun bind number map].
  - rewrite (P (polynomial 1 2)), (N (polynomial 1 3)); [ discriminate | |]; unfold polynomial, dot; cbn; lra.
  - rewrite (P (sigmoid_kernel 1 1 0)), (N (sigmoid_kernel 1 1 (-1))); [ discriminate | |];
      unfold rsum; cbn [combine map fold_right fst snd]; unfold sigmoid_kernel.
    + replace (1 * dot [1] [1 / 2] + -1)%R with (- (1 / 2))%R by (unfold dot; cbn; lra).
      rewrite T'; pose proof (T (1 / 2)%R ltac:(lra)); lra.
    + replace (1 * dot [1] [1 / 2] + 0)%R with (1 / 2)%R by (unfold dot; cbn; lra).
      pose proof (T (1 / 2)%R ltac:(lra)); lra.
  - rewrite (N (rbf 10)), (P (rbf (1 / 10))); [ discriminate | |];
      unfold rsum; cbn [combine map fold_right fst snd]; unfold rbf.
    + replace (1 / 10 * - sqnorm (vsub [1] [0]))%R with (- (1 / 10))%R by (unfold sqnorm, dot, vsub; cbn; lra).
      pose proof (exp_ineq1_le (- (1 / 10))); lra.
    + replace (10 * - sqnorm (vsub [1] [0]))%R with (- 10)%R by (unfold sqnorm, dot, vsub; cbn; lra).
      pose proof (exp_ineq1_le 10); pose proof (exp_pos (-10)).
      assert ((exp (-10) * exp 10 = 1)%R) by (rewrite <- exp_plus; replace (-10 + 10)%R with 0%R by lra; apply exp_0).
      nra.
Qed.
Lemma renamed_kernel : forall author now (i j0 : obj) k k' c,
  save SupportVectorClassifier author now i k = (k', None) -> field i "kernel" = VKernel c ->
  ~ In (cname c) ["linear"; "rbf"; "gaussian"; "poly"; "sigmoid"] ->
  exists j, load SupportVectorClassifier k' j0 = (j, Some AttributeError).
Proof.
  intros author now i j0 k k' c H Hk Hn.
  save_inv @SupportVectorClassifier H; save_step H.
  unfold self_name in H; rewrite Hk in H; cbn [bind until_error app storable] in H.
  repeat save_step H; inversion H; clear H; subst k'.
  assert (Ek : forall g : obj, to_kernel g (VText (cname c)) = Err AttributeError).
  { intros g; unfold to_kernel; cbn [as_arg get_kernel]; cbn [In] in Hn.
    repeat match goal with |- context [cname c =? ?s] => destruct (cname c =? s) eqn:?;
      [ exfalso; apply Hn; match goal with H : (cname c =? _) = true |- _ => apply String.eqb_eq in H; rewrite H end; tauto |] end.
    reflexivity. }
  eexists; unfold load; cbn -[field to_kernel]; rewrite Ek; reflexivity.
Qed.
Lemma same_forward : forall o o', usual_optimizer_name (kind o') = usual_optimizer_name (kind o) ->
  match kind o, kind o' with
  | GradientDescent _, GradientDescent _ | NewtonMethod, NewtonMethod | Sgd _, Sgd _ | Adam _ _ _ _, Adam _ _ _ _
  | RbfOptimizer _, RbfOptimizer _ | Smo, Smo => True
  | _, _ => False
  end.
Proof. intros [k n] [k' n']; cbn; destruct k, k'; cbn; intros H; try discriminate H; exact I. Qed.
Lemma again_logistic : forall author now (i j0 : obj) k k' o, ready i -> save LogisticRegression author now i k = (k', None) ->
  field i "optimizer" = VOptimizer o -> cname o = usual_optimizer_name (kind o) ->
  exists j, load LogisticRegression k' j0 = (j, None) /\ forall x, predict_logistic j x = predict_logistic i x.
Proof.
  intros author now i j0 k k' o Hr H Ho Hn; destruct (rt_logistic _ _ _ j0 _ _ _ H Ho Hn) as (j & o' & Hj & Hl & Ha & Ho' & Hu).
  exists j; split; [ exact Hj |]; intros x; unfold predict_logistic.
  rewrite !guarded_ready by (exact Hr || (right; exact Hl)); rewrite Ho, Ho'; agreement Ha.
  apply same_forward in Hu; destruct (kind o), (kind o'); try contradiction; rewrite ?F; reflexivity.
Qed.
Lemma learning_rate : forall author now (i j0 : obj) k k' rate, save LogisticRegression author now i k = (k', None) ->
  field i "optimizer" = VOptimizer (comp (GradientDescent rate) "gradient_descent") ->
  exists j, load LogisticRegression k' j0 = (j, None) /\
    field j "optimizer" = VOptimizer (comp (GradientDescent (1 / 100)) "gradient_descent").
Proof.
  intros author now i j0 k k' rate H Ho.
  save_inv @LogisticRegression H.
  destruct (self_name "optimizer" i) as [vo | e] eqn:E1; cbn [bind until_error app] in H; [| discriminate H ].
  unfold self_name in E1; rewrite Ho in E1; inversion E1; subst vo; clear E1.
  destruct (self_name "loss" i) as [vl | e] eqn:E2; cbn [bind until_error app storable] in H; [| discriminate H ].
  destruct (self_name_text _ _ _ E2) as [sl ->].
  destruct (self_name "metric" i) as [vm | e] eqn:E3; cbn [bind until_error app storable] in H; [| discriminate H ].
  destruct (self_name_text _ _ _ E3) as [sm ->].
  cbn [bind until_error app storable] in H.
  save_step H; inversion H; clear H; subst k'.
  destruct (metric_by_name (A := A) sm) as [m Em].
  eexists; split; [ unfold load; cbn -[to_metric get_loss field]; rewrite Em; cbn; reflexivity | reflexivity ].
Qed.

Lemma network_again : forall c s author now (i j0 : obj) k k' o d d0, is_network c s ->
  save c author now i k = (k', None) ->
  field i "optimizer" = VOptimizer o -> cname o = usual_optimizer_name (kind o) ->
  field i "parameters" = VDict d -> NoDup (map fst d) -> field j0 "parameters" = VDict d0 ->
  exists j o', load c k' j0 = (j, None) /\ is_loaded j = true /\
    field j "parameters" = VDict (fold_left (fun d kv => put d (fst kv) (snd kv)) d d0) /\
    field j "optimizer" = VOptimizer o' /\ usual_optimizer_name (kind o') = usual_optimizer_name (kind o).
Proof.
  intros c s author now i j0 k k' o d d0 Hc H Ho Hn Hd Hnd H0.
  destruct (network_saved c s author now i k k' d Hc H Hd) as (no & nl & nm & Eo & _ & ->).
  rewrite put_all_fresh by exact Hnd; cbn [app].
  unfold self_name in Eo; rewrite Ho in Eo; inversion Eo; subst no; rewrite Hn.
  destruct (network_loaded c s author now i j0 nl nm (kind o) d d0 Hc H0) as (j & o' & Hj & Hl & _ & Hp & Ho' & Hu).
  exists j, o'; repeat split; assumption.
Qed.
Lemma again_network : forall author now (i j0 : obj) k k' o d, ready i ->
  save BackPropagationNeuralNetwork author now i k = (k', None) ->
  field i "optimizer" = VOptimizer o -> cname o = usual_optimizer_name (kind o) ->
  field i "parameters" = VDict d -> NoDup (map fst d) -> field j0 "parameters" = VDict [] ->
  exists j, load BackPropagationNeuralNetwork k' j0 = (j, None) /\ forall x, predict_network j x = predict_network i x.
Proof.
  intros author now i j0 k k' o d Hr H Ho Hn Hd Hnd H0.
  destruct (network_again _ _ _ _ _ _ _ _ _ _ _ (or_introl (conj eq_refl eq_refl)) H Ho Hn Hd Hnd H0) as (j & o' & Hj & Hl & Hp & Ho' & Hu).
  rewrite put_all_fresh in Hp by exact Hnd; cbn [app] in Hp.
  exists j; split; [ exact Hj |]; intros x; unfold predict_network; rewrite !guarded_ready by (exact Hr || (right; exact Hl)).
  rewrite Ho, Ho', Hd, Hp; apply same_forward in Hu; destruct (kind o), (kind o'); try contradiction; reflexivity.
Qed.
Lemma again_rbf : forall author now (i j0 : obj) k k' o d, ready i ->
  save RadialBasisFunctionNetwork author now i k = (k', None) ->
  field i "optimizer" = VOptimizer o -> cname o = usual_optimizer_name (kind o) ->
  field i "parameters" = VDict d -> NoDup (map fst d) -> field j0 "parameters" = VDict [] ->
  exists j, load RadialBasisFunctionNetwork k' j0 = (j, None) /\ forall x, predict_rbf j x = predict_rbf i x.
Proof.
  intros author now i j0 k k' o d Hr H Ho Hn Hd Hnd H0.
  destruct (network_again _ _ _ _ _ _ _ _ _ _ _ (or_intror (conj eq_refl eq_refl)) H Ho Hn Hd Hnd H0) as (j & o' & Hj & Hl & Hp & Ho' & Hu).
  rewrite put_all_fresh in Hp by exact Hnd; cbn [app] in Hp.
  exists j; split; [ exact Hj |]; intros x; unfold predict_rbf; rewrite !guarded_ready by (exact Hr || (right; exact Hl)).
  rewrite Ho, Ho', Hd, Hp; apply same_forward in Hu; destruct (kind o), (kind o'); try contradiction; reflexivity.
Qed.

(** ** C56 *)
Lemma own_says : forall (c : cls) author now i k, exists f, fst (save c author now i k) = Hdf5 f /\
  says f cml_version io_version (model_name c).
Proof.
  intros c author now i k; rewrite save_run; cbn [fst].
  destruct (run_hdf5 (fst (until_error (flat_map (do_write i) (writes c)))) (started c author now)) as [g Hg].
  exists g; split; [ exact Hg |].
  exists [("cml_version", VVersion cml_version); ("io_version", VVersion io_version); ("author", author);
          ("model_name", VText (model_name c)); ("saved_time", now)].
  split; [| repeat split ].
  rewrite (run_description _ _ _ (until_error_writes i (writes c)) Hg); reflexivity.
Qed.
Lemma malformed : forall (c : cls) f i,
  (description f = None -> load c (Hdf5 f) i = (i, Some KeyError)) /\
  forall d, description f = Some d ->
    (lookup d "cml_version" = None -> load c (Hdf5 f) i = (i, Some KeyError)) /\
    (forall t, lookup d "cml_version" = Some (VText t) -> load c (Hdf5 f) i = (i, Some ValueError)) /\
    (forall v, lookup d "cml_version" = Some v -> (forall t, v <> VText t) -> (forall w, v <> VVersion w) ->
       load c (Hdf5 f) i = (i, Some TypeError)) /\
    forall v, lookup d "cml_version" = Some (VVersion v) ->
      (lookup d "io_version" = None -> load c (Hdf5 f) i = (i, Some KeyError)) /\
      (forall t, lookup d "io_version" = Some (VText t) -> load c (Hdf5 f) i = (i, Some IndexError)) /\
      (forall u, lookup d "io_version" = Some u -> (forall t, u <> VText t) -> (forall w, u <> VVersion w) ->
         load c (Hdf5 f) i = (i, Some TypeError)) /\
      forall w, lookup d "io_version" = Some (VVersion w) -> ~ earlier v [0; 5]%nat -> ~ release_before (release w) [0; 7]%nat ->
        (lookup d "model_name" = None -> load c (Hdf5 f) i = (i, Some KeyError)) /\
        (lookup d "model_name" = Some (VText (model_name c)) -> parameters f = false -> load c (Hdf5 f) i = (i, Some KeyError)).
Proof.
  intros c f i; split; [ intros H; unfold load, open_weights, parse; rewrite H; reflexivity |].
  intros d Hd; unfold load, open_weights, parse; rewrite Hd; repeat split.
  - intros ->; reflexivity.
  - intros t ->; reflexivity.
  - intros v -> H1 H2; destruct v; try reflexivity; [ now destruct (H1 s) | now destruct (H2 v) ].
  - intros H'; rewrite H, H'; reflexivity.
  - intros t H0; rewrite H, H0; reflexivity.
  - intros u H0 H1 H2; rewrite H, H0; destruct u; try reflexivity; [ now destruct (H1 s) | now destruct (H2 v0) ].
  - intros Hm; rewrite H, H0, Hm; cbn [bind]; rewrite <- older_spec in H1; rewrite <- older_final in H2.
    destruct (older v _); [ now destruct H1 |]; destruct (older _ _); [ now destruct H2 | reflexivity ].
  - intros Hm Hp; rewrite H, H0, Hm, Hp; cbn [bind]; rewrite <- older_spec in H1; rewrite <- older_final in H2.
    destruct (older v _); [ now destruct H1 |]; destruct (older _ _); [ now destruct H2 |]; cbn [orb].
    rewrite String.eqb_refl; reflexivity.
Qed.
Lemma own_acceptable : forall (c : cls) author now i k,
  exists f, fst (save c author now i k) = Hdf5 f /\ acceptable (model_name c) f.
Proof.
  intros c author now i k; destruct (own_says c author now i k) as (f & Hf & Hs).
  exists f; split; [ exact Hf |]; exists cml_version, io_version; split; [ exact Hs |].
  rewrite <- older_spec, <- older_final; split; discriminate.
Qed.
Lemma load_other : forall (c c' : cls) author now i k j, In c classes -> In c' classes ->
  model_name c <> model_name c' -> load c (fst (save c' author now i k)) j = (j, Some ValueError).
Proof.
  intros c c' author now i k j _ _ H; destruct (own_says c' author now i k) as (f & -> & Hs).
  apply (load_wrong c f j _ _ _ Hs); right; right; congruence.
Qed.
Lemma failed_flags : forall (c : cls) k i e, snd (load c k i) = Some e ->
  is_trained (fst (load c k i)) = is_trained i /\ is_loaded (fst (load c k i)) = is_loaded i.
Proof. intros c k i e H; pose proof (load_flags c k i) as [H1 H2]; rewrite H in H2; now split. Qed.
Lemma damaged_file : exists (f : @file A) i j x,
  acceptable "KMeans" f /\ load KMeansModel (Hdf5 f) i = (j, Some KeyError) /\ ready i /\
  predict_kmeans j x <> predict_kmeans i x.
Proof.
  exists {| description := description (started KMeansModel VNone VNone); parameters := true;
            compile_ds := Some [("init", VText "random"); ("tol", VNum (1 / 1000))];
            weights_ds := Some [("centroids", VCentroids [Some [5]; Some [0]]%R)] |}, (trained_kmeans A).
  eexists; exists [[0]]%R; split.
  - exists cml_version, io_version; split; [ eexists; repeat split |].
    rewrite <- older_spec, <- older_final; split; discriminate.
  - split; [ reflexivity |]; split; [ now left |].
    unfold predict_kmeans, guarded; cbn [is_trained set_field trained_kmeans trained field lookup String.eqb Ascii.eqb Bool.eqb negb andb].
    intros E; injection E as E; revert E.
    unfold km_predict, get_cluster, calculate_euclidean_distance; cbn [map mapM distance].
    unfold vsub, sqnorm, dot; cbn [zip2 combine map rsum fold_right fst snd].
    replace (sqrt ((0 - 5) * (0 - 5) + 0)) with 5%R
      by (replace ((0 - 5) * (0 - 5) + 0)%R with (5 * 5)%R by lra; rewrite sqrt_square; lra).
    replace (sqrt ((0 - 0) * (0 - 0) + 0)) with 0%R
      by (replace ((0 - 0) * (0 - 0) + 0)%R with 0%R by lra; now rewrite sqrt_0).
    cbn [argmin argmin_from nan_lt fold_left].
    try (unfold argmin; cbn).
    repeat match goal with |- context [Rltb ?a ?b] =>
      first [ rewrite (proj2 (Rltb_true a b)) by lra | rewrite (proj2 (Rltb_false a b)) by lra ] end.
    cbn; discriminate.
Qed.

(** ** C57 *)
Lemma failed_save : forall (c : cls) author now i k,
  exists n, (0 < n)%nat /\ forall k', fst (save c author now i k') = save_interrupted c author now i n k.
Proof.
  intros c author now i k; exists (List.length (fst (save_ops c author now i))); split.
  - destruct (save_ops_truncate c author now i) as [rest ->]; cbn; lia.
  - intros k'; rewrite <- save_is_interrupted; f_equal; apply save_forgets.
Qed.
Lemma class_keys : forall (c : cls) i, In c classes -> (forall d, field i "parameters" = VDict d -> NoDup (map fst d)) ->
  NoDup (flat_map (wkeys i) (writes c)).
Proof.
  intros c i H Hd.
  assert (N : forall s, NoDup (flat_map (wkeys i) [write_field Compile s; Put Compile "optimizer" (self_name "optimizer");
                Put Compile "loss" (self_name "loss"); Put Compile "metric" (self_name "metric"); PutAll Weights "parameters"]) \/
              ~ NoDup [s; "optimizer"; "loss"; "metric"]).
  { intros s; destruct (ListDec.NoDup_dec string_dec [s; "optimizer"; "loss"; "metric"]) as [Hs | Hs]; [ left | now right ].
    cbn [flat_map wkeys write_field app].
    assert (Hp : NoDup (match field i "parameters" with VDict d => map (fun kv => (Weights, fst kv)) d | _ => [] end)).
    { destruct (field i "parameters"); try constructor.
      specialize (Hd d eq_refl); clear - Hd; induction d as [| [k v] d IH]; cbn in *; [ constructor |].
      inversion Hd as [| ? ? Hk Hd']; subst; constructor; [| now apply IH ].
      intros Hi; apply Hk; apply in_map_iff in Hi as (kv & E0 & Hi); inversion E0; apply in_map_iff; now exists kv. }
    assert (Hw : forall k, ~ In (Compile, k) (match field i "parameters" with VDict d => map (fun kv => (Weights, fst kv)) d | _ => [] end ++ [])).
    { intros k; rewrite app_nil_r; destruct (field i "parameters"); try (intros []).
      intros Hi; apply in_map_iff in Hi as (kv & E0 & _); discriminate. }
    inversion Hs as [| ? ? H1 Hs1]; subst; inversion Hs1 as [| ? ? H2 Hs2]; subst; inversion Hs2 as [| ? ? H3 Hs3]; subst.
    cbn [In] in *.
    constructor; [ intros [G | [G | [G | G]]]; try (inversion G; subst; tauto); exact (Hw _ G) |].
    constructor; [ intros [G | [G | G]]; try (inversion G; subst; tauto); exact (Hw _ G) |].
    constructor; [ intros [G | G]; try (inversion G; subst; tauto); exact (Hw _ G) |].
    constructor; [ apply Hw |]; now rewrite app_nil_r. }
  assert (S1 : NoDup ["network_structure"; "optimizer"; "loss"; "metric"]) by (repeat constructor; cbn; intuition discriminate).
  assert (S2 : NoDup ["hidden_units"; "optimizer"; "loss"; "metric"]) by (repeat constructor; cbn; intuition discriminate).
  repeat (destruct H as [<- | H]); [ .. | contradiction ];
    try (cbn; repeat constructor; cbn; intuition discriminate).
  - destruct (N "network_structure") as [G | G]; [ exact G | contradiction ].
  - destruct (N "hidden_units") as [G | G]; [ exact G | contradiction ].
Qed.
Lemma interrupted_is_part : forall (c : cls) author now i n k, In c classes -> (0 < n)%nat ->
  (forall d, field i "parameters" = VDict d -> NoDup (map fst d)) ->
  exists f g, save_interrupted c author now i n k = Hdf5 f /\ fst (save c author now i k) = Hdf5 g /\ part_of_file f g.
Proof.
  intros c author now i n k Hc Hn Hd.
  destruct (interrupted_hdf5 c author now i n k Hn) as [f Hf]; destruct (own_says c author now i k) as (g & Hg & _).
  exists f, g; split; [ exact Hf |]; split; [ exact Hg |].
  exact (interrupted_part c author now i n k f g (class_keys c i Hc Hd) Hn Hf Hg).
Qed.
Lemma incomplete_not_loaded : forall (c : cls) author now i n k j j',
  In c [LogisticRegression; LinearDiscriminantAnalysis; NaiveBayesClassifier; SuperParentOneDependentEstimator;
        AveragedOneDependentEstimator; DecisionTreeClassifier; SupportVectorClassifier; KMeansModel; GaussianMixture;
        BaggingClassifier; AdaBoostClassifier] -> (0 < n)%nat ->
  load c (save_interrupted c author now i n k) j = (j', None) ->
  save c author now i k = (save_interrupted c author now i n k, None).
Proof.
  intros c author now i n k j j' Hc Hn Hl; symmetry.
  assert (G : forall p key e fld conv, writes c = (removelast (writes c) ++ [Put p key e])%list ->
     ~ In (p, key) (flat_map (wkeys i) (removelast (writes c))) -> In (Get p key fld conv) (reads c) ->
     (save_interrupted c author now i n k, None) = save c author now i k).
  { intros p key e fld conv H1 H2 H3; exact (incomplete c author now i n k j j' _ p key e fld conv H1 H2 H3 Hn Hl). }
  clear Hl.
  repeat (destruct Hc as [<- | Hc]); [ .. | contradiction ];
    (eapply G; [ reflexivity | cbn; intuition discriminate | cbn; tauto ]).
Qed.
Lemma network_firstn : forall ls t, (t <= 2 * List.length ls)%nat -> layers_of (firstn t (@network_dict A ls)) = Ok (firstn (t / 2) ls).
Proof.
  intros ls t Ht; apply layers_of_lookup.
  - rewrite !firstn_length; unfold network_dict; rewrite network_length.
    rewrite !Nat.min_l; [ reflexivity | apply Nat.div_le_upper_bound; lia | exact Ht ].
  - assert (Hl : (t / 2 <= List.length ls)%nat) by (apply Nat.div_le_upper_bound; lia).
    rewrite firstn_length, Nat.min_l by exact Hl.
    intros j Hj; unfold network_dict.
    assert (G : forall (xs : list (list (list R) * list R)) k t j, (2 * j + 1 < t)%nat -> (j < List.length xs)%nat ->
       lookup (firstn t (@network_from A k xs)) (layer_key "w" (k + j)) = Some (VMat (fst (nth j xs ([], [])))) /\
       lookup (firstn t (@network_from A k xs)) (layer_key "b" (k + j)) = Some (VVec (snd (nth j xs ([], []))))).
    { clear; induction xs as [| l xs IH]; intros k t j Ht Hj; cbn in Hj; [ lia |].
      destruct t as [| [| t]]; try lia; cbn [network_from firstn lookup]; destruct j as [| j].
      - rewrite Nat.add_0_r, String.eqb_refl, key_bw, String.eqb_refl; now split.
      - rewrite key_ww by lia; rewrite key_wb, key_bw, key_bb by lia.
        replace (k + S j)%nat with (S k + j)%nat by lia; cbn [nth]; apply IH; lia. }
    assert (Hnth : nth j (firstn (t / 2) ls) ([], []) = nth j ls ([], [])).
    { clear - Hj Hl; revert ls Hl; generalize dependent (t / 2)%nat; intros m; revert j; induction m as [| m IH]; intros j Hj ls Hl; [ lia |].
      destruct ls as [| l ls]; [ cbn in Hl; lia |]; destruct j as [| j]; [ reflexivity |]; cbn [firstn nth]; apply IH; cbn in Hl; lia. }
    rewrite Hnth; apply G; [| lia ].
    pose proof (Nat.div_mod t 2 ltac:(lia)); lia.
Qed.
Lemma network_truncated : forall author now (i : obj) k k' o ls t,
  save BackPropagationNeuralNetwork author now i k = (k', None) ->
  field i "optimizer" = VOptimizer o -> cname o = usual_optimizer_name (kind o) ->
  field i "parameters" = VDict (network_dict ls) -> (t <= 2 * List.length ls)%nat ->
  exists j d, load BackPropagationNeuralNetwork (save_interrupted BackPropagationNeuralNetwork author now i (14 + t) k) (fresh BackPropagationNeuralNetwork) = (j, None) /\
    field j "parameters" = VDict d /\ layers_of d = Ok (firstn (t / 2) ls).
Proof.
  intros author now i k k' o ls t H Ho Hn Hd Ht.
  destruct (network_saved _ _ author now i k k' _ (or_introl (conj eq_refl eq_refl)) H Hd) as (no & nl & nm & Eo & Et & _).
  assert (Hnd : NoDup (map fst (firstn t (@network_dict A ls)))).
  { pose proof (network_nodup (A := A) ls 1) as Hnd; fold (@network_dict A ls) in Hnd.
    rewrite <- (firstn_skipn t (network_dict ls)), map_app in Hnd.
    clear - Hnd; induction (map fst (firstn t (@network_dict A ls))) as [| x l IHl]; [ constructor |].
    inversion Hnd; subst; constructor; [| now apply IHl ]; intros Hi; apply H1; apply in_or_app; now left. }
  rewrite Et, put_all_fresh by exact Hnd; cbn [app].
  unfold self_name in Eo; rewrite Ho in Eo; inversion Eo; subst no; rewrite Hn.
  destruct (network_loaded _ _ author now i (fresh BackPropagationNeuralNetwork) nl nm (kind o) (firstn t (network_dict ls)) [] (or_introl (conj eq_refl eq_refl)) eq_refl)
    as (j & o' & Hj & _ & _ & Hp & _).
  rewrite put_all_fresh in Hp by exact Hnd; cbn [app] in Hp.
  exists j, (firstn t (network_dict ls)); split; [ exact Hj |]; split; [ exact Hp | now apply network_firstn ].
Qed.

(** ** C58 *)
Lemma merge_load : forall (c : cls) k j0 j d0,
  In c [BackPropagationNeuralNetwork; RadialBasisFunctionNetwork] ->
  field j0 "parameters" = VDict d0 -> load c k j0 = (j, None) ->
  exists f a d, k = Hdf5 f /\ weights_ds f = Some a /\ field j "parameters" = VDict d /\
    (NoDup (map fst a) -> forall q, lookup d q = match lookup a q with Some v => Some v | None => lookup d0 q end).
Proof.
  intros c k j0 j d0 Hc Hd H; apply load_ok in H as (f & j' & -> & H & ->).
  assert (Hr : exists s, reads c = [keep Compile s; Get Compile "optimizer" "optimizer" to_optimizer;
               Get Compile "loss" "loss" to_loss; Get Compile "metric" "metric" to_metric; Merge Weights "parameters"] /\
               (s =? "parameters") = false).
  { destruct Hc as [<- | [<- | []]]; eexists; split; reflexivity. }
  destruct Hr as (s & Er & Hs); rewrite Er in H; cbn [do_reads keep do_read] in H.
  destruct (get_attr f Compile s) as [v1 |]; cbn [bind raw] in H; [| discriminate H ].
  destruct (get_attr f Compile "optimizer") as [v2 |]; cbn [bind] in H; [| discriminate H ].
  destruct (to_optimizer _ v2) as [w2 |]; cbn [bind] in H; [| discriminate H ].
  destruct (get_attr f Compile "loss") as [v3 |]; cbn [bind] in H; [| discriminate H ].
  destruct (to_loss _ v3) as [w3 |]; cbn [bind] in H; [| discriminate H ].
  destruct (get_attr f Compile "metric") as [v4 |]; cbn [bind] in H; [| discriminate H ].
  destruct (to_metric _ v4) as [w4 |]; cbn [bind] in H; [| discriminate H ].
  cbn [part_of] in H; destruct (weights_ds f) as [a |] eqn:Ea; [| discriminate H ].
  cbn [set_field field] in H; rewrite String.eqb_sym in Hs; rewrite Hs in H; cbn [String.eqb Ascii.eqb Bool.eqb] in H.
  rewrite Hd in H; cbn [merge_into bind] in H; inversion H; subst j'; clear H.
  exists f, a, (fold_left (fun d kv => put d (fst kv) (snd kv)) a d0).
  split; [ reflexivity |]; split; [ exact Ea |]; split; [ reflexivity |].
  intros Hn q; now apply lookup_merge.
Qed.
Lemma merged_layers : forall author now (i j0 : obj) k k' o ls ls0,
  save BackPropagationNeuralNetwork author now i k = (k', None) ->
  field i "optimizer" = VOptimizer o -> cname o = usual_optimizer_name (kind o) ->
  field i "parameters" = VDict (network_dict ls) -> field j0 "parameters" = VDict (network_dict ls0) ->
  exists j d, load BackPropagationNeuralNetwork k' j0 = (j, None) /\ field j "parameters" = VDict d /\
    layers_of d = Ok (ls ++ skipn (List.length ls) ls0)%list.
Proof.
  intros author now i j0 k k' o ls ls0 H Ho Hn Hd H0.
  destruct (network_again _ _ _ _ _ _ _ _ _ _ _ (or_introl (conj eq_refl eq_refl)) H Ho Hn Hd (network_nodup _ _) H0) as (j & o' & Hj & Hl & Hp & _).
  rewrite merge_network in Hp; eexists; eexists; split; [ exact Hj |]; split; [ exact Hp | apply layers_of_network ].
Qed.
Lemma deep_enough : forall author now (i j0 : obj) k k' o ls ls0, ready i ->
  save BackPropagationNeuralNetwork author now i k = (k', None) ->
  field i "optimizer" = VOptimizer o -> cname o = usual_optimizer_name (kind o) ->
  field i "parameters" = VDict (network_dict ls) -> field j0 "parameters" = VDict (network_dict ls0) ->
  (List.length ls0 <= List.length ls)%nat ->
  exists j, load BackPropagationNeuralNetwork k' j0 = (j, None) /\ forall x, predict_network j x = predict_network i x.
Proof.
  intros author now i j0 k k' o ls ls0 Hr H Ho Hn Hd H0 Hle.
  destruct (network_again _ _ _ _ _ _ _ _ _ _ _ (or_introl (conj eq_refl eq_refl)) H Ho Hn Hd (network_nodup _ _) H0) as (j & o' & Hj & Hl & Hp & Ho' & Hu).
  rewrite merge_network, skipn_all2, app_nil_r in Hp by exact Hle.
  exists j; split; [ exact Hj |]; intros x; unfold predict_network; rewrite !guarded_ready by (exact Hr || (right; exact Hl)).
  rewrite Ho, Ho', Hd, Hp; apply same_forward in Hu; destruct (kind o), (kind o'); try contradiction; reflexivity.
Qed.
Lemma neither_network : forall author now, exists (i j0 j : obj) k' x,
  save BackPropagationNeuralNetwork author now i Absent = (k', None) /\ ready i /\ ready j0 /\
  load BackPropagationNeuralNetwork k' j0 = (j, None) /\
  predict_network j x <> predict_network i x /\ predict_network j x <> predict_network j0 x.
Proof.
  intros author now.
  pose (l1 := ([[1]], [0])%R : list (list R) * list R); pose (m1 := ([[0]], [0])%R : list (list R) * list R);
    pose (m2 := ([[2]], [0])%R : list (list R) * list R).
  assert (Hs : exists k', save BackPropagationNeuralNetwork author now (trained_network A [l1]) Absent = (k', None)) by (eexists; reflexivity).
  destruct Hs as [k' Hs].
  destruct (merged_layers author now (trained_network A [l1]) (trained_network A [m1; m2]) _ _ _ [l1] [m1; m2] Hs eq_refl eq_refl eq_refl eq_refl)
    as (j & d & Hj & Hd & Hl); cbn [List.length skipn app] in Hl.
  assert (Ho : exists o', is_loaded j = true /\ field j "optimizer" = VOptimizer o' /\ usual_optimizer_name (kind o') = "stochastic_gradient_descent").
  { destruct (network_again BackPropagationNeuralNetwork "network_structure" author now (trained_network A [l1]) (trained_network A [m1; m2]) Absent k' _ _ _
       (or_introl (conj eq_refl eq_refl)) Hs eq_refl eq_refl eq_refl (network_nodup _ _) eq_refl) as (j2 & o' & Hj2 & Hl2 & _ & Ho' & Hu).
    rewrite Hj in Hj2; inversion Hj2; subst j2; now exists o'. }
  destruct Ho as (o' & Hld & Ho & Hu).
  assert (F1 : Network.forward [l1; m2] [[1]]%R = Ok ([[sigmoid 2]]%R, snd (match Network.forward [l1; m2] [[1]]%R with Ok r => r | Err _ => ([], []) end))).
  { unfold l1, m2; cbn; unfold relu; do 2 f_equal; cbn.
    rewrite Rmax_right by lra; do 3 f_equal; lra. }
  exists (trained_network A [l1]), (trained_network A [m1; m2]), j, k', [[1]]%R.
  split; [ exact Hs |]; split; [ now left |]; split; [ now left |]; split; [ exact Hj |].
  unfold predict_network at 1 3; rewrite (guarded_ready j) by (right; exact Hld); rewrite Ho, Hd.
  destruct (kind o') eqn:Ek; try discriminate Hu.
  rewrite Hl; cbn [bind]; rewrite F1; cbn [bind fst].
  assert (L1 : layers_of (@network_dict A [l1]) = Ok [l1]) by apply layers_of_network.
  assert (L2 : layers_of (@network_dict A [m1; m2]) = Ok [m1; m2]) by apply layers_of_network.
  unfold predict_network; rewrite !guarded_ready by (now left).
  cbn [trained_network trained field lookup String.eqb Ascii.eqb Bool.eqb kind comp].
  rewrite L1, L2; cbn [bind].
  split; intros E; injection E as E; unfold l1, m1, m2 in E; cbn in E; inversion E as [E'];
    apply sigmoid_inj in E'; revert E'; unfold relu; repeat (try rewrite Rmax_right by lra; try rewrite Rmax_left by lra); lra.
Qed.
End Main.
