(** Proofs about compile, fit, save, load and predict in a row. *)
From Coq Require Import List String Reals ZArith Bool Arith Lia Lra.
From Verif.Model Require Import Base Matrix Ops Stump Tree Pruner Bayes Ensemble Logistic Lda Network Rbf KMeans Gmm Kernels Smo Training Store Life Svc Fit.
From Verif.Model Require Process.
From Verif.Spec Require Import Store Fit.
From Verif.Proof Require Import BaseLemmas Store StoreNet StoreCrash RoundTrip StoreMain.
Import ListNotations.
Local Open Scope string_scope.

Section Fit.
Context {A : Type}.
Notation value := (value A).
Notation obj := (@obj A).
Notation attrs := (@attrs A).
Notation cls := (@cls A).

Lemma save_none : forall (c : cls) author now (i : obj) k,
  snd (until_error (flat_map (do_write i) (writes c))) = None -> exists k', save c author now i k = (k', None).
Proof.
  intros c author now i k H; unfold save, save_ops.
  destruct (until_error (flat_map (do_write i) (writes c))) as [ops e]; cbn [snd] in H; subst e; eauto.
Qed.
Lemma ended_ready : forall (i : obj) l, ready (after_fit (finished l) i).
Proof. intros i l; left; unfold after_fit, finished; cbn [marked is_trained]; apply orb_true_r. Qed.
Lemma fit_field : forall (e : fit_effect) (i : obj) k, field (after_fit e i) k = field (set_fields i (changed e)) k.
Proof. reflexivity. Qed.

Lemma ships : forall (c : cls) (i : obj) (P : obj -> Prop), P i -> snd (until_error (flat_map (do_write i) (writes c))) = None ->
  (forall author now k k', save c author now i k = (k', None) -> exists j, load c k' (fresh c) = (j, None) /\ P j) ->
  here_and_there c i P.
Proof.
  intros c i P Hp Hn H; split; [ exact Hp |]; intros author now k.
  destruct (save_none c author now i k Hn) as [k' Hs]; destruct (H author now k k' Hs) as (j & Hl & Hj).
  exists k', j; auto.
Qed.

Lemma lda_ships : forall svd d x y m (i : obj), lda_fit svd d x y = Ok m ->
  here_and_there LinearDiscriminantAnalysis (after_fit (lda_fit_effect svd d x y) i)
    (fun j => forall r, predict_lda j r = Answer (Ok (lda_predict m r))).
Proof.
  intros svd d x y m i H; unfold lda_fit in H; unfold lda_fit_effect.
  destruct (negb _); [ discriminate |]. cbv zeta in *.
  destruct (mean_row d (with_label 0 x y)) as [m0 | ]; [| discriminate ]; cbn [bind] in H.
  destruct (mean_row d (with_label 1 x y)) as [m1 | ]; [| discriminate ]; cbn [bind] in H.
  destruct (get_w_v2 _ _ _ _ _) as [w | ]; [| discriminate ]; cbn [bind] in H; inversion H; subst m; clear H.
  pose proof (ended_ready i [("mu_0", VVec m0); ("mu_1", VVec m1); ("w", VVec w)]) as Hr.
  assert (P : forall r, predict_lda (after_fit (finished [("mu_0", VVec m0); ("mu_1", VVec m1); ("w", VVec w)]) i) r
    = Answer (Ok (lda_predict {| lda_w := w; lda_mu0 := m0; lda_mu1 := m1 |} r))).
  { intros r; unfold predict_lda; rewrite guarded_ready by exact Hr; reflexivity. }
  apply ships; [ exact P | reflexivity |]; intros author now k k' Hs.
  destruct (again_lda author now _ (fresh LinearDiscriminantAnalysis) k k' Hr Hs) as (j & Hj & E).
  exists j; split; [ exact Hj |]; intros r; rewrite E; apply P.
Qed.

Lemma trainer_fields : forall (i : obj) o c l m mc, get_optimizer o = Ok c -> get_metric m = Ok (Some mc) ->
  exists a, compile_trainer o l m = Ok a /\
    is_loaded (set_fields i a) = is_loaded i /\ is_trained (set_fields i a) = is_trained i /\
    field (set_fields i a) "optimizer" = VOptimizer c /\ field (set_fields i a) "loss" = VLoss (get_loss l) /\
    field (set_fields i a) "metric" = VMetric mc /\
    forall k, k <> "optimizer" -> k <> "loss" -> k <> "metric" -> field (set_fields i a) k = field i k.
Proof.
  intros i o c l m mc Ho Hm; unfold compile_trainer; rewrite Ho, Hm; cbn [bind].
  eexists; split; [ reflexivity |]; repeat split; try reflexivity.
  intros k H1 H2 H3; unfold set_fields; cbn [fold_left fst snd set_field field].
  apply String.eqb_neq in H1, H2, H3; now rewrite H1, H2, H3.
Qed.
Lemma training_loop_ok : forall o d x y epochs b b', opt_run o epochs d x y b = Ok b' ->
  Process.logistic_training_loop o d x y epochs b = (b', None).
Proof.
  induction epochs as [| n IH]; intros b b' H; cbn [opt_run Process.logistic_training_loop] in *; [ now inversion H |].
  destruct (opt_step o d x y b) as [b1 |]; [| discriminate ]; cbn [bind] in H; now apply IH.
Qed.
Lemma logistic_ships : forall o c l m mc init d x y epochs b lo (i : obj),
  get_optimizer o = Ok c -> cname c = usual_optimizer_name (kind c) -> is_regression_optimizer (kind c) lo ->
  get_metric m = Ok (Some mc) -> is_loaded i = false -> opt_run lo epochs d x y init = Ok b ->
  exists a, compile_trainer o l m = Ok a /\ let i1 := set_fields i a in
    here_and_there LogisticRegression (after_fit (logistic_fit_effect init d x y epochs i1) i1)
      (fun j => forall x', predict_logistic j x' = Answer (Ok (Logistic.forward x' b))).
Proof.
  intros o c l m mc init d x y epochs b lo i Ho Hn Hr Hm Hl H.
  destruct (trainer_fields i o c l m mc Ho Hm) as (a & Ha & F1 & F2 & F3 & F4 & F5 & F6).
  exists a; split; [ exact Ha |]; intros i1; fold i1 in F1, F2, F3, F4, F5, F6.
  assert (E : logistic_fit_effect init d x y epochs i1 = finished [("beta", VVec b)]).
  { unfold logistic_fit_effect; rewrite F1, Hl, F3.
    assert (T : Process.train_regression (kind c) d x y epochs init = (b, None)).
    { unfold Process.train_regression; destruct (kind c), lo; cbn in Hr; try contradiction; subst; now apply training_loop_ok. }
    now rewrite T. }
  rewrite E; clear E.
  pose proof (ended_ready i1 [("beta", VVec b)]) as Hrd.
  set (i2 := after_fit (finished [("beta", VVec b)]) i1) in *.
  assert (G : forall k, k <> "beta" -> field i2 k = field i1 k).
  { intros k Hk; unfold i2; rewrite fit_field; cbn; apply String.eqb_neq in Hk; now rewrite Hk. }
  assert (Gb : field i2 "beta" = VVec b) by reflexivity.
  assert (P : forall x', predict_logistic i2 x' = Answer (Ok (Logistic.forward x' b))).
  { intros x'; unfold predict_logistic; rewrite guarded_ready by exact Hrd; rewrite G by discriminate; rewrite F3, Gb.
    destruct (kind c), lo; cbn in Hr; try contradiction; reflexivity. }
  apply ships; [ exact P | |].
  - cbn [LogisticRegression writes flat_map do_write write_field app write_one]; unfold self_name, self.
    rewrite !G by discriminate; rewrite F3, F4, F5, Gb; reflexivity.
  - intros author now k k' Hs; assert (Fo : field i2 "optimizer" = VOptimizer c) by (rewrite G by discriminate; exact F3).
    destruct (again_logistic author now i2 (fresh LogisticRegression) k k' c Hrd Hs Fo Hn) as (j & Hj & E).
    exists j; split; [ exact Hj |]; intros x'; rewrite E; apply P.
Qed.

(** ** Networks *)
Lemma entries_network : forall ls k, @entries A k ls = network_from k ls.
Proof. induction ls as [| l ls IH]; intros k; cbn; [ reflexivity | now rewrite IH ]. Qed.
Lemma forward_length : forall ls x p cs, Network.forward ls x = Ok (p, cs) -> List.length cs = List.length ls.
Proof.
  induction ls as [| l ls IH]; intros x p cs H; [ discriminate |].
  cbn [Network.forward] in H; destruct (affine l x) as [z |]; [| discriminate ]; cbn [bind] in H.
  destruct ls as [| l' ls].
  - destruct (output_activation _ _); [| discriminate ]; inversion H; reflexivity.
  - destruct (Network.forward (l' :: ls) _) as [[p' cs'] |] eqn:E; [| discriminate ].
    inversion H; subst; cbn [List.length snd]; f_equal; exact (IH _ _ _ E).
Qed.
Lemma hidden_length : forall n cs o, List.length (backward_hidden n cs o) = List.length cs.
Proof.
  induction cs as [| [[x w] a] cs IH]; intros o; cbn [backward_hidden]; [ reflexivity |].
  destruct (get_grad _ _ _); cbn [List.length]; now rewrite IH.
Qed.
Lemma gradient_length : forall x y ls i g, sample_gradient x y ls i = Ok g -> List.length g = List.length ls.
Proof.
  intros x y ls i g H; unfold sample_gradient in H.
  destruct (get_at x i) as [xi |]; [| discriminate ]; cbn [bind] in H.
  destruct (get_at y i) as [yi |]; [| discriminate ]; cbn [bind] in H.
  destruct (Network.forward ls [xi]) as [[p cs] |] eqn:E; [| discriminate ]; cbn [bind fst snd] in H.
  rewrite <- (forward_length _ _ _ _ E), <- (rev_length cs); unfold backward in H.
  destruct (rev cs) as [| [[x' w] a] cs']; [ discriminate |].
  destruct (output_signal _ _ _); [| discriminate ]; cbn [bind] in H.
  destruct (_ =? 0)%nat; [ discriminate |]; destruct (get_grad _ _ _) as [g0 da0].
  assert (Eg : g = rev (g0 :: backward_hidden (List.length [yi]) cs' da0)) by congruence.
  rewrite Eg, rev_length; cbn [List.length]; now rewrite hidden_length.
Qed.
Lemma lzip_len : forall f a b, List.length a = List.length b -> List.length (lzip f a b) = List.length a.
Proof. intros f a b H; unfold lzip; rewrite map_length, combine_length, H; apply Nat.min_id. Qed.
Lemma sgd_length : forall rate x y draws ls ls', sgd_run rate x y ls draws = Ok ls' -> List.length ls' = List.length ls.
Proof.
  unfold sgd_run; induction draws as [| i t IH]; intros ls ls' H; cbn [foldM] in H; [ now inversion H |].
  unfold sgd_epoch at 1 in H; destruct (sample_gradient x y ls i) as [g |] eqn:E; [| discriminate ]; cbn [bind] in H.
  rewrite (IH _ _ H); unfold sgd_update; apply lzip_len; symmetry; exact (gradient_length _ _ _ _ _ E).
Qed.
Lemma mapM_len : forall {B C} (f : B -> result C) l r, mapM f l = Ok r -> List.length r = List.length l.
Proof.
  induction l as [| a l IH]; intros r H; cbn [mapM] in H; [ now inversion H |].
  destruct (f a); [| discriminate ]; cbn [bind] in H; destruct (mapM f l); [| discriminate ]; cbn [bind] in H.
  inversion H; cbn; f_equal; now apply IH.
Qed.
Definition same_len (s : adam_state) (n : nat) : Prop :=
  List.length (Network.params s) = n /\ List.length (m_state s) = n /\ List.length (v_state s) = n.
Lemma adam_update_len : forall o t s g s' n, same_len s n -> List.length g = n -> adam_update o t s g = Ok s' -> same_len s' n.
Proof.
  intros o t s g s' n (H1 & H2 & H3) Hg H; unfold adam_update in H.
  assert (L2 : List.length (lzip (moment_1 o) (m_state s) g) = n) by (rewrite lzip_len; [ exact H2 | exact (eq_trans H2 (eq_sym Hg)) ]).
  assert (L3 : List.length (lzip (moment_2 o) (v_state s) g) = n) by (rewrite lzip_len; [ exact H3 | exact (eq_trans H3 (eq_sym Hg)) ]).
  destruct (lzipM _ _ _) as [st |] eqn:E; [| discriminate ]; cbn [bind] in H; inversion H; subst s'; clear H.
  unfold lzipM in E; apply mapM_len in E; rewrite combine_length, L2, L3, Nat.min_id in E.
  repeat split; cbn [Network.params m_state v_state]; try assumption. rewrite lzip_len; [ exact H1 | exact (eq_trans H1 (eq_sym E)) ].
Qed.
Lemma adam_length : forall o x y draws ls ls', adam_run o x y ls draws = Ok ls' -> List.length ls' = List.length ls.
Proof.
  intros o x y draws ls ls' H; unfold adam_run in H.
  assert (G : forall l s s', same_len s (List.length ls) -> foldM (adam_epoch o x y) l s = Ok s' -> same_len s' (List.length ls)).
  { induction l as [| e l IH]; intros s s' Hs Hf; cbn [foldM] in Hf; [ now inversion Hf; subst |].
    unfold adam_epoch at 1 in Hf; destruct (sample_gradient x y (Network.params s) (snd e)) as [g |] eqn:E; [| discriminate ]; cbn [bind] in Hf.
    destruct (adam_update o (fst e) s g) as [s1 |] eqn:Eu; [| discriminate ]; cbn [bind] in Hf.
    apply (IH s1); [| exact Hf ]; apply (adam_update_len o (fst e) s g); auto.
    rewrite (gradient_length _ _ _ _ _ E); apply Hs. }
  destruct (foldM _ _ _) as [s |] eqn:E; [| discriminate ]; cbn [bind] in H; inversion H; subst.
  apply (G _ _ _) in E; [ apply E |].
  unfold adam_init, lmap; repeat split; cbn [Network.params m_state v_state]; now rewrite ?map_length.
Qed.
Lemma trains_length : forall f x y draws ls ls', trains_network f x y draws ls ls' -> List.length ls' = List.length ls.
Proof. intros f x y draws ls ls'; destruct f; cbn; try contradiction; [ apply sgd_length | apply adam_length ]. Qed.
Lemma trains_run : forall f x y draws ls ls', trains_network f x y draws ls ls' -> run_network f x y ls draws = Ok ls'.
Proof. intros f x y draws ls ls'; destruct f; cbn; try contradiction; auto. Qed.

Ltac fields i2 := unfold i2; rewrite fit_field; cbn; repeat match goal with H : ?k <> _ |- _ => apply String.eqb_neq in H; rewrite H end; try reflexivity.

Lemma network_ships : forall o c l m mc s init draws x y ls (i : obj),
  get_optimizer o = Ok c -> cname c = usual_optimizer_name (kind c) -> get_metric m = Ok (Some mc) ->
  is_loaded i = false -> field i "network_structure" = VNats s -> trains_network (kind c) x y draws init ls ->
  exists a, compile_trainer o l m = Ok a /\ let i1 := set_fields i a in
    here_and_there BackPropagationNeuralNetwork (after_fit (network_fit_effect init draws x y i1) i1)
      (fun j => forall x', predict_network j x' = Answer (r <- Network.forward ls x' ;; Ok (fst r))).
Proof.
  intros o c l m mc s init draws x y ls i Ho Hn Hm Hl Hs H.
  destruct (trainer_fields i o c l m mc Ho Hm) as (a & Ha & F1 & F2 & F3 & F4 & F5 & F6).
  exists a; split; [ exact Ha |]; intros i1; fold i1 in F1, F2, F3, F4, F5, F6.
  pose proof (trains_length _ _ _ _ _ _ H) as L; pose proof (trains_run _ _ _ _ _ _ H) as T.
  assert (E : network_fit_effect init draws x y i1 = finished [("parameters", VDict (network_dict ls))]).
  { unfold network_fit_effect; rewrite F1, Hl, F3; rewrite entries_network.
    fold (@network_dict A init); rewrite layers_of_network; cbn [bind]; rewrite T; unfold put_all.
    rewrite entries_network; fold (@network_dict A ls); rewrite merge_network, skipn_all2, app_nil_r by (apply Nat.eq_le_incl; symmetry; exact L); reflexivity. }
  rewrite E; clear E; pose proof (ended_ready i1 [("parameters", VDict (network_dict ls))]) as Hrd.
  set (i2 := after_fit _ i1) in *.
  assert (G : forall k, k <> "parameters" -> field i2 k = field i1 k) by (intros k Hk; fields i2).
  assert (Gp : field i2 "parameters" = VDict (network_dict ls)) by reflexivity.
  assert (P : forall x', predict_network i2 x' = Answer (r <- Network.forward ls x' ;; Ok (fst r))).
  { intros x'; unfold predict_network; rewrite guarded_ready by exact Hrd; rewrite G by discriminate; rewrite F3, Gp.
    destruct (kind c); cbn in H; try contradiction; rewrite layers_of_network; reflexivity. }
  apply ships; [ exact P | |].
  - cbn [BackPropagationNeuralNetwork writes flat_map do_write write_field app write_one]; unfold self_name, self.
    rewrite !G by discriminate; rewrite F3, F4, F5, Gp, F6 by discriminate; rewrite Hs.
    cbn [bind storable until_error]. rewrite app_nil_r.
    assert (N : forall k, snd (until_error (map (fun kv => write_one Weights (fst kv) (Ok (snd kv))) (@network_from A k ls))) = None).
    { clear; induction ls as [| q ls IH]; intros k; cbn [network_from map until_error]; [ reflexivity |].
      unfold write_one; cbn [bind fst snd storable]; specialize (IH (S k)).
      destruct (until_error _) as [bs e]; cbn [snd] in *; exact IH. }
    specialize (N 1%nat); fold (@network_dict A ls) in N; destruct (until_error _); exact N.
  - intros author now k k' Hsv; assert (Fo : field i2 "optimizer" = VOptimizer c) by (rewrite G by discriminate; exact F3).
    destruct (again_network author now i2 (fresh BackPropagationNeuralNetwork) k k' c (network_dict ls) Hrd Hsv Fo Hn Gp
      (network_nodup ls 1) eq_refl) as (j & Hj & E).
    exists j; split; [ exact Hj |]; intros x'; rewrite E; apply P.
Qed.

Lemma rbf_ships : forall o c l m mc h init rate x y epochs r (i : obj),
  get_optimizer o = Ok c -> cname c = usual_optimizer_name (kind c) -> kind c = RbfOptimizer rate -> get_metric m = Ok (Some mc) ->
  is_loaded i = false -> field i "hidden_units" = VInt h -> rbf_run rate x y epochs init = Ok r ->
  exists a, compile_trainer o l m = Ok a /\ let i1 := set_fields i a in
    here_and_there RadialBasisFunctionNetwork (after_fit (rbf_fit_effect init x y epochs i1) i1)
      (fun j => forall x', predict_rbf j x' = Answer (rbf_predict (fst r) x')).
Proof.
  intros o c l m mc h init rate x y epochs r i Ho Hn Hk Hm Hl Hs H.
  destruct (trainer_fields i o c l m mc Ho Hm) as (a & Ha & F1 & F2 & F3 & F4 & F5 & F6).
  exists a; split; [ exact Ha |]; intros i1; fold i1 in F1, F2, F3, F4, F5, F6.
  assert (E : rbf_fit_effect init x y epochs i1 = finished [("parameters", VDict (rbf_entries (fst r)))]).
  { unfold rbf_fit_effect; rewrite F1, Hl, F3, Hk; unfold rbf_params_of; cbn [rbf_entries lookup String.eqb Ascii.eqb Bool.eqb bind].
    replace {| rw := rw init; rb := rb init; rc := rc init; rbeta := rbeta init |} with init by now destruct init.
    rewrite H; reflexivity. }
  rewrite E; clear E; pose proof (ended_ready i1 [("parameters", VDict (rbf_entries (fst r)))]) as Hrd.
  set (i2 := after_fit _ i1) in *.
  assert (G : forall k, k <> "parameters" -> field i2 k = field i1 k) by (intros k Hk'; fields i2).
  assert (Gp : field i2 "parameters" = VDict (rbf_entries (fst r))) by reflexivity.
  assert (P : forall x', predict_rbf i2 x' = Answer (rbf_predict (fst r) x')).
  { intros x'; unfold predict_rbf; rewrite guarded_ready by exact Hrd; rewrite G by discriminate; rewrite F3, Gp, Hk.
    unfold rbf_params_of; cbn [rbf_entries lookup String.eqb Ascii.eqb Bool.eqb bind]; now destruct r as [[]]. }
  apply ships; [ exact P | |].
  - cbn [RadialBasisFunctionNetwork writes flat_map do_write write_field app write_one]; unfold self_name, self.
    rewrite !G by discriminate; rewrite F3, F4, F5, Gp, F6 by discriminate; rewrite Hs; reflexivity.
  - intros author now k k' Hsv; assert (Fo : field i2 "optimizer" = VOptimizer c) by (rewrite G by discriminate; exact F3).
    assert (N : NoDup (map fst (@rbf_entries A (fst r)))).
    { cbn; repeat constructor; cbn; intuition discriminate. }
    destruct (again_rbf author now i2 (fresh RadialBasisFunctionNetwork) k k' c _ Hrd Hsv Fo Hn Gp N eq_refl) as (j & Hj & E).
    exists j; split; [ exact Hj |]; intros x'; rewrite E; apply P.
Qed.

(** ** Bayes *)
Lemma join_sides : forall l : list (@nb_info A), mapM join_side (combine (map side_0 l) (map side_1 l)) = Ok l.
Proof.
  induction l as [| n l IH]; cbn [map combine mapM]; [ reflexivity |]; rewrite IH.
  destruct n; cbn; [ reflexivity | now rewrite Nat.eqb_refl ].
Qed.
Lemma attributes_ok : forall O num cont vc y cols l, mapM (nb_attribute (A := A) O num cont vc y) cols = Ok l ->
  nb_attributes O num cont vc y cols = (l, None).
Proof.
  induction cols as [| c t IH]; intros l H; cbn [mapM nb_attributes] in *; [ now inversion H |].
  destruct (nb_attribute _ _ _ _ _ c); [| discriminate ]; cbn [bind] in H.
  destruct (mapM _ t) as [l' |]; [| discriminate ]; cbn [bind] in H; inversion H; now rewrite (IH l').
Qed.
Lemma nb_ships : forall O num cont vc cols y sm m (i : obj),
  nb_fit O num cont vc cols y sm = Ok m ->
  (List.length (sides (field i "pi_0")) <= List.length cols)%nat -> (List.length (sides (field i "pi_1")) <= List.length cols)%nat ->
  let i1 := set_fields i (compile_naive_bayes sm) in
  here_and_there NaiveBayesClassifier (after_fit (nb_fit_effect O num cont vc cols y i1) i1)
    (fun j => forall rnd q, predict_naive_bayes O num rnd j q = Answer (nb_predict O num rnd m q)).
Proof.
  intros O num cont vc cols y sm m i H L0 L1 i1; unfold nb_fit in H.
  destruct (get_prior_probability _ y sm) as [p |] eqn:Ep; [| discriminate ]; cbn [bind] in H.
  destruct (mapM _ cols) as [l |] eqn:El; [| discriminate ]; cbn [bind] in H; inversion H; subst m; clear H.
  pose proof (mapM_len _ _ _ El) as Ll; apply attributes_ok in El.
  assert (S : field i1 "smoothing" = VBool sm) by reflexivity.
  assert (F : forall k, k <> "smoothing" -> field i1 k = field i k).
  { intros k Hk; unfold i1, set_fields; cbn; apply String.eqb_neq in Hk; now rewrite Hk. }
  unfold nb_fit_effect; rewrite S; cbn [truth]; rewrite Ep, El; unfold ended; rewrite !F by discriminate; unfold update_first.
  rewrite !skipn_all2, !app_nil_r by (rewrite map_length, Ll; assumption).
  match goal with |- here_and_there _ (after_fit (finished ?l0) _) _ => pose proof (ended_ready i1 l0) as Hrd end.
  set (i2 := after_fit _ i1) in *.
  assert (P : forall rnd q, predict_naive_bayes O num rnd i2 q =
     Answer (nb_predict O num rnd {| nb_p0 := fst p; nb_p1 := snd p; nb_pi := l; nb_smoothing := sm |} q)).
  { intros rnd q; unfold predict_naive_bayes; rewrite guarded_ready by exact Hrd.
    change (field i2 "p_0") with (@VNum A (fst p)); change (field i2 "p_1") with (@VNum A (snd p)).
    change (field i2 "pi_0") with (VSides (map side_0 l)); change (field i2 "pi_1") with (VSides (map side_1 l)).
    change (field i2 "smoothing") with (@VBool A sm); cbv iota; now rewrite join_sides. }
  apply ships; [ exact P | reflexivity |]; intros author now k k' Hs.
  destruct (again_nb author now i2 (fresh NaiveBayesClassifier) k k' Hrd Hs) as (j & Hj & E).
  exists j; split; [ exact Hj |]; intros rnd q; rewrite E; apply P.
Qed.
Lemma sp_ships : forall O num cont name sm index cols y l0 l (i : obj),
  field i "_list_of_p_c" = VEntries l0 -> sp_fit O num cont l0 cols y sm index = Ok l ->
  let i1 := set_fields i (compile_super_parent name sm) in
  here_and_there SuperParentOneDependentEstimator (after_fit (sp_fit_effect O num cont index cols y i1) i1)
    (fun j => forall rnd q, predict_super_parent O num rnd j q = Answer (sp_predict O num rnd l q)).
Proof.
  intros O num cont name sm index cols y l0 l i Hi H i1.
  assert (S : field i1 "smoothing" = VBool sm) by reflexivity.
  assert (F : field i1 "_list_of_p_c" = VEntries l0) by exact Hi.
  unfold sp_fit_effect; rewrite F, S; cbn [entries_of truth]; rewrite H.
  pose proof (ended_ready i1 [("_list_of_p_c", VEntries l)]) as Hrd; set (i2 := after_fit _ i1) in *.
  assert (P : forall rnd q, predict_super_parent O num rnd i2 q = Answer (sp_predict O num rnd l q)).
  { intros rnd q; unfold predict_super_parent; rewrite guarded_ready by exact Hrd; reflexivity. }
  apply ships; [ exact P | reflexivity |]; intros author now k k' Hs.
  destruct (again_sp author now i2 (fresh SuperParentOneDependentEstimator) k k' Hrd Hs) as (j & Hj & E).
  exists j; split; [ exact Hj |]; intros rnd q; rewrite E; apply P.
Qed.
Lemma ao_ships : forall O num cont sm m cols y l0 r (i : obj),
  field i "_list_of_p_c" = VEntries l0 -> ao_fit O num cont l0 cols y sm m = Ok r ->
  let i1 := set_fields i (compile_averaged sm m) in
  here_and_there AveragedOneDependentEstimator (after_fit (ao_fit_effect O num cont cols y i1) i1)
    (fun j => forall rnd q, predict_averaged O num rnd j q = Answer (ao_predict O num rnd (snd r) q)).
Proof.
  intros O num cont sm m cols y l0 r i Hi H i1.
  assert (S : field i1 "smoothing" = VBool sm) by reflexivity.
  assert (M : field i1 "m" = VInt (Z.of_nat m)) by reflexivity.
  assert (F : field i1 "_list_of_p_c" = VEntries l0) by exact Hi.
  unfold ao_fit_effect; rewrite F, S, M; cbn [entries_of truth threshold]; rewrite Nat2Z.id, H.
  match goal with |- here_and_there _ (after_fit (finished ?l0) _) _ => pose proof (ended_ready i1 l0) as Hrd end.
  set (i2 := after_fit _ i1) in *.
  assert (P : forall rnd q, predict_averaged O num rnd i2 q = Answer (ao_predict O num rnd (snd r) q)).
  { intros rnd q; unfold predict_averaged; rewrite guarded_ready by exact Hrd; reflexivity. }
  apply ships; [ exact P | reflexivity |]; intros author now k k' Hs.
  destruct (again_ao author now i2 (fresh AveragedOneDependentEstimator) k k' Hrd Hs) as (j & Hj & E).
  exists j; split; [ exact Hj |]; intros rnd q; rewrite E; apply P.
Qed.

(** ** Tree *)
Lemma tree_ships : forall top rnd s pr c how w D val t (i : obj),
  criterion_named s = Some c -> pruning_named pr = Some how -> is_loaded i = false ->
  fit_pruned top rnd c how w D val = Ok t ->
  exists a, compile_tree s pr = Ok a /\ let i1 := set_fields i a in
  here_and_there DecisionTreeClassifier (after_fit (tree_fit_effect top rnd w D val i1) i1)
    (fun j => forall x, predict_tree j x = Answer (mapM (Tree.predict t) x)).
Proof.
  intros top rnd s pr c how w D val t i Hc Hp Hl H.
  assert (G : exists pv, compile_tree (A := A) s pr = Ok [("criterion", VText s); ("generator", VText s); ("pruner", pv)] /\
     match how with NoPruning => pv = VNone | Pre => exists n, pv = VPruner (comp PrePruner n) | Post => exists n, pv = VPruner (comp PostPruner n) end).
  { unfold compile_tree; unfold criterion_named in Hc; destruct (s =? "gain"), (s =? "gini"), (s =? "entropy"); try discriminate; cbn [negb orb];
    (destruct pr as [n | | |]; cbn in Hp; try discriminate;
      [ destruct (n =? "pre") eqn:E1; [| destruct (n =? "post") eqn:E2; [| discriminate ]]; inversion Hp; subst how;
        unfold get_pruner; rewrite ?E1, ?E2; try (apply String.eqb_eq in E1; subst n); try (apply String.eqb_eq in E2; subst n);
        cbn; eexists; split; try reflexivity; eauto
      | inversion Hp; subst how; cbn; eexists; split; reflexivity ]). }
  destruct G as (pv & Ha & Hpv); exists [("criterion", VText s); ("generator", VText s); ("pruner", pv)]; split; [ exact Ha |]; intros i1.
  assert (F1 : field i1 "pruner" = pv) by reflexivity.
  assert (F2 : field i1 "generator" = VText s) by reflexivity.
  assert (F3 : is_loaded i1 = false) by exact Hl.
  assert (Cr : @criterion_of A (VText s) = Ok c).
  { unfold criterion_of; unfold criterion_named in Hc; destruct (s =? "gain"), (s =? "gini"), (s =? "entropy"); inversion Hc; reflexivity. }
  assert (E : tree_fit_effect top rnd w D val i1 = finished [("tree", VTree t)]).
  { unfold tree_fit_effect; rewrite F1, F2, F3, Cr; unfold fit_pruned in H; destruct how.
    - subst pv; rewrite H; reflexivity.
    - destruct Hpv as [n ->]; destruct val as [V |]; [| discriminate ].
      destruct (fit_tree top rnd c w D) as [t0 |]; [| discriminate ]; cbn [bind] in *; cbn [kind comp]; now rewrite H.
    - destruct Hpv as [n ->]; destruct val as [V |]; [| discriminate ].
      destruct (fit_tree top rnd c w D) as [t0 |]; [| discriminate ]; cbn [bind] in *; cbn [kind comp]; now rewrite H. }
  rewrite E; clear E; pose proof (ended_ready i1 [("tree", VTree t)]) as Hrd; set (i2 := after_fit _ i1) in *.
  assert (P : forall x, predict_tree i2 x = Answer (mapM (Tree.predict t) x)).
  { intros x; unfold predict_tree; rewrite guarded_ready by exact Hrd; reflexivity. }
  apply ships; [ exact P | |].
  - cbn [DecisionTreeClassifier writes flat_map do_write write_field app write_one]; unfold self_name, self, pickled.
    change (field i2 "pruner") with pv; change (field i2 "criterion") with (@VText A s).
    destruct how; [ subst pv | destruct Hpv as [n ->] | destruct Hpv as [n ->] ]; reflexivity.
  - intros author now k k' Hs.
    destruct (again_tree author now i2 (fresh DecisionTreeClassifier) k k' Hrd Hs eq_refl) as (j & Hj & E).
    exists j; split; [ exact Hj |]; intros x; rewrite E; apply P.
Qed.

(** ** Support vectors *)
Lemma svc_ships : forall C s g tol d x y perms fuel epochs o (i : obj),
  match g with Auto | Scale | Coefficient _ => True | _ => False end ->
  Svc.fit d x y perms fuel epochs (Svc.compile C (ByName s) g tol new_classifier) = (o, None) ->
  let i1 := set_fields i (compile_svc C (ByName s) g tol) in
  here_and_there SupportVectorClassifier (after_fit (svc_fit_effect d x y perms fuel epochs i1) i1)
    (fun j => forall q, predict_svc j q = Answer (mapM (Svc.predict o) q)).
Proof.
  intros C s g tol d x y perms fuel epochs o i Hg H i1.
  assert (F : field i1 "C" = VNum C /\ kernel_arg (field i1 "kernel") = ByName s /\ gamma_arg (field i1 "gamma") = g /\ field i1 "tol" = VNum tol).
  { repeat split; unfold i1, compile_svc; destruct g; try contradiction; reflexivity. }
  destruct F as (F1 & F2 & F3 & F4); unfold svc_fit_effect; rewrite F1, F2, F3, F4; cbn [num_or].
  change {| the_C := C; the_kernel := ByName s; the_gamma := g; the_tol := tol; Svc.model := None; Svc.trained := false |}
    with (Svc.compile C (ByName s) g tol new_classifier); rewrite H.
  unfold Svc.fit in H; cbn [Svc.compile the_gamma the_kernel the_C the_tol] in H.
  destruct (resolve_gamma d x g) as [g' |] eqn:Eg; [| discriminate ].
  assert (G : exists r, g' = Coefficient r).
  { unfold resolve_gamma in Eg; destruct g; try contradiction.
    - destruct (d =? 0)%nat; inversion Eg; eauto.
    - destruct (Reqb _ 0); inversion Eg; eauto.
    - inversion Eg; eauto. }
  destruct G as [r ->]; cbn [coefficient] in H.
  destruct (get_kernel (ByName s) (Some r)) as [k |] eqn:Ek; [| discriminate ].
  destruct (kernel_fun (kind k)) as [K |] eqn:EK; cbn [bind] in H; [| discriminate ].
  destruct (svc_fit _ _ _ _ _ _ _ _) as [m |] eqn:Em; [| discriminate ]; inversion H; subst o; clear H.
  cbn [Svc.model the_gamma the_kernel gamma_field app ended].
  match goal with |- here_and_there _ (after_fit (finished ?l0) _) _ => pose proof (ended_ready i1 l0) as Hrd end.
  set (i2 := after_fit _ i1) in *.
  assert (P : forall q, predict_svc i2 q =
     Answer (mapM (Svc.predict {| the_C := C; the_kernel := Instance k; the_gamma := Coefficient r; the_tol := tol; Svc.model := Some m; Svc.trained := true |}) q)).
  { intros q; unfold predict_svc; rewrite guarded_ready by exact Hrd.
    change (field i2 "kernel") with (@VKernel A k); change (field i2 "support") with (@VNats A (support m));
    change (field i2 "support_vector") with (@VMat A (support_vector m)); change (field i2 "support_alpha") with (@VVec A (support_alpha m));
    change (field i2 "support_y") with (@VVec A (support_y m)); change (field i2 "b") with (@VNum A (svc_b m)); cbv iota; rewrite EK; cbn [bind].
    f_equal; induction q as [| a q IH]; cbn [map mapM]; [ reflexivity |].
    rewrite <- IH; unfold Svc.predict; cbn [Svc.trained negb the_kernel Svc.model]; rewrite EK; cbn [bind]; now destruct m. }
  apply ships; [ exact P | |].
  - cbn [SupportVectorClassifier writes flat_map do_write write_field app write_one]; unfold self_name, self, pickled.
    change (field i2 "kernel") with (@VKernel A k); change (field i2 "gamma") with (@VNum A r); reflexivity.
  - intros author now k0 k' Hs.
    assert (U : usual_kernel (number (field i2 "gamma")) k).
    { change (number (field i2 "gamma")) with (Some r); unfold get_kernel in Ek; unfold usual_kernel.
      repeat match type of Ek with context [(s =? ?n)] => destruct (s =? n); [ inversion Ek; cbn; tauto |] end; discriminate. }
    destruct (again_svc author now i2 (fresh SupportVectorClassifier) k0 k' k Hrd Hs eq_refl U) as (j & Hj & E).
    exists j; split; [ exact Hj |]; intros q; rewrite E; apply P.
Qed.

(** ** Clustering *)
Lemma km_until_ok : forall d x tol epochs c cl c' cl' b, km_loop d x tol epochs c cl = Ok (c', cl', b) ->
  km_until d x tol epochs c cl = (c', cl', None).
Proof.
  induction epochs as [| n IH]; intros c cl c' cl' b H; cbn [km_loop km_until] in *; [ now inversion H |].
  destruct (get_cluster _) as [labels |]; [| discriminate ]; cbn [bind] in H.
  destruct (compare_differences_any _ _ _) as [[] |]; [ | | discriminate ]; cbn [bind] in H; [ now apply IH in H | now inversion H ].
Qed.
Lemma km_ships : forall randint d x n init tol epochs c l b (i : obj),
  storable init = true -> km_fit randint d x n (init_of init) tol epochs = Ok (c, Some l, b) ->
  let i1 := set_fields i (compile_kmeans init tol) in
  here_and_there KMeansModel (after_fit (km_fit_effect randint d x n epochs i1) i1)
    (fun j => forall q, predict_kmeans j q = Answer (km_predict c q)).
Proof.
  intros randint d x n init tol epochs c l b i Hst H i1; unfold km_fit in H.
  assert (F : field i1 "init" = init) by reflexivity.
  assert (T : field i1 "tol" = VNum tol) by reflexivity.
  unfold km_fit_effect; rewrite F, T; cbn [num_or].
  destruct (init_centroids _ _ _ _ _) as [c0 |]; [| discriminate ]; cbn [bind] in H.
  rewrite (km_until_ok _ _ _ _ _ _ _ _ _ H); cbn [ended].
  match goal with |- here_and_there _ (after_fit (finished ?l0) _) _ => pose proof (ended_ready i1 l0) as Hrd end.
  set (i2 := after_fit _ i1) in *.
  assert (P : forall q, predict_kmeans i2 q = Answer (km_predict c q)).
  { intros q; unfold predict_kmeans; rewrite guarded_ready by exact Hrd; reflexivity. }
  apply ships; [ exact P | |].
  - cbn [KMeansModel writes flat_map do_write write_field app write_one]; unfold self, pickled.
    change (field i2 "init") with init; change (field i2 "tol") with (@VNum A tol); destruct init; try discriminate Hst; reflexivity.
  - intros author now k k' Hs.
    destruct (again_kmeans author now i2 (fresh KMeansModel) k k' Hrd Hs) as (j & Hj & E).
    exists j; split; [ exact Hj |]; intros q; rewrite E; apply P.
Qed.
Lemma gm_until_ok : forall rnd d n x tol epochs t t', gm_loop rnd d n x tol epochs t = Ok t' -> gm_until rnd d n x tol epochs t = (t', None).
Proof.
  induction epochs as [| m IH]; intros t t' H; cbn [gm_loop gm_until] in *; [ now inversion H |].
  destruct (em_round _ _ _ _ _) as [t1 |]; [| discriminate ]; cbn [bind] in H.
  destruct (moved tol t t1); [ now apply IH | now inversion H ].
Qed.
Lemma gm_ships : forall rnd randint d x n init cov mix tol epochs t l (i : obj),
  storable init = true -> gm_fit rnd d randint x n (init_of init) (cov_of cov) (cov_of mix) tol epochs = Ok (t, l) ->
  let i1 := set_fields i (compile_mixture init cov mix tol) in
  here_and_there GaussianMixture (after_fit (gm_fit_effect rnd randint d x n epochs i1) i1)
    (fun j => forall rnd' d' q, predict_mixture rnd' d' j q = Answer (gm_predict rnd' d' t q)).
Proof.
  intros rnd randint d x n init cov mix tol epochs t l i Hst H i1; unfold gm_fit, gm_init in H.
  assert (F1 : field i1 "init" = init) by reflexivity.
  assert (F2 : field i1 "covariances_init" = cov) by reflexivity.
  assert (F3 : field i1 "mixture_coefficient_init" = mix) by reflexivity.
  assert (T : field i1 "tol" = VNum tol) by reflexivity.
  unfold gm_fit_effect; rewrite F1, F2, F3, T; cbn [num_or].
  destruct (init_centroids _ _ _ _ _) as [c0 |]; [| discriminate ]; cbn [bind] in H.
  destruct (init_covariances _ _ _) as [s0 |]; [| discriminate ]; cbn [bind] in H.
  destruct (init_mixture_coefficient _ _) as [a0 |]; [| discriminate ]; cbn [bind] in H.
  destruct (gm_loop _ _ _ _ _ _ _) as [t1 |] eqn:El; [| discriminate ]; cbn [bind] in H.
  rewrite (gm_until_ok _ _ _ _ _ _ _ _ El).
  destruct (gm_predict _ _ t1 x) as [cl |]; [| discriminate ]; cbn [bind] in H; inversion H; subst t1 cl; clear H.
  match goal with |- here_and_there _ (after_fit (finished ?l0) _) _ => pose proof (ended_ready i1 l0) as Hrd end.
  set (i2 := after_fit _ i1) in *.
  assert (P : forall rnd' d' q, predict_mixture rnd' d' i2 q = Answer (gm_predict rnd' d' t q)).
  { intros rnd' d' q; unfold predict_mixture; rewrite guarded_ready by exact Hrd.
    change (field i2 "mu") with (@VMat A (mu t)); change (field i2 "sigma") with (@VTensor A (sigma t));
    change (field i2 "alpha") with (@VVec A (alpha t)); now destruct t. }
  apply ships; [ exact P | |].
  - cbn [GaussianMixture writes flat_map do_write write_field app write_one]; unfold self, pickled.
    change (field i2 "init") with init; change (field i2 "tol") with (@VNum A tol); destruct init; try discriminate Hst; reflexivity.
  - intros author now k k' Hs.
    destruct (again_mixture author now i2 (fresh GaussianMixture) k k' Hrd Hs) as (j & Hj & E).
    exists j; split; [ exact Hj |]; intros rnd' d' q; rewrite E; apply P.
Qed.

(** ** Ensembles *)
Lemma bag_until_ok : forall choice n w x y b b', bag_fit choice n w x y b = Ok b' -> bag_until choice n w x y b = (b', None).
Proof.
  induction n as [| m IH]; intros w x y b b' H; cbn [bag_fit bag_until] in *; [ now inversion H |].
  destruct (bag_round _ _ _ _ b) as [b1 |]; [| discriminate ]; cbn [bind] in H; now apply IH.
Qed.
Lemma bag_ships : forall choice n w x y learner seed l0 b (i : obj),
  learner <> VNone -> field i "estimators" = VStumps l0 ->
  bag_fit choice n w x y {| bag_seed := seed; bag_stumps := l0 |} = Ok b ->
  let i1 := set_fields i (compile_bagging learner seed) in
  here_and_there BaggingClassifier (after_fit (bagging_fit_effect choice n w x y i1) i1)
    (fun j => forall q, predict_bagging j q = Answer (bag_predict b q)).
Proof.
  intros choice n w x y learner seed l0 b i Hn Hl H i1.
  assert (F1 : field i1 "seed" = VInt seed) by reflexivity.
  assert (F2 : field i1 "BaseLearner" = learner) by reflexivity.
  assert (F3 : field i1 "estimators" = VStumps l0) by exact Hl.
  assert (E : bagging_fit_effect choice n w x y i1 = finished [("seed", VInt (bag_seed b)); ("estimators", VStumps (bag_stumps b))]).
  { unfold bagging_fit_effect; rewrite F1, F2, F3; cbn [stumps]; rewrite (bag_until_ok _ _ _ _ _ _ _ H); now destruct learner. }
  rewrite E; clear E.
  match goal with |- here_and_there _ (after_fit (finished ?l0) _) _ => pose proof (ended_ready i1 l0) as Hrd end.
  set (i2 := after_fit _ i1) in *.
  assert (P : forall q, predict_bagging i2 q = Answer (bag_predict b q)).
  { intros q; unfold predict_bagging; rewrite guarded_ready by exact Hrd; reflexivity. }
  apply ships; [ exact P | |].
  - cbn [BaggingClassifier writes flat_map do_write write_field app write_one]; unfold self, pickled. reflexivity.
  - intros author now k k' Hs.
    destruct (again_bagging author now i2 (fresh BaggingClassifier) k k' Hrd Hs) as (j & Hj & E).
    exists j; split; [ exact Hj |]; intros q; rewrite E; apply P.
Qed.
Lemma ada_until_ok : forall w n D dist ms, ada_loop tltree (tl_learn w) tl_predict n D dist = Ok ms -> ada_until w n D dist = (ms, None).
Proof.
  induction n as [| m IH]; intros D dist ms H; cbn [ada_loop ada_until] in *; [ now inversion H |].
  destruct (ada_round _ _ _ _ _) as [[[h a] d'] |]; [| discriminate ]; cbn [bind] in H.
  destruct (Rltb (1 / 2) _ || Rltb _ EPSILON); cbn [bind] in H; [ now inversion H |].
  destruct (ada_loop _ _ _ m D d') as [rest |] eqn:E; [| discriminate ]; cbn [bind] in H; inversion H; now rewrite (IH _ _ _ E).
Qed.
Lemma ada_ships : forall n w D learner b (i : obj),
  learner <> VNone -> field i "estimators" = VTwoLevel [] -> field i "alpha_list" = VVec [] -> is_trained i = false -> is_loaded i = false ->
  ada_fit tltree (tl_learn w) tl_predict n D {| Ensemble.members := []; alpha_is_array := false |} = Ok b ->
  let i1 := set_fields i (compile_adaboost learner) in
  here_and_there AdaBoostClassifier (after_fit (adaboost_fit_effect w n D i1) i1)
    (fun j => forall q, predict_adaboost j q = Answer (ada_predict tltree tl_predict b q)).
Proof.
  intros n w D learner b i Hn Hl Ha Ht Hd H i1.
  assert (F1 : field i1 "BaseLearner" = learner) by reflexivity.
  assert (F2 : field i1 "estimators" = VTwoLevel []) by exact Hl.
  assert (F3 : field i1 "alpha_list" = VVec []) by exact Ha.
  assert (F4 : is_trained i1 || is_loaded i1 = false) by (change (is_trained i || is_loaded i = false); now rewrite Ht, Hd).
  unfold ada_fit in H; cbn [alpha_is_array andb Ensemble.members] in H.
  destruct (ada_loop _ _ _ n D _) as [ms |] eqn:El; [| discriminate ]; cbn [bind] in H; inversion H; subst b; clear H; cbn [app].
  set (i2 := after_fit (adaboost_fit_effect w n D i1) i1).
  assert (E : ready i2 /\ field i2 "estimators" = VTwoLevel (map fst ms) /\ field i2 "alpha_list" = VVec (map snd ms)
              /\ field i2 "BaseLearner" = learner).
  { unfold i2, adaboost_fit_effect; rewrite F1, F2, F3, F4, (ada_until_ok _ _ _ _ _ El); cbn [two_levels alphas_of app ended].
    destruct n as [| n]; cbn [Nat.eqb].
    - cbn [ada_loop] in El; inversion El; subst ms; cbn [map]; split; [ apply ended_ready |]; repeat split; assumption.
    - destruct learner; try congruence; split; (apply ended_ready || (repeat split; reflexivity)). }
  destruct E as (Hrd & E1 & E2 & E3).
  assert (P : forall q, predict_adaboost i2 q = Answer (ada_predict tltree tl_predict {| Ensemble.members := ms; alpha_is_array := true |} q)).
  { intros q; unfold predict_adaboost; rewrite guarded_ready by exact Hrd; rewrite E1, E2.
    do 3 f_equal; clear; induction ms as [| [h a] t IH]; cbn [map combine fst snd]; [ reflexivity | now rewrite IH ]. }
  apply ships; [ exact P | |].
  - cbn [AdaBoostClassifier writes flat_map do_write write_field app write_one]; unfold self, pickled; rewrite E1, E2, E3; reflexivity.
  - intros author now k k' Hs.
    destruct (again_adaboost author now i2 (fresh AdaBoostClassifier) k k' Hrd Hs) as (j & Hj & E).
    exists j; split; [ exact Hj |]; intros q; rewrite E; apply P.
Qed.
End Fit.
