(** Proofs about calls of [fit] that raise an exception (C94). *)
From Coq Require Import List String Reals ZArith Bool Arith Lia Lra.
From Verif.Model Require Import Base Matrix Ops Stump Tree Pruner Bayes Ensemble Logistic Lda Network Rbf KMeans Gmm Kernels Smo Training Store Life Svc Fit.
From Verif.Model Require Process.
From Verif.Spec Require Import Store Fit.
From Verif.Proof Require Import BaseLemmas BayesMain KMeansMain Ops StoreNet Fit.
From Verif.Proof Require Ensemble.
Import ListNotations.
Local Open Scope string_scope.

Section Fail.
Context {A : Type}.
Notation obj := (@obj A).

Lemma ended_possible : forall (c : cls) (l : @attrs A) e, fit_possible c (ended l e).
Proof. intros c l [e |]; split; cbn; congruence. Qed.
Lemma stopped_possible : forall (c : cls) (l : @attrs A) e, fit_possible c (stopped l e).
Proof. intros; apply (ended_possible c l (Some e)). Qed.
Lemma finished_possible : forall (c : cls) (l : @attrs A), fit_possible c (finished l).
Proof. intros; apply (ended_possible c l None). Qed.

Lemma fits_are_possible : forall (i : obj) c e, fit_call i c e -> fit_possible c e.
Proof.
  intros i c e H; destruct H;
    unfold lda_fit_effect, logistic_fit_effect, network_fit_effect, rbf_fit_effect, nb_fit_effect, sp_fit_effect, ao_fit_effect,
      tree_fit_effect, svc_fit_effect, km_fit_effect, gm_fit_effect, bagging_fit_effect, adaboost_fit_effect;
    repeat match goal with
      | |- fit_possible _ (ended _ _) => apply ended_possible
      | |- fit_possible _ (stopped _ _) => apply stopped_possible
      | |- fit_possible _ (finished _) => apply finished_possible
      | |- fit_possible GaussianMixture {| changed := _; marked := true; raised := _ |} => split; cbn; congruence
      | |- fit_possible _ (let '(_, _) := ?r in _) => destruct r
      | |- fit_possible _ (let x := _ in _) => intro
      | |- fit_possible _ (match ?r with _ => _ end) => destruct r
    end.
Qed.

(** ** Nothing changes *)
Lemma same_refl : forall i : obj, same_predictions i i.
Proof. intros i; repeat split. Qed.
Lemma same_untouched : forall (i : obj) e, changed e = [] -> marked e = false -> same_predictions i (after_fit e i).
Proof.
  intros i e Hc Hm; assert (E : after_fit e i = i); [| rewrite E; apply same_refl ].
  unfold after_fit; rewrite Hc, Hm; cbn; rewrite orb_false_r; now destruct i.
Qed.
Lemma refuses : forall i : obj, is_trained i = false -> is_loaded i = false -> all_refuse i.
Proof.
  intros i Ht Hl; unfold all_refuse, every_predict; repeat split; intros;
    unfold predict_logistic, predict_lda, predict_naive_bayes, predict_super_parent, predict_averaged, predict_tree, predict_svc,
      predict_kmeans, predict_mixture, predict_bagging, predict_adaboost, predict_network, predict_rbf, guarded; rewrite Ht, Hl; reflexivity.
Qed.
Lemma both_refuse : forall i j : obj, all_refuse i -> all_refuse j -> same_predictions i j.
Proof.
  intros i j Hi Hj; unfold all_refuse, every_predict in Hi, Hj; unfold same_predictions.
  repeat match goal with H : _ /\ _ |- _ => destruct H end.
  repeat split; intros; etransitivity; eauto; symmetry; eauto.
Qed.
Lemma same_unmarked : forall (i : obj) e, is_trained i = false -> is_loaded i = false -> marked e = false -> same_predictions i (after_fit e i).
Proof.
  intros i e Ht Hl Hm; apply both_refuse; apply refuses; try assumption; unfold after_fit; cbn; now rewrite ?Ht, ?Hm.
Qed.
(** Assignments to a field that no [predict] reads. *)
Lemma same_fields : forall (i j : obj), is_trained j = is_trained i -> is_loaded j = is_loaded i ->
  (forall k, In k ["optimizer"; "beta"; "w"; "mu_0"; "mu_1"; "p_0"; "p_1"; "pi_0"; "pi_1"; "smoothing"; "_list_of_p_c"; "_attribute_list"; "tree";
                   "kernel"; "support"; "support_vector"; "support_alpha"; "support_y"; "b"; "centroids"; "mu"; "sigma"; "alpha";
                   "estimators"; "alpha_list"; "parameters"] -> field j k = field i k) -> same_predictions i j.
Proof.
  intros i j Ht Hl H.
  assert (G : forall B (r : result B), guarded j r = guarded i r) by (intros; unfold guarded; now rewrite Ht, Hl).
  repeat split; intros;
    unfold predict_logistic, predict_lda, predict_naive_bayes, predict_super_parent, predict_averaged, predict_tree, predict_svc,
      predict_kmeans, predict_mixture, predict_bagging, predict_adaboost, predict_network, predict_rbf; rewrite G;
    repeat match goal with |- context [field j ?k] => rewrite (H k) by (cbn; tauto) end; reflexivity.
Qed.

Lemma adaboost_keeps : forall w n D (i : obj), raised (adaboost_fit_effect w n D i) <> None ->
  same_predictions i (after_fit (adaboost_fit_effect w n D i) i).
Proof.
  intros w n D i H; destruct (is_trained i || is_loaded i) eqn:E.
  - unfold adaboost_fit_effect in *; rewrite E in *; destruct (n =? 0)%nat; [ now contradiction H |].
    destruct (field i "BaseLearner"); try (now apply same_untouched); destruct (ada_round _ _ _ _ _); now apply same_untouched.
  - apply orb_false_iff in E; destruct E as [E1 E2]; apply same_unmarked; try assumption.
    destruct (fits_are_possible i AdaBoostClassifier _ (fits_adaboost i w n D)) as [_ P]; now apply P.
Qed.

Lemma mapM_all_ok : forall {X Y} (f : X -> result Y) l, (forall x, In x l -> exists y, f x = Ok y) -> exists m, mapM f l = Ok m.
Proof.
  induction l as [| a t IH]; intros H; cbn [mapM]; [ eauto |].
  destruct (H a (or_introl eq_refl)) as [y ->]; destruct IH as [m ->]; [ intros x Hx; apply H; now right |]; cbn; eauto.
Qed.
Lemma sp_table_ok : forall O num cont cols y sm parent, exists t, sp_table (A := A) O num cont cols y sm parent = Ok t.
Proof.
  intros; unfold sp_table; apply mapM_all_ok; intros [c v] Hin; cbn [fst snd].
  apply in_flat_map in Hin; destruct Hin as (c' & Hc & _); apply zsort_In in Hc.
  assert (L : List.length y <> 0%nat) by (destruct y; [ contradiction | cbn; lia ]).
  unfold get_dependent_prior_probability; destruct sm.
  - replace (_ =? 0)%nat with false by (symmetry; apply Nat.eqb_neq; lia); cbn; eauto.
  - apply Nat.eqb_neq in L; rewrite L; cbn; eauto.
Qed.
Lemma sp_fit_ok : forall O num cont state cols y sm index, (index < List.length cols)%nat ->
  exists l, sp_fit (A := A) O num cont state cols y sm index = Ok l.
Proof.
  intros; unfold sp_fit; destruct (get_at cols index) as [p |] eqn:E.
  - cbn [bind]; destruct (sp_table_ok O num cont cols y sm p) as [t ->]; cbn; eauto.
  - unfold get_at in E; destruct (nth_error cols index) eqn:N; [ discriminate |]; apply nth_error_None in N; lia.
Qed.
Lemma sp_keeps : forall O num cont index cols y (i : obj),
  (raised (sp_fit_effect O num cont index cols y i) <> None <-> (List.length cols <= index)%nat) /\
  (raised (sp_fit_effect O num cont index cols y i) <> None -> same_predictions i (after_fit (sp_fit_effect O num cont index cols y i) i)).
Proof.
  intros O num cont index cols y i; unfold sp_fit_effect; split.
  - destruct (lt_dec index (List.length cols)) as [L | L].
    + destruct (sp_fit_ok O num cont (entries_of (field i "_list_of_p_c")) cols y (truth (field i "smoothing")) index L) as [l ->].
      split; intros K; [ now contradiction K | lia ].
    + split; intros K; [ lia |]; unfold sp_fit, get_at; destruct (nth_error cols index) eqn:N.
      * exfalso; apply L, nth_error_Some; congruence.
      * cbn; discriminate.
  - destruct (sp_fit _ _ _ _ _ _ _ _); intros K; [ now contradiction K | now apply same_untouched ].
Qed.
Lemma ao_fit_ok : forall O num cont state cols y sm m, exists r, ao_fit (A := A) O num cont state cols y sm m = Ok r.
Proof.
  intros; unfold ao_fit.
  assert (G : forall (ps : list (nat * list A)) st, (forall p, In p ps -> (fst p < List.length cols)%nat) ->
    exists f, foldM (fun st p => sp_fit (A := A) O num cont st cols y sm (fst p)) ps st = Ok f).
  { induction ps as [| p ps IH]; intros st H; cbn [foldM]; [ eauto |].
    destruct (sp_fit_ok O num cont st cols y sm (fst p)) as [l ->]; [ apply H; now left |].
    cbn [bind]; apply IH; intros q Hq; apply H; now right. }
  destruct (G (filter (fun p => ao_eligible O cont m (snd p)) (enumerate cols)) state) as [f Hf].
  - intros [k c] Hp; apply filter_In in Hp; destruct Hp as [Hp _]; apply enumerate_In in Hp; cbn [fst].
    apply nth_error_Some; congruence.
  - rewrite Hf; cbn; eauto.
Qed.
Lemma ao_never : forall O num cont cols y (i : obj), raised (ao_fit_effect O num cont cols y i) = None.
Proof.
  intros; unfold ao_fit_effect.
  destruct (ao_fit_ok O num cont (entries_of (field i "_list_of_p_c")) cols y (truth (field i "smoothing")) (threshold (field i "m"))) as [r ->].
  reflexivity.
Qed.

Lemma tree_keeps : forall top rnd w D val (i : obj), raised (tree_fit_effect top rnd w D val i) <> None ->
  field i "pruner" = VNone \/ val = None ->
  same_predictions i (after_fit (tree_fit_effect top rnd w D val i) i).
Proof.
  intros top rnd w D val i H Hp; unfold tree_fit_effect in *; destruct Hp as [Hp | ->].
  - rewrite Hp in *; destruct (criterion_of _); [| now apply same_untouched ].
    destruct (if is_loaded i then _ else _); [| now apply same_untouched ].
    now contradiction H.
  - destruct (field i "pruner") eqn:F; try (now apply same_untouched);
    (destruct (criterion_of _); [| now apply same_untouched ]; destruct (if is_loaded i then _ else _); [| now apply same_untouched ]; now contradiction H).
Qed.

Lemma bag_round_fails : forall choice w x y b e, (forall s n k, In k (choice s n) -> (k < n)%nat) ->
  bag_round choice w x y b = Err e -> List.length x <> List.length y \/ seed_ok (bag_seed b) = false.
Proof.
  intros choice w x y b e Hc H; destruct (seed_ok (bag_seed b)) eqn:S; [ left; intros L | now right ].
  unfold bag_round, bootstrap_sampling in H; rewrite S in H; cbn [as_rows negb] in H; rewrite map_length, L, Nat.eqb_refl in H; cbn [negb] in H.
  assert (G : forall X (l : list X) idx, (forall k, In k idx -> (k < List.length l)%nat) -> exists m, mapM (get_at l) idx = Ok m).
  { intros X l idx Hi; apply mapM_all_ok; intros k Hk; specialize (Hi k Hk); apply nth_error_Some in Hi; unfold get_at.
    destruct (nth_error l k); [ eauto | congruence ]. }
  destruct (G _ x (choice (bag_seed b) (List.length y))) as [xs Hx]; [ intros k Hk; rewrite L; eapply Hc; exact Hk |].
  destruct (G _ (map (fun z => [z]) y) (choice (bag_seed b) (List.length y))) as [ys Hy]; [ intros k Hk; rewrite map_length; eapply Hc; exact Hk |].
  rewrite Hx in H; cbn [bind] in H; rewrite Hy in H; discriminate.
Qed.
Lemma bag_round_mismatch : forall choice w x y b, List.length x <> List.length y -> bag_round choice w x y b = Err ValueError.
Proof.
  intros choice w x y b L; unfold bag_round, bootstrap_sampling; destruct (seed_ok _); [| reflexivity ]; cbn [as_rows negb]; rewrite map_length; apply Nat.eqb_neq in L; now rewrite L.
Qed.
Lemma bag_round_seed : forall choice w x y b b', bag_round choice w x y b = Ok b' -> bag_seed b' = (bag_seed b + 1)%Z.
Proof.
  intros choice w x y b b' H; unfold bag_round in H; destruct (negb _); [ discriminate |].
  destruct (bootstrap_sampling _ _ _) as [[xs [ys |]] |]; cbn [bind] in H; try discriminate; now injection H as <-.
Qed.
Lemma bag_until_fails : forall choice n w x y b, (forall s n k, In k (choice s n) -> (k < n)%nat) ->
  (seed_ok (bag_seed b) = true -> (bag_seed b + Z.of_nat n <= 2 ^ 32)%Z) ->
  snd (bag_until choice n w x y b) <> None -> fst (bag_until choice n w x y b) = b.
Proof.
  intros choice n; destruct n as [| n]; intros w x y b Hc Hs H; cbn [bag_until] in *; [ reflexivity |].
  destruct (bag_round choice w x y b) as [b' |] eqn:E; [| reflexivity ].
  assert (S : (0 <= bag_seed b' /\ bag_seed b' + Z.of_nat n <= 2 ^ 32)%Z).
  { destruct (seed_ok (bag_seed b)) eqn:Sb; [| unfold bag_round in E; rewrite Sb in E; discriminate ].
    specialize (Hs eq_refl); apply Proof.Ensemble.seed_in in Sb; apply bag_round_seed in E; lia. }
  exfalso; assert (L : List.length x = List.length y).
  { destruct (Nat.eq_dec (List.length x) (List.length y)) as [L | L]; [ exact L |]; now rewrite bag_round_mismatch in E. }
  clear E Hs; revert b' H S; clear b; induction n as [| n IH]; intros b H S; cbn [bag_until] in H; [ now apply H |].
  destruct (bag_round choice w x y b) as [b' |] eqn:E.
  - apply (IH _ H); apply bag_round_seed in E; lia.
  - destruct (bag_round_fails _ _ _ _ _ _ Hc E) as [N | N]; [ exact (N L) |].
    rewrite (proj2 (Proof.Ensemble.seed_in (bag_seed b))) in N; [ discriminate | lia ].
Qed.
Lemma bagging_keeps : forall choice n w x y (i : obj) l, (forall s n k, In k (choice s n) -> (k < n)%nat) ->
  field i "estimators" = VStumps l -> (forall s, field i "seed" = VInt s -> (0 <= s < 2 ^ 32)%Z -> (s + Z.of_nat n <= 2 ^ 32)%Z) -> raised (bagging_fit_effect choice n w x y i) <> None ->
  same_predictions i (after_fit (bagging_fit_effect choice n w x y i) i).
Proof.
  intros choice n w x y i l Hc Hl Hs H.
  assert (M : marked (bagging_fit_effect choice n w x y i) = false).
  { destruct (fits_are_possible i BaggingClassifier _ (fits_bagging i choice n w x y)) as [_ P]; now apply P. }
  apply same_fields; [ unfold after_fit; rewrite M; cbn; apply orb_false_r | reflexivity |].
  intros k Hk; change (field (set_fields i (changed (bagging_fit_effect choice n w x y i))) k = field i k); clear M.
  assert (S : k <> "seed") by (intros ->; cbn in Hk; repeat (destruct Hk as [Hk | Hk]; [ discriminate |]); exact Hk).
  apply String.eqb_neq in S; unfold bagging_fit_effect in *.
  assert (U : forall s, ((0 <= s < 2 ^ 32)%Z -> (s + Z.of_nat n <= 2 ^ 32)%Z) -> let r := bag_until choice n w x y {| bag_seed := s; bag_stumps := stumps (field i "estimators") |} in
    raised (let '(b, e) := r in ended (A := A) [("seed", VInt (bag_seed b)); ("estimators", VStumps (bag_stumps b))] e) <> None ->
    field (set_fields i (changed (let '(b, e) := r in ended (A := A) [("seed", VInt (bag_seed b)); ("estimators", VStumps (bag_stumps b))] e))) k = field i k).
  { intros s Hz r Hr; pose proof (bag_until_fails choice n w x y {| bag_seed := s; bag_stumps := stumps (field i "estimators") |} Hc (fun Hk => Hz (proj1 (Proof.Ensemble.seed_in _) Hk))) as F.
    fold r in F; destruct r as [b [e |]]; [| now contradiction Hr ].
    rewrite Hl in F; specialize (F ltac:(discriminate)); cbn [fst stumps] in F; subst b; cbn; rewrite S.
    destruct (k =? "estimators") eqn:E; [| reflexivity ]; apply String.eqb_eq in E; subst k; now rewrite Hl. }
  destruct (field i "seed") eqn:Fs; try (destruct (n =? 0)%nat; [ now contradiction H | reflexivity ]).
  destruct (field i "BaseLearner"); try (exact (U _ (Hs _ eq_refl) H)).
  destruct (n =? 0)%nat; [ now contradiction H |]; destruct (bag_round _ _ _ _ _); cbn; rewrite ?S; reflexivity.
Qed.

(** The seeds leave the range in the middle: two new learners outvote the old one. *)
Lemma bagging_loses : let choice (_ : Z) n := seq 0 n in
  let fit n y := bagging_fit_effect (A := A) choice n 1 [[1]; [2]]%R y in
  let i0 := set_fields (fresh (@BaggingClassifier A)) (compile_bagging (VText "stump") 7) in
  let i1 := after_fit (fit 1%nat [1; -1]%Z i0) i0 in
  let i2 := set_fields i1 (compile_bagging (VText "stump") (2 ^ 32 - 2)) in
  raised (fit 1%nat [1; -1]%Z i0) = None /\ raised (fit 3%nat [-1; 1]%Z i2) = Some ValueError /\
  predict_bagging i1 [[1%R]] = Answer (Ok [1%Z]) /\ predict_bagging (after_fit (fit 3%nat [-1; 1]%Z i2) i2) [[1%R]] = Answer (Ok [(-1)%Z]) /\
  same_predictions i1 i2.
Proof.
  set (h1 := Some (0%nat, ((1 + 2) / 2)%R, Gte) : stump); set (h2 := Some (0%nat, ((1 + 2) / 2)%R, Le) : stump).
  assert (R1 : forall s l, seed_ok s = true -> bag_round (fun _ n => seq 0 n) 1 [[1]; [2]]%R [1; -1]%Z {| bag_seed := s; bag_stumps := l |} =
    Ok {| bag_seed := s + 1; bag_stumps := (l ++ [h1])%list |}).
  { intros s l S; unfold bag_round, bootstrap_sampling; cbn -[stump_fit seed_ok]; rewrite S; cbn -[stump_fit]; now rewrite Proof.Ensemble.toy_right. }
  assert (R2 : forall s l, seed_ok s = true -> bag_round (fun _ n => seq 0 n) 1 [[1]; [2]]%R [-1; 1]%Z {| bag_seed := s; bag_stumps := l |} =
    Ok {| bag_seed := s + 1; bag_stumps := (l ++ [h2])%list |}).
  { intros s l S; unfold bag_round, bootstrap_sampling; cbn -[stump_fit seed_ok]; rewrite S; cbn -[stump_fit]; now rewrite Proof.Ensemble.toy_wrong. }
  intros choice fit i0 i1 i2.
  assert (E1 : fit 1%nat [1; -1]%Z i0 = finished [("seed", VInt 8); ("estimators", VStumps [h1])]).
  { unfold fit, bagging_fit_effect; change (field i0 "seed") with (@VInt A 7); change (field i0 "BaseLearner") with (@VText A "stump").
    cbv iota; cbn [bag_until]; change (stumps (field i0 "estimators")) with (@nil stump); unfold choice; rewrite R1 by reflexivity; reflexivity. }
  unfold i2, i1; rewrite E1; clear i2 i1.
  match goal with |- context [fit 3%nat [-1; 1]%Z ?i] => set (i2 := i) end.
  assert (E2 : fit 3%nat [-1; 1]%Z i2 = stopped [("seed", VInt (2 ^ 32)); ("estimators", VStumps [h1; h2; h2])] ValueError).
  { unfold fit, bagging_fit_effect; change (field i2 "seed") with (@VInt A (2 ^ 32 - 2)); change (field i2 "BaseLearner") with (@VText A "stump").
    cbv iota; cbn [bag_until]; change (stumps (field i2 "estimators")) with [h1]; unfold choice; rewrite R2 by reflexivity; rewrite R2 by reflexivity; reflexivity. }
  rewrite E2; split; [ reflexivity |]; split; [ reflexivity |].
  assert (P1 : stump_predict h1 [[1%R]] = Ok [1%Z]).
  { cbn; unfold stump_label, feat; cbn; now rewrite (proj2 (Rleb_false _ _)) by lra. }
  assert (P2 : stump_predict h2 [[1%R]] = Ok [(-1)%Z]).
  { cbn; unfold stump_label, feat; cbn; now rewrite (proj2 (Rltb_true _ _)) by lra. }
  split; [| split ].
  - match goal with |- predict_bagging ?i _ = _ => change (predict_bagging i [[1%R]]) with (@Answer (list Z) (bag_predict {| bag_seed := 0; bag_stumps := [h1] |} [[1%R]])) end.
    unfold bag_predict; cbn [bag_stumps mapM]; rewrite P1; reflexivity.
  - match goal with |- predict_bagging ?i _ = _ => change (predict_bagging i [[1%R]]) with (@Answer (list Z) (bag_predict {| bag_seed := 0; bag_stumps := [h1; h2; h2] |} [[1%R]])) end.
    unfold bag_predict; cbn [bag_stumps mapM]; rewrite P1, P2; reflexivity.
  - apply same_fields; try reflexivity; intros k Hk; cbn in Hk.
    repeat (destruct Hk as [<- | Hk]; [ reflexivity |]); destruct Hk.
Qed.

(** A trained support vector classifier has resolved its kernel. *)
Lemma svc_keeps : forall d x y perms fuel epochs (i : obj) k,
  field i "kernel" = VKernel k -> raised (svc_fit_effect d x y perms fuel epochs i) <> None ->
  same_predictions i (after_fit (svc_fit_effect d x y perms fuel epochs i) i).
Proof.
  intros d x y perms fuel epochs i k Hk H.
  assert (M : marked (svc_fit_effect d x y perms fuel epochs i) = false).
  { destruct (fits_are_possible i SupportVectorClassifier _ (fits_svc i d x y perms fuel epochs)) as [_ P]; now apply P. }
  apply same_fields; [ unfold after_fit; rewrite M; cbn; apply orb_false_r | reflexivity |].
  intros q Hq; change (field (set_fields i (changed (svc_fit_effect d x y perms fuel epochs i))) q = field i q); clear M.
  assert (S : q <> "gamma") by (intros ->; cbn in Hq; repeat (destruct Hq as [Hq | Hq]; [ discriminate |]); exact Hq).
  apply String.eqb_neq in S; unfold svc_fit_effect, Svc.fit in *; cbn [the_gamma the_kernel the_C the_tol] in *; rewrite Hk in *; cbn [kernel_arg get_kernel] in *.
  assert (D : forall v w, field (set_fields i (changed (stopped (A := A) [("gamma", v); ("kernel", w)] TypeError))) q = if q =? "kernel" then w else field i q).
  { intros v w; cbn; rewrite S; destruct (q =? "kernel"); reflexivity. }
  assert (K : (if q =? "kernel" then VKernel k else field i q) = field i q).
  { destruct (q =? "kernel") eqn:E; [| reflexivity ]; apply String.eqb_eq in E; subst q; now rewrite Hk. }
  destruct (resolve_gamma d x (gamma_arg (field i "gamma"))) as [g |].
  - destruct (bind (kernel_fun (kind k)) _) as [m |]; [ now contradiction H |].
    transitivity (if q =? "kernel" then VKernel k else field i q); [ apply D | exact K ].
  - transitivity (if q =? "kernel" then VKernel k else field i q); [ apply D | exact K ].
Qed.

(** ** Trained parameters are lost *)
Lemma network_forgets : forall init draws k x y r e (i : obj) o,
  field i "optimizer" = VOptimizer o -> kind o = Sgd r -> is_loaded i = false -> is_trained i = true ->
  sample_gradient x y init k = Err e ->
  raised (network_fit_effect init (k :: draws) x y i) = Some e /\
  forall q, predict_network (after_fit (network_fit_effect init (k :: draws) x y i) i) q = Answer (p <- Network.forward init q ;; Ok (fst p)).
Proof.
  intros init draws k x y r e i o Ho Hr Hl Ht He.
  assert (E : network_fit_effect init (k :: draws) x y i = stopped [("parameters", VDict (entries 1 init))] e).
  { unfold network_fit_effect; rewrite Ho, Hl; rewrite entries_network; fold (@network_dict A init); rewrite layers_of_network; cbn [bind].
    rewrite Hr; cbn [run_network]; unfold sgd_run; cbn [foldM]; unfold sgd_epoch at 1; rewrite He; reflexivity. }
  rewrite E; split; [ reflexivity |]; intros q; unfold predict_network, guarded.
  change (is_trained (after_fit (stopped [("parameters", VDict (entries 1 init))] e) i)) with (is_trained i || false); rewrite Ht; cbn [orb negb andb].
  change (field (after_fit (stopped [("parameters", VDict (entries 1 init))] e) i) "optimizer") with (field i "optimizer"); rewrite Ho, Hr.
  change (field (after_fit (stopped [("parameters", VDict (entries 1 init))] e) i) "parameters") with (VDict (A := A) (entries 1 init)).
  rewrite entries_network; fold (@network_dict A init); now rewrite layers_of_network.
Qed.
Lemma logistic_forgets : forall init d x y n e (i : obj) o lo,
  field i "optimizer" = VOptimizer o -> is_regression_optimizer (kind o) lo -> is_loaded i = false -> is_trained i = true ->
  opt_step lo d x y init = Err e ->
  raised (logistic_fit_effect init d x y (S n) i) = Some e /\
  forall q, predict_logistic (after_fit (logistic_fit_effect init d x y (S n) i) i) q = Answer (Ok (Logistic.forward q init)).
Proof.
  intros init d x y n e i o lo Ho Hr Hl Ht He.
  assert (E : logistic_fit_effect init d x y (S n) i = stopped [("beta", VVec init)] e).
  { unfold logistic_fit_effect; rewrite Hl, Ho; unfold Process.train_regression.
    destruct (kind o), lo; cbn in Hr; try contradiction; try subst; cbn [Process.logistic_training_loop]; rewrite He; reflexivity. }
  rewrite E; split; [ reflexivity |]; intros q; unfold predict_logistic, guarded.
  change (is_trained (after_fit (stopped [("beta", VVec init)] e) i)) with (is_trained i || false); rewrite Ht; cbn [orb negb andb].
  change (field (after_fit (stopped [("beta", VVec init)] e) i) "optimizer") with (field i "optimizer"); rewrite Ho.
  destruct (kind o), lo; cbn in Hr; try contradiction; reflexivity.
Qed.
End Fail.

(** ** Answers that change *)
Local Open Scope R_scope.
Definition one_svd (m : list (list R)) : list (list R) * list R * list (list R) := ([[1]], [nth 0 (nth 0 m []) 0], [[1]]).
Lemma inverse_one : forall a, a <> 0 -> inverse 1 [[a]] = Ok [[1 / a]].
Proof.
  intros a Ha; assert (D : det 1 [[a]] = a) by (unfold det, sign, rsum; cbn; lra).
  unfold inverse; rewrite D; destruct (Reqb a 0) eqn:E; [ apply Reqb_true in E; lra |]; cbn; repeat f_equal; lra.
Qed.
Lemma inverse_zero : forall a, a = 0 -> inverse 1 [[a]] = Err LinAlgError.
Proof.
  intros a ->; assert (D : det 1 [[0]] = 0) by (unfold det, sign, rsum; cbn; lra).
  unfold inverse; rewrite D; destruct (Reqb 0 0) eqn:E; [ reflexivity | apply Reqb_false in E; lra ].
Qed.
Lemma lda_loses : forall A, let i0 := fresh (@LinearDiscriminantAnalysis A) in
  let f1 := lda_fit_effect one_svd 1 [[0]; [2]; [10]; [12]] [0; 0; 1; 1]%Z in
  let f2 := lda_fit_effect one_svd 1 [[20]; [0]] [0; 1]%Z in
  raised f1 = None /\ raised f2 = Some LinAlgError /\
  predict_lda (after_fit f1 i0) [0] = Answer (Ok 0%Z) /\ predict_lda (after_fit f2 (after_fit f1 i0)) [0] = Answer (Ok 1%Z).
Proof.
  intros A i0 f1 f2.
  assert (E1 : exists m0 m1 w, f1 = finished [("mu_0", VVec [m0]); ("mu_1", VVec [m1]); ("w", VVec [w])] /\ m0 = 1 /\ m1 = 11 /\ w = - (5 / 2)).
  { unfold f1, lda_fit_effect; cbn [List.length Nat.eqb negb with_label combine filter snd Z.eqb map fst Pos.eqb mean_row seq].
    unfold get_w_v2, one_svd, diag; cbn [seq map Nat.eqb nth].
    match goal with |- context [inverse 1 [[?a]]] => assert (Ha : a = 4) end.
    { unfold within_class_scatter, scatter_of, vadd, rmean, column, rsum; cbn; lra. }
    rewrite inverse_one by (rewrite Ha; lra); cbn [bind]; rewrite Ha.
    do 3 eexists; split; [ cbn; reflexivity |]; unfold rmean, rsum, column, dot; cbn; repeat split; lra. }
  assert (E2 : exists m0 m1, f2 = stopped [("mu_0", VVec [m0]); ("mu_1", VVec [m1])] LinAlgError /\ m0 = 20 /\ m1 = 0).
  { unfold f2, lda_fit_effect; cbn [List.length Nat.eqb negb with_label combine filter snd Z.eqb map fst Pos.eqb mean_row seq].
    unfold get_w_v2, one_svd, diag; cbn [seq map Nat.eqb nth].
    match goal with |- context [inverse 1 [[?a]]] => assert (Ha : a = 0) end.
    { unfold within_class_scatter, scatter_of, vadd, rmean, column, rsum; cbn; lra. }
    rewrite inverse_zero by exact Ha; cbn [bind].
    do 2 eexists; split; [ cbn; reflexivity |]; unfold rmean, rsum, column; cbn; split; lra. }
  destruct E1 as (m0 & m1 & w & -> & -> & -> & ->), E2 as (n0 & n1 & -> & -> & ->).
  split; [ reflexivity |]; split; [ reflexivity |]; split.
  - change (Answer (Ok (lda_predict {| lda_w := [- (5 / 2)]; lda_mu0 := [1]; lda_mu1 := [11] |} [0])) = Answer (Ok 0%Z)).
    unfold lda_predict, dot, rsum; cbn; destruct (Rltb _ _) eqn:E; [| reflexivity ]; apply Rltb_true in E; exfalso; revert E.
    unfold Rabs; repeat destruct (Rcase_abs _); lra.
  - change (Answer (Ok (lda_predict {| lda_w := [- (5 / 2)]; lda_mu0 := [20]; lda_mu1 := [0] |} [0])) = Answer (Ok 1%Z)).
    unfold lda_predict, dot, rsum; cbn; destruct (Rltb _ _) eqn:E; [ reflexivity |]; apply Rltb_false in E; exfalso; revert E.
    unfold Rabs; repeat destruct (Rcase_abs _); lra.
Qed.

Lemma nb_loses : forall num rnd, let i0 := set_fields (fresh (@NaiveBayesClassifier Z)) (compile_naive_bayes false) in
  let f1 := nb_fit_effect ZOrder num (fun _ => false) (unique ZOrder) [[1; 1; 2]%Z] [0; 0; 1]%Z i0 in
  let i1 := after_fit f1 i0 in
  let f2 := nb_fit_effect ZOrder num (fun _ => false) (unique ZOrder) [[5; 5]%Z] [1; 1]%Z i1 in
  raised f1 = None /\ raised f2 = Some IndexError /\
  predict_naive_bayes ZOrder num rnd i1 [1%Z] = Answer (Ok 0%Z) /\ predict_naive_bayes ZOrder num rnd (after_fit f2 i1) [1%Z] = Answer (Ok 1%Z).
Proof.
  intros num rnd i0 f1 i1 f2.
  assert (P0 : forall n d, (0 < n)%nat -> (0 < d)%nat -> elog (Some (INR n / INR d)) = Fin (ln (INR n / INR d))).
  { intros n d Hn Hd; unfold elog; rewrite (proj2 (Rltb_true _ _)); [ reflexivity |]; apply Rdiv_lt_0_compat; now apply lt_0_INR. }
  assert (Z0 : forall d, elog (Some (INR 0 / INR d)) = NegInf).
  { intros d; unfold elog, Rdiv; change (INR 0) with 0; rewrite Rmult_0_l; rewrite (proj2 (Rltb_false _ _)) by lra; now rewrite (proj2 (Reqb_true _ _)). }
  split; [ reflexivity |]; split; [ reflexivity |]; split.
  - change (predict_naive_bayes ZOrder num rnd i1 [1%Z]) with
      (Answer (nb_predict ZOrder num rnd {| nb_p0 := INR 2 / INR 3; nb_p1 := 1 - INR 2 / INR 3;
         nb_pi := [NBDisc [(1%Z, 2%nat); (2%Z, 0%nat)] [(1%Z, 0%nat); (2%Z, 1%nat)] 2 1 2]; nb_smoothing := false |} [1%Z])).
    unfold nb_predict, nb_scores; unfold enumerate, get_at; cbn [nb_pi List.length seq combine foldM nth_error bind fst snd nb_smoothing nb_term nb_p0 nb_p1].
    rewrite P0 by lia.
    change (dict_lookup ZOrder [(1%Z, 2%nat); (2%Z, 0%nat)] 1%Z) with (@Ok nat 2%nat);
    change (dict_lookup ZOrder [(1%Z, 0%nat); (2%Z, 1%nat)] 1%Z) with (@Ok nat 0%nat); cbn [bind fst snd].
    change (get_conditional_probability 2 2 2 false) with (Some (INR 2 / INR 2)); change (get_conditional_probability 0 1 2 false) with (Some (INR 0 / INR 1)).
    rewrite P0, Z0 by lia; unfold nb_label; cbn [eadd fst snd].
    replace (eadd (elog (Some (1 - INR 2 / INR 3))) NegInf) with NegInf; [ reflexivity |].
    unfold elog; rewrite (proj2 (Rltb_true _ _)); [ reflexivity | cbn; lra ].
  - change (predict_naive_bayes ZOrder num rnd (after_fit f2 i1) [1%Z]) with
      (Answer (nb_predict ZOrder num rnd {| nb_p0 := INR 0 / INR 2; nb_p1 := 1 - INR 0 / INR 2;
         nb_pi := [NBDisc [(1%Z, 2%nat); (2%Z, 0%nat)] [(1%Z, 0%nat); (2%Z, 1%nat)] 2 1 2]; nb_smoothing := false |} [1%Z])).
    unfold nb_predict, nb_scores; unfold enumerate, get_at; cbn [nb_pi List.length seq combine foldM nth_error bind fst snd nb_smoothing nb_term nb_p0 nb_p1].
    change (dict_lookup ZOrder [(1%Z, 2%nat); (2%Z, 0%nat)] 1%Z) with (@Ok nat 2%nat);
    change (dict_lookup ZOrder [(1%Z, 0%nat); (2%Z, 1%nat)] 1%Z) with (@Ok nat 0%nat); cbn [bind fst snd].
    change (get_conditional_probability 2 2 2 false) with (Some (INR 2 / INR 2)); change (get_conditional_probability 0 1 2 false) with (Some (INR 0 / INR 1)).
    rewrite !Z0, P0 by lia; reflexivity.
Qed.

Lemma km_loses : forall A randint n, let i0 := set_fields (fresh (@KMeansModel A)) (compile_kmeans (VNats [0; 1; 2]%nat) (1/4)) in
  let f1 := km_fit_effect randint 1 [[0]; [1]; [4]] 3 (S n) i0 in
  let i1 := after_fit f1 i0 in
  let f2 := km_fit_effect randint 1 [[0]; [0]; [4]] 3 (S n) i1 in
  raised f1 = None /\ raised f2 = Some ValueError /\
  predict_kmeans i1 [[1]] = Answer (Ok [1%nat]) /\ predict_kmeans (after_fit f2 i1) [[1]] = Answer (Ok [0%nat]).
Proof.
  intros A randint n i0 f1 i1 f2.
  assert (I : forall x a b c, x = [[a]; [b]; [c]] -> init_centroids randint 1 x 3 (init_of (A := A) (VNats [0; 1; 2]%nat)) = Ok [[a]; [b]; [c]]).
  { intros x a b c ->; destruct (init_indices randint 1 [[a]; [b]; [c]] 3 [0; 1; 2]%nat) as (l & H & F); auto; [ repeat constructor |].
    transitivity (Ok l); [ exact H |]; f_equal.
    inversion F as [| ? ? ? ? A1 F1]; subst; inversion F1 as [| ? ? ? ? A2 F2]; subst; inversion F2 as [| ? ? ? ? A3 F3]; subst; inversion F3; subst.
    simpl in *; congruence. }
  assert (L1 : get_cluster (calculate_euclidean_distance [[0]; [1]; [4]] (map Some [[0]; [1]; [4]])) = Ok [0; 1; 2]%nat).
  { apply (predict_eq [[0]; [1]; [4]]); [ discriminate |]; repeat (apply Forall2_nil || apply Forall2_cons); near. }
  assert (L2 : get_cluster (calculate_euclidean_distance [[0]; [0]; [4]] (map Some [[0]; [0]; [4]])) = Ok [0; 0; 2]%nat).
  { apply (predict_eq [[0]; [0]; [4]]); [ discriminate |]; repeat (apply Forall2_nil || apply Forall2_cons); near. }
  assert (C1 : calculate_centroids 1 [[0]; [1]; [4]] [0; 1; 2]%nat = map Some [[0]; [1]; [4]]).
  { unfold calculate_centroids; simpl; unfold mean_rows, members, column, rmean; simpl; repeat first [ lra | f_equal ]. }
  assert (D1 : compare_differences_any (map Some [[0]; [1]; [4]]) (map Some [[0]; [1]; [4]]) (1/4) = Ok false).
  { unfold compare_differences_any; simpl; unfold Rminus; rewrite !Rplus_opp_r, Rabs_R0, (proj2 (Rltb_false _ _)) by lra; reflexivity. }
  assert (E1 : f1 = finished [("centroids", VCentroids (map Some [[0]; [1]; [4]])); ("clusters", VNats [0; 1; 2]%nat)]).
  { unfold f1, km_fit_effect; change (field i0 "init") with (@VNats A [0; 1; 2]%nat); change (num_or 0 (field i0 "tol")) with (1/4).
    rewrite (I _ _ _ _ eq_refl); cbn [km_until]; rewrite L1, C1, D1; reflexivity. }
  assert (E2 : f2 = stopped [("centroids", VCentroids (map Some [[0]; [0]; [4]])); ("clusters", VNats [0; 0; 2]%nat)] ValueError).
  { unfold f2, km_fit_effect; unfold i1; rewrite E1; clear f1 i1 f2 E1.
    change (field (after_fit _ i0) "init") with (@VNats A [0; 1; 2]%nat); change (num_or 0 (field (after_fit _ i0) "tol")) with (1/4).
    rewrite (I _ _ _ _ eq_refl); cbn [km_until]; rewrite L2; reflexivity. }
  rewrite E2; unfold i1; rewrite E1; split; [ reflexivity |]; split; [ reflexivity |]; split.
  - change (Answer (km_predict (map Some [[0]; [1]; [4]]) [[1]]) = Answer (Ok [1%nat])); f_equal.
    apply predict_eq; [ discriminate |]; repeat (apply Forall2_nil || apply Forall2_cons); near.
  - change (Answer (km_predict (map Some [[0]; [0]; [4]]) [[1]]) = Answer (Ok [0%nat])); f_equal.
    apply predict_eq; [ discriminate |]; repeat (apply Forall2_nil || apply Forall2_cons); near.
Qed.
