(** C117: an optimizer that is meant for another model. *)
From Coq Require Import List String Reals ZArith Bool Arith Lia.
From Verif.Model Require Import Base Ops Logistic Network Rbf Training Misfit Store Life Fit.
From Verif.Model Require Process.
From Verif.Spec Require Import Store Fit Misfit.
From Verif.Proof Require Import StoreNet Fit.
Import ListNotations.
Local Open Scope string_scope.
Local Notation length := List.length.

Section Misfit.
Context {A : Type}.
Notation obj := (@obj A).

(** [compile] takes every optimizer for every model. *)
Theorem C117_compile_accepts : forall o l m mc, get_metric m = Ok (Some mc) ->
  exists a, @compile_trainer A (Instance o) l m = Ok a /\ forall i : obj, field (set_fields i a) "optimizer" = VOptimizer o.
Proof. intros o l m mc Hm. unfold compile_trainer. cbn [get_optimizer bind]. rewrite Hm. eexists. split; reflexivity. Qed.

(** ** Training for at least one epoch *)
(** It raises; the object has fresh parameters and is marked as it was. *)
Theorem C117_network : forall init draws x y (i : obj) o, field i "optimizer" = VOptimizer o -> ~ for_network (kind o) ->
  is_loaded i = false -> draws <> [] ->
  let e := network_fit_effect init draws x y i in
  raised e = Some (dict_error false (kind o)) /\ is_trained (after_fit e i) = is_trained i /\ field (after_fit e i) "parameters" = VDict (entries 1 init).
Proof.
  intros init draws x y i o Ho N Hl Hd e.
  assert (E : e = stopped [("parameters", VDict (entries 1 init))] (dict_error false (kind o))).
  { unfold e, network_fit_effect. rewrite Ho, Hl, entries_network. fold (@network_dict A init). rewrite layers_of_network. cbn [bind].
    destruct (kind o); cbn in N; try tauto; destruct draws; try congruence; reflexivity. }
  rewrite E. cbn. rewrite orb_false_r. auto.
Qed.
Theorem C117_radial : forall init x y epochs (i : obj) o, field i "optimizer" = VOptimizer o -> ~ for_radial (kind o) ->
  is_loaded i = false -> epochs <> 0%nat -> x <> [] ->
  let e := rbf_fit_effect init x y epochs i in
  raised e = Some (dict_error false (kind o)) /\ is_trained (after_fit e i) = is_trained i /\ field (after_fit e i) "parameters" = VDict (rbf_entries init).
Proof.
  intros init x y epochs i o Ho N Hl He Hx e.
  assert (E : e = stopped [("parameters", VDict (rbf_entries init))] (dict_error false (kind o))).
  { unfold e, rbf_fit_effect. rewrite Ho, Hl. unfold rbf_params_of. cbn [rbf_entries lookup String.eqb Ascii.eqb Bool.eqb bind].
    destruct (kind o); cbn in N; try tauto; destruct epochs, x; try congruence; reflexivity. }
  rewrite E. cbn. rewrite orb_false_r. auto.
Qed.
Theorem C117_regression : forall init d x y epochs (i : obj) o, field i "optimizer" = VOptimizer o -> ~ for_regression (kind o) ->
  is_loaded i = false -> epochs <> 0%nat -> x <> [] ->
  let e := logistic_fit_effect init d x y epochs i in
  raised e = Some (array_error false (kind o)) /\ is_trained (after_fit e i) = is_trained i /\ field (after_fit e i) "beta" = VVec init.
Proof.
  intros init d x y epochs i o Ho N Hl He Hx e.
  assert (E : e = stopped [("beta", VVec init)] (array_error false (kind o))).
  { unfold e, logistic_fit_effect. rewrite Hl, Ho. unfold Process.train_regression.
    destruct (kind o); cbn in N; try tauto; destruct epochs, x; try congruence; cbn; try reflexivity. destruct (length init) as [|[|]]; reflexivity. }
  rewrite E. cbn. rewrite orb_false_r. auto.
Qed.

(** ** Prediction *)
(** A trained or loaded model whose optimizer is then replaced by [compile] cannot
    predict. *)
Theorem C117_network_predict : forall (i : obj) o p x, field i "optimizer" = VOptimizer o -> ~ for_network (kind o) ->
  field i "parameters" = VDict p -> is_trained i = true \/ is_loaded i = true -> predict_network i x = Answer (Err (dict_error true (kind o))).
Proof.
  intros i o p x Ho N Hp R. unfold predict_network, guarded. replace (negb (is_trained i) && negb (is_loaded i)) with false by (destruct R as [-> | ->]; cbn; now rewrite ?andb_false_r).
  rewrite Ho, Hp. destruct (kind o); cbn in N; try tauto; reflexivity.
Qed.
Theorem C117_radial_predict : forall (i : obj) o p x, field i "optimizer" = VOptimizer o -> ~ for_radial (kind o) ->
  field i "parameters" = VDict p -> is_trained i = true \/ is_loaded i = true -> predict_rbf i x = Answer (Err (dict_error true (kind o))).
Proof.
  intros i o p x Ho N Hp R. unfold predict_rbf, guarded. replace (negb (is_trained i) && negb (is_loaded i)) with false by (destruct R as [-> | ->]; cbn; now rewrite ?andb_false_r).
  rewrite Ho, Hp. destruct (kind o); cbn in N; try tauto; reflexivity.
Qed.
Theorem C117_regression_predict : forall (i : obj) o b x, field i "optimizer" = VOptimizer o -> ~ for_regression (kind o) ->
  field i "beta" = VVec b -> is_trained i = true \/ is_loaded i = true -> predict_logistic i x = Answer (Err (array_error true (kind o))).
Proof.
  intros i o b x Ho N Hp R. unfold predict_logistic, guarded. replace (negb (is_trained i) && negb (is_loaded i)) with false by (destruct R as [-> | ->]; cbn; now rewrite ?andb_false_r).
  rewrite Ho, Hp. destruct (kind o); cbn in N; try tauto; reflexivity.
Qed.

(** ** No epochs *)
(** Training for no epochs returns and marks the model as trained although it can
    predict nothing; only SMO, and Adam where it can make no moments, still raise. *)
Theorem C117_network_no_epochs : forall init x y (i : obj) o, field i "optimizer" = VOptimizer o -> ~ for_network (kind o) -> kind o <> Smo ->
  is_loaded i = false ->
  let e := network_fit_effect init [] x y i in let j := after_fit e i in
  raised e = None /\ is_trained j = true /\ forall q, predict_network j q = Answer (Err (dict_error true (kind o))).
Proof.
  intros init x y i o Ho N Ns Hl e j.
  assert (E : exists p, e = finished [("parameters", VDict p)]).
  { unfold e, network_fit_effect. rewrite Ho, Hl, entries_network. fold (@network_dict A init). rewrite layers_of_network. cbn [bind].
    destruct (kind o); cbn in N; try tauto; cbn; eexists; reflexivity. }
  destruct E as (p & E). unfold j. rewrite E. split; [reflexivity|]. split; [cbn; apply orb_true_r|]. intros q.
  apply (C117_network_predict _ o p q); auto. left. cbn. apply orb_true_r.
Qed.
Theorem C117_radial_no_epochs : forall init x y (i : obj) o, field i "optimizer" = VOptimizer o -> ~ for_radial (kind o) -> is_loaded i = false ->
  let e := rbf_fit_effect init x y 0 i in let j := after_fit e i in
  match kind o with
  | Smo => raised e = Some TypeError /\ is_trained j = is_trained i
  | Adam _ _ _ _ => raised e = Some KeyError /\ is_trained j = is_trained i
  | _ => raised e = None /\ is_trained j = true /\ forall q, predict_rbf j q = Answer (Err (dict_error true (kind o)))
  end.
Proof.
  intros init x y i o Ho N Hl e j.
  assert (E : e = match kind o with Smo => stopped [("parameters", VDict (rbf_entries init))] TypeError | Adam _ _ _ _ => stopped [("parameters", VDict (rbf_entries init))] KeyError
    | _ => finished [("parameters", VDict (rbf_entries init))] end).
  { unfold e, rbf_fit_effect. rewrite Ho, Hl. unfold rbf_params_of. cbn [rbf_entries lookup String.eqb Ascii.eqb Bool.eqb bind].
    destruct (kind o); cbn in N; try tauto; destruct init; reflexivity. }
  assert (P : is_trained j = true -> forall q, predict_rbf j q = Answer (Err (dict_error true (kind o)))).
  { intros T q. apply (C117_radial_predict _ o (rbf_entries init) q); auto; unfold j; rewrite E; destruct (kind o); cbn; auto. }
  unfold j in *. rewrite E in *. destruct (kind o); cbn [for_radial] in N; try tauto; (split; [reflexivity|]); try (cbn; now rewrite orb_false_r); (split; [cbn; apply orb_true_r|]); apply P; cbn; apply orb_true_r.
Qed.
Theorem C117_regression_no_epochs : forall init d x y (i : obj) o, field i "optimizer" = VOptimizer o -> ~ for_regression (kind o) -> is_loaded i = false ->
  length init = S d -> (1 <= d)%nat ->
  let e := logistic_fit_effect init d x y 0 i in let j := after_fit e i in
  match kind o with
  | Smo => raised e = Some TypeError /\ is_trained j = is_trained i
  | Adam _ _ _ _ => raised e = Some IndexError /\ is_trained j = is_trained i
  | _ => raised e = None /\ is_trained j = true /\ forall q, predict_logistic j q = Answer (Err (array_error true (kind o)))
  end.
Proof.
  intros init d x y i o Ho N Hl L Hd e j.
  assert (E : e = match kind o with Smo => stopped [("beta", VVec init)] TypeError | Adam _ _ _ _ => stopped [("beta", VVec init)] IndexError | _ => finished [("beta", VVec init)] end).
  { unfold e, logistic_fit_effect. rewrite Hl, Ho. unfold Process.train_regression. destruct (kind o); cbn in N; try tauto; try reflexivity. unfold misfit_run. rewrite L. destruct d; [lia|reflexivity]. }
  assert (P : is_trained j = true -> forall q, predict_logistic j q = Answer (Err (array_error true (kind o)))).
  { intros T q. apply (C117_regression_predict _ o init q); auto; unfold j; rewrite E; destruct (kind o); cbn; auto. }
  unfold j in *. rewrite E in *. destruct (kind o); cbn [for_regression] in N; try tauto; (split; [reflexivity|]); try (cbn; now rewrite orb_false_r); (split; [cbn; apply orb_true_r|]); apply P; cbn; apply orb_true_r.
Qed.
(** ** Without rows *)
(** The optimizers that draw a row cannot. *)
Theorem C117_no_rows : forall (i : obj) o rate, field i "optimizer" = VOptimizer o -> kind o = Sgd rate -> is_loaded i = false ->
  forall epochs, epochs <> 0%nat ->
  (forall init d y, raised (logistic_fit_effect init d [] y epochs i) = Some ValueError) /\
  (forall init y, raised (rbf_fit_effect init [] y epochs i) = Some ValueError).
Proof.
  intros i o rate Ho Hk Hl epochs He. destruct epochs; [congruence|]. split.
  - intros init d y. unfold logistic_fit_effect. rewrite Hl, Ho. unfold Process.train_regression. rewrite Hk. reflexivity.
  - intros init y. unfold rbf_fit_effect. rewrite Hl, Ho. unfold rbf_params_of. cbn [rbf_entries lookup String.eqb Ascii.eqb Bool.eqb bind]. rewrite Hk. reflexivity.
Qed.
(** ** Without epochs the parameters stay *)
Theorem C117_no_epochs_keeps : forall (i : obj) o, field i "optimizer" = VOptimizer o -> is_loaded i = false ->
  (forall init x y, ~ for_network (kind o) -> field (after_fit (network_fit_effect init [] x y i) i) "parameters" = VDict (network_dict init)) /\
  (forall init x y, ~ for_radial (kind o) -> field (after_fit (rbf_fit_effect init x y 0 i) i) "parameters" = VDict (rbf_entries init)) /\
  (forall init d x y, ~ for_regression (kind o) -> field (after_fit (logistic_fit_effect init d x y 0 i) i) "beta" = VVec init).
Proof.
  intros i o Ho Hl. split; [|split].
  - intros init x y N. unfold network_fit_effect. rewrite Ho, Hl, entries_network. fold (@network_dict A init). rewrite layers_of_network. cbn [bind].
    destruct (kind o); cbn in N; try tauto; cbn [run_network misfit_run Nat.eqb List.length]; try reflexivity;
      unfold put_all; rewrite entries_network; fold (@network_dict A init); rewrite merge_network, skipn_all2, app_nil_r by auto; reflexivity.
  - intros init x y N. unfold rbf_fit_effect. rewrite Ho, Hl. unfold rbf_params_of. cbn [rbf_entries lookup String.eqb Ascii.eqb Bool.eqb bind].
    destruct (kind o); cbn in N; try tauto; destruct init; reflexivity.
  - intros init d x y N. unfold logistic_fit_effect. rewrite Hl, Ho. unfold Process.train_regression. destruct (kind o); cbn in N; try tauto; try reflexivity.
    unfold misfit_run. destruct (2 <=? length init)%nat; reflexivity.
Qed.
End Misfit.

(** ** Objects that share a generator *)
(** A loaded object is left as it is; in the first case the generator, too. *)
Theorem C117_loaded_network : forall G gauss integer d x y epochs (o : Process.network) f ls (g : G), Process.l_loaded o = true -> Process.l_parameters o = Some ls ->
  Process.l_optimizer o = Some f -> ~ for_network (kind f) -> epochs <> 0%nat ->
  Process.fit_network G gauss integer d x y epochs o g = (o, g, Some (dict_error false (kind f))).
Proof.
  intros G gauss integer d x y epochs o f ls g Hl Hp Hf N He. unfold Process.fit_network, Process.start_network. rewrite Hl, Hp, Hf. cbn [Process.with_optimizer].
  destruct o; cbn in *; subst. destruct epochs; [congruence|]. destruct (kind f); cbn in N; try tauto; reflexivity.
Qed.
Theorem C117_loaded_regression : forall G gauss d x y epochs (o : Process.regression) f b (g : G), Process.l_loaded o = true -> Process.l_parameters o = Some b ->
  Process.l_optimizer o = Some f -> ~ for_regression (kind f) -> epochs <> 0%nat -> x <> [] ->
  let r := Process.fit_regression G gauss d x y epochs o g in fst (fst r) = o /\ snd r = Some (array_error false (kind f)).
Proof.
  intros G gauss d x y epochs o f b g Hl Hp Hf N He Hx. unfold Process.fit_regression, Process.start_regression. rewrite Hl, Hp, Hf. cbn [Process.with_optimizer].
  destruct o; cbn in *; subst. destruct epochs; [congruence|]. destruct x; [congruence|]. destruct (kind f); cbn in N; try tauto; try (split; reflexivity). destruct b as [|? [|]]; split; reflexivity.
Qed.
Theorem C117_loaded_radial : forall G gauss uniform x y epochs (o : Process.radial) f q (g : G), Process.l_loaded o = true -> Process.l_parameters o = Some q ->
  Process.l_optimizer o = Some f -> ~ for_radial (kind f) -> epochs <> 0%nat -> x <> [] ->
  let r := Process.fit_radial G gauss uniform x y epochs o g in fst (fst r) = o /\ snd r = Some (dict_error false (kind f)).
Proof.
  intros G gauss uniform x y epochs o f q g Hl Hp Hf N He Hx. unfold Process.fit_radial, Process.start_radial. rewrite Hl, Hp, Hf. cbn [Process.with_optimizer].
  destruct o; cbn in *; subst. destruct epochs; [congruence|]. destruct x; [congruence|]. destruct (kind f); cbn in N; try tauto; split; reflexivity.
Qed.
Print Assumptions C117_no_rows.
Print Assumptions C117_no_epochs_keeps.
Print Assumptions C117_loaded_network.
Print Assumptions C117_loaded_regression.
Print Assumptions C117_loaded_radial.
Print Assumptions C117_compile_accepts.
Print Assumptions C117_network.
Print Assumptions C117_radial.
Print Assumptions C117_regression.
Print Assumptions C117_network_predict.
Print Assumptions C117_radial_predict.
Print Assumptions C117_regression_predict.
Print Assumptions C117_network_no_epochs.
Print Assumptions C117_radial_no_epochs.
Print Assumptions C117_regression_no_epochs.

(** ** A case: a new network compiled with the optimizer 'gd' *)
Example C117_example : exists a, @compile_trainer unit (ByName "gd") NoArg (ByName "accuracy") = Ok a /\
  let i := set_fields (fresh BackPropagationNeuralNetwork) a in
  exists o, field i "optimizer" = VOptimizer o /\ ~ for_network (kind o) /\ kind o <> Smo /\ is_loaded i = false.
Proof. eexists. split; [reflexivity|]. intros i. eexists. split; [reflexivity|]. cbn. repeat split; try discriminate; tauto. Qed.
Example C117_loaded_example : exists (o : Process.regression) f, Process.l_loaded o = true /\ Process.l_parameters o = Some [0; 1]%R /\
  Process.l_optimizer o = Some f /\ ~ for_regression (kind f).
Proof.
  exists {| Process.l_seed := None; Process.l_initializer := NoArg; Process.l_shape := None; Process.l_optimizer := Some (comp (Sgd 1) "sgd");
            Process.l_parameters := Some [0; 1]%R; Process.l_trained := false; Process.l_loaded := true |}.
  eexists. repeat split. cbn. tauto.
Qed.
