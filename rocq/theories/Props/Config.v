(** C80: what the environment variables select. *)
From Coq Require Import List String Bool.
From Verif.Model Require Import Base Config.
From Verif.Proof Require Import BaseLemmas Config.
Import ListNotations.
Local Open Scope string_scope.

(** The import succeeds in every environment; unset variables are the Python
    engine and 32 bits. *)
Theorem C80_defaults env : exists lib, import_classicML env = Ok lib /\
  announced lib = match env_get env "CLASSICML_ENGINE" with Some e => e | None => "Python" end.
Proof.
  unfold import_classicML, set_precision. rewrite defaults_engine, defaults_precision.
  destruct (env_get env "CLASSICML_ENGINE"), (env_get env "CLASSICML_PRECISION"); cbn [bind]; eexists; split; reflexivity.
Qed.
Print Assumptions C80_defaults.

(** 64 bits are used exactly when the variable is the text 64-bit; every other
    text means 32 bits, with a warning unless it is 32-bit. *)
Theorem C80_precision env lib : import_classicML env = Ok lib ->
  float_bits (prec lib) = int_bits (prec lib) /\
  (float_bits (prec lib) = 64 \/ float_bits (prec lib) = 32) /\
  (float_bits (prec lib) = 64 <-> env_get env "CLASSICML_PRECISION" = Some "64-bit") /\
  (warned (prec lib) = true <-> exists p, env_get env "CLASSICML_PRECISION" = Some p /\ p <> "32-bit" /\ p <> "64-bit").
Proof.
  unfold import_classicML, set_precision. rewrite defaults_engine, defaults_precision.
  set (e := match env_get env "CLASSICML_ENGINE" with Some e => Some e | None => Some "Python" end).
  assert (exists x, e = Some x) as [x ->] by (unfold e; destruct (env_get env "CLASSICML_ENGINE"); eauto).
  destruct (env_get env "CLASSICML_PRECISION") as [p|]; cbn [bind]; intros H; injection H as <-; cbn [prec].
  - destruct (p =? "32-bit") eqn:A; [apply String.eqb_eq in A; subst p|].
    + cbn. split; [reflexivity|]. split; [tauto|]. split; [split; discriminate|].
      split; [discriminate|]. intros (p & E & F & G). congruence.
    + apply String.eqb_neq in A. destruct (p =? "64-bit") eqn:B; [apply String.eqb_eq in B; subst p|apply String.eqb_neq in B].
      * cbn. split; [reflexivity|]. split; [tauto|]. split; [tauto|].
        split; [discriminate|]. intros (p & E & F & G). congruence.
      * cbn. split; [reflexivity|]. split; [tauto|]. split; [split; [discriminate|congruence]|].
        split; [|reflexivity]. intros _. exists p. auto.
  - cbn. split; [reflexivity|]. split; [tauto|]. split; [split; discriminate|].
    split; [discriminate|]. intros (p & E & _). discriminate.
Qed.
Print Assumptions C80_precision.

(** Unless the engine is exactly the text CC, everything is the Python version,
    whatever engine the first message announces. *)
Theorem C80_python env lib n o : import_classicML env = Ok lib -> env_get env "CLASSICML_ENGINE" <> Some "CC" ->
  backend lib n = Some o -> exists s, o = Py s.
Proof.
  unfold import_classicML. rewrite defaults_engine. intros H E.
  assert (X : forall e, e <> "CC" -> bound (exports e) n = Some o -> exists s, o = Py s).
  { intros e He. unfold exports. apply String.eqb_neq in He. rewrite He. intros B.
    pose proof (all_bound (fun _ o => is_py o) _ n o B eq_refl) as P. destruct o; [eauto|discriminate]. }
  assert (Y : exists e, e <> "CC" /\ match env_get env "CLASSICML_ENGINE" with Some e => Some e | None => Some "Python" end = Some e)
    by (destruct (env_get env "CLASSICML_ENGINE"); eexists; (split; [|reflexivity]); congruence).
  destruct Y as (e & He & Y). rewrite Y in H.
  destruct (set_precision (with_defaults env)); [|discriminate]. injection H as <-. apply X. exact He.
Qed.
Print Assumptions C80_python.

(** With the text CC these names are still the Python version, and no others. *)
Definition python_only : list string :=
  ["data"; "optimizers"; "tree"; "calculate_covariances"; "calculate_mixture_coefficient";
   "get_gaussian_mixture_distribution_posterior_probability"; "get_gaussian_mixture_distribution_probability_density";
   "get_normal_distribution_probability_density"; "init_covariances"; "init_mixture_coefficient"].
Theorem C80_cpp env lib n o : import_classicML env = Ok lib -> env_get env "CLASSICML_ENGINE" = Some "CC" ->
  backend lib n = Some o ->
  ((exists s, o = Py s) <-> In n python_only \/ In n (map (append "cc_") python_only)).
Proof.
  unfold import_classicML. rewrite defaults_engine. intros H E. rewrite E in H.
  destruct (set_precision (with_defaults env)); [|discriminate]. injection H as <-.
  change (bound (exports "CC") n = Some o -> ((exists s, o = Py s) <-> In n python_only \/ In n (map (append "cc_") python_only))).
  intros B.
  pose proof (all_bound (fun n o => Bool.eqb (is_py o)
    (existsb (String.eqb n) (python_only ++ map (append "cc_") python_only)%list)) _ n o B eq_refl) as P.
  apply eqb_prop in P.
  assert (Q : existsb (String.eqb n) (python_only ++ map (append "cc_") python_only)%list = true <->
    In n python_only \/ In n (map (append "cc_") python_only)).
  { rewrite existsb_exists, <- in_app_iff. split.
    - intros (x & I & F). apply String.eqb_eq in F. now subst.
    - intros I. exists n. split; [exact I|apply String.eqb_refl]. }
  rewrite <- Q, <- P. destruct o; cbn; split; try discriminate; eauto. intros (s & F). discriminate.
Qed.
Print Assumptions C80_cpp.

(** A name that both engines bind stands for the function of the same name in
    both; for [type_of_target] it is the second C++ version. *)
Theorem C80_same_function n o o' : bound (exports "Python") n = Some o -> bound (exports "CC") n = Some o' ->
  source o' = source o \/ source o' = "cc_" ++ source o \/ (n = "type_of_target" /\ source o' = "cc_type_of_target_v2").
Proof.
  intros A B.
  pose proof (all_bound (fun n o => match bound (exports "CC") n with
    | Some o' => (source o' =? source o) || (source o' =? "cc_" ++ source o) ||
      ((n =? "type_of_target") && (source o' =? "cc_type_of_target_v2")) | None => true end) _ n o A eq_refl) as P.
  cbn beta in P. rewrite B in P. rewrite !orb_true_iff, andb_true_iff, !String.eqb_eq in P. tauto.
Qed.
Print Assumptions C80_same_function.

(** Two names are missing with the C++ engine; the additional names begin with
    cc_ or are version texts. *)
Theorem C80_names n :
  (bound (exports "Python") n <> None -> bound (exports "CC") n = None -> n = "get_w_v1" \/ n = "get_w_v2") /\
  (bound (exports "CC") n <> None -> bound (exports "Python") n = None ->
     prefix "cc_" n = true \/ exists m, n = m ++ "__version__").
Proof.
  split; intros A B.
  - destruct (bound (exports "Python") n) as [o|] eqn:E; [|congruence].
    pose proof (all_bound (fun n o => match bound (exports "CC") n with
      | Some _ => true | None => (n =? "get_w_v1") || (n =? "get_w_v2") end) _ n o E eq_refl) as P.
    cbn beta in P. rewrite B in P. apply orb_true_iff in P as [P|P]; apply String.eqb_eq in P; auto.
  - destruct (bound (exports "CC") n) as [o|] eqn:E; [|congruence].
    pose proof (all_bound (fun n o => match bound (exports "Python") n with
      | Some _ => true | None => prefix "cc_" n ||
          existsb (fun m => n =? m ++ "__version__") ["activations"; "callbacks"; "initializers"; "kernels"; "losses"; "metrics"; "ops"] end) _ n o E eq_refl) as P.
    cbn beta in P. rewrite B in P. apply orb_true_iff in P as [P|P]; [auto|].
    apply existsb_exists in P as (m & _ & F). apply String.eqb_eq in F. eauto.
Qed.
Print Assumptions C80_names.

(** The two missing names are really missing. *)
Example C80_ex_missing : bound (exports "CC") "get_w_v1" = None /\ bound (exports "CC") "get_w_v2" = None /\
  bound (exports "Python") "get_w_v1" = Some (Py "get_w").
Proof. repeat split. Qed.
(** The engine is announced as cc but is the Python one. *)
Example C80_ex_lower_case : exists lib, import_classicML [("CLASSICML_ENGINE", "cc"); ("CLASSICML_PRECISION", "64")] = Ok lib /\
  announced lib = "cc" /\ backend lib "get_w" = Some (Py "get_w_v2") /\ float_bits (prec lib) = 32 /\ warned (prec lib) = true.
Proof. eexists. split; [reflexivity|]. repeat split. Qed.
Example C80_ex_cpp : exists lib, import_classicML [("CLASSICML_ENGINE", "CC"); ("CLASSICML_PRECISION", "64-bit")] = Ok lib /\
  backend lib "get_w" = Some (Cpp "cc_get_w_v2") /\ backend lib "tree" = Some (Py "tree") /\ float_bits (prec lib) = 64.
Proof. eexists. split; [reflexivity|]. repeat split. Qed.
