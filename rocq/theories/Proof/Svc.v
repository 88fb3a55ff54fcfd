(** Proofs for C88 and C89. *)
From Coq Require Import List ZArith Reals Bool Arith Lra Lia Permutation String.
From Verif.Model Require Import Base Ops Kernels Smo Training Life Svc.
From Verif.Spec Require Import Common Smo Svc.
From Verif.Proof Require Import BaseLemmas Smo Kernels Preprocessing Benchmark SmoSymmetry.
Import ListNotations.
Local Open Scope R_scope.
Local Notation length := List.length.

(** * C88 *)
Lemma resolve_spec d x g c : coefficient_for d x g c -> resolve_gamma d x g = Ok (Coefficient c).
Proof.
  intros H. destruct H as [H|v H N V Z|c]; cbn.
  - destruct (Nat.eqb_spec d 0); [lia|]. do 2 f_equal. unfold Rdiv. ring.
  - apply variance_of_unique in V; auto. subst v.
    assert (0 < INR d) by (apply lt_0_INR; lia).
    unfold Reqb. destruct (Req_EM_T _ 0) as [e|e].
    + apply Rmult_integral in e. destruct e; [lra|contradiction].
    + do 2 f_equal. unfold Rdiv. ring.
  - reflexivity.
Qed.

Lemma named_spec c s K : named_kernel c s K ->
  exists k, get_kernel (ByName s) (Some c) = Ok k /\ kernel_fun (kind k) = Ok K.
Proof. intros []; eexists; split; reflexivity. Qed.

Lemma first_fit d x y perms fuel epochs C s g tol o c K :
  coefficient_for d x g c -> named_kernel c s K ->
  let '(o', r) := fit d x y perms fuel epochs (compile C (ByName s) g tol o) in
  the_gamma o' = Coefficient c /\
  match svc_fit K x y C tol perms fuel epochs with
  | Ok m => r = None /\ model o' = Some m /\ forall q, predict o' q = Ok (svc_predict K m q)
  | Err e => r = Some e /\ model o' = model o /\ trained o' = trained o
  end.
Proof.
  intros Hc Hk. apply resolve_spec in Hc. destruct (named_spec _ _ _ Hk) as (k & E & F).
  unfold fit. cbn [compile the_C the_kernel the_gamma the_tol model trained]. rewrite Hc. cbn [coefficient].
  rewrite E, F. cbn [bind]. destruct (svc_fit K x y C tol perms fuel epochs) as [m|e]; cbn; repeat split; auto.
  intros q. unfold predict. cbn. rewrite F. reflexivity.
Qed.

Lemma coefficient_positive d x g c : coefficient_for d x g c -> (forall r, g <> Coefficient r) -> 0 < c.
Proof.
  intros H N. destruct H as [H|v H E V Z|c].
  - apply Rinv_0_lt_compat, lt_0_INR. lia.
  - apply variance_of_unique in V; auto. subst v. apply Rinv_0_lt_compat, Rmult_lt_0_compat; [apply lt_0_INR; lia|].
    pose proof (rvar_nn (List.concat x)). lra.
  - exfalso. apply (N c). reflexivity.
Qed.

Lemma no_coefficient d x y perms fuel epochs C k tol o :
  (d = 0%nat -> fit d x y perms fuel epochs (compile C k Auto tol o) = (compile C k Auto tol o, Some ZeroDivisionError)) /\
  (List.concat x <> [] -> (forall a b, In a (List.concat x) -> In b (List.concat x) -> a = b) ->
   fit d x y perms fuel epochs (compile C k Scale tol o) = (compile C k Scale tol o, Some NotANumber)).
Proof.
  split.
  - intros ->. reflexivity.
  - intros N H. apply (rvar_zero_constant _ N) in H. unfold fit. cbn [compile the_gamma resolve_gamma].
    unfold Reqb. destruct (Req_EM_T _ 0) as [e|e]; [reflexivity|]. exfalso. apply e. rewrite H. ring.
Qed.

Lemma resolve_number d x g g' : resolve_gamma d x g = Ok g' -> resolve_gamma d x g' = Ok g' /\ forall d' x', resolve_gamma d' x' g' = Ok g'.
Proof.
  destruct g; cbn; intros E; try (inversion E; subst; split; reflexivity).
  - destruct (d =? 0)%nat; inversion E; subst; split; reflexivity.
  - destruct (Reqb _ 0); inversion E; subst; split; reflexivity.
Qed.

Lemma fit_done d x y perms fuel epochs o o1 :
  fit d x y perms fuel epochs o = (o1, None) ->
  exists k K g m, the_kernel o1 = Instance k /\ kernel_fun (kind k) = Ok K /\ the_gamma o1 = g /\
    (forall d' x', resolve_gamma d' x' g = Ok g) /\ model o1 = Some m /\ trained o1 = true /\
    the_C o1 = the_C o /\ the_tol o1 = the_tol o /\ svc_fit K x y (the_C o) (the_tol o) perms fuel epochs = Ok m.
Proof.
  unfold fit. destruct (resolve_gamma d x (the_gamma o)) as [g|] eqn:R; [|discriminate].
  cbn [the_kernel]. destruct (get_kernel (the_kernel o) (coefficient g)) as [k|]; [|discriminate].
  destruct (kernel_fun (kind k)) as [K|] eqn:F; [|discriminate]. cbn [bind].
  destruct (svc_fit K x y _ _ perms fuel epochs) as [m|] eqn:E; [|discriminate].
  intros X; inversion X; subst. cbn. exists k, K, g, m. repeat split; auto. intros d' x'. eapply resolve_number; eassumption.
Qed.

Lemma refit d x y perms fuel epochs o o1 : fit d x y perms fuel epochs o = (o1, None) ->
  exists k K, the_kernel o1 = Instance k /\ kernel_fun (kind k) = Ok K /\
  forall d' x' y' perms' fuel' epochs',
    let '(o2, r) := fit d' x' y' perms' fuel' epochs' o1 in
    the_gamma o2 = the_gamma o1 /\ the_kernel o2 = the_kernel o1 /\
    match svc_fit K x' y' (the_C o) (the_tol o) perms' fuel' epochs' with
    | Ok m => r = None /\ model o2 = Some m /\ forall q, predict o2 q = Ok (svc_predict K m q)
    | Err e => r = Some e /\ o2 = o1
    end.
Proof.
  intros E. destruct (fit_done _ _ _ _ _ _ _ _ E) as (k & K & g & m & Ek & F & Eg & RG & Em & Et & Ec & El & _).
  exists k, K. split; [exact Ek|]. split; [exact F|]. intros d' x' y' perms' fuel' epochs'.
  unfold fit. rewrite Eg, RG. cbn [the_kernel]. rewrite Ek. cbn [get_kernel]. rewrite F. cbn [bind]. rewrite Ec, El.
  destruct (svc_fit K x' y' (the_C o) (the_tol o) perms' fuel' epochs') as [m'|e]; cbn; repeat split; auto.
  - intros q. unfold predict. cbn. rewrite F. reflexivity.
  - destruct o1; cbn in *. congruence.
Qed.

(** Any number of fits, with any data. *)
Lemma refits d x y perms fuel epochs o o1 o2 : fit d x y perms fuel epochs o = (o1, None) -> refitted o1 o2 ->
  the_gamma o2 = the_gamma o1 /\ the_kernel o2 = the_kernel o1.
Proof.
  intros E H. destruct (fit_done _ _ _ _ _ _ _ _ E) as (k & K & g & m & Ek & F & Eg & RG & Em & Et & Ec & El & _).
  induction H as [|o2 d' x' y' perms' fuel' epochs' H (G2 & K2)]; [split; reflexivity|].
  unfold fit. rewrite G2, Eg, RG. cbn [the_kernel]. rewrite K2, Ek. cbn [get_kernel].
  destruct (bind _ _); split; reflexivity.
Qed.

Lemma fit_instance d x y perms fuel epochs C k K g tol o c :
  coefficient_for d x g c -> kernel_fun (kind k) = Ok K ->
  let '(o', r) := fit d x y perms fuel epochs (compile C (Instance k) g tol o) in
  the_gamma o' = Coefficient c /\ the_kernel o' = Instance k /\
  match svc_fit K x y C tol perms fuel epochs with
  | Ok m => r = None /\ model o' = Some m /\ forall q, predict o' q = Ok (svc_predict K m q)
  | Err e => r = Some e /\ model o' = model o /\ trained o' = trained o
  end.
Proof.
  intros Hc F. apply resolve_spec in Hc.
  unfold fit. cbn [compile the_C the_kernel the_gamma the_tol model trained get_kernel]. rewrite Hc. cbn [coefficient].
  rewrite F. cbn [bind]. destruct (svc_fit K x y C tol perms fuel epochs) as [m|e]; cbn; repeat split; auto.
  intros q. unfold predict. cbn. rewrite F. reflexivity.
Qed.

Lemma fit_unknown d x y perms fuel epochs C s g tol o c :
  coefficient_for d x g c -> (forall K, ~ named_kernel c s K) ->
  fit d x y perms fuel epochs (compile C (ByName s) g tol o) = (compile C (ByName s) (Coefficient c) tol o, Some AttributeError).
Proof.
  intros Hc N. apply resolve_spec in Hc. unfold fit. cbn [compile the_C the_kernel the_gamma the_tol model trained]. rewrite Hc.
  cbn [get_kernel].
  repeat match goal with |- context [(s =? ?t)%string] =>
    let e := fresh in destruct (String.eqb_spec s t) as [e|e];
      [exfalso; subst s; eapply N; constructor|] end.
  reflexivity.
Qed.

Lemma fit_new d x y perms fuel epochs : fit d x y perms fuel epochs new_classifier = (new_classifier, Some AttributeError).
Proof. reflexivity. Qed.

Lemma fit_text d x y perms fuel epochs C s tol o : In s ["rbf"; "gaussian"; "poly"; "sigmoid"]%string ->
  let '(o', r) := fit d x y perms fuel epochs (compile C (ByName s) OtherText tol o) in
  r = Some TypeError /\ model o' = model o /\ trained o' = trained o /\ (exists k, the_kernel o' = Instance k) /\
  forall d' x' y' perms' fuel' epochs', fit d' x' y' perms' fuel' epochs' o' = (o', Some TypeError).
Proof. intros [<-|[<-|[<-|[<-|[]]]]]; cbn; repeat split; eauto. Qed.

Lemma fit_text_linear d x y perms fuel epochs C g tol o m : 
  g <> Auto -> g <> Scale ->
  svc_fit linear x y C tol perms fuel epochs = Ok m ->
  let '(o', r) := fit d x y perms fuel epochs (compile C (ByName "linear") g tol o) in
  r = None /\ model o' = Some m /\ the_gamma o' = g.
Proof.
  intros A B E. unfold fit. cbn [compile the_C the_kernel the_gamma the_tol model trained].
  destruct g; try congruence; cbn; rewrite E; cbn; repeat split.
Qed.

Lemma refit_differs : exists C tol x1 x2 y o1 o2 o3,
  (forall perms fuel, (1 < fuel)%nat -> fit 1 x1 y perms fuel 0 (compile C (ByName "rbf") Auto tol new_classifier) = (o1, None)) /\
  (forall perms fuel, (1 < fuel)%nat -> fit 2 x2 y perms fuel 0 o1 = (o2, None)) /\
  (forall perms fuel, (1 < fuel)%nat -> fit 2 x2 y perms fuel 0 (compile C (ByName "rbf") Auto tol new_classifier) = (o3, None)) /\
  the_gamma o2 = Coefficient 1 /\ the_gamma o3 = Coefficient (/ 2).
Proof.
  exists 1, 0, [[0]; [1]], [[0; 0]; [0; 1]], [1; -1].
  assert (E : forall K x y perms fuel, (1 < fuel)%nat -> svc_fit K x y 1 0 perms fuel 0 = Ok (svc_of x y (smo_init x))).
  { intros K x y perms [|fuel] H; [lia|]. reflexivity. }
  unfold fit. cbn [compile the_C the_kernel the_gamma the_tol model trained resolve_gamma Nat.eqb coefficient].
  change (get_kernel (ByName "rbf") (Some (1 / INR 1))) with (Ok (comp (KRbf (Some (1 / INR 1))) "rbf"%string)).
  change (get_kernel (ByName "rbf") (Some (1 / INR 2))) with (Ok (comp (KRbf (Some (1 / INR 2))) "rbf"%string)).
  cbn [kind comp kernel_fun bind].
  do 3 eexists. split; [intros perms fuel H; rewrite E by exact H; reflexivity|].
  cbn [compile the_C the_kernel the_gamma the_tol model trained resolve_gamma Nat.eqb coefficient get_kernel kind comp kernel_fun bind].
  split; [intros perms fuel H; rewrite E by exact H; reflexivity|].
  split; [intros perms fuel H; rewrite E by exact H; reflexivity|].
  cbn [the_gamma]. split; f_equal; cbn; lra.
Qed.

Lemma predict_states o C k g tol q : (trained o = false -> predict o q = Err ValueError) /\
  (trained o = true -> (forall i, k <> Instance i) -> predict (compile C k g tol o) q = Err TypeError).
Proof.
  unfold predict, compile. cbn. split; intros E; rewrite E; cbn; auto. intros H. destruct k; auto. exfalso. eapply H; eauto.
Qed.
