(** Training sees the samples only through the kernel, and treats the two labels
    alike. *)
From Coq Require Import List ZArith Reals Bool Arith Lra Lia Permutation.
From Verif.Model Require Import Base Ops Smo.
From Verif.Spec Require Import Common Smo.
From Verif.Proof Require Import BaseLemmas Smo.
Import ListNotations.
Local Open Scope R_scope.

Section Sym.
Variables K K' : list R -> list R -> R.
Variable f : list R -> list R.
Variable sg : R.
Variable x : list (list R).
Variable y : list R.
Variables C tol : R.
Variable perms : nat -> list nat.
Hypothesis Hsg : sg = 1 \/ sg = -1.
Hypothesis HK : forall i j, (i < length x)%nat -> (j < length x)%nat ->
  K' (f (nth i x [])) (f (nth j x [])) = K (nth i x []) (nth j x []).
Hypothesis Hp : permutations_of (length x) perms.
Let n := length x.
Let x' := map f x.
Let y' := map (Rmult sg) y.

Lemma sg_sq : sg * sg = 1. Proof. destruct Hsg; subst; lra. Qed.
Lemma n' : length x' = n. Proof. apply map_length. Qed.
Lemma nx i : (i < n)%nat -> nth i x' [] = f (nth i x []).
Proof. intros H. unfold x'. rewrite (nth_indep _ [] (f [])) by (rewrite map_length; exact H). apply map_nth. Qed.
Lemma nK i j : (i < n)%nat -> (j < n)%nat -> K' (nth i x' []) (nth j x' []) = K (nth i x []) (nth j x []).
Proof. intros A B. rewrite !nx by assumption. apply HK; assumption. Qed.
Lemma nmap (l : list R) i : nth i (map (Rmult sg) l) 0 = sg * nth i l 0.
Proof. rewrite <- (Rmult_0_r sg) at 1. apply map_nth. Qed.
Lemma ny i : nth i y' 0 = sg * nth i y 0. Proof. apply nmap. Qed.

Lemma rsum_scal {A} (g : A -> R) l : rsum (map (fun m => sg * g m) l) = sg * rsum (map g l).
Proof. induction l as [|a l IH]; [cbn; lra|]. cbn [map]. unfold rsum in *. cbn [fold_right]. rewrite IH. lra. Qed.

Lemma error_sym i al nz b : (i < n)%nat -> length nz = n ->
  calculate_error K' x' y' i al nz (sg * b) = sg * calculate_error K x y i al nz b.
Proof.
  intros Hi Hn. unfold calculate_error. rewrite ny. destruct (existsb _ nz); [|lra].
  rewrite (map_ext_in _ (fun m => sg * (nth m al 0 * nth m y 0 * K (nth m x []) (nth i x [])))).
  - rewrite rsum_scal. lra.
  - intros m Hm. apply nonzero_lt in Hm. rewrite ny, nK by lia. ring.
Qed.

Lemma map_set_nth {A B} (g : A -> B) l i v : map g (set_nth l i v) = set_nth (map g l) i (g v).
Proof. revert i; induction l as [|a l IH]; intros [|i]; cbn; congruence. Qed.

Lemma cache_sym al nb nz b cache : length nb = n -> length nz = n ->
  update_error_cache K' x' y' al nb nz (sg * b) (map (Rmult sg) cache) =
  map (Rmult sg) (update_error_cache K x y al nb nz b cache).
Proof.
  intros Hb Hn. unfold update_error_cache.
  assert (G : forall idx c, (forall m, In m idx -> (m < n)%nat) ->
    fold_left (fun c k => set_nth c k (calculate_error K' x' y' k al nz (sg * b))) idx (map (Rmult sg) c) =
    map (Rmult sg) (fold_left (fun c k => set_nth c k (calculate_error K x y k al nz b)) idx c)).
  { induction idx as [|k idx IH]; intros c H; [reflexivity|]. cbn [fold_left].
    rewrite <- IH by (intros m Hm; apply H; right; exact Hm). f_equal.
    rewrite map_set_nth. f_equal. apply error_sym; [apply H; left; reflexivity|exact Hn]. }
  apply G. intros m Hm. apply nonzero_lt in Hm. lia.
Qed.

(** The state of the other training. *)
Definition image (s : smo) : smo :=
  {| alphas := alphas s; non_bound := non_bound s; non_zero := non_zero s;
     error_cache := map (Rmult sg) (error_cache s); bias := sg * bias s |}.
Definition sized (s : smo) : Prop :=
  length (non_bound s) = n /\ length (non_zero s) = n /\ length (error_cache s) = n.

Lemma Reqb_sym a b : Reqb (sg * a) (sg * b) = Reqb a b.
Proof.
  unfold Reqb. destruct (Req_EM_T (sg * a) (sg * b)), (Req_EM_T a b); try reflexivity; exfalso.
  - apply n0. destruct Hsg; subst; lra.
  - subst. auto.
Qed.

Lemma update_sized s i j ei ej s' : sized s -> update_alpha K x y C s i j ei ej = Some s' -> sized s'.
Proof.
  intros (A & B & D) E. unfold update_alpha in E.
  destruct (i =? j)%nat; [discriminate|].
  all: repeat match type of E with
         | (if ?c then _ else _) = _ => destruct c; try discriminate
         | (let _ := _ in _) = _ => cbv zeta in E
         end.
  all: inversion E; subst; unfold sized; cbn; rewrite ?set_nth_length, ?cache_length; repeat split; assumption.
Qed.

Lemma update_sym s i j ei ej : sized s -> (i < n)%nat -> (j < n)%nat ->
  update_alpha K' x' y' C (image s) i j (sg * ei) (sg * ej) =
  option_map image (update_alpha K x y C s i j ei ej).
Proof.
  intros (A & B & D) Hi Hj. unfold update_alpha. cbn [image alphas non_bound non_zero error_cache bias].
  destruct (i =? j)%nat; [reflexivity|].
  rewrite !ny, Reqb_sym. cbv zeta.
  destruct (Reqb (if Reqb (nth i y 0) (nth j y 0) then _ else _) _); [reflexivity|].
  rewrite !nK by assumption.
  destruct (Rleb _ 0); [reflexivity|].
  set (eta := K (nth i x []) (nth i x []) + K (nth j x []) (nth j x []) - 2 * K (nth i x []) (nth j x [])).
  replace (sg * nth j y 0 * (sg * ei - sg * ej) / eta) with (nth j y 0 * (ei - ej) / eta)
    by (transitivity ((sg * sg) * (nth j y 0 * (ei - ej)) / eta); [rewrite sg_sq; unfold Rdiv; ring|unfold Rdiv; ring]).
  set (aj' := clip_alpha _ _ _).
  destruct (Rltb (Rabs (aj' - nth j (alphas s) 0)) _); [reflexivity|].
  replace (sg * nth i y 0 * (sg * nth j y 0) * (nth j (alphas s) 0 - aj')) with (nth i y 0 * nth j y 0 * (nth j (alphas s) 0 - aj'))
    by (transitivity ((sg * sg) * (nth i y 0 * nth j y 0 * (nth j (alphas s) 0 - aj'))); [rewrite sg_sq; ring|ring]).
  cbn [option_map]. f_equal. unfold image. cbn [alphas non_bound non_zero error_cache bias].
  match goal with |- {| alphas := ?a; non_bound := ?b; non_zero := ?c; error_cache := update_error_cache _ _ _ _ _ _ ?e ?d; bias := ?e |} =
    {| alphas := _; non_bound := _; non_zero := _; error_cache := map _ (update_error_cache _ _ _ _ _ _ ?e2 _); bias := _ |} =>
    replace e with (sg * e2) by (unfold Rdiv; ring) end.
  rewrite cache_sym by assumption. reflexivity.
Qed.

Lemma try_sym s i ei js : sized s -> (i < n)%nat -> (forall j, In j js -> (j < n)%nat) ->
  try_pairs K' x' y' C (image s) i (sg * ei) js = option_map image (try_pairs K x y C s i ei js).
Proof.
  intros Hs Hi. induction js as [|j js IH]; intros H; [reflexivity|]. cbn [try_pairs].
  cbn [image alphas non_zero bias]. rewrite error_sym by (apply H || apply Hs; left; reflexivity).
  change {| alphas := alphas s; non_bound := non_bound s; non_zero := non_zero s;
            error_cache := map (Rmult sg) (error_cache s); bias := sg * bias s |} with (image s).
  rewrite update_sym by (try assumption; apply H; left; reflexivity).
  destruct (update_alpha _ _ _ _ _ _ _ _ _); [reflexivity|]. cbn [option_map].
  apply IH. intros k Hk. apply H. right. exact Hk.
Qed.

Lemma try_sized s i ei js s' : sized s -> try_pairs K x y C s i ei js = Some s' -> sized s'.
Proof.
  intros Hs. induction js as [|j js IH]; [discriminate|]. cbn [try_pairs].
  destruct (update_alpha _ _ _ _ _ _ _ _ _) eqn:E; [|exact IH].
  intros X; inversion X; subst. eapply update_sized; eassumption.
Qed.

Lemma argmin_sym l : argmin (fun a b => Rltb b a) (map (fun e => Rabs e) (map (Rmult sg) l)) =
  argmin (fun a b => Rltb b a) (map (fun e => Rabs e) l).
Proof.
  f_equal. rewrite map_map. apply map_ext. intros a. rewrite Rabs_mult.
  replace (Rabs sg) with 1; [lra|]. destruct Hsg as [e|e]; rewrite e; unfold Rabs; destruct (Rcase_abs _); lra.
Qed.

Lemma get_at_map {A B} (g : A -> B) l i : get_at (map g l) i = match get_at l i with Ok a => Ok (g a) | Err e => Err e end.
Proof. unfold get_at. rewrite nth_error_map. destruct (nth_error l i); reflexivity. Qed.
Lemma mapM_get_map {A B} (g : A -> B) l idx : mapM (get_at (map g l)) idx =
  match mapM (get_at l) idx with Ok v => Ok (map g v) | Err e => Err e end.
Proof.
  induction idx as [|i idx IH]; [reflexivity|]. cbn [mapM]. rewrite get_at_map. destruct (get_at l i); [|reflexivity].
  cbn [bind]. rewrite IH. destruct (mapM (get_at l) idx); reflexivity.
Qed.

Lemma select_sym e cache nb :
  select_second_alpha (sg * e) (map (Rmult sg) cache) nb =
  match select_second_alpha e cache nb with Ok (j, ej) => Ok (j, sg * ej) | Err er => Err er end.
Proof.
  unfold select_second_alpha. rewrite mapM_get_map. destruct (mapM (get_at cache) (nonzero nb)) as [es|]; [|reflexivity].
  cbn [bind].
  replace (map (fun e0 => Rabs (sg * e - e0)) (map (Rmult sg) es)) with (map (fun d => Rabs d) (map (Rmult sg) (map (fun e0 => e - e0) es)))
    by (rewrite !map_map; apply map_ext; intros a; f_equal; lra).
  replace (map (fun e0 => Rabs (e - e0)) es) with (map (fun d => Rabs d) (map (fun e0 => e - e0) es)) by (rewrite map_map; reflexivity).
  rewrite argmin_sym. destruct (argmin _ _) as [k|]; [|reflexivity]. cbn [bind].
  destruct (get_at (nonzero nb) k) as [i|]; [|reflexivity]. cbn [bind].
  rewrite get_at_map. destruct (get_at cache i); reflexivity.
Qed.

Lemma select_in e cache nb j ej : select_second_alpha e cache nb = Ok (j, ej) -> In j (nonzero nb).
Proof.
  unfold select_second_alpha. destruct (mapM _ _) as [es|]; [|discriminate]. cbn [bind].
  destruct (argmin _ _) as [k|]; [|discriminate]. cbn [bind].
  destruct (get_at (nonzero nb) k) as [i|] eqn:E; [|discriminate]. cbn [bind].
  destruct (get_at cache i); [|discriminate]. intros X; inversion X; subst.
  unfold get_at in E. destruct (nth_error (nonzero nb) k) eqn:F; inversion E; subst. eapply nth_error_In; exact F.
Qed.

Lemma parameters_sym s d i : sized s -> (i < n)%nat ->
  update_parameters K' x' y' C tol perms (image s, d) i =
  (let '(s', d', b) := update_parameters K x y C tol perms (s, d) i in (image s', d', b)) /\
  sized (fst (fst (update_parameters K x y C tol perms (s, d) i))).
Proof.
  intros Hs Hi. unfold update_parameters. cbn [image alphas non_bound non_zero error_cache bias].
  rewrite nmap, error_sym by (assumption || apply Hs).
  set (ei := if nth i (non_bound s) false then nth i (error_cache s) 0 else calculate_error K x y i (alphas s) (non_zero s) (bias s)).
  replace (if nth i (non_bound s) false then sg * nth i (error_cache s) 0 else sg * calculate_error K x y i (alphas s) (non_zero s) (bias s))
    with (sg * ei) by (unfold ei; destruct (nth i (non_bound s) false); reflexivity).
  rewrite ny. replace (sg * nth i y 0 * (sg * ei)) with (nth i y 0 * ei)
    by (transitivity ((sg * sg) * (nth i y 0 * ei)); [rewrite sg_sq; ring|ring]).
  destruct (_ || _); [|split; [reflexivity|exact Hs]].
  change {| alphas := alphas s; non_bound := non_bound s; non_zero := non_zero s;
            error_cache := map (Rmult sg) (error_cache s); bias := sg * bias s |} with (image s).
  set (first := if existsb (fun f0 : bool => f0) (non_bound s)
                then match select_second_alpha ei (error_cache s) (non_bound s) with
                     | Ok (j, error_j) => update_alpha K x y C s i j ei error_j | Err _ => None end else None).
  assert (F : (if existsb (fun f0 : bool => f0) (non_bound s)
                then match select_second_alpha (sg * ei) (map (Rmult sg) (error_cache s)) (non_bound s) with
                     | Ok (j, error_j) => update_alpha K' x' y' C (image s) i j (sg * ei) error_j | Err _ => None end else None)
              = option_map image first).
  { unfold first. destruct (existsb _ _); [|reflexivity]. rewrite select_sym.
    destruct (select_second_alpha ei (error_cache s) (non_bound s)) as [[j ej]|] eqn:E; [|reflexivity].
    apply update_sym; try assumption. apply select_in, nonzero_lt in E. destruct Hs as (A & _). lia. }
  rewrite F. assert (Q : forall s', first = Some s' -> sized s').
  { unfold first. destruct (existsb _ _); [|discriminate]. destruct (select_second_alpha _ _ _) as [[j ej]|]; [|discriminate].
    intros s' E. eapply update_sized; eassumption. }
  destruct first as [s'|]; cbn [option_map].
  { split; [reflexivity|]. cbn. apply Q; reflexivity. }
  rewrite try_sym; try assumption.
  2:{ intros j Hj. apply (Permutation_in _ (Hp d)) in Hj. apply in_seq in Hj. unfold n. lia. }
  destruct (try_pairs K x y C s i ei (perms d)) eqn:E; cbn [option_map]; split; try reflexivity; cbn; [eapply try_sized; eassumption|exact Hs].
Qed.

Lemma pass_sym idx : (forall i, In i idx -> (i < n)%nat) -> forall s d, sized s ->
  pass K' x' y' C tol perms idx (image s, d) =
  (let '(s', d', k) := pass K x y C tol perms idx (s, d) in (image s', d', k)) /\
  sized (fst (fst (pass K x y C tol perms idx (s, d)))).
Proof.
  intros H. unfold pass.
  assert (G : forall idx, (forall i, In i idx -> (i < n)%nat) -> forall s d k, sized s ->
    fold_left (fun acc i => let '(sd, k) := acc in let '(sd', changed) := update_parameters K' x' y' C tol perms sd i in
                 (sd', if changed : bool then S k else k)) idx (image s, d, k) =
    (let '(s', d', k) := fold_left (fun acc i => let '(sd, k) := acc in let '(sd', changed) := update_parameters K x y C tol perms sd i in
                 (sd', if changed : bool then S k else k)) idx (s, d, k) in (image s', d', k)) /\
    sized (fst (fst (fold_left (fun acc i => let '(sd, k) := acc in let '(sd', changed) := update_parameters K x y C tol perms sd i in
                 (sd', if changed : bool then S k else k)) idx (s, d, k))))).
  { clear H idx. induction idx as [|i idx IH]; intros H s d k Hs; [split; [reflexivity|exact Hs]|].
    cbn [fold_left]. destruct (parameters_sym s d i Hs (H i (or_introl eq_refl))) as (E & S').
    rewrite E. destruct (update_parameters K x y C tol perms (s, d) i) as [[s1 d1] b]. cbn [fst] in S'.
    apply IH; [|exact S']. intros j Hj. apply H. right. exact Hj. }
  intros s d Hs. apply (G idx H s d 0%nat Hs).
Qed.

Lemma loop_sym fuel epochs : forall epoch entire s d, sized s ->
  run_loop K' x' y' C tol perms fuel epochs epoch entire (image s, d) =
  match run_loop K x y C tol perms fuel epochs epoch entire (s, d) with Ok s' => Ok (image s') | Err e => Err e end.
Proof.
  induction fuel as [|fuel IH]; intros epoch entire s d Hs; [reflexivity|]. cbn [run_loop]. rewrite n'.
  destruct (_ || _); [|reflexivity]. cbn [fst image non_bound].
  fold n. set (idx := if entire then seq 0 n else nonzero (non_bound s)).
  destruct (pass_sym idx) with (s := s) (d := d) as (E & S').
  { unfold idx. destruct entire; intros i Hi; [apply in_seq in Hi; lia|].
    apply nonzero_lt in Hi. destruct Hs as (A & _). lia. }
  { exact Hs. }
  rewrite E. destruct (pass K x y C tol perms idx (s, d)) as [[s1 d1] k]. cbn [fst] in S' |- *.
  destruct entire.
  - destruct (k =? 0)%nat; [reflexivity|]. apply IH, S'.
  - apply IH, S'.
Qed.

Lemma map_repeat_zero k : map (Rmult sg) (repeat 0 k) = repeat 0 k.
Proof. induction k as [|k IH]; [reflexivity|]. cbn. rewrite IH, Rmult_0_r. reflexivity. Qed.

Lemma run_sym fuel epochs : smo_run K' x' y' C tol perms fuel epochs =
  match smo_run K x y C tol perms fuel epochs with Ok s => Ok (image s) | Err e => Err e end.
Proof.
  unfold smo_run. rewrite <- loop_sym.
  - f_equal. unfold image, smo_init. cbn. rewrite map_repeat_zero, Rmult_0_r. fold n. rewrite n'. reflexivity.
  - unfold sized, smo_init. cbn. rewrite !repeat_length. repeat split.
Qed.

Lemma run_sized fuel epochs s : smo_run K x y C tol perms fuel epochs = Ok s -> sized s.
Proof.
  unfold smo_run.
  assert (G : forall fuel epoch entire s d s', sized s -> run_loop K x y C tol perms fuel epochs epoch entire (s, d) = Ok s' -> sized s').
  { clear s fuel. induction fuel as [|fuel IH]; intros epoch entire s d s' Hs E; [discriminate|]. cbn [run_loop] in E.
    destruct (_ || _); [|cbn in E; inversion E; subst; exact Hs]. cbn [fst] in E. fold n in E.
    set (idx := if entire then seq 0 n else nonzero (non_bound s)) in *.
    destruct (pass_sym idx) with (s := s) (d := d) as (_ & S').
    { unfold idx. destruct entire; intros i Hi; [apply in_seq in Hi; lia|].
      apply nonzero_lt in Hi. destruct Hs as (A & _). lia. }
    { exact Hs. }
    destruct (pass K x y C tol perms idx (s, d)) as [[s1 d1] k]. cbn [fst] in S', E.
    destruct entire; [destruct (k =? 0)%nat; [inversion E; subst; exact S'|]|]; eapply IH; eassumption. }
  apply G. unfold sized, smo_init. cbn. rewrite !repeat_length. repeat split.
Qed.

(** The classifier of the other training. *)
Definition svc_image (m : svc) : svc :=
  {| support := support m; support_vector := map f (support_vector m); support_alpha := support_alpha m;
     support_y := map (Rmult sg) (support_y m); svc_b := sg * svc_b m |}.

Lemma fit_sym fuel epochs : svc_fit K' x' y' C tol perms fuel epochs =
  match svc_fit K x y C tol perms fuel epochs with Ok m => Ok (svc_image m) | Err e => Err e end.
Proof.
  unfold svc_fit. rewrite run_sym. destruct (smo_run K x y C tol perms fuel epochs) as [s|] eqn:E; [|reflexivity].
  cbn [bind]. f_equal. apply run_sized in E. unfold svc_of, svc_image. cbn [image non_zero alphas bias support support_vector support_alpha support_y svc_b].
  f_equal.
  - rewrite map_map. apply map_ext_in. intros m Hm. apply nx. apply nonzero_lt in Hm. destruct E as (_ & E & _). lia.
  - rewrite map_map. apply map_ext. intros m. apply ny.
Qed.

Lemma decision_sym m q q' fuel epochs : svc_fit K x y C tol perms fuel epochs = Ok m ->
  (forall i, (i < n)%nat -> K' q' (f (nth i x [])) = K q (nth i x [])) ->
  svc_decision K' (svc_image m) q' = sg * svc_decision K m q.
Proof.
  intros E H. unfold svc_fit in E. destruct (smo_run K x y C tol perms fuel epochs) as [s|] eqn:F; [|discriminate].
  cbn [bind] in E. inversion E; subst m. apply run_sized in F. unfold svc_decision. cbn [svc_image svc_of support_alpha support_y support_vector svc_b].
  set (idx := nonzero (non_zero s)).
  assert (Hi : forall i, In i idx -> (i < n)%nat) by (intros i Hi; apply nonzero_lt in Hi; destruct F as (_ & F & _); lia).
  rewrite Rmult_plus_distr_l. f_equal. clearbody idx. clear E F.
  induction idx as [|i idx IH]; [cbn; lra|]. cbn [map combine]. unfold rsum in *. cbn [fold_right fst snd].
  rewrite IH by (intros j Hj; apply Hi; right; exact Hj). rewrite H by (apply Hi; left; reflexivity). lra.
Qed.
End Sym.
