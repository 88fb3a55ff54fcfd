(** C91, C92: programs that use several models in one Python process, which share
    numpy's generator; and training an object again.

    [seeded], [gauss], [uniform], [integer], [integers], [choice] and [permutation] are
    the generator; the theorems hold for every generator. *)
From Coq Require Import List ZArith Reals Lra Lia Bool Arith String.
From Verif.Model Require Import Base Ops Network Logistic Rbf Smo Svc Stump Ensemble KMeans Training Initializers Process.
From Verif.Spec Require Import Process.
From Verif.Proof Require Import Process SmoDraws SmoExample Misfit.
Import ListNotations.
Local Notation length := List.length.

Section Process.
Variable G : Type.
Variable seeded : Z -> G.
Variable gauss : G -> R * G.
Variable uniform : G -> R * G.
Variable integer : nat -> G -> nat * G.
Variable integers : nat -> nat -> G -> list nat * G.
Variable choice : nat -> G -> list nat * G.
Variable permutation : nat -> G -> list nat * G.
(** One call in a process, and a list of calls: the process afterwards and what was
    raised. *)
Local Notation perform := (perform G seeded gauss uniform integer integers choice permutation).
Local Notation performs := (performs G seeded gauss uniform integer integers choice permutation).
Local Notation process := (process G).
Local Notation heap := (p_heap G).
Local Notation gen := (p_gen G).

(** * C91: which seed decides *)

(** A script that starts with [np.random.seed] and takes no entropy afterwards gives
    the same objects, exceptions and generator in every process. *)
Theorem C91_script_reproducible : forall (p q : process) s script,
  (forall id, heap p id = None) -> (forall id, heap q id = None) -> seed_ok s = true -> Forall takes_no_entropy script ->
  let a := performs p (Seed G (Some s) :: script) in
  let b := performs q (Seed G (Some s) :: script) in
  snd a = snd b /\ gen (fst a) = gen (fst b) /\ forall id, heap (fst a) id = heap (fst b) id.
Proof.
  intros p q s script Hp Hq Hs Hf a b. subst a b. rewrite !performs_cons. cbn [Process.perform np_seed fst snd]. rewrite Hs. cbn [fst snd].
  destruct (performs_same G seeded gauss uniform integer integers choice permutation script (set_gen G (seeded s) p) (set_gen G (seeded s) q)) as [[H1 H2] H3]; [| |exact Hf|].
  - split; [reflexivity|]. intros id. cbn. now rewrite Hp, Hq.
  - intros id o Ho. cbn in Ho. rewrite Hp in Ho. discriminate.
  - split; [now rewrite H3|]. split; [exact H1|exact H2].
Qed.

(** A network, a logistic regression or a radial basis function network with a seed of
    its own: whatever happens in the process between the constructor and [compile], and
    with only calls that leave the generator alone between [compile] and [fit], [fit]
    gives the same object (and the same exception) as in a process that does nothing
    else. *)
Theorem C91_network_recipe : forall id s i structure opt metric d x y epochs (p q : process) before between,
  to_be_built i -> Forall (elsewhere id) before -> Forall (elsewhere id) between -> Forall leaves_generator between ->
  let new := NewNetwork G id (Some s) i in
  let compile := CompileNetwork G id structure opt metric in
  let fit := FitNetwork G id d x y epochs in
  let a := performs p (new :: before ++ compile :: between ++ [fit]) in
  let b := performs q [new; compile; fit] in
  heap (fst a) id = heap (fst b) id /\ last (snd a) None = last (snd b) None.
Proof.
  intros id s i st opt m d x y n p q before between Hi E1 E2 L new compile fit.
  refine (recipe G seeded gauss uniform integer integers choice permutation ANetwork id new fit compile s i (fun _ => Some st) (@l_initializer _ _) opt m (fit_network G gauss integer d x y n) _ _ _ _ Hi Hi p q before between E1 E2 L).
  - reflexivity.
  - intros p0 o Ho. cbn. now rewrite Ho.
  - intros p0 o Ho. cbn. now rewrite Ho.
  - intros o g g'. apply start_network_unbuilt.
Qed.
Theorem C91_regression_recipe : forall id s i opt metric d x y epochs (p q : process) before between,
  to_be_built i -> Forall (elsewhere id) before -> Forall (elsewhere id) between -> Forall leaves_generator between ->
  let new := NewRegression G id (Some s) i in
  let compile := CompileRegression G id opt metric in
  let fit := FitRegression G id d x y epochs in
  let a := performs p (new :: before ++ compile :: between ++ [fit]) in
  let b := performs q [new; compile; fit] in
  heap (fst a) id = heap (fst b) id /\ last (snd a) None = last (snd b) None.
Proof.
  intros id s i opt m d x y n p q before between Hi E1 E2 L new compile fit.
  refine (recipe G seeded gauss uniform integer integers choice permutation ARegression id new fit compile s i (@l_shape _ _) (@l_initializer _ _) opt m (fit_regression G gauss d x y n) _ _ _ _ Hi Hi p q before between E1 E2 L).
  - reflexivity.
  - intros p0 o Ho. cbn. now rewrite Ho.
  - intros p0 o Ho. cbn. now rewrite Ho.
  - intros o g g'. apply start_regression_unbuilt.
Qed.
Theorem C91_radial_recipe : forall id s h opt metric x y epochs (p q : process) before between,
  Forall (elsewhere id) before -> Forall (elsewhere id) between -> Forall leaves_generator between ->
  let new := NewRadial G id (Some s) in
  let compile := CompileRadial G id h opt metric in
  let fit := FitRadial G id x y epochs in
  let a := performs p (new :: before ++ compile :: between ++ [fit]) in
  let b := performs q [new; compile; fit] in
  heap (fst a) id = heap (fst b) id /\ last (snd a) None = last (snd b) None.
Proof.
  intros id s h opt m x y n p q before between E1 E2 L new compile fit.
  refine (recipe G seeded gauss uniform integer integers choice permutation ARadial id new fit compile s NoArg (fun _ => Some h) (fun _ => ByName "rbf_normal") opt m (fit_radial G gauss uniform x y n) _ _ _ _ I I p q before between E1 E2 L).
  - reflexivity.
  - intros p0 o Ho. cbn. now rewrite Ho.
  - intros p0 o Ho. cbn. now rewrite Ho.
  - intros o g g'. apply start_radial_unbuilt.
Qed.
(** The support vector classifier seeds in its constructor, so nothing may use the
    generator between the constructor and [fit]. *)
Theorem C91_classifier_recipe : forall id s C k gamma tol d x y fuel epochs (p q : process) before between,
  seed_ok s = true -> Forall (elsewhere id) before -> Forall leaves_generator before ->
  Forall (elsewhere id) between -> Forall leaves_generator between ->
  let new := NewClassifier G id (Some s) in
  let compile := CompileClassifier G id C k gamma tol in
  let fit := FitClassifier G id d x y fuel epochs in
  let a := performs p (new :: before ++ compile :: between ++ [fit]) in
  let b := performs q [new; compile; fit] in
  heap (fst a) id = heap (fst b) id /\ gen (fst a) = gen (fst b) /\ last (snd a) None = last (snd b) None.
Proof. intros id s C k gamma tol d x y fuel n p q before between Hs E1 L1 E2 L2. now apply classifier_recipe. Qed.

(** The seed that was given to the object that was made (classifiers) or compiled
    (networks) last decides for all of them: the seed of [a] plays no role. *)
Theorem C91_last_classifier_decides : forall a b s1 s2 C k gamma tol d x y fuel epochs (p q : process),
  a <> b -> seed_ok s1 = true -> seed_ok s2 = true ->
  heap (fst (performs p [NewClassifier G a (Some s1); NewClassifier G b (Some s2); CompileClassifier G a C k gamma tol; FitClassifier G a d x y fuel epochs])) a =
  heap (fst (performs q [NewClassifier G a (Some s2); CompileClassifier G a C k gamma tol; FitClassifier G a d x y fuel epochs])) a.
Proof. intros. now apply classifier_last_seed. Qed.
Theorem C91_last_network_decides : forall a b s1 s2 i j structure structure' opt opt' metric metric' d x y epochs c c' cb f f',
  a <> b -> seed_ok s1 = true -> seed_ok s2 = true -> to_be_built i -> to_be_built j ->
  get_initializer i (Some s1) = Ok c -> get_initializer i (Some s2) = Ok c' -> get_initializer j (Some s2) = Ok cb ->
  get_optimizer opt = Ok f -> get_optimizer opt' = Ok f' ->
  forall p q : process, exists oa ob,
  heap (fst (performs p [NewNetwork G a (Some s1) i; CompileNetwork G a structure opt metric; NewNetwork G b (Some s2) j;
                         CompileNetwork G b structure' opt' metric'; FitNetwork G a d x y epochs])) a = Some (ANetwork oa) /\
  heap (fst (performs q [NewNetwork G a (Some s2) i; CompileNetwork G a structure opt metric; FitNetwork G a d x y epochs])) a = Some (ANetwork ob) /\
  l_parameters oa = l_parameters ob /\ l_trained oa = l_trained ob.
Proof. intros. eapply network_last_seed; eauto. Qed.

(** [compile] builds the initializer, and seeds, only once: compiling a network or a
    logistic regression again has no effect on the next [fit]. *)
Theorem C91_network_recompile : forall id s i structure opt metric d x y epochs (p : process),
  snd (performs p [NewNetwork G id s i; CompileNetwork G id structure opt metric]) = [None; None] ->
  let new := NewNetwork G id s i in
  let compile := CompileNetwork G id structure opt metric in
  let fit := FitNetwork G id d x y epochs in
  let a := performs p [new; compile; fit; compile; fit] in
  let b := performs p [new; compile; fit; fit] in
  heap (fst a) id = heap (fst b) id /\ gen (fst a) = gen (fst b) /\ last (snd a) None = last (snd b) None.
Proof. intros id s i st opt m d x y n p H. exact (network_recompile G seeded gauss uniform integer integers choice permutation id s i st opt m d x y n p H). Qed.
Theorem C91_regression_recompile : forall id s i opt metric d x y epochs (p : process),
  snd (performs p [NewRegression G id s i; CompileRegression G id opt metric]) = [None; None] ->
  let new := NewRegression G id s i in
  let compile := CompileRegression G id opt metric in
  let fit := FitRegression G id d x y epochs in
  let a := performs p [new; compile; fit; compile; fit] in
  let b := performs p [new; compile; fit; fit] in
  heap (fst a) id = heap (fst b) id /\ gen (fst a) = gen (fst b) /\ last (snd a) None = last (snd b) None.
Proof. intros id s i opt m d x y n p H. exact (regression_recompile G seeded gauss uniform integer integers choice permutation id s i opt m d x y n p H). Qed.
(** The radial network seeds in every [compile]: compiling again repeats the first
    result. *)
Theorem C91_radial_recompile : forall id s h opt metric x y epochs (p : process),
  snd (performs p [NewRadial G id (Some s); CompileRadial G id h opt metric]) = [None; None] ->
  let new := NewRadial G id (Some s) in
  let compile := CompileRadial G id h opt metric in
  let fit := FitRadial G id x y epochs in
  let a := performs p [new; compile; fit; compile; fit] in
  let b := performs p [new; compile; fit] in
  heap (fst a) id = heap (fst b) id /\ gen (fst a) = gen (fst b) /\ last (snd a) None = last (snd b) None.
Proof. intros id s h opt m x y n p H. exact (radial_recompile G seeded gauss uniform integer integers choice permutation id s h opt m x y n p H). Qed.

(** An object without a seed takes entropy: [np.random.seed] before it has no effect. *)
Theorem C91_unseeded_classifier_overrides : forall id s (p : process) script, seed_ok s = true ->
  fst (performs p (Seed G (Some s) :: NewClassifier G id None :: script)) = fst (performs p (NewClassifier G id None :: script)).
Proof. intros id s p script Hs. rewrite !performs_cons. cbn [Process.perform np_seed fst snd]. now rewrite Hs. Qed.
Theorem C91_unseeded_network_overrides : forall id s i c structure opt metric (p : process) script,
  seed_ok s = true -> to_be_built i -> get_initializer i None = Ok c ->
  fst (performs p (NewNetwork G id None i :: Seed G (Some s) :: CompileNetwork G id structure opt metric :: script)) =
  fst (performs p (NewNetwork G id None i :: CompileNetwork G id structure opt metric :: script)).
Proof.
  intros id s i c st opt m p script Hs Hi Hc. rewrite !performs_cons. cbn [Process.perform np_seed fst snd]. rewrite Hs. cbn [fst set_gen p_heap].
  rewrite ?put_here. cbn [put p_heap]. rewrite ?Nat.eqb_refl. do 2 f_equal.
  cbn [l_initializer new_learner]. unfold compile_learner. rewrite !take_built by exact Hi. cbn [l_seed new_learner]. rewrite Hc. reflexivity.
Qed.

(** Bagging seeds in every round of [fit]: what it learns does not depend on the
    generator, and after a round the generator does not either. *)
Theorem C91_bagging_ignores_the_generator : forall id n w x y (p q : process), heap p id = heap q id ->
  heap (fst (perform p (FitBag G id n w x y))) id = heap (fst (perform q (FitBag G id n w x y))) id.
Proof.
  intros id n w x y p q H. cbn [Process.perform]. rewrite <- H. destruct (heap p id) as [[]|] eqn:E; cbn [fst]; try congruence.
  destruct (store_known G ABag id (fit_bag G seeded choice n w x y o (gen p)) p) as (K1 & _). destruct (store_known G ABag id (fit_bag G seeded choice n w x y o (gen q)) q) as (K2 & _).
  rewrite K1, K2. unfold fit_bag. destruct (bag_rounds_object G seeded choice n w x y (bg_compiled o) (bg o) (gen p) (gen q)) as [B1 B2].
  destruct (bag_rounds G seeded choice n w x y _ _ (gen p)) as [[b1 g1] e1]. destruct (bag_rounds G seeded choice n w x y _ _ (gen q)) as [[b2 g2] e2]. cbn [fst snd] in *. now subst.
Qed.
Theorem C91_bagging_resets_the_generator : forall id n w x y o (p q : process), heap p id = Some (ABag o) -> heap q id = Some (ABag o) ->
  (0 < n)%nat -> length x = length y -> seed_ok (bag_seed (bg o)) = true ->
  gen (fst (perform p (FitBag G id n w x y))) = gen (fst (perform q (FitBag G id n w x y))).
Proof.
  intros id n w x y o p q Hp Hq Hn Hl Hs. cbn [Process.perform]. rewrite Hp, Hq.
  destruct (store_known G ABag id (fit_bag G seeded choice n w x y o (gen p)) p) as (_ & _ & K1). destruct (store_known G ABag id (fit_bag G seeded choice n w x y o (gen q)) q) as (_ & _ & K2).
  rewrite K1, K2. unfold fit_bag. now rewrite (bag_rounds_gen G seeded choice n w x y (bg_compiled o) (bg o) (gen p) (gen q)).
Qed.
(** Two baggers compiled without a seed share the seed that was drawn when the module
    was imported: on the same data they are the same ensemble. *)
Theorem C91_default_baggers_are_equal : forall a b n w x y (p : process) between, a <> b -> Forall (elsewhere a) between ->
  let r := fst (performs p ([NewBag G a; CompileBag G a None; FitBag G a n w x y] ++ between ++
                            [NewBag G b; CompileBag G b None; FitBag G b n w x y])) in
  heap r a = heap r b.
Proof. intros. now apply default_baggers. Qed.
(** Compiling with the same seed and training again adds the same members a second
    time. *)
Theorem C91_bagger_repeats_its_members : forall id s n w x y (p : process) o,
  heap p id = Some (ABag o) ->
  snd (performs p [CompileBag G id (Some s); FitBag G id n w x y]) = [None; None] ->
  exists l, length l = n /\
  heap (fst (performs p [CompileBag G id (Some s); FitBag G id n w x y])) id =
    Some (ABag {| bg_compiled := true; bg := {| bag_seed := (s + Z.of_nat n)%Z; bag_stumps := bag_stumps (bg o) ++ l |}; bg_trained := true |}) /\
  heap (fst (performs p [CompileBag G id (Some s); FitBag G id n w x y; CompileBag G id (Some s); FitBag G id n w x y])) id =
    Some (ABag {| bg_compiled := true; bg := {| bag_seed := (s + Z.of_nat n)%Z; bag_stumps := bag_stumps (bg o) ++ l ++ l |}; bg_trained := true |}).
Proof.
  intros id s n w x y p o Ho H. rewrite !performs_cons in H. cbn [Process.perform fst snd Process.performs] in H. rewrite Ho in H. cbn [fst snd] in H. rewrite put_here in H.
  destruct (bag_rounds G seeded choice n w x y true {| bag_seed := s; bag_stumps := bag_stumps (bg o) |} (gen p)) as [[b' g'] e] eqn:E.
  apply (bagger_repeats G seeded gauss uniform integer integers choice permutation id s n w x y p o g' b' Ho). rewrite E. f_equal.
  match type of H with context [store_fit G ABag id ?r ?P] => destruct (store_known G ABag id r P) as (_ & K & _); rewrite K in H end.
  injection H as H. unfold fit_bag in H. cbn [bg_compiled bg bg_trained] in H.
  match type of H with context [bag_rounds G seeded choice n w x y ?c ?b ?g] => change (bag_rounds G seeded choice n w x y c b g) with (bag_rounds G seeded choice n w x y true {| bag_seed := s; bag_stumps := bag_stumps (bg o) |} (gen p)) in H end.
  rewrite E in H. exact H.
Qed.

(** What is drawn.  The rows of a network's epochs are [epochs] integers below the
    number of rows, drawn after the initial layers. *)
Theorem C91_network_draws : forall id d x y epochs o c structure f rate (p : process),
  heap p id = Some (ANetwork o) -> l_loaded o = false -> l_initializer o = Instance c -> l_shape o = Some structure ->
  l_optimizer o = Some f -> kind f = Sgd rate ->
  snd (perform p (FitNetwork G id d x y epochs)) = None ->
  exists ls g rows ls', call_layers G gauss (kind c) (d :: structure) (gen p) = Ok (ls, g) /\
  drew integer (length x) epochs g rows (gen (fst (perform p (FitNetwork G id d x y epochs)))) /\
  sgd_run rate x y ls rows = Ok ls' /\
  exists o', heap (fst (perform p (FitNetwork G id d x y epochs))) id = Some (ANetwork o') /\ l_parameters o' = Some ls' /\ l_trained o' = true.
Proof.
  intros id d x y n o c st f rate p Ho Hl Hi Hs Hf Hk. cbn [Process.perform]. rewrite Ho.
  destruct (store_known G ANetwork id (fit_network G gauss integer d x y n o (gen p)) p) as (K1 & K2 & K3). rewrite K1, K2, K3. clear K1 K2 K3.
  unfold fit_network, start_network. rewrite Hl, Hi, Hs, Hf. cbn [with_optimizer]. rewrite Hk. cbn [train_network].
  destruct (call_layers G gauss (kind c) (d :: st) (gen p)) as [[ls g]|e]; [|discriminate].
  destruct (sgd_training_loop G integer rate x y n ls g) as [[ls' g'] e] eqn:E. cbn [fst snd]. intros ->.
  assert (Hx : x <> [] \/ n = 0%nat). { destruct x as [|r x]; [right|left; discriminate]. destruct n; [reflexivity|discriminate E]. }
  destruct (sgd_loop_run G integer rate x y n ls g ls' g' Hx E) as (rows & D & Hr).
  exists ls, g, rows, ls'. repeat split; auto. eexists. repeat split.
Qed.
Theorem C91_network_draws_adam : forall id d x y epochs o c structure f rate b1 b2 eps (p : process),
  heap p id = Some (ANetwork o) -> l_loaded o = false -> l_initializer o = Instance c -> l_shape o = Some structure ->
  l_optimizer o = Some f -> kind f = Adam rate b1 b2 eps ->
  snd (perform p (FitNetwork G id d x y epochs)) = None ->
  exists ls g rows ls', call_layers G gauss (kind c) (d :: structure) (gen p) = Ok (ls, g) /\
  drew integer (length x) epochs g rows (gen (fst (perform p (FitNetwork G id d x y epochs)))) /\
  adam_run {| rate := rate; beta_1 := b1; beta_2 := b2; epsilon := eps |} x y ls rows = Ok ls' /\
  exists o', heap (fst (perform p (FitNetwork G id d x y epochs))) id = Some (ANetwork o') /\ l_parameters o' = Some ls' /\ l_trained o' = true.
Proof.
  intros id d x y n o c st f rate b1 b2 eps p Ho Hl Hi Hs Hf Hk. cbn [Process.perform]. rewrite Ho.
  destruct (store_known G ANetwork id (fit_network G gauss integer d x y n o (gen p)) p) as (K1 & K2 & K3). rewrite K1, K2, K3. clear K1 K2 K3.
  unfold fit_network, start_network. rewrite Hl, Hi, Hs, Hf. cbn [with_optimizer]. rewrite Hk. cbn [train_network].
  destruct (call_layers G gauss (kind c) (d :: st) (gen p)) as [[ls g]|e]; [|discriminate].
  set (op := {| rate := rate; beta_1 := b1; beta_2 := b2; epsilon := eps |}).
  destruct (adam_training_loop G integer op x y n 1 (adam_init ls) g) as [[s' g'] e] eqn:E. cbn [fst snd]. intros ->.
  destruct (adam_loop_run G integer op x y n 1 (adam_init ls) g s' g' E) as (rows & D & Hn & Hr).
  exists ls, g, rows, (params s'). repeat split; auto.
  - unfold adam_run. rewrite Hn, Hr. reflexivity.
  - eexists. repeat split.
Qed.
(** The permutations of the support vector classifier are drawn one after the other,
    as many as [fit] looks at: a second generator that gives these gives the same
    object. *)
Theorem C91_classifier_draws : forall id d x y fuel epochs o (p q : process),
  heap p id = Some (AClassifier o) -> heap q id = Some (AClassifier o) ->
  exists k, gen (fst (perform p (FitClassifier G id d x y fuel epochs))) = nth_state G permutation (length x) k (gen p) /\
  ((forall j, (j < k)%nat -> drawn G permutation (length x) (gen q) j = drawn G permutation (length x) (gen p) j) ->
   heap (fst (perform q (FitClassifier G id d x y fuel epochs))) id = heap (fst (perform p (FitClassifier G id d x y fuel epochs))) id /\
   gen (fst (perform q (FitClassifier G id d x y fuel epochs))) = nth_state G permutation (length x) k (gen q)).
Proof.
  intros id d x y fuel n o p q Hp Hq. exists (draws d x y (drawn G permutation (length x) (gen p)) fuel n o).
  cbn [Process.perform]. rewrite Hp, Hq.
  destruct (store_known G AClassifier id (fit_classifier G permutation d x y fuel n o (gen p)) p) as (K1 & _ & K3).
  destruct (store_known G AClassifier id (fit_classifier G permutation d x y fuel n o (gen q)) q) as (L1 & _ & L3).
  rewrite K1, K3, L1, L3. unfold fit_classifier.
  split; [now destruct (fit d x y _ fuel n o)|]. intros A.
  destruct (fit_agree d x y (drawn G permutation (length x) (gen p)) (drawn G permutation (length x) (gen q)) fuel n o) as [E1 E2].
  { intros j Hj. symmetry. now apply A. }
  rewrite E1, E2. destruct (fit d x y (drawn G permutation (length x) (gen p)) fuel n o). split; reflexivity.
Qed.

(** Every seeding without a seed takes an entropy value of its own: after [k] of them
    the next one gives the generator of the value number [k]. *)
Theorem C91_entropy_is_used_once : forall k (p : process), (k < length (p_entropy G p))%nat ->
  gen (fst (performs p (repeat (Seed G None) (S k)))) = seeded (nth k (p_entropy G p) 0%Z).
Proof.
  induction k as [|k IH]; intros p H; cbn [repeat]; rewrite performs_cons; cbn [Process.perform np_seed fst snd].
  - now destruct (p_entropy G p).
  - change (Seed G None :: repeat (Seed G None) k) with (repeat (Seed G None) (S k)).
    destruct (p_entropy G p) as [|z l] eqn:E; [cbn in H; lia|]. cbn [tl]. rewrite IH by (cbn in *; lia). reflexivity.
Qed.
(** k-means draws its first centroids in one call, and only if they are to be random. *)
Theorem C91_means_draws : forall id d x n o init tol (p : process),
  heap p id = Some (AMeans o) -> km_compiled o = Some (init, tol) -> x <> [] ->
  let drawn := integers (length x) (km_n o) (gen p) in
  gen (fst (perform p (FitMeans G id d x n))) = match init with InitRandom => snd drawn | _ => gen p end /\
  exists o', heap (fst (perform p (FitMeans G id d x n))) id = Some (AMeans o') /\
  forall c cl b, km_fit (fun _ _ => fst drawn) d x (km_n o) init tol n = Ok (c, cl, b) -> km_result o' = Some (c, cl) /\ km_trained o' = true.
Proof.
  intros id d x n o init tol p Ho Hc Hx drawn. cbn [Process.perform]. rewrite Ho.
  destruct (store_known G AMeans id (fit_means G integers d x n o (gen p)) p) as (K1 & _ & K3). rewrite K1, K3. clear K1 K3.
  unfold fit_means. rewrite Hc. destruct x as [|r x]; [easy|]. cbn [length Nat.eqb].
  assert (Same : init <> InitRandom -> forall f f', km_fit f d (r :: x) (km_n o) init tol n = km_fit f' d (r :: x) (km_n o) init tol n)
    by (intros N f f'; unfold km_fit; destruct init; try easy; reflexivity).
  destruct init.
  - unfold drawn; cbn [length]; destruct (integers (S (length x)) (km_n o) (gen p)) as [l g]; cbn [fst snd].
    destruct (km_fit (fun _ _ => l) d (r :: x) (km_n o) InitRandom tol n) as [[[c cl] b]|e]; (split; [reflexivity|]); eexists; (split; [reflexivity|]);
      intros ? ? ? E; inversion E; subst; split; reflexivity.
  - rewrite (Same ltac:(discriminate) (fun _ _ => []) (fun _ _ => fst drawn)).
    destruct (km_fit _ d (r :: x) (km_n o) _ tol n) as [[[c cl] b]|e]; (split; [reflexivity|]); eexists; (split; [reflexivity|]);
      intros ? ? ? E; inversion E; subst; split; reflexivity.
  - rewrite (Same ltac:(discriminate) (fun _ _ => []) (fun _ _ => fst drawn)).
    destruct (km_fit _ d (r :: x) (km_n o) _ tol n) as [[[c cl] b]|e]; (split; [reflexivity|]); eexists; (split; [reflexivity|]);
      intros ? ? ? E; inversion E; subst; split; reflexivity.
Qed.

(** * C92: training an object again *)

(** [fit] starts afresh: what the object had learned before does not matter, only its
    settings and the generator. *)
Theorem C92_network_starts_afresh : forall id d x y epochs a b (p q : process),
  heap p id = Some (ANetwork a) -> heap q id = Some (ANetwork b) -> same_settings a b -> l_loaded a = false -> gen p = gen q ->
  snd (perform p (FitNetwork G id d x y epochs)) = None ->
  let p' := fst (perform p (FitNetwork G id d x y epochs)) in
  let q' := fst (perform q (FitNetwork G id d x y epochs)) in
  heap p' id = heap q' id /\ gen p' = gen q' /\ snd (perform q (FitNetwork G id d x y epochs)) = None.
Proof.
  intros id d x y n a b p q Hp Hq Hs Hl Hg. cbn [Process.perform]. rewrite Hp, Hq, <- Hg.
  destruct (store_known G ANetwork id (fit_network G gauss integer d x y n a (gen p)) p) as (K1 & K2 & K3). rewrite K2. intros H.
  rewrite (network_afresh G gauss integer d x y n a b (gen p) Hs Hl H).
  destruct (store_known G ANetwork id (fit_network G gauss integer d x y n a (gen p)) q) as (L1 & L2 & L3). rewrite K1, K3, L1, L2, L3. auto.
Qed.
Theorem C92_regression_starts_afresh : forall id d x y epochs a b (p q : process),
  heap p id = Some (ARegression a) -> heap q id = Some (ARegression b) -> same_settings a b -> l_loaded a = false -> gen p = gen q ->
  snd (perform p (FitRegression G id d x y epochs)) = None ->
  let p' := fst (perform p (FitRegression G id d x y epochs)) in
  let q' := fst (perform q (FitRegression G id d x y epochs)) in
  heap p' id = heap q' id /\ gen p' = gen q' /\ snd (perform q (FitRegression G id d x y epochs)) = None.
Proof.
  intros id d x y n a b p q Hp Hq Hs Hl Hg. cbn [Process.perform]. rewrite Hp, Hq, <- Hg.
  destruct (store_known G ARegression id (fit_regression G gauss d x y n a (gen p)) p) as (K1 & K2 & K3). rewrite K2. intros H.
  rewrite (regression_afresh G gauss d x y n a b (gen p) Hs Hl H).
  destruct (store_known G ARegression id (fit_regression G gauss d x y n a (gen p)) q) as (L1 & L2 & L3). rewrite K1, K3, L1, L2, L3. auto.
Qed.
Theorem C92_radial_starts_afresh : forall id x y epochs a b (p q : process),
  heap p id = Some (ARadial a) -> heap q id = Some (ARadial b) -> same_settings a b -> l_loaded a = false -> gen p = gen q ->
  snd (perform p (FitRadial G id x y epochs)) = None ->
  let p' := fst (perform p (FitRadial G id x y epochs)) in
  let q' := fst (perform q (FitRadial G id x y epochs)) in
  heap p' id = heap q' id /\ gen p' = gen q' /\ snd (perform q (FitRadial G id x y epochs)) = None.
Proof.
  intros id x y n a b p q Hp Hq Hs Hl Hg. cbn [Process.perform]. rewrite Hp, Hq, <- Hg.
  destruct (store_known G ARadial id (fit_radial G gauss uniform x y n a (gen p)) p) as (K1 & K2 & K3). rewrite K2. intros H.
  rewrite (radial_afresh G gauss uniform x y n a b (gen p) Hs Hl H).
  destruct (store_known G ARadial id (fit_radial G gauss uniform x y n a (gen p)) q) as (L1 & L2 & L3). rewrite K1, K3, L1, L2, L3. auto.
Qed.

(** After [load_weights], [fit] goes on from the parameters: two calls are one call
    with all the epochs (stochastic gradient descent; both optimizers of the logistic
    regression; the radial basis functions). *)
Theorem C92_loaded_network_continues : forall id structure f rate ls d x y n1 n2 o (p : process),
  heap p id = Some (ANetwork o) -> kind f = Sgd rate ->
  let load := LoadNetwork G id structure f ls in
  snd (performs p [load; FitNetwork G id d x y n1; FitNetwork G id d x y n2]) = [None; None; None] ->
  let a := performs p [load; FitNetwork G id d x y n1; FitNetwork G id d x y n2] in
  let b := performs p [load; FitNetwork G id d x y (n1 + n2)] in
  heap (fst a) id = heap (fst b) id /\ gen (fst a) = gen (fst b) /\ snd b = [None; None].
Proof.
  intros id st f rate ls d x y n1 n2 o p Ho Hk load. subst load. rewrite !performs_cons. cbn [Process.perform fst snd Process.performs]. rewrite !Ho. cbn [fst snd]. rewrite !put_here.
  set (o1 := loaded o (Some st) f (over ls (l_parameters o))). set (p1 := put G id (ANetwork o1) p).
  destruct (store_known G ANetwork id (fit_network G gauss integer d x y n1 o1 (gen p1)) p1) as (K1 & K2 & K3).
  destruct (store_known G ANetwork id (fit_network G gauss integer d x y (n1 + n2) o1 (gen p1)) p1) as (M1 & M2 & M3).
  rewrite !K1, !K2, !K3, M1, M2, M3.
  set (p2 := fst (store_fit G ANetwork id (fit_network G gauss integer d x y n1 o1 (gen p1)) p1)).
  destruct (store_known G ANetwork id (fit_network G gauss integer d x y n2 (fst (fst (fit_network G gauss integer d x y n1 o1 (gen p1)))) (snd (fst (fit_network G gauss integer d x y n1 o1 (gen p1))))) p2) as (L1 & L2 & L3).
  rewrite L1, L2, L3. clear K1 K2 K3 M1 M2 M3 L1 L2 L3 p2. unfold fit_network, start_network. cbn [o1 loaded l_loaded l_parameters l_optimizer with_optimizer]. rewrite Hk. cbn [train_network].
  pose proof (sgd_loop_add G integer rate x y n1 n2 (over ls (l_parameters o)) (gen p1)) as A.
  destruct (sgd_training_loop G integer rate x y n1 (over ls (l_parameters o)) (gen p1)) as [[l1 g1] e1]. cbn [fst snd] in *.
  intros H. injection H as -> H2. rewrite (A eq_refl). cbn [after_training l_loaded loaded l_parameters l_optimizer] in *. change (l_loaded o1) with true in *. change (l_optimizer o1) with (Some f) in *. cbn [with_optimizer] in *. rewrite Hk in *. cbn [train_network] in *.
  destruct (sgd_training_loop G integer rate x y n2 l1 g1) as [[l2 g2] e2]. cbn [fst snd] in *. subst e2. auto.
Qed.
Theorem C92_loaded_regression_continues : forall id f b d x y n1 n2 o (p : process),
  heap p id = Some (ARegression o) ->
  let load := LoadRegression G id f b in
  snd (performs p [load; FitRegression G id d x y n1; FitRegression G id d x y n2]) = [None; None; None] ->
  let a := performs p [load; FitRegression G id d x y n1; FitRegression G id d x y n2] in
  let b := performs p [load; FitRegression G id d x y (n1 + n2)] in
  heap (fst a) id = heap (fst b) id /\ gen (fst a) = gen (fst b) /\ snd b = [None; None].
Proof.
  intros id f b d x y n1 n2 o p Ho load. subst load. rewrite !performs_cons. cbn [Process.perform fst snd Process.performs]. rewrite !Ho. cbn [fst snd]. rewrite !put_here.
  set (o1 := loaded o (l_shape o) f b). set (p1 := put G id (ARegression o1) p).
  destruct (store_known G ARegression id (fit_regression G gauss d x y n1 o1 (gen p1)) p1) as (K1 & K2 & K3).
  destruct (store_known G ARegression id (fit_regression G gauss d x y (n1 + n2) o1 (gen p1)) p1) as (M1 & M2 & M3).
  rewrite !K1, !K2, !K3, M1, M2, M3.
  set (p2 := fst (store_fit G ARegression id (fit_regression G gauss d x y n1 o1 (gen p1)) p1)).
  destruct (store_known G ARegression id (fit_regression G gauss d x y n2 (fst (fst (fit_regression G gauss d x y n1 o1 (gen p1)))) (snd (fst (fit_regression G gauss d x y n1 o1 (gen p1))))) p2) as (L1 & L2 & L3).
  rewrite L1, L2, L3. clear K1 K2 K3 M1 M2 M3 L1 L2 L3 p2. unfold fit_regression, start_regression. cbn [o1 loaded l_loaded l_parameters l_optimizer with_optimizer].
  assert (A : snd (train_regression (kind f) d x y n1 b) = None ->
    train_regression (kind f) d x y (n1 + n2) b = train_regression (kind f) d x y n2 (fst (train_regression (kind f) d x y n1 b))).
  { unfold train_regression. destruct (kind f); try apply logistic_loop_add; cbn [fst snd]; intros M; rewrite (misfit_none _ _ _ _ M); reflexivity. }
  destruct (train_regression (kind f) d x y n1 b) as [l1 e1]. cbn [fst snd] in *.
  intros H. injection H as -> H2. rewrite (A eq_refl). cbn [after_training l_loaded loaded l_parameters l_optimizer] in *. change (l_loaded o1) with true in *. change (l_optimizer o1) with (Some f) in *. cbn [with_optimizer] in *.
  destruct (train_regression (kind f) d x y n2 l1) as [l2 e2]. cbn [fst snd] in *. subst e2. auto.
Qed.
Theorem C92_loaded_radial_continues : forall id h f q0 x y n1 n2 o (p : process),
  heap p id = Some (ARadial o) ->
  let load := LoadRadial G id h f q0 in
  snd (performs p [load; FitRadial G id x y n1; FitRadial G id x y n2]) = [None; None; None] ->
  let a := performs p [load; FitRadial G id x y n1; FitRadial G id x y n2] in
  let b := performs p [load; FitRadial G id x y (n1 + n2)] in
  heap (fst a) id = heap (fst b) id /\ gen (fst a) = gen (fst b) /\ snd b = [None; None].
Proof.
  intros id h f b x y n1 n2 o p Ho load. subst load. rewrite !performs_cons. cbn [Process.perform fst snd Process.performs]. rewrite !Ho. cbn [fst snd]. rewrite !put_here.
  set (o1 := loaded o (Some h) f b). set (p1 := put G id (ARadial o1) p).
  destruct (store_known G ARadial id (fit_radial G gauss uniform x y n1 o1 (gen p1)) p1) as (K1 & K2 & K3).
  destruct (store_known G ARadial id (fit_radial G gauss uniform x y (n1 + n2) o1 (gen p1)) p1) as (M1 & M2 & M3).
  rewrite !K1, !K2, !K3, M1, M2, M3.
  set (p2 := fst (store_fit G ARadial id (fit_radial G gauss uniform x y n1 o1 (gen p1)) p1)).
  destruct (store_known G ARadial id (fit_radial G gauss uniform x y n2 (fst (fst (fit_radial G gauss uniform x y n1 o1 (gen p1)))) (snd (fst (fit_radial G gauss uniform x y n1 o1 (gen p1))))) p2) as (L1 & L2 & L3).
  rewrite L1, L2, L3. clear K1 K2 K3 M1 M2 M3 L1 L2 L3 p2. unfold fit_radial, start_radial. cbn [o1 loaded l_loaded l_parameters l_optimizer with_optimizer].
  assert (A : snd (train_radial (kind f) x y n1 b) = None ->
    train_radial (kind f) x y (n1 + n2) b = train_radial (kind f) x y n2 (fst (train_radial (kind f) x y n1 b))).
  { unfold train_radial. destruct (kind f); try apply radial_loop_add; cbn [fst snd]; intros M; rewrite (misfit_none _ _ _ _ M); reflexivity. }
  destruct (train_radial (kind f) x y n1 b) as [l1 e1]. cbn [fst snd] in *.
  intros H. injection H as -> H2. rewrite (A eq_refl). cbn [after_training l_loaded loaded l_parameters l_optimizer] in *. change (l_loaded o1) with true in *. change (l_optimizer o1) with (Some f) in *. cbn [with_optimizer] in *.
  destruct (train_radial (kind f) x y n2 l1) as [l2 e2]. cbn [fst snd] in *. subst e2. auto.
Qed.
(** The loaded parameters are what training starts from, also if [compile] is called
    after [load_weights]: the initializer is not used. *)
Theorem C92_compile_keeps_what_was_loaded : forall id s i f b opt metric d x y epochs o (p : process),
  heap p id = Some (ARegression o) -> get_optimizer opt = Ok f ->
  snd (performs p [NewRegression G id s i; LoadRegression G id f b; CompileRegression G id opt metric; FitRegression G id d x y epochs]) = [None; None; None; None] ->
  exists o' b', heap (fst (performs p [NewRegression G id s i; LoadRegression G id f b; CompileRegression G id opt metric; FitRegression G id d x y epochs])) id =
    Some (ARegression o') /\ l_parameters o' = Some b' /\ l_trained o' = true /\
  match kind f with
  | GradientDescent rate => opt_run (Logistic.GradientDescent rate) epochs d x y b = Ok b'
  | NewtonMethod => opt_run Logistic.NewtonMethod epochs d x y b = Ok b'
  | _ => epochs = 0%nat /\ b' = b
  end.
Proof.
  intros id s i f b opt m d x y n o p Ho Hf. rewrite !performs_cons. cbn [Process.perform fst snd Process.performs]. rewrite !put_here. cbn [fst snd]. rewrite !put_here.
  set (o1 := loaded _ _ f b). set (p1 := put G id (ARegression o1) _). cbn [l_initializer l_shape].
  destruct (compile_learner G seeded ARegression id o1 (l_shape o1) (l_initializer o1) opt m p1) as [p2 e] eqn:E. cbn [fst snd]. intros H. injection H as -> H.
  destruct (compile_success G seeded ARegression id _ _ _ _ _ _ _ E) as (c & f' & Hf' & Hc & -> & _). assert (f' = f) as -> by congruence.
  rewrite put_here in *. match type of H with context [store_fit G ARegression id ?r ?P] => destruct (store_known G ARegression id r P) as (K1 & K2 & _) end.
  rewrite K2 in H. rewrite K1. clear K1 K2. unfold fit_regression, start_regression in *. cbn [compiled o1 loaded l_loaded l_parameters l_optimizer with_optimizer] in *.
  destruct (train_regression (kind f) d x y n b) as [b' e] eqn:Et. cbn [fst snd] in *. subst e.
  exists (after_training (compiled o1 (l_shape o1) c f) (Some b') None), b'. split; [reflexivity|]. split; [reflexivity|]. split; [reflexivity|].
  unfold train_regression in Et. destruct (kind f); try (now apply logistic_loop_run); apply pair_equal_spec in Et; destruct Et as [E1 M]; (split; [exact (misfit_none _ _ _ _ M)|congruence]).
Qed.
(** The same for the radial basis functions, whose training is that of C51. *)
Theorem C92_loaded_radial_is_trained : forall id h f rate q0 x y epochs o (p : process),
  heap p id = Some (ARadial o) -> kind f = RbfOptimizer rate ->
  snd (performs p [LoadRadial G id h f q0; FitRadial G id x y epochs]) = [None; None] ->
  exists o' q' losses, heap (fst (performs p [LoadRadial G id h f q0; FitRadial G id x y epochs])) id = Some (ARadial o') /\
  l_parameters o' = Some q' /\ rbf_run rate x y epochs q0 = Ok (q', losses).
Proof.
  intros id h f rate q0 x y n o p Ho Hk. rewrite !performs_cons. cbn [Process.perform fst snd Process.performs]. rewrite !Ho. cbn [fst snd]. rewrite !put_here.
  match goal with |- context [store_fit G ARadial id ?r ?P] => destruct (store_known G ARadial id r P) as (K1 & K2 & _) end. rewrite K1, K2. clear K1 K2.
  unfold fit_radial, start_radial. cbn [loaded l_loaded l_parameters l_optimizer with_optimizer]. rewrite Hk. cbn [train_radial].
  destruct (radial_training_loop rate x y n q0) as [q' e] eqn:E. cbn [fst snd]. intros H. injection H as ->.
  destruct (radial_loop_run rate x y n q0 q' E) as [l Hl]. eexists; exists q', l. split; [reflexivity|]. split; [reflexivity|exact Hl].
Qed.
(** What bagging learns here is what [bag_fit] (C40) learns with the samples drawn
    after each seed. *)
Theorem C92_bagging_fit : forall id n w x y o (p : process), heap p id = Some (ABag o) ->
  snd (perform p (FitBag G id n w x y)) = None ->
  exists b', bag_fit (fun s k => fst (choice k (seeded s))) n w x y (bg o) = Ok b' /\
  heap (fst (perform p (FitBag G id n w x y))) id = Some (ABag {| bg_compiled := bg_compiled o; bg := b'; bg_trained := true |}).
Proof.
  intros id n w x y o p Ho. cbn [Process.perform]. rewrite Ho.
  destruct (store_known G ABag id (fit_bag G seeded choice n w x y o (gen p)) p) as (K1 & K2 & _). rewrite K1, K2.
  unfold fit_bag. destruct (bag_rounds G seeded choice n w x y (bg_compiled o) (bg o) (gen p)) as [[b' g'] e] eqn:E. cbn [fst snd]. intros ->.
  exists b'. split; [exact (bag_rounds_fit G seeded choice n w x y _ _ _ _ _ E)|reflexivity].
Qed.

(** A [fit] that fails on an object that is already trained: the object still counts as
    trained, but its parameters are the fresh ones of the failed call. *)
Theorem C92_failed_fit_loses_the_parameters : forall id d y epochs o c structure f rate ls g (p : process),
  heap p id = Some (ANetwork o) -> l_loaded o = false -> l_trained o = true -> l_initializer o = Instance c -> l_shape o = Some structure ->
  l_optimizer o = Some f -> kind f = Sgd rate -> (0 < epochs)%nat ->
  call_layers G gauss (kind c) (d :: structure) (gen p) = Ok (ls, g) ->
  snd (perform p (FitNetwork G id d [] y epochs)) = Some ValueError /\
  exists o', heap (fst (perform p (FitNetwork G id d [] y epochs))) id = Some (ANetwork o') /\ l_trained o' = true /\ l_parameters o' = Some ls.
Proof.
  intros id d y n o c st f rate ls g p Ho Hl Ht Hi Hs Hf Hk Hn Hc. cbn [Process.perform]. rewrite Ho.
  destruct (store_known G ANetwork id (fit_network G gauss integer d [] y n o (gen p)) p) as (K1 & K2 & _). rewrite K1, K2. clear K1 K2.
  unfold fit_network, start_network. rewrite Hl, Hi, Hs, Hf, Hc. cbn [with_optimizer]. rewrite Hk. cbn [train_network].
  destruct n as [|n]; [lia|]. cbn [sgd_training_loop List.length Nat.eqb fst snd]. split; [reflexivity|]. eexists. split; [reflexivity|]. split; [exact Ht|reflexivity].
Qed.

(** Loading into an object that already has parameters: the layers of the file replace
    the first ones, further layers of the object stay; a new object gets the file. *)
Theorem C92_load_keeps_further_layers : forall id structure f ls o (p : process), heap p id = Some (ANetwork o) ->
  exists o', heap (fst (perform p (LoadNetwork G id structure f ls))) id = Some (ANetwork o') /\ l_loaded o' = true /\
  match l_parameters o with
  | None => l_parameters o' = Some ls
  | Some old => exists further, l_parameters o' = Some (ls ++ further) /\ length (ls ++ further) = Nat.max (length ls) (length old) /\
                  forall i, (length ls <= i < length old)%nat -> nth_error (ls ++ further) i = nth_error old i
  end.
Proof.
  intros id st f ls o p Ho. cbn [Process.perform]. rewrite Ho. cbn [fst]. rewrite put_here. eexists. split; [reflexivity|]. split; [reflexivity|].
  cbn [loaded l_parameters]. unfold over. destruct (l_parameters o) as [old|].
  - exists (skipn (length ls) old). split; [reflexivity|]. split; [rewrite app_length, skipn_length; lia|].
    intros i Hi. rewrite nth_error_app2 by lia. rewrite <- (firstn_skipn (length ls) old) at 2.
    rewrite nth_error_app2; rewrite firstn_length_le by lia; [reflexivity|lia].
  - rewrite skipn_nil, app_nil_r. reflexivity.
Qed.
End Process.

(** * Concrete cases

    A generator that counts: seeding sets the counter, a draw returns it. *)
Definition toy_draw (g : Z) : R * Z := (IZR g, (g + 1)%Z).
Definition toy_row (k : nat) (g : Z) : nat * Z := (Z.to_nat (g mod Z.of_nat k), (g + 1)%Z).
Definition toy_rows (k n : nat) (g : Z) : list nat * Z := (map (fun i => Z.to_nat ((g + Z.of_nat i) mod Z.of_nat k)) (seq 0 n), (g + Z.of_nat n)%Z).
Definition toy_choice (n : nat) (g : Z) : list nat * Z := toy_rows n n g.
Definition toy_permutation (n : nat) (g : Z) : list nat * Z := (rev (seq 0 n), (g + Z.of_nat n)%Z).
Definition toy := performs Z (fun s => s) toy_draw toy_draw toy_row toy_rows toy_choice toy_permutation.
Definition empty (g : Z) : process Z := {| p_gen := g; p_entropy := [17; 23]%Z; p_default := 5; p_heap := fun _ => None |}.
Definition toy_x : list (list R) := [[1]; [2]]%R.
Definition toy_y : list (list R) := [[0]; [1]]%R.
Definition parameters (p : process Z) (id : nat) : option (list layer) :=
  match p_heap Z p id with Some (ANetwork o) => l_parameters o | _ => None end.

(** Seed 3 and seed 4 differ, so the theorems say something: a network that was made
    with seed 3 has the weights of seed 4 if another one was compiled with it. *)
Example C91_seeds_matter :
  parameters (fst (toy (empty 0) [NewNetwork Z 1 (Some 3%Z) NoArg; CompileNetwork Z 1 [1%nat] (ByName "sgd") (ByName "accuracy"); FitNetwork Z 1 1 toy_x toy_y 0])) 1
    = Some [([[3 * 1]], [0])]%R /\
  parameters (fst (toy (empty 9) [NewNetwork Z 1 (Some 3%Z) NoArg; NewClassifier Z 2 None; CompileNetwork Z 1 [1%nat] (ByName "sgd") (ByName "accuracy"); NewBag Z 2; FitNetwork Z 1 1 toy_x toy_y 0])) 1
    = Some [([[3 * 1]], [0])]%R /\
  parameters (fst (toy (empty 0) [NewNetwork Z 1 (Some 3%Z) NoArg; CompileNetwork Z 1 [1%nat] (ByName "sgd") (ByName "accuracy");
      NewNetwork Z 2 (Some 4%Z) (ByName "he_normal"); CompileNetwork Z 2 [2%nat] (ByName "adam") (ByName "accuracy"); FitNetwork Z 1 1 toy_x toy_y 0])) 1
    = Some [([[4 * 1]], [0])]%R.
Proof. repeat split. Qed.
(** The hypotheses of the theorems on compiling again hold, and the second training
    differs from the first (the network draws 4, then 5; the radial one starts again). *)
Example C91_recompile_case :
  snd (toy (empty 0) [NewNetwork Z 1 (Some 3%Z) NoArg; CompileNetwork Z 1 [1%nat] (ByName "sgd") (ByName "accuracy")]) = [None; None] /\
  parameters (fst (toy (empty 0) [NewNetwork Z 1 (Some 3%Z) NoArg; CompileNetwork Z 1 [1%nat] (ByName "sgd") (ByName "accuracy"); FitNetwork Z 1 1 toy_x toy_y 0;
    CompileNetwork Z 1 [1%nat] (ByName "sgd") (ByName "accuracy"); FitNetwork Z 1 1 toy_x toy_y 0])) 1 = Some [([[4 * 1]], [0])]%R /\
  snd (toy (empty 0) [NewRadial Z 1 (Some 3%Z); CompileRadial Z 1 2 (ByName "rbf") (ByName "accuracy")]) = [None; None].
Proof. repeat split. Qed.
(** A seeded script with five kinds of objects takes no entropy. *)
Example C91_script_case : Forall takes_no_entropy
  [NewClassifier Z 1 (Some 3%Z); NewNetwork Z 2 (Some 4%Z) NoArg; CompileNetwork Z 2 [1%nat] (ByName "sgd") (ByName "accuracy"); FitNetwork Z 2 1 toy_x toy_y 3;
   NewBag Z 3; CompileBag Z 3 (Some 8%Z); FitBag Z 3 2 1 toy_x [1; -1]%Z; NewMeans Z 4 2; CompileMeans Z 4 InitRandom 0; FitMeans Z 4 1 toy_x 3;
   Draws Z (fun g => (g + 1)%Z)].
Proof. repeat constructor. Qed.
(** The second seeding takes the second entropy value. *)
Example C91_entropy_case : p_gen Z (fst (toy (empty 0) (repeat (Seed Z None) 2))) = 23%Z.
Proof. reflexivity. Qed.
Example C91_means_case : exists o, p_heap Z (fst (toy (empty 0) [NewMeans Z 4 2; CompileMeans Z 4 InitRandom 0])) 4 = Some (AMeans o) /\
  km_compiled o = Some (InitRandom, 0%R).
Proof. eexists; split; reflexivity. Qed.
(** A classifier (the data of SmoExample) that draws exactly one permutation in its
    first pass. *)
Theorem C91_one_draw_witness : smo_draws Kernels.linear ex_x ex_y 2 (1 / 1000) ex_perms 2 1 = 1%nat.
Proof.
  unfold smo_draws. cbn [run_draws]. change ((1 =? -1)%Z || (0 <? 1)%Z) with true. cbn iota.
  change (List.length ex_x) with 3%nat. rewrite ex_pass. reflexivity.
Qed.
(** Training a bagger: the hypotheses of C91_bagger_repeats_its_members hold. *)
Example C91_bagger_case :
  let p := fst (toy (empty 0) [NewBag Z 1]) in
  (exists o, p_heap Z p 1 = Some (ABag o)) /\
  snd (toy p [CompileBag Z 1 (Some 2%Z); FitBag Z 1 2 1 toy_x [1; -1]%Z]) = [None; None].
Proof. cbn zeta. split; [eexists; reflexivity|]. reflexivity. Qed.
(** Loading, training twice, and training once with all the epochs. *)
Example C92_continue_case :
  let p := fst (toy (empty 0) [NewRegression Z 1 (Some 3%Z) NoArg]) in
  (exists o, p_heap Z p 1 = Some (ARegression o)) /\
  snd (toy p [LoadRegression Z 1 {| kind := GradientDescent (1 / 100); cname := "gradient_descent" |} [1; 2]%R;
              FitRegression Z 1 1 toy_x [0; 1]%Z 1; FitRegression Z 1 1 toy_x [0; 1]%Z 1]) = [None; None; None].
Proof. cbn zeta. split; [eexists; reflexivity|]. reflexivity. Qed.

Print Assumptions C91_script_reproducible.
Print Assumptions C91_network_recipe.
Print Assumptions C91_regression_recipe.
Print Assumptions C91_radial_recipe.
Print Assumptions C91_classifier_recipe.
Print Assumptions C91_last_classifier_decides.
Print Assumptions C91_last_network_decides.
Print Assumptions C91_network_recompile.
Print Assumptions C91_regression_recompile.
Print Assumptions C91_radial_recompile.
Print Assumptions C91_unseeded_classifier_overrides.
Print Assumptions C91_unseeded_network_overrides.
Print Assumptions C91_bagging_ignores_the_generator.
Print Assumptions C91_bagging_resets_the_generator.
Print Assumptions C91_default_baggers_are_equal.
Print Assumptions C91_bagger_repeats_its_members.
Print Assumptions C91_network_draws.
Print Assumptions C91_network_draws_adam.
Print Assumptions C91_classifier_draws.
Print Assumptions C91_entropy_is_used_once.
Print Assumptions C91_means_draws.
Print Assumptions C92_network_starts_afresh.
Print Assumptions C92_regression_starts_afresh.
Print Assumptions C92_radial_starts_afresh.
Print Assumptions C92_loaded_network_continues.
Print Assumptions C92_loaded_regression_continues.
Print Assumptions C92_loaded_radial_continues.
Print Assumptions C92_compile_keeps_what_was_loaded.
Print Assumptions C92_loaded_radial_is_trained.
Print Assumptions C92_bagging_fit.
Print Assumptions C92_failed_fit_loses_the_parameters.
Print Assumptions C92_load_keeps_further_layers.
Print Assumptions C91_one_draw_witness.
