(** Lemmas for programs that share numpy's generator (C91, C92). *)
From Coq Require Import List ZArith Reals Lra Lia Bool Arith String.
From Verif.Model Require Import Base Ops Network Logistic Rbf Smo Svc Stump Ensemble KMeans Training Initializers Process.
From Verif.Spec Require Import Process.
Import ListNotations.
Local Notation length := List.length.

Section Process.
Variable G : Type.
Variable seeded : Z -> G.
Variable gauss : G -> R * G.
Variable uniform : G -> R * G.
Variable integer : nat -> G -> nat * G.
Variable integers : nat -> nat -> G -> list nat * G.
Variable choice : nat -> G -> list nat * G.
Variable permutation : nat -> G -> list nat * G.
Local Notation perform := (perform G seeded gauss uniform integer integers choice permutation).
Local Notation performs := (performs G seeded gauss uniform integer integers choice permutation).
Local Notation process := (process G).
Local Notation heap := (p_heap G).
Local Notation gen := (p_gen G).

Definition same (p q : process) : Prop := gen p = gen q /\ forall id, heap p id = heap q id.

Lemma performs_app p a b : performs p (a ++ b) =
  (fst (performs (fst (performs p a)) b), snd (performs p a) ++ snd (performs (fst (performs p a)) b)).
Proof.
  revert p. induction a as [|c a IH]; intros p.
  - cbn. now destruct (performs p b).
  - cbn. destruct (perform p c) as [p1 e]. rewrite IH. destruct (performs p1 a) as [p2 es]. cbn. reflexivity.
Qed.
Lemma performs_fst_app p a b : fst (performs p (a ++ b)) = fst (performs (fst (performs p a)) b).
Proof. now rewrite performs_app. Qed.
Lemma performs_cons p c cs : performs p (c :: cs) = (fst (performs (fst (perform p c)) cs), snd (perform p c) :: snd (performs (fst (perform p c)) cs)).
Proof. cbn. destruct (perform p c) as [p1 e]. cbn. now destruct (performs p1 cs). Qed.

(** ** What a call leaves alone *)
Lemma heap_put id o (p : process) j : heap (put G id o p) j = if (j =? id)%nat then Some o else heap p j.
Proof. reflexivity. Qed.
Lemma put_here id o (p : process) : heap (put G id o p) id = Some o.
Proof. rewrite heap_put. now rewrite Nat.eqb_refl. Qed.
Lemma np_seed_heap s (p : process) j : heap (fst (np_seed G seeded s p)) j = heap p j.
Proof. destruct s; cbn; [destruct (seed_ok z)|]; reflexivity. Qed.
Lemma take_heap a s (p : process) j : heap (fst (take_initializer G seeded a s p)) j = heap p j.
Proof.
  unfold take_initializer. pose proof (np_seed_heap s p j) as H.
  destruct a; cbn [get_initializer];
    repeat (match goal with |- context [if ?b then _ else _] => destruct b end);
    try (destruct (np_seed G seeded s p) as [p' [e|]]; exact H); reflexivity.
Qed.
Lemma compile_elsewhere {S P} (w : learner S P -> object) id o sh i opt m (p : process) j : j <> id ->
  heap (fst (compile_learner G seeded w id o sh i opt m p)) j = heap p j.
Proof.
  intros Hj. unfold compile_learner. pose proof (take_heap i (l_seed o) p j) as H.
  destruct (take_initializer G seeded i (l_seed o) p) as [p1 [c|e]]; cbn [fst] in H.
  - destruct (get_optimizer opt); cbn [fst]; rewrite heap_put; destruct (Nat.eqb_spec j id); congruence.
  - cbn [fst]; rewrite heap_put; destruct (Nat.eqb_spec j id); congruence.
Qed.
Lemma perform_elsewhere id c (p : process) : elsewhere id c -> heap (fst (perform p c)) id = heap p id.
Proof.
  unfold elsewhere. intros H.
  assert (P : forall j o q, heap q id = heap p id -> Some j <> Some id -> heap (put G j o q) id = heap p id).
  { intros j o q Hq Hj. rewrite heap_put. destruct (Nat.eqb_spec id j); congruence. }
  assert (T : forall (A : Type) (w : A -> object) j (r : A * G * option err), Some j <> Some id -> heap (fst (store_fit G w j r p)) id = heap p id).
  { intros A w j [[o g] e] Hj. cbn. destruct (Nat.eqb_spec id j); congruence. }
  destruct c; cbn [target] in H; cbn [Process.perform];
    try (cbn [fst]; now apply P);
    try (apply np_seed_heap);
    try reflexivity;
    try (destruct (heap p id0) as [[]|]; cbn [fst]; try reflexivity; try (now apply P); try (now apply T); apply compile_elsewhere; congruence).
  pose proof (np_seed_heap seed p id) as Hs. destruct (np_seed G seeded seed p) as [p' [e|]]; cbn [fst] in *; [exact Hs|now apply P].
Qed.
Lemma performs_elsewhere id cs (p : process) : Forall (elsewhere id) cs -> heap (fst (performs p cs)) id = heap p id.
Proof.
  intros H. revert p. induction H as [|c cs Hc Hcs IH]; intros p; [reflexivity|].
  rewrite performs_cons. cbn [fst]. rewrite IH. now apply perform_elsewhere.
Qed.
Lemma perform_quiet c (p : process) : leaves_generator c -> gen (fst (perform p c)) = gen p.
Proof.
  destruct c; cbn [leaves_generator]; intros H; try contradiction; cbn [Process.perform]; try reflexivity;
    destruct (heap p id) as [[]|]; reflexivity.
Qed.
Lemma performs_quiet cs (p : process) : Forall leaves_generator cs -> gen (fst (performs p cs)) = gen p.
Proof.
  intros H. revert p. induction H as [|c cs Hc Hcs IH]; intros p; [reflexivity|].
  rewrite performs_cons. cbn [fst]. rewrite IH. now apply perform_quiet.
Qed.

(** ** Programs without entropy *)
Definition fixed {S P} (o : learner S P) : Prop := l_seed o <> None \/ exists c, l_initializer o = Instance c.
Definition fixed_object (o : object) : Prop :=
  match o with ANetwork o => fixed o | ARegression o => fixed o | ARadial o => l_seed o <> None | _ => True end.
Definition fixed_heap (p : process) : Prop := forall id o, heap p id = Some o -> fixed_object o.

Lemma same_refl p : same p p. Proof. split; reflexivity. Qed.
Lemma same_put p q id o : same p q -> same (put G id o p) (put G id o q).
Proof. intros [Hg Hh]. split; [exact Hg|]. intros j. rewrite !heap_put. now rewrite Hh. Qed.
Lemma same_set_gen p q g : same p q -> same (set_gen G g p) (set_gen G g q).
Proof. intros [Hg Hh]. split; [reflexivity|exact Hh]. Qed.
Lemma same_np_seed p q z : same p q ->
  same (fst (np_seed G seeded (Some z) p)) (fst (np_seed G seeded (Some z) q)) /\ snd (np_seed G seeded (Some z) p) = snd (np_seed G seeded (Some z) q).
Proof. intros H. cbn. destruct (seed_ok z); cbn; split; auto. now apply same_set_gen. Qed.
Lemma take_instance c s p : take_initializer G seeded (Instance c) s p = (p, Ok c).
Proof. reflexivity. Qed.
Lemma take_built a s (p : process) : to_be_built a -> take_initializer G seeded a s p =
  match get_initializer a s with
  | Err e => (p, Err e)
  | Ok c => match np_seed G seeded s p with (p', None) => (p', Ok c) | (p', Some e) => (p', Err e) end
  end.
Proof. destruct a; cbn [to_be_built]; intros H; [reflexivity|contradiction|reflexivity|reflexivity]. Qed.
Lemma same_take a s p q : same p q -> (s <> None \/ exists c, a = Instance c) ->
  same (fst (take_initializer G seeded a s p)) (fst (take_initializer G seeded a s q)) /\
  snd (take_initializer G seeded a s p) = snd (take_initializer G seeded a s q).
Proof.
  intros H Hs. assert (D : to_be_built a \/ exists c, a = Instance c) by (destruct a; cbn; eauto).
  destruct D as [D|[c ->]]; [|rewrite !take_instance; split; [exact H|reflexivity]].
  rewrite !take_built by exact D. destruct (get_initializer a s); [|split; [exact H|reflexivity]].
  destruct s as [z|]; [|destruct Hs as [Hs|[c Hs]]; [congruence|subst a; contradiction]].
  destruct (same_np_seed p q z H) as [H1 H2]. destruct (np_seed G seeded (Some z) p) as [p' [e|]], (np_seed G seeded (Some z) q) as [q' [e'|]]; cbn in *; split; congruence || exact H1.
Qed.
Lemma same_compile {S P} (w : learner S P -> object) id o sh i opt m p q : same p q -> (l_seed o <> None \/ exists c, i = Instance c) ->
  same (fst (compile_learner G seeded w id o sh i opt m p)) (fst (compile_learner G seeded w id o sh i opt m q)) /\
  snd (compile_learner G seeded w id o sh i opt m p) = snd (compile_learner G seeded w id o sh i opt m q).
Proof.
  intros H Hs. unfold compile_learner. destruct (same_take i (l_seed o) p q H Hs) as [H1 H2].
  destruct (take_initializer G seeded i (l_seed o) p) as [p1 [c|e]], (take_initializer G seeded i (l_seed o) q) as [q1 [c'|e']];
    cbn [fst snd] in *; try discriminate; injection H2 as ->.
  - destruct (get_optimizer opt); cbn [fst snd]; split; try reflexivity; now apply same_put.
  - cbn [fst snd]. split; [now apply same_put|reflexivity].
Qed.
Lemma same_store {A} (w : A -> object) id r p q : same p q ->
  same (fst (store_fit G w id r p)) (fst (store_fit G w id r q)) /\ snd (store_fit G w id r p) = snd (store_fit G w id r q).
Proof. intros H. destruct r as [[o g] e]. cbn. split; [|reflexivity]. now apply same_put, same_set_gen. Qed.

Lemma perform_same c p q : same p q -> fixed_heap p -> takes_no_entropy c ->
  same (fst (perform p c)) (fst (perform q c)) /\ snd (perform p c) = snd (perform q c).
Proof.
  intros H F Hc. pose proof H as [Hg Hh].
  destruct c; cbn [takes_no_entropy] in Hc; cbn [Process.perform];
    try (split; [now apply same_put|reflexivity]);
    try (rewrite <- Hh; destruct (heap p id) as [[]|] eqn:E; cbn [fst snd]; try (split; [exact H|reflexivity]);
         first [split; [now apply same_put|reflexivity] | rewrite <- Hg; now apply same_store | apply same_compile; [exact H|]; exact (F _ _ E) | idtac]).
  - destruct seed as [z|]; [|contradiction]. destruct (same_np_seed p q z H) as [H1 H2].
    destruct (np_seed G seeded (Some z) p) as [p' [e|]], (np_seed G seeded (Some z) q) as [q' [e'|]]; cbn [fst snd] in *; try discriminate; split; auto. now apply same_put.
  - apply same_compile; [exact H|]. left. exact (F _ _ E).
  - destruct seed as [z|]; [|contradiction]. cbn [fst snd]. split; [now apply same_put|reflexivity].
  - destruct seed as [z|]; [|contradiction]. now apply same_np_seed.
  - destruct seed as [z|]; [|contradiction]. now apply same_np_seed.
  - cbn [fst snd]. split; [|reflexivity]. rewrite Hg. now apply same_set_gen.
Qed.

Lemma fixed_put id o p : fixed_heap p -> fixed_object o -> fixed_heap (put G id o p).
Proof. intros F Ho j o' Hj. rewrite heap_put in Hj. destruct (Nat.eqb_spec j id); [injection Hj as <-; exact Ho|exact (F _ _ Hj)]. Qed.
Lemma fixed_gen g p : fixed_heap p -> fixed_heap (set_gen G g p).
Proof. intros F j o Hj. exact (F j o Hj). Qed.
Lemma fixed_np_seed s p : fixed_heap p -> fixed_heap (fst (np_seed G seeded s p)).
Proof. intros F j o Hj. rewrite np_seed_heap in Hj. exact (F j o Hj). Qed.
Lemma fixed_take a s p : fixed_heap p -> fixed_heap (fst (take_initializer G seeded a s p)).
Proof. intros F j o Hj. rewrite take_heap in Hj. exact (F j o Hj). Qed.

Lemma fixed_compile {S P} (w : learner S P -> object) (fx : learner S P -> Prop) id o sh i opt m p :
  (forall l, fixed_object (w l) <-> fx l) ->
  (forall l c, l_seed l = l_seed o -> l_initializer l = Instance c -> fx l) ->
  (forall l, l_seed l = l_seed o -> l_initializer l = l_initializer o -> fx l) ->
  fixed_heap p -> fixed_heap (fst (compile_learner G seeded w id o sh i opt m p)).
Proof.
  intros Hw Hi Ho F. unfold compile_learner. pose proof (fixed_take i (l_seed o) p F) as F1.
  destruct (take_initializer G seeded i (l_seed o) p) as [p1 [c|e]]; cbn [fst] in F1.
  - destruct (get_optimizer opt); cbn [fst]; apply fixed_put; auto; apply Hw; eapply Hi; reflexivity.
  - cbn [fst]. apply fixed_put; auto. apply Hw. now apply Ho.
Qed.
Lemma after_fixed {S P} (o : learner S P) q e : fixed o -> fixed (after_training o q e).
Proof. exact (fun H => H). Qed.
Lemma fit_network_fields d x y n o g : let o' := fst (fst (fit_network G gauss integer d x y n o g)) in
  l_seed o' = l_seed o /\ l_initializer o' = l_initializer o /\ l_shape o' = l_shape o /\ l_optimizer o' = l_optimizer o /\ l_loaded o' = l_loaded o.
Proof.
  unfold fit_network. destruct (start_network G gauss d o g) as [[ls g1]|e]; cbn; [|auto].
  destruct (with_optimizer (l_optimizer o) (ls, g1, Some TypeError) (fun f => train_network G integer f x y n ls g1)) as [[ls' g2] e]. cbn. auto.
Qed.
Lemma fit_regression_fields d x y n o g : let o' := fst (fst (fit_regression G gauss d x y n o g)) in
  l_seed o' = l_seed o /\ l_initializer o' = l_initializer o /\ l_shape o' = l_shape o /\ l_optimizer o' = l_optimizer o /\ l_loaded o' = l_loaded o.
Proof.
  unfold fit_regression. destruct (start_regression G gauss d o g) as [[b g1]|e]; cbn; [|auto].
  destruct (with_optimizer (l_optimizer o) (b, Some TypeError) (fun f => train_regression f d x y n b)) as [b' e]. cbn. auto.
Qed.
Lemma fit_radial_fields x y n o g : let o' := fst (fst (fit_radial G gauss uniform x y n o g)) in
  l_seed o' = l_seed o /\ l_initializer o' = l_initializer o /\ l_shape o' = l_shape o /\ l_optimizer o' = l_optimizer o /\ l_loaded o' = l_loaded o.
Proof.
  unfold fit_radial. destruct (start_radial G gauss uniform o g) as [[b g1]|e]; cbn; [|auto].
  destruct (with_optimizer (l_optimizer o) (b, Some TypeError) (fun f => train_radial f x y n b)) as [b' e]. cbn. auto.
Qed.
Lemma fixed_store {A} (w : A -> object) id r p : fixed_heap p -> fixed_object (w (fst (fst r))) -> fixed_heap (fst (store_fit G w id r p)).
Proof. intros F Ho. destruct r as [[o g] e]. cbn. apply fixed_put; [now apply fixed_gen|exact Ho]. Qed.

Lemma perform_fixed c p : fixed_heap p -> takes_no_entropy c -> fixed_heap (fst (perform p c)).
Proof.
  intros F Hc.
  assert (FL : forall S P (o : learner S P) l, fixed o -> l_seed l = l_seed o -> l_initializer l = l_initializer o -> @fixed S P l).
  { intros S P o l H E1 E2. unfold fixed in *. now rewrite E1, E2. }
  destruct c; cbn [takes_no_entropy] in Hc; cbn [Process.perform];
    try (cbn [fst]; apply fixed_put; [exact F|]);
    try (apply fixed_np_seed, F);
    try (destruct (heap p id) as [[]|] eqn:E; try exact F; pose proof (F _ _ E) as Fo; cbn [fixed_object] in Fo; cbn [fst];
         first [apply fixed_put; [exact F|exact I] | apply fixed_store; [exact F|exact I] | idtac]).
  - unfold fixed_object, fixed, new_learner; cbn. destruct seed; [left; discriminate|]. destruct i; try contradiction. right. eauto.
  - unfold fixed_object, fixed, new_learner; cbn. destruct seed; [left; discriminate|]. destruct i; try contradiction. right. eauto.
  - cbn. destruct seed; [discriminate|contradiction].
  - pose proof (fixed_np_seed seed p F) as H. destruct (np_seed G seeded seed p) as [p' [e|]]; cbn [fst] in *; [exact H|]. now apply fixed_put.
  - exact I.
  - exact I.
  - apply (fixed_compile ANetwork fixed); auto; [reflexivity|intros l c _ El; right; eauto|intros l; apply FL; exact Fo].
  - apply (fixed_compile ARegression fixed); auto; [reflexivity|intros l c _ El; right; eauto|intros l; apply FL; exact Fo].
  - apply (fixed_compile ARadial (fun l => l_seed l <> None)); auto; [reflexivity|congruence|congruence].
  - apply fixed_put; [exact F|]. exact Fo.
  - apply fixed_put; [exact F|]. exact Fo.
  - apply fixed_put; [exact F|]. exact Fo.
  - apply fixed_store; [exact F|]. destruct (fit_network_fields d x y epochs o (gen p)) as (E1 & E2 & _). eapply FL; [exact Fo|exact E1|exact E2].
  - apply fixed_store; [exact F|]. destruct (fit_regression_fields d x y epochs o (gen p)) as (E1 & E2 & _). eapply FL; [exact Fo|exact E1|exact E2].
  - apply fixed_store; [exact F|]. destruct (fit_radial_fields x y epochs o (gen p)) as (E1 & _). cbn [fixed_object]. now rewrite E1.
  - apply fixed_gen, F.
Qed.
Lemma performs_same cs p q : same p q -> fixed_heap p -> Forall takes_no_entropy cs ->
  same (fst (performs p cs)) (fst (performs q cs)) /\ snd (performs p cs) = snd (performs q cs).
Proof.
  intros H F Hc. revert p q H F. induction Hc as [|c cs Hc Hcs IH]; intros p q H F; [split; [exact H|reflexivity]|].
  rewrite !performs_cons. cbn [fst snd]. destruct (perform_same c p q H F Hc) as [H1 H2].
  destruct (IH _ _ H1 (perform_fixed c p F Hc)) as [H3 H4]. split; [exact H3|congruence].
Qed.

(** ** Compiling with a seed of one's own *)
Lemma compile_known {S P} (w : learner S P -> object) id o sh i opt m p q s : to_be_built i -> l_seed o = Some s ->
  let p' := fst (compile_learner G seeded w id o sh i opt m p) in
  let q' := fst (compile_learner G seeded w id o sh i opt m q) in
  snd (compile_learner G seeded w id o sh i opt m p) = snd (compile_learner G seeded w id o sh i opt m q) /\
  exists o', heap p' id = Some (w o') /\ heap q' id = Some (w o') /\ l_loaded o' = l_loaded o /\
    (gen p' = gen q' \/ l_initializer o' = l_initializer o).
Proof.
  intros Hi Hs. unfold compile_learner. rewrite !take_built by exact Hi. rewrite Hs. cbn [np_seed].
  destruct (get_initializer i (Some s)) as [c|e].
  - destruct (seed_ok s).
    + destruct (get_optimizer opt); cbn [fst snd]; (split; [reflexivity|]); eexists; rewrite !heap_put, Nat.eqb_refl; (split; [reflexivity|]); (split; [reflexivity|]); (split; [reflexivity|]); left; reflexivity.
    + cbn [fst snd]. split; [reflexivity|]. eexists. rewrite !heap_put, Nat.eqb_refl. split; [reflexivity|]. split; [reflexivity|]. split; [reflexivity|]. right. reflexivity.
  - cbn [fst snd]. split; [reflexivity|]. eexists. rewrite !heap_put, Nat.eqb_refl. split; [reflexivity|]. split; [reflexivity|]. split; [reflexivity|]. right. reflexivity.
Qed.
Lemma store_known {A} (w : A -> object) id r p : heap (fst (store_fit G w id r p)) id = Some (w (fst (fst r))) /\ snd (store_fit G w id r p) = snd r /\
  gen (fst (store_fit G w id r p)) = snd (fst r).
Proof. destruct r as [[o g] e]. cbn. now rewrite Nat.eqb_refl. Qed.
Lemma start_network_unbuilt d x y n (o : network) g g' : l_loaded o = false -> to_be_built (l_initializer o) ->
  fst (fst (fit_network G gauss integer d x y n o g)) = fst (fst (fit_network G gauss integer d x y n o g')) /\
  snd (fit_network G gauss integer d x y n o g) = snd (fit_network G gauss integer d x y n o g').
Proof.
  intros Hl Hi. unfold fit_network, start_network. rewrite Hl. destruct (l_shape o); [|split; reflexivity].
  destruct (l_initializer o); try contradiction; split; reflexivity.
Qed.
Lemma start_regression_unbuilt d x y n (o : regression) g g' : l_loaded o = false -> to_be_built (l_initializer o) ->
  fst (fst (fit_regression G gauss d x y n o g)) = fst (fst (fit_regression G gauss d x y n o g')) /\
  snd (fit_regression G gauss d x y n o g) = snd (fit_regression G gauss d x y n o g').
Proof.
  intros Hl Hi. unfold fit_regression, start_regression. rewrite Hl.
  destruct (l_initializer o); try contradiction; split; reflexivity.
Qed.
Lemma start_radial_unbuilt x y n (o : radial) g g' : l_loaded o = false -> to_be_built (l_initializer o) ->
  fst (fst (fit_radial G gauss uniform x y n o g)) = fst (fst (fit_radial G gauss uniform x y n o g')) /\
  snd (fit_radial G gauss uniform x y n o g) = snd (fit_radial G gauss uniform x y n o g').
Proof.
  intros Hl Hi. unfold fit_radial, start_radial. rewrite Hl.
  destruct (l_initializer o); try contradiction; split; reflexivity.
Qed.

(** The general recipe: a learner made with a seed, compiled and trained. *)
Lemma recipe {S P} (w : learner S P -> object) id (new fitc : call G) compc s i sh0 whose opt m
  (fitf : learner S P -> G -> learner S P * G * option err) :
  (forall p, perform p new = (put G id (w (new_learner (Some s) i)) p, None)) ->
  (forall p o, heap p id = Some (w o) -> perform p compc = compile_learner G seeded w id o (sh0 o) (whose o) opt m p) ->
  (forall p o, heap p id = Some (w o) -> perform p fitc = store_fit G w id (fitf o (gen p)) p) ->
  (forall o g g', l_loaded o = false -> to_be_built (l_initializer o) -> fst (fst (fitf o g)) = fst (fst (fitf o g')) /\ snd (fitf o g) = snd (fitf o g')) ->
  to_be_built i -> to_be_built (whose (new_learner (Some s) i)) ->
  forall p q before between, Forall (elsewhere id) before -> Forall (elsewhere id) between -> Forall leaves_generator between ->
  let a := performs p (new :: before ++ compc :: between ++ [fitc]) in
  let b := performs q [new; compc; fitc] in
  heap (fst a) id = heap (fst b) id /\
  last (snd a) None = last (snd b) None.
Proof.
  intros Hn Hc Hf Hu Hi Hw p q before between Eb Ee Lg a b. subst a b.
  set (o0 := new_learner (Some s) i : learner S P) in *.
  set (p1 := fst (performs (put G id (w o0) p) before)).
  assert (H1 : heap p1 id = Some (w o0)). { unfold p1. rewrite performs_elsewhere by exact Eb. cbn. now rewrite Nat.eqb_refl. }
  set (q1 := put G id (w o0) q). assert (H1' : heap q1 id = Some (w o0)) by (cbn; now rewrite Nat.eqb_refl).
  destruct (compile_known w id o0 (sh0 o0) (whose o0) opt m p1 q1 s Hw eq_refl) as (E2 & o' & Ho & Ho' & Hl & Hg).
  set (p2 := fst (compile_learner G seeded w id o0 (sh0 o0) (whose o0) opt m p1)) in *.
  set (q2 := fst (compile_learner G seeded w id o0 (sh0 o0) (whose o0) opt m q1)) in *.
  set (p3 := fst (performs p2 between)).
  assert (H3 : heap p3 id = Some (w o')). { unfold p3. rewrite performs_elsewhere by exact Ee. exact Ho. }
  assert (G3 : gen p3 = gen p2) by (unfold p3; now apply performs_quiet).
  assert (Fa : performs p (new :: before ++ compc :: between ++ [fitc]) =
     (fst (perform p3 fitc), (None :: snd (performs (put G id (w o0) p) before) ++ snd (perform p1 compc) :: snd (performs p2 between) ++ [snd (perform p3 fitc)]))).
  { rewrite performs_cons, Hn. cbn [fst snd]. rewrite performs_app. cbn [fst snd]. fold p1. rewrite performs_cons. cbn [fst snd].
    rewrite (Hc p1 o0 H1). fold p2. rewrite performs_app. cbn [fst snd]. fold p3. rewrite performs_cons. reflexivity. }
  assert (Fb : performs q [new; compc; fitc] = (fst (perform q2 fitc), [None; snd (perform q1 compc); snd (perform q2 fitc)])).
  { rewrite performs_cons, Hn. cbn [fst snd]. fold q1. rewrite performs_cons. rewrite (Hc q1 o0 H1'). fold q2. cbn [fst snd]. rewrite performs_cons. reflexivity. }
  rewrite Fa, Fb. cbn [fst snd].
  assert (L : last (None :: snd (performs (put G id (w o0) p) before) ++ snd (perform p1 compc) :: snd (performs p2 between) ++ [snd (perform p3 fitc)]) None = snd (perform p3 fitc)).
  { rewrite app_comm_cons. rewrite app_comm_cons, app_assoc. now rewrite last_last. }
  rewrite L. cbn [last]. rewrite (Hf p3 o' H3), (Hf q2 o' Ho').
  destruct (store_known w id (fitf o' (gen p3)) p3) as (K1 & K2 & _). destruct (store_known w id (fitf o' (gen q2)) q2) as (K3 & K4 & _).
  rewrite K1, K2, K3, K4. destruct Hg as [Hg|Hg].
  - rewrite G3, Hg. split; reflexivity.
  - destruct (Hu o' (gen p3) (gen q2)) as [U1 U2]; [now rewrite Hl|rewrite Hg; exact Hi|]. rewrite U1, U2. split; reflexivity.
Qed.

(** ** A call sees its own object and the generator *)
Definition own (c : call G) : Prop :=
  match c with
  | FitNetwork _ _ _ _ _ _ | FitRegression _ _ _ _ _ _ | FitRadial _ _ _ _ _ | FitClassifier _ _ _ _ _ _ _ | FitBag _ _ _ _ _ _ | FitMeans _ _ _ _ _
  | CompileClassifier _ _ _ _ _ _ | CompileMeans _ _ _ _ => True
  | _ => False
  end.
Lemma own_local c id p q : own c -> target c = Some id -> heap p id = heap q id -> gen p = gen q ->
  heap (fst (perform p c)) id = heap (fst (perform q c)) id /\ gen (fst (perform p c)) = gen (fst (perform q c)) /\
  snd (perform p c) = snd (perform q c).
Proof.
  intros Ho Ht Hh Hg.
  assert (T : forall (A : Type) (w : A -> object) (r : A * G * option err),
    heap (fst (store_fit G w id r p)) id = heap (fst (store_fit G w id r q)) id /\
    gen (fst (store_fit G w id r p)) = gen (fst (store_fit G w id r q)) /\ snd (store_fit G w id r p) = snd (store_fit G w id r q)).
  { intros A w [[o g] e]. cbn. rewrite Nat.eqb_refl. auto. }
  destruct c; cbn [own] in Ho; try contradiction; cbn [target] in Ht; injection Ht as ->; cbn [Process.perform]; rewrite <- Hh, <- ?Hg;
    destruct (heap p id) as [[]|] eqn:E; try apply T; cbn; rewrite ?Nat.eqb_refl, ?E; auto.
Qed.

(** ** The support vector classifier *)
Lemma new_classifier_known id s p : seed_ok s = true ->
  perform p (NewClassifier G id (Some s)) = (put G id (AClassifier new_classifier) (set_gen G (seeded s) p), None).
Proof. intros H. cbn. now rewrite H. Qed.
Lemma classifier_recipe id s C k gamma tol d x y fuel n : seed_ok s = true ->
  forall p q before between, Forall (elsewhere id) before -> Forall leaves_generator before ->
  Forall (elsewhere id) between -> Forall leaves_generator between ->
  let new := NewClassifier G id (Some s) in
  let compc := CompileClassifier G id C k gamma tol in
  let fitc := FitClassifier G id d x y fuel n in
  let a := performs p (new :: before ++ compc :: between ++ [fitc]) in
  let b := performs q [new; compc; fitc] in
  heap (fst a) id = heap (fst b) id /\ gen (fst a) = gen (fst b) /\ last (snd a) None = last (snd b) None.
Proof.
  intros Hs p q before between E1 L1 E2 L2 new compc fitc a b. subst a b.
  rewrite !performs_cons, performs_app. unfold new. rewrite !new_classifier_known by exact Hs. cbn [fst snd].
  set (p0 := put G id (AClassifier new_classifier) (set_gen G (seeded s) p)). set (q0 := put G id (AClassifier new_classifier) (set_gen G (seeded s) q)).
  rewrite performs_cons, performs_app. cbn [fst snd].
  set (p1 := fst (performs p0 before)).
  assert (H1 : heap p1 id = heap q0 id). { unfold p1. rewrite performs_elsewhere by exact E1. cbn. now rewrite Nat.eqb_refl. }
  assert (G1 : gen p1 = gen q0). { unfold p1. rewrite performs_quiet by exact L1. reflexivity. }
  destruct (own_local compc id p1 q0 I eq_refl H1 G1) as (H2 & G2 & S2).
  set (p2 := fst (perform p1 compc)) in *. set (q2 := fst (perform q0 compc)) in *.
  set (p3 := fst (performs p2 between)).
  assert (H3 : heap p3 id = heap q2 id). { unfold p3. rewrite performs_elsewhere by exact E2. exact H2. }
  assert (G3 : gen p3 = gen q2). { unfold p3. rewrite performs_quiet by exact L2. exact G2. }
  destruct (own_local fitc id p3 q2 I eq_refl H3 G3) as (H4 & G4 & S4).
  rewrite !performs_cons. fold q2. cbn [fst snd Process.performs].
  split; [exact H4|]. split; [exact G4|].
  rewrite app_comm_cons. rewrite app_comm_cons, app_assoc, last_last. exact S4.
Qed.
(** The seed of the classifier that was made last decides. *)
Lemma classifier_last_seed a b s1 s2 C k gamma tol d x y fuel n : a <> b -> seed_ok s1 = true -> seed_ok s2 = true ->
  forall p q,
  heap (fst (performs p [NewClassifier G a (Some s1); NewClassifier G b (Some s2); CompileClassifier G a C k gamma tol; FitClassifier G a d x y fuel n])) a =
  heap (fst (performs q [NewClassifier G a (Some s2); CompileClassifier G a C k gamma tol; FitClassifier G a d x y fuel n])) a.
Proof.
  intros Hab H1 H2 p q. rewrite !performs_cons. rewrite !new_classifier_known by assumption. cbn [fst snd].
  set (p1 := put G b _ _). set (q1 := put G a _ (set_gen G (seeded s2) q)).
  assert (Hh : heap p1 a = heap q1 a). { unfold p1, q1. cbn. rewrite Nat.eqb_refl. destruct (Nat.eqb_spec a b); congruence. }
  destruct (own_local (CompileClassifier G a C k gamma tol) a p1 q1 I eq_refl Hh eq_refl) as (H3 & G3 & _).
  destruct (own_local (FitClassifier G a d x y fuel n) a _ _ I eq_refl H3 G3) as (H4 & _). exact H4.
Qed.
(** Entropy replaces whatever was seeded before. *)
Lemma np_seed_none_forgets s p : snd (np_seed G seeded s p) = None -> s <> None ->
  np_seed G seeded None (fst (np_seed G seeded s p)) = np_seed G seeded None p.
Proof. destruct s as [z|]; [|congruence]. cbn. destruct (seed_ok z); reflexivity. Qed.

(** ** Compiling that succeeds *)
Definition compiled {S P} (o : learner S P) (sh : option S) (c : component (initializer_kind (option Z))) (f : component optimizer_kind) : learner S P :=
  {| l_seed := l_seed o; l_initializer := Instance c; l_shape := sh; l_optimizer := Some f;
     l_parameters := l_parameters o; l_trained := l_trained o; l_loaded := l_loaded o |}.
Lemma compile_built {S P} (w : learner S P -> object) id o sh i opt m p s c f : to_be_built i -> l_seed o = Some s -> seed_ok s = true ->
  get_initializer i (Some s) = Ok c -> get_optimizer opt = Ok f ->
  fst (compile_learner G seeded w id o sh i opt m p) = put G id (w (compiled o sh c f)) (set_gen G (seeded s) p).
Proof.
  intros Hi Hs Ho Hc Hf. unfold compile_learner. rewrite take_built by exact Hi. rewrite Hs, Hc. cbn [np_seed]. rewrite Ho, Hf. unfold compiled. rewrite Hs. reflexivity.
Qed.
Lemma compile_instance {S P} (w : learner S P -> object) id o sh c opt m p f : get_optimizer opt = Ok f ->
  fst (compile_learner G seeded w id o sh (Instance c) opt m p) = put G id (w (compiled o sh c f)) p.
Proof. intros Hf. unfold compile_learner. cbn [take_initializer]. rewrite Hf. reflexivity. Qed.

(** Without exception the compile call built or took an initializer. *)
Lemma compile_success {S P} (w : learner S P -> object) id o sh i opt m p p' : compile_learner G seeded w id o sh i opt m p = (p', None) ->
  exists c f, get_optimizer opt = Ok f /\ get_initializer i (l_seed o) = Ok c /\ p' = put G id (w (compiled o sh c f)) (fst (take_initializer G seeded i (l_seed o) p)) /\
    snd (take_initializer G seeded i (l_seed o) p) = Ok c /\ exists r, get_metric m = Ok r.
Proof.
  unfold compile_learner. destruct (take_initializer G seeded i (l_seed o) p) as [p1 [c|e]] eqn:E; [|discriminate].
  destruct (get_optimizer opt) as [f|e]; [|discriminate]. destruct (get_metric m) as [r|e]; [|discriminate]. intros H. injection H as <-.
  exists c, f. split; [reflexivity|].
  assert (Hc : get_initializer i (l_seed o) = Ok c).
  { unfold take_initializer in E. destruct i; cbn [get_initializer] in *;
      repeat (match goal with |- context [if ?b then _ else _] => destruct b end);
      try (destruct (np_seed G seeded (l_seed o) p) as [? [?|]]; congruence); congruence. }
  split; [exact Hc|]. split; [reflexivity|]. split; [reflexivity|]. eauto.
Qed.
Lemma call_layers_class i s1 s2 c1 c2 st g : to_be_built i -> get_initializer i s1 = Ok c1 -> get_initializer i s2 = Ok c2 ->
  call_layers G gauss (kind c1) st g = call_layers G gauss (kind c2) st g.
Proof.
  intros Hi. destruct i; cbn [get_initializer to_be_built] in *; try contradiction; try discriminate;
    repeat (match goal with |- context [if ?b then _ else _] => destruct b end); intros H1 H2; try discriminate; injection H1 as <-; injection H2 as <-; reflexivity.
Qed.
Lemma call_vector_class i s1 s2 c1 c2 d g : to_be_built i -> get_initializer i s1 = Ok c1 -> get_initializer i s2 = Ok c2 ->
  call_vector G gauss (kind c1) d g = call_vector G gauss (kind c2) d g.
Proof.
  intros Hi. destruct i; cbn [get_initializer to_be_built] in *; try contradiction; try discriminate;
    repeat (match goal with |- context [if ?b then _ else _] => destruct b end); intros H1 H2; try discriminate; injection H1 as <-; injection H2 as <-; reflexivity.
Qed.

(** The seed of the network that was compiled last decides. *)
Lemma network_last_seed a b s1 s2 i j st st' opt opt' m m' d x y n c c2 cb f f' : a <> b -> seed_ok s1 = true -> seed_ok s2 = true ->
  to_be_built i -> to_be_built j -> get_initializer i (Some s1) = Ok c -> get_initializer i (Some s2) = Ok c2 -> get_initializer j (Some s2) = Ok cb ->
  get_optimizer opt = Ok f -> get_optimizer opt' = Ok f' ->
  forall p q, exists oa ob,
  heap (fst (performs p [NewNetwork G a (Some s1) i; CompileNetwork G a st opt m; NewNetwork G b (Some s2) j; CompileNetwork G b st' opt' m'; FitNetwork G a d x y n])) a = Some (ANetwork oa) /\
  heap (fst (performs q [NewNetwork G a (Some s2) i; CompileNetwork G a st opt m; FitNetwork G a d x y n])) a = Some (ANetwork ob) /\
  l_parameters oa = l_parameters ob /\ l_trained oa = l_trained ob.
Proof.
  intros Hab H1 H2 Hi Hj C1 C2 C3 F1 F2 p q. rewrite !performs_cons. cbn [Process.perform fst snd].
  rewrite !heap_put, !Nat.eqb_refl. cbn [l_initializer new_learner].
  rewrite (compile_built ANetwork a (new_learner (Some s1) i) (Some st) i opt m _ s1 c f) by auto.
  rewrite (compile_built ANetwork a (new_learner (Some s2) i) (Some st) i opt m _ s2 c2 f) by auto.
  rewrite (compile_built ANetwork b (new_learner (Some s2) j) (Some st') j opt' m' _ s2 cb f') by auto.
  cbn [put set_gen p_heap]. assert (N : (a =? b)%nat = false) by now apply Nat.eqb_neq. rewrite ?N, ?Nat.eqb_refl.
  match goal with |- context [store_fit G ANetwork a ?r1 ?p1] => set (R1 := r1); set (P1 := p1) end.
  match goal with |- context [store_fit G ANetwork a ?r1 ?p1] => lazymatch r1 with R1 => fail | _ => set (R2 := r1); set (P2 := p1) end end.
  destruct (store_known ANetwork a R1 P1) as (K1 & _). destruct (store_known ANetwork a R2 P2) as (K2 & _).
  exists (fst (fst R1)), (fst (fst R2)). cbn [Process.performs fst]. split; [exact K1|]. split; [exact K2|].
  unfold R1, R2, fit_network, start_network, P1, P2. cbn [compiled l_loaded l_initializer l_shape l_optimizer new_learner put set_gen p_gen with_optimizer].
  rewrite (call_layers_class i (Some s1) (Some s2) c c2) by assumption.
  destruct (call_layers G gauss (kind c2) (d :: st) (seeded s2)) as [[ls g1]|e]; [|split; reflexivity].
  destruct (train_network G integer (kind f) x y n ls g1) as [[ls' g2] e]. split; reflexivity.
Qed.

(** ** Compiling twice *)
Lemma learner_eta {S P} (o : learner S P) : o = {| l_seed := l_seed o; l_initializer := l_initializer o; l_shape := l_shape o; l_optimizer := l_optimizer o;
  l_parameters := l_parameters o; l_trained := l_trained o; l_loaded := l_loaded o |}.
Proof. now destruct o. Qed.
Lemma recompile {S P} (w : learner S P -> object) id o sh c opt m p f : heap p id = Some (w o) -> l_initializer o = Instance c -> l_shape o = sh ->
  l_optimizer o = Some f -> get_optimizer opt = Ok f -> same p (fst (compile_learner G seeded w id o sh (Instance c) opt m p)).
Proof.
  intros Ho Hi Hs Hf Hg. rewrite (compile_instance w id o sh c opt m p f Hg).
  assert (E : compiled o sh c f = o). { destruct o; unfold compiled; cbn in *; subst. reflexivity. }
  rewrite E. split; [reflexivity|]. intros j. rewrite heap_put. destruct (Nat.eqb_spec j id); [now subst j|reflexivity].
Qed.
Lemma network_recompile id s i st opt m d x y n p : snd (performs p [NewNetwork G id s i; CompileNetwork G id st opt m]) = [None; None] ->
  let a := performs p [NewNetwork G id s i; CompileNetwork G id st opt m; FitNetwork G id d x y n; CompileNetwork G id st opt m; FitNetwork G id d x y n] in
  let b := performs p [NewNetwork G id s i; CompileNetwork G id st opt m; FitNetwork G id d x y n; FitNetwork G id d x y n] in
  heap (fst a) id = heap (fst b) id /\ gen (fst a) = gen (fst b) /\ last (snd a) None = last (snd b) None.
Proof.
  rewrite !performs_cons. cbn [Process.perform fst snd Process.performs]. set (p0 := put G id _ p). cbn [put p_heap p0]. rewrite Nat.eqb_refl. cbn [l_initializer new_learner].
  destruct (compile_learner G seeded ANetwork id (new_learner s i) (Some st) i opt m p0) as [p1 r] eqn:E. cbn [fst snd]. intros H. injection H as ->.
  destruct (compile_success ANetwork id _ _ _ _ _ _ _ E) as (c & f & Hf & Hc & -> & _).
  set (p2 := put G id _ _). assert (H2 : heap p2 id = Some (ANetwork (compiled (new_learner s i) (Some st) c f))) by (unfold p2; now rewrite heap_put, Nat.eqb_refl).
  rewrite H2. set (r := fit_network G gauss integer d x y n (compiled (new_learner s i) (Some st) c f) (gen p2)).
  destruct (store_known ANetwork id r p2) as (K1 & _ & _). set (p3 := fst (store_fit G ANetwork id r p2)) in *. cbn [fst snd].
  pose proof (fit_network_fields d x y n (compiled (new_learner s i) (Some st) c f) (gen p2)) as Ff. cbn zeta in Ff. fold r in Ff. destruct Ff as (_ & F2 & F3 & F4 & _).
  cbn [compiled l_initializer l_shape l_optimizer] in F2, F3, F4.
  rewrite !K1. rewrite F2. pose proof (recompile ANetwork id (fst (fst r)) (Some st) c opt m p3 f K1 F2 F3 F4 Hf) as [Sg Sh].
  set (p4 := fst (compile_learner G seeded ANetwork id (fst (fst r)) (Some st) (Instance c) opt m p3)) in *.
  rewrite <- Sh, K1, <- Sg. cbn [last].
  destruct (store_known ANetwork id (fit_network G gauss integer d x y n (fst (fst r)) (gen p3)) p3) as (A1 & A2 & A3).
  destruct (store_known ANetwork id (fit_network G gauss integer d x y n (fst (fst r)) (gen p3)) p4) as (B1 & B2 & B3).
  rewrite A1, A2, A3, B1, B2, B3. auto.
Qed.
Lemma regression_recompile id s i opt m d x y n p : snd (performs p [NewRegression G id s i; CompileRegression G id opt m]) = [None; None] ->
  let a := performs p [NewRegression G id s i; CompileRegression G id opt m; FitRegression G id d x y n; CompileRegression G id opt m; FitRegression G id d x y n] in
  let b := performs p [NewRegression G id s i; CompileRegression G id opt m; FitRegression G id d x y n; FitRegression G id d x y n] in
  heap (fst a) id = heap (fst b) id /\ gen (fst a) = gen (fst b) /\ last (snd a) None = last (snd b) None.
Proof.
  rewrite !performs_cons. cbn [Process.perform fst snd Process.performs]. set (p0 := put G id _ p). cbn [put p_heap p0]. rewrite Nat.eqb_refl. cbn [l_initializer l_shape new_learner].
  destruct (compile_learner G seeded ARegression id (new_learner s i) None i opt m p0) as [p1 r] eqn:E. cbn [fst snd]. intros H. injection H as ->.
  destruct (compile_success ARegression id _ _ _ _ _ _ _ E) as (c & f & Hf & Hc & -> & _).
  set (p2 := put G id _ _). assert (H2 : heap p2 id = Some (ARegression (compiled (new_learner s i) None c f))) by (unfold p2; now rewrite heap_put, Nat.eqb_refl).
  rewrite H2. set (r := fit_regression G gauss d x y n (compiled (new_learner s i) None c f) (gen p2)).
  destruct (store_known ARegression id r p2) as (K1 & _ & _). set (p3 := fst (store_fit G ARegression id r p2)) in *. cbn [fst snd].
  pose proof (fit_regression_fields d x y n (compiled (new_learner s i) None c f) (gen p2)) as Ff. cbn zeta in Ff. fold r in Ff. destruct Ff as (_ & F2 & F3 & F4 & _).
  cbn [compiled l_initializer l_shape l_optimizer] in F2, F3, F4.
  rewrite !K1. rewrite F2, F3. pose proof (recompile ARegression id (fst (fst r)) None c opt m p3 f K1 F2 F3 F4 Hf) as [Sg Sh].
  set (p4 := fst (compile_learner G seeded ARegression id (fst (fst r)) None (Instance c) opt m p3)) in *.
  rewrite <- Sh, K1, <- Sg. cbn [last].
  destruct (store_known ARegression id (fit_regression G gauss d x y n (fst (fst r)) (gen p3)) p3) as (A1 & A2 & A3).
  destruct (store_known ARegression id (fit_regression G gauss d x y n (fst (fst r)) (gen p3)) p4) as (B1 & B2 & B3).
  rewrite A1, A2, A3, B1, B2, B3. auto.
Qed.

(** ** Training an object again *)
Lemma network_afresh d x y n (a b : network) g : same_settings a b -> l_loaded a = false -> snd (fit_network G gauss integer d x y n a g) = None ->
  fit_network G gauss integer d x y n b g = fit_network G gauss integer d x y n a g.
Proof.
  intros (E1 & E2 & E3 & E4 & E5) Hl. unfold fit_network, start_network. rewrite <- E5, Hl, <- E3, <- E2, <- E4.
  destruct (match l_shape a with None => _ | Some s => _ end) as [[ls g1]|e]; [|discriminate].
  destruct (with_optimizer (l_optimizer a) (ls, g1, Some TypeError) (fun f => train_network G integer f x y n ls g1)) as [[ls' g2] e]. cbn [snd]. intros ->.
  unfold after_training. now rewrite E1, E2, E3, E4, E5.
Qed.
Lemma regression_afresh d x y n (a b : regression) g : same_settings a b -> l_loaded a = false -> snd (fit_regression G gauss d x y n a g) = None ->
  fit_regression G gauss d x y n b g = fit_regression G gauss d x y n a g.
Proof.
  intros (E1 & E2 & E3 & E4 & E5) Hl. unfold fit_regression, start_regression. rewrite <- E5, Hl, <- E2, <- E4.
  destruct (match l_initializer a with NoArg => _ | Instance c => _ | _ => _ end) as [[ls g1]|e]; [|discriminate].
  destruct (with_optimizer (l_optimizer a) (ls, Some TypeError) (fun f => train_regression f d x y n ls)) as [ls' e]. cbn [snd]. intros ->.
  unfold after_training. now rewrite E1, E2, E3, E4, E5.
Qed.
Lemma radial_afresh x y n (a b : radial) g : same_settings a b -> l_loaded a = false -> snd (fit_radial G gauss uniform x y n a g) = None ->
  fit_radial G gauss uniform x y n b g = fit_radial G gauss uniform x y n a g.
Proof.
  intros (E1 & E2 & E3 & E4 & E5) Hl. unfold fit_radial, start_radial. rewrite <- E5, Hl, <- E2, <- E3, <- E4.
  destruct (match l_initializer a with NoArg => _ | Instance c => _ | _ => _ end) as [[ls g1]|e]; [|discriminate].
  destruct (with_optimizer (l_optimizer a) (ls, Some TypeError) (fun f => train_radial f x y n ls)) as [ls' e]. cbn [snd]. intros ->.
  unfold after_training. now rewrite E1, E2, E3, E4, E5.
Qed.

(** *** Loaded parameters are trained on *)
Lemma sgd_loop_add rate x y n1 n2 ls g : snd (sgd_training_loop G integer rate x y n1 ls g) = None ->
  sgd_training_loop G integer rate x y (n1 + n2) ls g =
  sgd_training_loop G integer rate x y n2 (fst (fst (sgd_training_loop G integer rate x y n1 ls g))) (snd (fst (sgd_training_loop G integer rate x y n1 ls g))).
Proof.
  revert ls g. induction n1 as [|n1 IH]; intros ls g; [reflexivity|]. cbn [sgd_training_loop Nat.add].
  destruct (length x =? 0)%nat; [discriminate|]. destruct (integer (length x) g) as [i g1]. destruct (sgd_epoch rate x y ls i) as [ls'|e]; [|discriminate]. apply IH.
Qed.
Lemma logistic_loop_add o d x y n1 n2 b : snd (logistic_training_loop o d x y n1 b) = None ->
  logistic_training_loop o d x y (n1 + n2) b = logistic_training_loop o d x y n2 (fst (logistic_training_loop o d x y n1 b)).
Proof.
  revert b. induction n1 as [|n1 IH]; intros b; [reflexivity|]. cbn [logistic_training_loop Nat.add].
  destruct (opt_step o d x y b); [|discriminate]. apply IH.
Qed.
Lemma radial_loop_add rate x y n1 n2 q : snd (radial_training_loop rate x y n1 q) = None ->
  radial_training_loop rate x y (n1 + n2) q = radial_training_loop rate x y n2 (fst (radial_training_loop rate x y n1 q)).
Proof.
  revert q. induction n1 as [|n1 IH]; intros q; [reflexivity|]. cbn [radial_training_loop Nat.add].
  destruct (rbf_epoch rate x y q); [|discriminate]. apply IH.
Qed.

(** ** Links to the models of training without a generator *)
Lemma sgd_loop_run rate x y n ls g ls' g' : (x <> [] \/ n = 0%nat) -> sgd_training_loop G integer rate x y n ls g = (ls', g', None) ->
  exists is, drew integer (length x) n g is g' /\ sgd_run rate x y ls is = Ok ls'.
Proof.
  intros Hx. revert ls g Hx. induction n as [|n IH]; intros ls g Hx H; cbn [sgd_training_loop] in H.
  - injection H as -> ->. exists []. split; [constructor|reflexivity].
  - destruct (Nat.eqb_spec (length x) 0) as [E|E]; [discriminate|]. destruct (integer (length x) g) as [i g1] eqn:Ei.
    destruct (sgd_epoch rate x y ls i) as [l1|e] eqn:Es; [|discriminate].
    destruct (IH l1 g1) as (is & D & Hr); [left; intros ->; apply E; reflexivity|exact H|]. exists (i :: is). split; [econstructor; eauto|].
    unfold sgd_run in *. cbn [foldM]. rewrite Es. exact Hr.
Qed.
Lemma adam_loop_run o x y n t s g s' g' : adam_training_loop G integer o x y n t s g = (s', g', None) ->
  exists is, drew integer (length x) n g is g' /\ length is = n /\ foldM (adam_epoch o x y) (combine (seq t n) is) s = Ok s'.
Proof.
  revert t s g. induction n as [|n IH]; intros t s g H; cbn [adam_training_loop] in H.
  - injection H as -> ->. exists []. repeat split; constructor.
  - destruct (Nat.eqb_spec (length x) 0) as [E|E]; [discriminate|]. destruct (integer (length x) g) as [i g1] eqn:Ei.
    destruct (adam_epoch o x y s (t, i)) as [l1|e] eqn:Es; [|discriminate].
    destruct (IH (S t) l1 g1 H) as (is & D & Hn & Hr). exists (i :: is). split; [econstructor; eauto|]. split; [cbn; lia|].
    cbn [seq combine foldM]. rewrite Es. exact Hr.
Qed.
Lemma logistic_loop_run o d x y n b b' : logistic_training_loop o d x y n b = (b', None) -> opt_run o n d x y b = Ok b'.
Proof.
  revert b. induction n as [|n IH]; intros b H; cbn in *; [now injection H as ->|]. destruct (opt_step o d x y b); [|discriminate]. now apply IH.
Qed.
Lemma radial_loop_run rate x y n q q' : radial_training_loop rate x y n q = (q', None) -> exists l, rbf_run rate x y n q = Ok (q', l).
Proof.
  revert q. induction n as [|n IH]; intros q H; cbn [radial_training_loop rbf_run] in *; [injection H as ->; eauto|].
  destruct (rbf_epoch rate x y q) as [r|e]; [|discriminate]. destruct (IH _ H) as [l E]. cbn [bind]. rewrite E. cbn. eauto.
Qed.

(** ** Bagging *)
Local Notation bag_rounds := (bag_rounds G seeded choice).
Local Notation sampled := (fun s n => fst (choice n (seeded s))).
Lemma bag_rounds_object n w x y c b g g' : fst (fst (bag_rounds n w x y c b g)) = fst (fst (bag_rounds n w x y c b g')) /\
  snd (bag_rounds n w x y c b g) = snd (bag_rounds n w x y c b g').
Proof.
  destruct n as [|n]; cbn [Process.bag_rounds]; [auto|]. destruct (negb _); [auto|]. destruct (negb _); [auto|].
  destruct (choice (length x) (seeded (bag_seed b))) as [l g1]. destruct (negb c); [auto|].
  destruct (bag_round _ w x y b); auto.
Qed.
Lemma bag_rounds_gen n w x y c b g g' : (0 < n)%nat -> length x = length y -> seed_ok (bag_seed b) = true ->
  bag_rounds n w x y c b g = bag_rounds n w x y c b g'.
Proof.
  intros Hn Hl Hs. destruct n as [|n]; [lia|]. cbn [Process.bag_rounds]. rewrite Hl, Nat.eqb_refl, Hs. cbn [negb].
  destruct (choice (length y) (seeded (bag_seed b))) as [l g1]. destruct (negb c); [auto|].
  destruct (bag_round _ w x y b); auto.
Qed.
Lemma bag_rounds_fit n w x y c b g b' g' : bag_rounds n w x y c b g = (b', g', None) -> bag_fit sampled n w x y b = Ok b'.
Proof.
  revert b g. induction n as [|n IH]; intros b g H; cbn [Process.bag_rounds bag_fit] in *; [now injection H as ->|].
  destruct (negb _); [discriminate|]. destruct (negb _); [discriminate|].
  destruct (choice (length x) (seeded (bag_seed b))) as [l g1]. destruct (negb c); [discriminate|].
  destruct (bag_round _ w x y b) as [b1|e]; [|discriminate]. cbn [bind]. exact (IH _ _ H).
Qed.
Lemma bag_round_appends (ch : Z -> nat -> list nat) w x y b b' : bag_round ch w x y b = Ok b' ->
  exists t, bag_seed b' = (bag_seed b + 1)%Z /\ bag_stumps b' = bag_stumps b ++ [t] /\
  forall l, bag_round ch w x y {| bag_seed := bag_seed b; bag_stumps := l |} = Ok {| bag_seed := (bag_seed b + 1)%Z; bag_stumps := l ++ [t] |}.
Proof.
  unfold bag_round. cbn [bag_seed bag_stumps]. destruct (negb _); [discriminate|]. destruct (bootstrap_sampling (ch (bag_seed b)) (Mat x) (Some (Vec y))) as [[xs [ys|]]|e]; cbn [bind]; [|discriminate|discriminate].
  intros H. injection H as <-. eexists. split; [reflexivity|]. split; reflexivity.
Qed.
Lemma bag_rounds_appends n w x y c : forall b g b' g', bag_rounds n w x y c b g = (b', g', None) ->
  exists l, length l = n /\ bag_seed b' = (bag_seed b + Z.of_nat n)%Z /\ bag_stumps b' = bag_stumps b ++ l /\
  forall old g0, exists g1, bag_rounds n w x y c {| bag_seed := bag_seed b; bag_stumps := old |} g0 =
    ({| bag_seed := (bag_seed b + Z.of_nat n)%Z; bag_stumps := old ++ l |}, g1, None).
Proof.
  induction n as [|n IH]; intros b g b' g' H; cbn [Process.bag_rounds] in *.
  - injection H as <- <-. exists []. change (Z.of_nat 0) with 0%Z. rewrite app_nil_r, Z.add_0_r. split; [reflexivity|]. split; [reflexivity|]. split; [reflexivity|]. intros old g0. exists g0. now rewrite app_nil_r.
  - destruct (negb (length x =? length y)%nat) eqn:E1; [discriminate|]. destruct (negb (seed_ok (bag_seed b))) eqn:E2; [discriminate|].
    destruct (choice (length x) (seeded (bag_seed b))) as [dr g2] eqn:E4. destruct (negb c) eqn:E3; [discriminate|].
    destruct (bag_round sampled w x y b) as [b1|e] eqn:E; [|discriminate].
    destruct (bag_round_appends _ _ _ _ _ _ E) as (t & T1 & T2 & T3). destruct (IH _ _ _ _ H) as (l & L1 & L2 & L3 & L4).
    exists (t :: l). split; [cbn; lia|]. split; [rewrite L2, T1; lia|]. split; [rewrite L3, T2, <- app_assoc; reflexivity|].
    intros old g0. cbn [bag_seed bag_stumps]. rewrite E2. rewrite E4. rewrite (T3 old). rewrite T1 in L4.
    destruct (L4 (old ++ [t]) g2) as [g3 L5]. exists g3. rewrite L5. rewrite <- app_assoc. cbn [app]. replace (bag_seed b + 1 + Z.of_nat n)%Z with (bag_seed b + Z.of_nat (S n))%Z by lia. reflexivity.
Qed.
Lemma perform_default p c : p_default G (fst (perform p c)) = p_default G p.
Proof.
  assert (N : forall s q, p_default G (fst (np_seed G seeded s q)) = p_default G q).
  { intros s q. destruct s as [z|]; cbn; [destruct (seed_ok z)|]; reflexivity. }
  assert (T : forall a s q, p_default G (fst (take_initializer G seeded a s q)) = p_default G q).
  { intros a s q. assert (D : to_be_built a \/ exists k, a = Instance k) by (destruct a; cbn; eauto).
    destruct D as [D|[k ->]]; [|reflexivity]. rewrite take_built by exact D. destruct (get_initializer a s); [|reflexivity].
    specialize (N s q). destruct (np_seed G seeded s q) as [q' [e|]]; exact N. }
  assert (C : forall S P (w : learner S P -> object) id o sh i opt m q, p_default G (fst (compile_learner G seeded w id o sh i opt m q)) = p_default G q).
  { intros S P w id o sh i opt m q. unfold compile_learner. specialize (T i (l_seed o) q). destruct (take_initializer G seeded i (l_seed o) q) as [q' [k|e]]; [|exact T].
    destruct (get_optimizer opt); exact T. }
  assert (F : forall A (w : A -> object) id r q, p_default G (fst (store_fit G w id r q)) = p_default G q) by (intros A w id [[o g] e] q; reflexivity).
  destruct c; cbn [Process.perform]; try reflexivity; try (destruct (heap p id) as [[]|]; try reflexivity; (apply C || apply F)); try apply N.
  specialize (N seed p). destruct (np_seed G seeded seed p) as [q' [e|]]; exact N.
Qed.
Lemma performs_default cs : forall p, p_default G (fst (performs p cs)) = p_default G p.
Proof. induction cs as [|c cs IH]; intros p; [reflexivity|]. rewrite performs_cons. cbn [fst]. now rewrite IH, perform_default. Qed.

(** Two baggers compiled without a seed. *)
Lemma default_baggers a b n w x y p between : a <> b -> Forall (elsewhere a) between ->
  let r := fst (performs p ([NewBag G a; CompileBag G a None; FitBag G a n w x y] ++ between ++ [NewBag G b; CompileBag G b None; FitBag G b n w x y])) in
  heap r a = heap r b.
Proof.
  intros Hab E. cbn zeta. rewrite !performs_fst_app. set (p1 := fst (performs p _)). set (p2 := fst (performs p1 between)).
  assert (D2 : p_default G p2 = p_default G p) by (unfold p2, p1; now rewrite !performs_default).
  assert (H2 : heap p2 a = heap p1 a) by (unfold p2; now apply performs_elsewhere).
  assert (T : forall q id, heap (fst (performs q [NewBag G id; CompileBag G id None; FitBag G id n w x y])) id =
    Some (ABag (fst (fst (fit_bag G seeded choice n w x y {| bg_compiled := true; bg := {| bag_seed := p_default G q; bag_stumps := [] |}; bg_trained := false |} (gen q)))))).
  { intros q id. rewrite !performs_cons. cbn [Process.perform fst Process.performs]. rewrite !put_here. cbn [fst]. rewrite !put_here.
    match goal with |- heap (fst (store_fit G ABag id ?r ?P)) id = _ => destruct (store_known ABag id r P) as (K & _) end. exact K. }
  rewrite T, D2. rewrite performs_elsewhere; [|repeat constructor; unfold elsewhere; cbn; congruence].
  fold p2. rewrite H2. unfold p1. rewrite T. f_equal. f_equal.
  unfold fit_bag. cbn [bg_compiled bg bg_trained].
  destruct (bag_rounds_object n w x y true {| bag_seed := p_default G p; bag_stumps := [] |} (gen p) (gen p2)) as [B1 B2].
  destruct (bag_rounds n w x y true _ (gen p)) as [[b1 g1] e1]. destruct (bag_rounds n w x y true _ (gen p2)) as [[b2 g2] e2]. cbn [fst snd] in *. now subst.
Qed.
(** Training a bagger anew repeats its members. *)
Lemma bagger_repeats id s n w x y p o g' b' : heap p id = Some (ABag o) ->
  bag_rounds n w x y true {| bag_seed := s; bag_stumps := bag_stumps (bg o) |} (gen p) = (b', g', None) ->
  exists l, length l = n /\
  heap (fst (performs p [CompileBag G id (Some s); FitBag G id n w x y])) id =
    Some (ABag {| bg_compiled := true; bg := {| bag_seed := (s + Z.of_nat n)%Z; bag_stumps := bag_stumps (bg o) ++ l |}; bg_trained := true |}) /\
  heap (fst (performs p [CompileBag G id (Some s); FitBag G id n w x y; CompileBag G id (Some s); FitBag G id n w x y])) id =
    Some (ABag {| bg_compiled := true; bg := {| bag_seed := (s + Z.of_nat n)%Z; bag_stumps := bag_stumps (bg o) ++ l ++ l |}; bg_trained := true |}).
Proof.
  intros Ho H. destruct (bag_rounds_appends _ _ _ _ _ _ _ _ _ H) as (l & L1 & L2 & L3 & L4). cbn [bag_seed bag_stumps] in *. exists l. split; [exact L1|].
  rewrite !performs_cons. cbn [Process.perform fst Process.performs]. rewrite !Ho. cbn [fst]. rewrite !put_here.
  match goal with |- context [store_fit G ABag id ?r ?P] => set (R1 := r); set (P1 := P) end.
  assert (E1 : fst (fst R1) = {| bg_compiled := true; bg := {| bag_seed := (s + Z.of_nat n)%Z; bag_stumps := bag_stumps (bg o) ++ l |}; bg_trained := true |}).
  { unfold R1, fit_bag.
    match goal with |- context [bag_rounds n w x y ?c ?b ?g] => change (bag_rounds n w x y c b g) with (bag_rounds n w x y true {| bag_seed := s; bag_stumps := bag_stumps (bg o) |} (gen p)) end.
    rewrite H. cbn [fst bg_compiled]. destruct b' as [bs bt]; cbn [bag_seed bag_stumps] in L2, L3. now rewrite L2, L3. }
  destruct (store_known ABag id R1 P1) as (K1 & _ & _). rewrite !K1, E1. split; [reflexivity|].
  cbn [fst bg bag_stumps bg_trained]. rewrite !put_here.
  match goal with |- context [store_fit G ABag id ?r ?P] => lazymatch r with R1 => fail | _ => set (R2 := r); set (P2 := P) end end.
  destruct (store_known ABag id R2 P2) as (K2 & _ & _). rewrite K2. unfold R2, fit_bag. cbn [bg_compiled bg bg_trained].
  destruct (L4 (bag_stumps (bg o) ++ l) (gen P2)) as [g3 L5].
  match goal with |- context [bag_rounds n w x y ?c ?b ?g] => change (bag_rounds n w x y c b g) with (bag_rounds n w x y true {| bag_seed := s; bag_stumps := bag_stumps (bg o) ++ l |} (gen P2)) end.
  rewrite L5. cbn [fst]. now rewrite <- app_assoc.
Qed.

(** ** Compiling the radial network twice *)
Lemma radial_again x y n s h c f g : let o := compiled (new_learner (Some s) NoArg) (Some h) c f in
  fit_radial G gauss uniform x y n (compiled (fst (fst (fit_radial G gauss uniform x y n o g))) (Some h) c f) g = fit_radial G gauss uniform x y n o g.
Proof.
  cbn zeta. unfold fit_radial, start_radial. cbn [compiled new_learner l_seed l_loaded l_initializer l_shape l_optimizer with_optimizer].
  destruct (call_radial G gauss uniform (kind c) h g) as [[q g1]|e]; [|reflexivity].
  destruct (train_radial (kind f) x y n q) as [q' e] eqn:E. cbn [fst after_training l_loaded new_learner]. rewrite ?E.
  unfold after_training, compiled. cbn. rewrite ?E. destruct e; reflexivity.
Qed.
Lemma radial_recompile id s h opt m x y n p : snd (performs p [NewRadial G id (Some s); CompileRadial G id h opt m]) = [None; None] ->
  let a := performs p [NewRadial G id (Some s); CompileRadial G id h opt m; FitRadial G id x y n; CompileRadial G id h opt m; FitRadial G id x y n] in
  let b := performs p [NewRadial G id (Some s); CompileRadial G id h opt m; FitRadial G id x y n] in
  heap (fst a) id = heap (fst b) id /\ gen (fst a) = gen (fst b) /\ last (snd a) None = last (snd b) None.
Proof.
  rewrite !performs_cons. cbn [Process.perform fst snd Process.performs]. set (p0 := put G id _ p). cbn [put p_heap p0]. rewrite Nat.eqb_refl.
  destruct (compile_learner G seeded ARadial id (new_learner (Some s) NoArg) (Some h) (ByName "rbf_normal") opt m p0) as [p1 r] eqn:E. cbn [fst snd]. intros H. injection H as ->.
  destruct (compile_success ARadial id _ _ _ _ _ _ _ E) as (c & f & Hf & Hc & -> & Ht & _). cbn [l_seed new_learner] in *.
  assert (Hs : seed_ok s = true). { cbn in Ht. destruct (seed_ok s); [reflexivity|discriminate]. }
  assert (G2 : forall q, fst (take_initializer G seeded (ByName "rbf_normal") (Some s) q) = set_gen G (seeded s) q). { intros q. cbn. now rewrite Hs. }
  rewrite G2. set (o1 := compiled (new_learner (Some s) NoArg) (Some h) c f). set (p2 := put G id _ _).
  assert (H2 : heap p2 id = Some (ARadial o1)) by (unfold p2; now rewrite heap_put, Nat.eqb_refl).
  rewrite H2. set (r := fit_radial G gauss uniform x y n o1 (gen p2)).
  destruct (store_known ARadial id r p2) as (K1 & K2 & K3). set (p3 := fst (store_fit G ARadial id r p2)) in *. cbn [fst snd].
  pose proof (fit_radial_fields x y n o1 (gen p2)) as Ff. cbn zeta in Ff. fold r in Ff. destruct Ff as (F1 & F2 & F3 & F4 & F5).
  rewrite !K1. rewrite (compile_built ARadial id (fst (fst r)) (Some h) (ByName "rbf_normal") opt m p3 s c f) by (try exact I; auto).
  set (p4 := put G id _ (set_gen G (seeded s) p3)).
  assert (H4 : heap p4 id = Some (ARadial (compiled (fst (fst r)) (Some h) c f))) by (unfold p4; now rewrite heap_put, Nat.eqb_refl).
  rewrite H4. cbn [last].
  destruct (store_known ARadial id (fit_radial G gauss uniform x y n (compiled (fst (fst r)) (Some h) c f) (gen p4)) p4) as (B1 & B2 & B3).
  rewrite B1, B2, B3, K2, K3.
  assert (Q : fit_radial G gauss uniform x y n (compiled (fst (fst r)) (Some h) c f) (gen p4) = r).
  { exact (radial_again x y n s h c f (seeded s)). }
  rewrite Q. auto.
Qed.
End Process.
