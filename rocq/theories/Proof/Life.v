(** Proofs about histories of calls. *)
From Coq Require Import List String Reals ZArith Bool Arith Lia Lra.
From Verif.Model Require Import Base Ops Matrix Gmm KMeans Network Rbf Training Store Life.
From Verif.Spec Require Import Store.
From Verif.Proof Require Import BaseLemmas Store StoreNet StoreCrash RoundTrip.
Import ListNotations.
Local Open Scope string_scope.

Section Life.
Context {A : Type}.
Notation attrs := (@attrs A).
Notation obj := (@obj A).
Notation cls := (@cls A).
Notation call := (@call A).

Lemma set_fields_flags : forall (l : attrs) (i : obj),
  is_trained (set_fields i l) = is_trained i /\ is_loaded (set_fields i l) = is_loaded i.
Proof.
  induction l as [| [k v] l IH]; intros i; [ now split |].
  unfold set_fields; cbn [fold_left fst snd]; fold (set_fields (set_field i k v) l).
  destruct (IH (set_field i k v)) as [-> ->]; now split.
Qed.
Lemma perform_ready : forall (c : cls) s k, fits_possible c [k] ->
  (snd (perform c s k) = None -> (exists e, k = FitCall e) \/ (exists p, k = LoadCall p) -> ready (fst (fst (perform c s k)))) /\
  (ready (fst s) -> ready (fst (fst (perform c s k)))) /\
  (marks_early c = false -> ready (fst (fst (perform c s k))) ->
   ready (fst s) \/ (snd (perform c s k) = None /\ ((exists e, k = FitCall e) \/ (exists p, k = LoadCall p)))).
Proof.
  intros c [i d] k Hp; destruct k as [l | e | p | p a n |]; cbn [perform fst snd].
  - destruct (set_fields_flags l i) as [E1 E2]; unfold ready; rewrite E1, E2.
    split; [ intros _ [[e H] | [q H]]; discriminate |]; split; [ tauto | now left ].
  - destruct (Hp e (or_introl eq_refl)) as [H1 H2]; unfold ready, after_fit; cbn [is_trained is_loaded].
    split; [ intros Hr _; left; rewrite (H1 Hr); apply orb_true_r |]; split.
    + intros [-> | ->]; [ now left | now right ].
    + intros Hm [H | H]; [| left; now right ].
      destruct (raised e) as [er |] eqn:Er.
      * rewrite (H2 Hm) in H by discriminate; rewrite orb_false_r in H; left; now left.
      * right; split; [ reflexivity | left; now exists e ].
  - pose proof (load_flags c (d p) i) as [E1 E2]; destruct (load c (d p) i) as [j er]; cbn [fst snd] in *; unfold ready.
    rewrite E1, E2; split; [ intros -> _; now right |]; split.
    + intros [-> | ->]; [ now left | right; now destruct er ].
    + intros _ H; destruct er as [er |]; [ now left | right; split; [ reflexivity | right; now exists p ] ].
  - destruct (save c a n i (d p)) as [k' er]; cbn [fst snd].
    split; [ intros _ [[e H] | [q H]]; discriminate |]; split; [ tauto | now left ].
  - split; [ intros _ [[e H] | [q H]]; discriminate |]; split; [ tauto | now left ].
Qed.
Lemma history : forall (c : cls) ks s, fits_possible c ks ->
  (ready (fst s) \/ some_success (transcript c s ks) -> ready (fst (perform_all c s ks))) /\
  (marks_early c = false -> ready (fst (perform_all c s ks)) -> ready (fst s) \/ some_success (transcript c s ks)).
Proof.
  intros c; induction ks as [| k ks IH]; intros s Hf; cbn [perform_all transcript].
  - split; [ intros [H | (k & [] & _)]; exact H | intros _ H; now left ].
  - assert (Hf1 : fits_possible c [k]) by (intros e [-> | []]; apply Hf; now left).
    assert (Hf2 : fits_possible c ks) by (intros e He; apply Hf; now right).
    destruct (perform_ready c s k Hf1) as (P1 & P2 & P3).
    destruct (IH (fst (perform c s k)) Hf2) as [I1 I2]; split.
    + intros [H | (k' & [E | Hi] & Hk)].
      * apply I1; left; now apply P2.
      * inversion E; subst k'; apply I1; left; now apply P1.
      * apply I1; right; now exists k'.
    + intros Hm H; destruct (I2 Hm H) as [Hr | (k' & Hi & Hk)].
      * destruct (P3 Hm Hr) as [Hs | [E Hk]]; [ now left |].
        right; exists k; split; [ left; now rewrite E | exact Hk ].
      * right; exists k'; split; [ now right | exact Hk ].
Qed.
Lemma answers : forall i : obj, ready i -> all_answer i.
Proof.
  intros i H; unfold all_answer, every_predict; repeat split; intros;
    unfold predict_logistic, predict_lda, predict_naive_bayes, predict_super_parent, predict_averaged, predict_tree,
           predict_svc, predict_kmeans, predict_mixture, predict_bagging, predict_adaboost, predict_network, predict_rbf;
    rewrite guarded_ready by exact H; discriminate.
Qed.
Lemma refuses : forall i : obj, ~ ready i -> all_refuse i.
Proof.
  intros i H.
  assert (G : forall B (r : result B), guarded i r = NotTrained).
  { intros B r; unfold guarded; destruct (is_trained i) eqn:E1; [ exfalso; apply H; now left |].
    destruct (is_loaded i) eqn:E2; [ exfalso; apply H; now right | reflexivity ]. }
  unfold all_refuse, every_predict; repeat split; intros; apply G.
Qed.
Lemma not_both : forall i : obj, all_refuse i -> all_answer i -> False.
Proof. intros i [H _] [G _]; exact (G [] (H [])). Qed.
Lemma fresh_not_ready : forall c : cls, In c classes -> ~ ready (fresh c).
Proof. intros c H; repeat (destruct H as [<- | H]; [ intros [E | E]; discriminate E |]); contradiction. Qed.

(** The fits of K-means and of the mixture are possible ones. *)
Lemma kmeans_possible : forall randint d x n init tol epochs,
  fit_possible KMeansModel (kmeans_fit_effect (A := A) randint d x n init tol epochs).
Proof. intros; unfold kmeans_fit_effect, fit_possible; destruct (km_fit _ _ _ _ _ _ _); cbn; split; congruence. Qed.
Lemma mixture_possible : forall rnd d randint x n i_mu i_cov i_mix tol epochs,
  fit_possible GaussianMixture (mixture_fit_effect (A := A) rnd d randint x n i_mu i_cov i_mix tol epochs).
Proof.
  intros; unfold mixture_fit_effect, fit_possible.
  destruct (bind _ _) as [t | e]; [ destruct (gm_predict rnd d t x) |]; cbn; split; congruence.
Qed.
Lemma singular_fit : forall rnd randint,
  mixture_fit_effect (A := A) rnd 2 randint [[0; 0]]%R 2
    (InitArray {| shape := [2; 2]%nat; data := Floats [0; 0; 1; 1]%R |})
    (CovArray {| shape := [2; 2; 2]%nat; data := Floats [0; 0; 0; 0; 0; 0; 0; 0]%R |}) CovNone (1 / 1000) 0 =
  {| changed := [("mu", VMat [[0; 0]; [1; 1]]%R); ("sigma", VTensor [[[0; 0]; [0; 0]]; [[0; 0]; [0; 0]]]%R);
                 ("alpha", VVec [1 / INR 2; 1 / INR 2]%R)]; marked := true; raised := Some LinAlgError |}.
Proof.
  intros rnd randint; unfold mixture_fit_effect.
  set (z := [[0; 0]; [0; 0]]%R).
  assert (Hd : det 2 z = 0%R) by (unfold z; cbn; ring).
  assert (Hn : normal_density rnd 2 [0; 0]%R [0; 0]%R z = Err LinAlgError).
  { unfold normal_density, inverse; rewrite Hd.
    rewrite (proj2 (Rltb_false _ _)) by lra; rewrite (proj2 (Reqb_true _ _)) by reflexivity; reflexivity. }
  change (gm_init 2 randint [[0; 0]]%R 2 _ _ _) with (Ok {| mu := [[0; 0]; [1; 1]]%R; sigma := [z; z]; alpha := [1 / INR 2; 1 / INR 2]%R |}).
  cbn [bind gm_loop mu sigma alpha].
  assert (Hp : gm_predict rnd 2 {| mu := [[0; 0]; [1; 1]]%R; sigma := [z; z]; alpha := [1 / INR 2; 1 / INR 2]%R |} [[0; 0]]%R = Err LinAlgError).
  { unfold gm_predict, posterior; cbn [mapM]; unfold posterior_row, densities; cbn [mu sigma combine mapM fst snd].
    rewrite Hn; reflexivity. }
  rewrite Hp; reflexivity.
Qed.
End Life.
