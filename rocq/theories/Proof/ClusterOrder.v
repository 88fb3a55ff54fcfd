(** Lemmas for C116: clusters and components in another order. *)
From Coq Require Import List ZArith Reals Lra Lia Bool Arith Permutation.
From Verif.Model Require Import Base Ops KMeans Matrix Gmm Activations.
From Verif.Spec Require Import Common KMeans Columns HiddenOrder ClassOrder ClusterOrder.
From Verif.Proof Require Import BaseLemmas KMeans Gmm UnitsMore Columns ColumnsNet HiddenOrder ClassOrder ClassScore.
Import ListNotations.
Local Open Scope R_scope.

(** Both succeed, and then the second result is the first one changed by [T], or both fail. *)
Definition follows {A B} (T : A -> B) (r : result A) (r' : result B) : Prop :=
  match r, r' with Ok a, Ok b => b = T a | Err _, Err _ => True | _, _ => False end.
Lemma follows_bind {A B C D} (T : A -> B) (U : C -> D) r r' f f' : follows T r r' -> (forall a, r = Ok a -> follows U (f a) (f' (T a))) -> follows U (bind r f) (bind r' f').
Proof. unfold follows. destruct r as [a|], r' as [b|]; cbn [bind]; try easy. intros -> H. now apply H. Qed.
Lemma follows_mapM {A B C} (T : B -> C) (g : A -> result B) (g' : A -> result C) l : (forall a, In a l -> follows T (g a) (g' a)) -> follows (map T) (mapM g l) (mapM g' l).
Proof.
  induction l as [|a l IH]; intros H; [reflexivity|]. cbn [mapM]. pose proof (H a (or_introl eq_refl)) as Ha. specialize (IH (fun b I => H b (or_intror I))).
  unfold follows in *. destruct (g a), (g' a); cbn [bind]; try easy. destruct (mapM g l), (mapM g' l); cbn [bind]; try easy. subst. reflexivity.
Qed.
Lemma mapM_err_in {A B} (g : A -> result B) l e : mapM g l = Err e -> exists a e', In a l /\ g a = Err e'.
Proof.
  induction l as [|a l IH]; intros E; [discriminate|]. cbn [mapM] in E. destruct (g a) as [v|e1] eqn:G; [|exists a, e1; split; [now left|auto]]. cbn [bind] in E.
  destruct (mapM g l) as [|e2]; [discriminate|]. destruct (IH E) as (b & e' & I & K). exists b, e'. split; [now right|auto].
Qed.
Lemma mapM_err_some {A B} (g : A -> result B) l a e : In a l -> g a = Err e -> exists e', mapM g l = Err e'.
Proof.
  induction l as [|b l IH]; intros I G; [destruct I|]. cbn [mapM]. destruct (g b) as [v|e1] eqn:Gb; [|now exists e1]. destruct I as [->|I]; [congruence|]. destruct (IH I G) as (e' & E). rewrite E. now exists e'.
Qed.
Lemma mapM_values {A B} (g : A -> result B) l r a0 (b0 : B) : mapM g l = Ok r -> forall i, (i < length l)%nat -> g (nth i l a0) = Ok (nth i r b0).
Proof.
  revert r. induction l as [|a l IH]; intros r E i Hi; [cbn in Hi; lia|]. cbn [mapM] in E. destruct (g a) as [v|] eqn:G; [|discriminate]. cbn [bind] in E. destruct (mapM g l) as [vs|] eqn:M; [|discriminate].
  injection E as <-. destruct i; cbn [nth]; [exact G|]. apply IH; [reflexivity|cbn in Hi; lia].
Qed.

Section Order.
Variables (n : nat) (s : list nat).
Hypothesis Hs : new_order n s.
Notation re := (reordered s).
Notation pick e := (in_that_order e s).

Lemma s_length : length s = n.
Proof. rewrite (Permutation_length Hs). apply seq_length. Qed.
Lemma pick_length {A} (e : A) l : length (pick e l) = n.
Proof. unfold in_that_order. rewrite map_length. apply s_length. Qed.
Lemma nth_pick {A} (e : A) l i : (i < n)%nat -> nth i (pick e l) e = nth (nth i s 0%nat) l e.
Proof. intros Hi. unfold in_that_order. rewrite (nth_map_in (fun i => nth i l e) s i e 0%nat); [reflexivity|]. now rewrite s_length. Qed.
Lemma nth_s i : (i < n)%nat -> (nth i s 0 < n)%nat.
Proof. intros Hi. apply (in_s n s Hs). apply nth_In. now rewrite s_length. Qed.
Lemma s_is : map (fun i => nth i s 0%nat) (seq 0 n) = s.
Proof. apply nth_ext with (d := 0%nat) (d' := 0%nat); [now rewrite map_length, seq_length, s_length|]. intros i Hi. rewrite map_length, seq_length in Hi. now rewrite nth_map_seq. Qed.
Lemma pairs_all {A B} (e : A) (f : B) a b : length a = n -> length b = n -> combine a b = map (fun i => (nth i a e, nth i b f)) (seq 0 n).
Proof.
  intros La Lb. apply nth_ext with (d := (e, f)) (d' := (e, f)); [rewrite combine_length, map_length, seq_length; lia|]. intros i Hi. rewrite combine_length in Hi.
  rewrite combine_nth by congruence. rewrite nth_map_seq by lia. reflexivity.
Qed.
Lemma pairs_pick {A B} (e : A) (f : B) a b : combine (pick e a) (pick f b) = map (fun i => (nth i a e, nth i b f)) s.
Proof. unfold in_that_order. now rewrite Columns.combine_map_same. Qed.
Lemma pairs_perm {A B} (e : A) (f : B) a b : length a = n -> length b = n -> Permutation (combine (pick e a) (pick f b)) (combine a b).
Proof. intros La Lb. rewrite pairs_pick, (pairs_all e f a b La Lb). now apply Permutation_map. Qed.
Lemma follows_seq {B} (e : B) (g : nat -> result B) : follows (pick e) (mapM g (seq 0 n)) (mapM g s).
Proof.
  destruct (mapM g (seq 0 n)) as [r|e1] eqn:E; cbn [follows].
  - assert (K : forall i, In i s -> g i = Ok (nth i r e)).
    { intros i I. apply (in_s n s Hs) in I. pose proof (mapM_values g (seq 0 n) r 0%nat e E i) as V. rewrite seq_length in V. specialize (V I). now rewrite seq_nth in V by lia. }
    rewrite (mapM_all_ok g (fun i => nth i r e) s K). reflexivity.
  - destruct (mapM_err_in _ _ _ E) as (a & e' & I & G). destruct (mapM_err_some g s a e') as (e2 & E2); auto; [|now rewrite E2].
    exact (Permutation_in _ (Permutation_sym Hs) I).
Qed.

(** ** Gaussian mixtures *)
Section Mixture.
Variable rnd : R -> R.
Variable d : nat.
Definition comp_moved (t : params) : params := {| mu := pick [] (mu t); sigma := pick [] (sigma t); alpha := re (alpha t) |}.
Definition comps (t : params) : Prop := length (mu t) = n /\ length (sigma t) = n /\ length (alpha t) = n.

Lemma densities_moved t r : comps t -> follows re (densities rnd d t r) (densities rnd d (comp_moved t) r).
Proof.
  intros (Lm & Ls & _). unfold densities, comp_moved. cbn [mu sigma]. rewrite pairs_pick, (pairs_all [] [] (mu t) (sigma t) Lm Ls), !mapM_map. apply (follows_seq 0).
Qed.
Lemma densities_length t r ps : comps t -> densities rnd d t r = Ok ps -> length ps = n.
Proof. intros (Lm & Ls & _) E. unfold densities in E. apply mapM_length in E. rewrite E, combine_length. lia. Qed.
Lemma zip2_as f a b : map (fun c : R * R => f (fst c) (snd c)) (combine a b) = zip2 f a b.
Proof. reflexivity. Qed.
Lemma posterior_row_moved t r : comps t -> follows re (posterior_row rnd d t r) (posterior_row rnd d (comp_moved t) r).
Proof.
  intros H. unfold posterior_row. eapply follows_bind; [apply densities_moved; exact H|]. intros ps E. apply densities_length in E; [|exact H]. destruct H as (Lm & Ls & La).
  cbn [alpha comp_moved]. rewrite !zip2_as, (zip2_re n s Hs) by auto. set (j := zip2 (fun a b => a * b) (alpha t) ps).
  assert (Lj : length j = n) by (unfold j; unfold zip2; rewrite map_length, combine_length; lia).
  rewrite (rsum_perm (re j) j (re_perm n s Hs j Lj)). destruct (Reqb (rsum j) 0); [exact I|]. cbn [follows]. now apply (map_re n s Hs).
Qed.
Lemma posterior_row_length t r g : comps t -> posterior_row rnd d t r = Ok g -> length g = n.
Proof.
  intros H E. unfold posterior_row in E. destruct (densities rnd d t r) as [ps|] eqn:D; [|discriminate]. apply densities_length in D; [|exact H]. cbn [bind] in E. destruct (Reqb _ 0); [discriminate|].
  injection E as <-. rewrite !map_length, combine_length. destruct H as (_ & _ & La). lia.
Qed.
Lemma posterior_moved t x : comps t -> follows (map re) (posterior rnd d t x) (posterior rnd d (comp_moved t) x).
Proof. intros H. unfold posterior. apply follows_mapM. intros r _. now apply posterior_row_moved. Qed.
Lemma posterior_lengths t x g : comps t -> posterior rnd d t x = Ok g -> Forall (fun r => length r = n) g.
Proof. intros H E. unfold posterior in E. eapply mapM_forall; [|exact E]. intros r b _. now apply posterior_row_length. Qed.

Lemma column_re g i : (i < n)%nat -> column 0 (map re g) i = column 0 g (nth i s 0%nat).
Proof. intros Hi. unfold column. rewrite map_map. apply map_ext. intros r. now apply (nth_re n s Hs). Qed.
Lemma combine_re (x g : list (list R)) : combine x (map re g) = map (fun p => (fst p, re (snd p))) (combine x g).
Proof. revert g. induction x as [|r x IH]; intros [|q g]; cbn; auto. now rewrite IH. Qed.
Lemma mean_re x g i : (i < n)%nat -> weighted_mean d x (map re g) i = weighted_mean d x g (nth i s 0%nat).
Proof.
  intros Hi. unfold weighted_mean. rewrite column_re by auto. destruct (Reqb _ 0); [reflexivity|]. f_equal. apply map_ext. intros j. f_equal. rewrite combine_re, map_map. f_equal. apply map_ext. intros p. cbn [fst snd].
  now rewrite (nth_re n s Hs).
Qed.
Lemma cov_re x g m i : (i < n)%nat -> weighted_cov d x (map re g) m i = weighted_cov d x g m (nth i s 0%nat).
Proof.
  intros Hi. unfold weighted_cov. rewrite column_re by auto. destruct (Reqb _ 0); [reflexivity|]. f_equal. apply map_ext. intros a. apply map_ext. intros b. f_equal. rewrite combine_re, map_map. f_equal. apply map_ext. intros p. cbn [fst snd].
  now rewrite (nth_re n s Hs).
Qed.
Lemma mapM_s {B} (g g' : nat -> result B) : (forall i, (i < n)%nat -> g' i = g (nth i s 0%nat)) -> mapM g' (seq 0 n) = mapM g s.
Proof.
  intros H. transitivity (mapM g (map (fun i => nth i s 0%nat) (seq 0 n))); [|now rewrite s_is]. rewrite mapM_map. apply mapM_ext_in. intros i I. apply in_seq in I. apply H. lia.
Qed.
Lemma em_moved x t : comps t -> follows comp_moved (em_round rnd d n x t) (em_round rnd d n x (comp_moved t)).
Proof.
  intros H. unfold em_round. eapply follows_bind; [apply posterior_moved; exact H|]. intros g Eg.
  eapply (follows_bind (pick [])).
  - unfold calculate_means. rewrite (mapM_s (weighted_mean d x g) (weighted_mean d x (map re g))) by (intros; now apply mean_re). apply follows_seq.
  - intros m Em. eapply (follows_bind (pick [])).
    + unfold calculate_covariances. rewrite (mapM_s (fun i => weighted_cov d x g (nth i m []) i) (fun i => weighted_cov d x (map re g) (nth i (pick [] m) []) i)); [apply follows_seq|]. intros i Hi. rewrite nth_pick by auto. now apply cov_re.
    + intros v Ev. cbn [follows]. unfold comp_moved. cbn [mu sigma alpha]. f_equal. unfold calculate_mixture. apply (seq_re n s Hs). intros i Hi. now rewrite column_re.
Qed.
Lemma em_comps x t t' : em_round rnd d n x t = Ok t' -> comps t'.
Proof.
  unfold em_round. destruct (posterior rnd d t x) as [g|]; [|discriminate]. cbn [bind]. destruct (calculate_means d n x g) as [m|] eqn:M; [|discriminate]. cbn [bind].
  destruct (calculate_covariances d n x m g) as [v|] eqn:V; [|discriminate]. cbn [bind]. intros E. injection E as <-. apply mapM_length in M, V. rewrite seq_length in M, V. unfold comps. cbn [mu sigma alpha].
  unfold calculate_mixture. rewrite map_length, seq_length. auto.
Qed.
Lemma far_moved tol t t' : comps t -> comps t' -> moved tol (comp_moved t) (comp_moved t') = moved tol t t'.
Proof.
  intros (A1 & A2 & A3) (B1 & B2 & B3). unfold moved, comp_moved, far. cbn [mu sigma alpha].
  rewrite (existsb_perm _ _ _ (pairs_perm [] [] (mu t) (mu t') A1 B1)). rewrite (existsb_perm _ _ _ (pairs_perm [] [] (sigma t) (sigma t') A2 B2)).
  change (re (alpha t)) with (pick 0 (alpha t)). change (re (alpha t')) with (pick 0 (alpha t')). rewrite (existsb_perm _ _ _ (pairs_perm 0 0 (alpha t) (alpha t') A3 B3)). reflexivity.
Qed.
Lemma gm_loop_moved x tol : forall epochs t, comps t -> follows comp_moved (gm_loop rnd d n x tol epochs t) (gm_loop rnd d n x tol epochs (comp_moved t)).
Proof.
  induction epochs as [|k IH]; intros t H; cbn [gm_loop]; [reflexivity|]. eapply follows_bind; [apply em_moved; exact H|]. intros t' E. apply em_comps in E.
  rewrite far_moved by auto. destruct (moved tol t t'); [now apply IH|reflexivity].
Qed.
Lemma gm_loop_comps x tol : forall epochs t r, comps t -> gm_loop rnd d n x tol epochs t = Ok r -> comps r.
Proof.
  induction epochs as [|k IH]; intros t r H E; cbn [gm_loop] in E; [now injection E as <-|]. destruct (em_round rnd d n x t) as [t'|] eqn:Em; [|discriminate]. cbn [bind] in E. apply em_comps in Em.
  destruct (moved tol t t'); [exact (IH t' r Em E)|now injection E as <-].
Qed.
End Mixture.
End Order.
