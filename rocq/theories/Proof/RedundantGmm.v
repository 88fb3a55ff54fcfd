(** Proofs about Gaussian mixtures of features that depend on each other (C111). *)
From Coq Require Import List ZArith Reals Lra Lia Bool Arith.
From Verif.Model Require Import Base Ops Matrix Gmm.
From Verif.Spec Require Import Common Smo Gmm Matrix Redundant.
From Verif.Proof Require Import BaseLemmas Determinant Smo Kernels KMeans Gmm Redundant.
Import ListNotations.
Local Open Scope R_scope.
Local Notation length := List.length.

Section Mixture.
Variable rnd : R -> R.
Variables (d : nat) (x : list (list R)) (v : nat -> R) (c : R).
Hypothesis Hv : some_weight d v.
Hypothesis Hc : forall r, In r x -> combination d v r = c.

(** The weights [v] belong to the kernel of [s]. *)
Definition flat_in (s : list (list R)) : Prop := forall a, (a < d)%nat -> sum_below d (fun b => entry s a b * v b) = 0.

Lemma gamma_sum gamma i : length gamma = length x -> rsum (column 0 gamma i) = rsum (map (fun p : list R * list R => nth i (snd p) 0) (combine x gamma)).
Proof.
  intros L. unfold column. revert gamma L. clear Hc. induction x as [|r l IH]; intros [|g gamma] L; try discriminate; auto.
  cbn [combine map]. unfold rsum in *. cbn [fold_right snd]. f_equal. apply IH. now injection L.
Qed.
Lemma mean_flat gamma i m : length gamma = length x -> weighted_mean d x gamma i = Ok m -> sum_below d (fun b => nth b m 0 * v b) = c.
Proof.
  intros L E. unfold weighted_mean in E. set (s := rsum (column 0 gamma i)) in E. destruct (Reqb s 0) eqn:N; [discriminate|]. injection E as <-.
  assert (N' : s <> 0) by (intros Q; apply Reqb_true in Q; congruence).
  rewrite (sum_below_ext d _ (fun b => / s * rsum (map (fun p => nth i (snd p) 0 * (nth b (fst p) 0 * v b)) (combine x gamma)))).
  - rewrite sum_below_scal, <- (rsum_sum_below d (fun p b => nth i (snd p) 0 * (nth b (fst p) 0 * v b))).
    rewrite (rsum_ext _ (fun p => nth i (snd p) 0 * c)).
    + rewrite rsum_map_scal_r, <- gamma_sum by auto. fold s. field. exact N'.
    + intros [a g] I. rewrite sum_below_scal, combination_eq. cbn [fst snd]. apply in_combine_l in I. now rewrite Hc.
  - intros b Hb. rewrite nth_map_seq by auto. unfold Rdiv. rewrite (Rmult_comm _ (/ s)), Rmult_assoc. f_equal. rewrite <- rsum_map_scal_r. apply rsum_ext. intros. ring.
Qed.
Lemma cov_flat gamma i m s : length gamma = length x -> weighted_mean d x gamma i = Ok m -> weighted_cov d x gamma m i = Ok s -> flat_in s.
Proof.
  intros L Em E a Ha. pose proof (mean_flat gamma i m L Em) as M. unfold weighted_cov in E. set (w := rsum (column 0 gamma i)) in E.
  destruct (Reqb w 0) eqn:N; [discriminate|]. injection E as <-.
  rewrite (sum_below_ext d _ (fun b => / w * rsum (map (fun p => nth i (snd p) 0 * (nth a (fst p) 0 - nth a m 0) * ((nth b (fst p) 0 - nth b m 0) * v b)) (combine x gamma)))).
  - rewrite sum_below_scal, <- (rsum_sum_below d (fun p b => nth i (snd p) 0 * (nth a (fst p) 0 - nth a m 0) * ((nth b (fst p) 0 - nth b m 0) * v b))).
    rewrite (rsum_ext _ (fun _ => 0)); [rewrite rsum_map_const; ring|]. intros [r g] I. rewrite sum_below_scal. cbn [fst snd].
    rewrite (sum_below_ext d _ (fun b => nth b r 0 * v b - nth b m 0 * v b)) by (intros; ring).
    apply in_combine_l in I. rewrite sum_below_minus, M, combination_eq, Hc by auto. ring.
  - intros b Hb. unfold entry. rewrite !nth_map_seq by auto. unfold Rdiv. rewrite (Rmult_comm _ (/ w)), Rmult_assoc. f_equal. rewrite <- rsum_map_scal_r. apply rsum_ext. intros. ring.
Qed.
Lemma flat_singular s : flat_in s -> inverse d s = Err LinAlgError.
Proof. intros F. exact (singular d s v Hv F). Qed.
Lemma singular_det s : inverse d s = Err LinAlgError -> det d s = 0.
Proof. unfold inverse. destruct (Reqb (det d s) 0) eqn:E; [|discriminate]. intros _. now apply Reqb_true. Qed.
Lemma flat_density r m s : flat_in s -> normal_density rnd d r m s = Err LinAlgError.
Proof.
  intros F. pose proof (flat_singular s F) as E. unfold normal_density. rewrite (singular_det s E), E.
  replace (Rltb 0 0) with false by (symmetry; apply Rltb_false; lra). reflexivity.
Qed.
Lemma flat_posterior t y n : (0 < n)%nat -> length (mu t) = n -> length (sigma t) = n -> Forall flat_in (sigma t) -> y <> [] ->
  posterior rnd d t y = Err LinAlgError.
Proof.
  intros Hn Lm Ls F Hy. destruct y as [|r y]; [easy|]. unfold posterior. cbn [mapM]. unfold posterior_row at 1, densities.
  destruct (mu t) as [|m ms]; [cbn in Lm; lia|]. destruct (sigma t) as [|s ss]; [cbn in Ls; lia|]. inversion F; subst.
  cbn [combine mapM fst snd]. rewrite flat_density by auto. reflexivity.
Qed.
Lemma round_flat n t t' : em_round rnd d n x t = Ok t' -> length (mu t') = n /\ length (sigma t') = n /\ Forall flat_in (sigma t').
Proof.
  unfold em_round. intros E. destruct (posterior rnd d t x) as [gamma|] eqn:Eg; cbn [bind] in E; [|discriminate].
  destruct (calculate_means d n x gamma) as [m|] eqn:Em; cbn [bind] in E; [|discriminate].
  destruct (calculate_covariances d n x m gamma) as [s|] eqn:Es; cbn [bind] in E; [|discriminate]. injection E as <-. cbn [mu sigma].
  pose proof (mapM_length _ _ _ Eg) as L. pose proof (mapM_length _ _ _ Em) as Lm. pose proof (mapM_length _ _ _ Es) as Ls. rewrite seq_length in Lm, Ls.
  split; [exact Lm|]. split; [exact Ls|]. apply Forall_forall. intros a I. destruct (In_nth s a [] I) as (i & Hi & <-).
  unfold calculate_means in Em. unfold calculate_covariances in Es.
  assert (Q : weighted_mean d x gamma i = Ok (nth i m [])).
  { pose proof (mapM_nth _ _ _ i 0%nat [] Em) as K. rewrite seq_length, seq_nth in K by lia. apply K. lia. }
  assert (Q' : weighted_cov d x gamma (nth i m []) i = Ok (nth i s [])).
  { pose proof (mapM_nth _ _ _ i 0%nat [] Es) as K. rewrite seq_length, seq_nth in K by lia. apply K. lia. }
  exact (cov_flat gamma i _ _ L Q Q').
Qed.
Lemma flat_round n t : (0 < n)%nat -> x <> [] -> length (mu t) = n -> length (sigma t) = n -> Forall flat_in (sigma t) -> em_round rnd d n x t = Err LinAlgError.
Proof. intros Hn Hx Lm Ls F. unfold em_round. now rewrite (flat_posterior t x n). Qed.
Lemma flat_loop n tol epochs t : (0 < n)%nat -> x <> [] -> length (mu t) = n -> length (sigma t) = n -> Forall flat_in (sigma t) ->
  (b <- gm_loop rnd d n x tol epochs t ;; cl <- gm_predict rnd d b x ;; Ok (b, cl)) = Err LinAlgError.
Proof.
  intros Hn Hx Lm Ls F. destruct epochs as [|e]; cbn [gm_loop].
  - cbn [bind]. unfold gm_predict. now rewrite (flat_posterior t x n).
  - now rewrite (flat_round n t).
Qed.
(** What training does: nothing or an exception. *)
Lemma fit_flat randint n i_mu i_cov i_mix tol epochs : (0 < n)%nat -> x <> [] ->
  gm_fit rnd d randint x n i_mu i_cov i_mix tol (S epochs) =
  (t0 <- gm_init d randint x n i_mu i_cov i_mix ;; t1 <- em_round rnd d n x t0 ;;
   if moved tol t0 t1 then Err LinAlgError else cl <- gm_predict rnd d t0 x ;; Ok (t0, cl)).
Proof.
  intros Hn Hx. unfold gm_fit. destruct (gm_init d randint x n i_mu i_cov i_mix) as [t0|]; cbn [bind]; auto. cbn [gm_loop].
  destruct (em_round rnd d n x t0) as [t1|] eqn:E; cbn [bind]; auto. destruct (moved tol t0 t1); [|reflexivity].
  destruct (round_flat n t0 t1 E) as (Lm & Ls & F). exact (flat_loop n tol epochs t1 Hn Hx Lm Ls F).
Qed.
(** The default covariances are far from flat ones. *)
Lemma far_nth tol a b j : (j < length a)%nat -> length a = length b -> far tol a b = false -> Rabs (nth j a 0 - nth j b 0) <= tol.
Proof.
  intros Hj L F. unfold far in F. destruct (Rle_dec (Rabs (nth j a 0 - nth j b 0)) tol) as [|N]; auto. exfalso.
  assert (T : existsb (fun p => Rltb tol (Rabs (fst p - snd p))) (combine a b) = true); [|congruence].
  apply existsb_exists. exists (nth j a 0, nth j b 0). split; [|apply Rltb_true; cbn; lra].
  rewrite <- combine_nth by auto. apply nth_In. rewrite combine_length. lia.
Qed.
Lemma tenth_entry a b : (a < d)%nat -> (b < d)%nat -> entry (diag_tenth d) a b = if (a =? b)%nat then 1 / 10 else 0.
Proof. intros Ha Hb. unfold entry, diag_tenth. now rewrite !nth_map_seq. Qed.
(** The largest weight. *)
Lemma largest n : (0 < n)%nat -> exists i, (i < n)%nat /\ forall j, (j < n)%nat -> Rabs (v j) <= Rabs (v i).
Proof.
  induction n as [|n IH]; intros H; [lia|]. destruct n as [|n].
  - exists 0%nat. split; [lia|]. intros j Hj. replace j with 0%nat by lia. lra.
  - destruct IH as (i & Hi & M); [lia|]. destruct (Rle_dec (Rabs (v (S n))) (Rabs (v i))) as [Q|Q].
    + exists i. split; [lia|]. intros j Hj. destruct (Nat.eq_dec j (S n)) as [->|]; [exact Q|apply M; lia].
    + exists (S n). split; [lia|]. intros j Hj. destruct (Nat.eq_dec j (S n)) as [->|]; [lra|]. specialize (M j ltac:(lia)). lra.
Qed.
Lemma sum_abs n f : Rabs (sum_below n f) <= sum_below n (fun j => Rabs (f j)).
Proof. induction n as [|n IH]; [unfold sum_below; cbn; rewrite Rabs_R0; lra|]. rewrite !sum_below_S. pose proof (Rabs_triang (sum_below n f) (f n)). lra. Qed.
Lemma sum_const n k : sum_below n (fun _ => k) = INR n * k.
Proof. induction n as [|n IH]; [unfold sum_below; cbn; lra|]. rewrite sum_below_S, IH, S_INR. ring. Qed.
Lemma tenth_not_flat s tol : flat_in s -> (forall a b, (a < d)%nat -> (b < d)%nat -> Rabs (entry (diag_tenth d) a b - entry s a b) <= tol) -> 1 / 10 <= INR d * tol.
Proof.
  intros F C. assert (Hd : (0 < d)%nat) by (destruct Hv as (i & Hi & _); lia). destruct (largest d Hd) as (i & Hi & M).
  assert (P : 0 < Rabs (v i)) by (destruct Hv as (k & Hk & Nk); specialize (M k Hk); pose proof (Rabs_pos_lt _ Nk); lra).
  assert (E : sum_below d (fun b => (entry (diag_tenth d) i b - entry s i b) * v b) = 1 / 10 * v i).
  { rewrite (sum_below_ext d _ (fun b => entry (diag_tenth d) i b * v b - entry s i b * v b)) by (intros; ring).
    rewrite sum_below_minus, (F i Hi), (sum_below_one d i); [rewrite tenth_entry, Nat.eqb_refl by auto; ring|exact Hi|].
    intros b Hb N. rewrite tenth_entry by auto. destruct (Nat.eqb_spec i b); [now subst|ring]. }
  assert (B : Rabs (1 / 10 * v i) <= INR d * (tol * Rabs (v i))).
  { rewrite <- E, <- sum_const. eapply Rle_trans; [apply sum_abs|]. apply sum_below_le. intros b Hb. rewrite Rabs_mult.
    apply Rmult_le_compat; auto using Rabs_pos. }
  rewrite Rabs_mult, (Rabs_right (1 / 10)) in B by lra. apply Rmult_le_reg_r with (Rabs (v i)); [exact P|]. lra.
Qed.
Lemma default_fails randint n i_mu i_mix tol epochs : (0 < n)%nat -> x <> [] -> INR d * tol < 1 / 10 ->
  forall r, gm_fit rnd d randint x n i_mu CovNone i_mix tol (S epochs) <> Ok r.
Proof.
  intros Hn Hx Ht r. rewrite fit_flat by auto. destruct (gm_init d randint x n i_mu CovNone i_mix) as [t0|] eqn:E0; cbn [bind]; [|discriminate].
  destruct (em_round rnd d n x t0) as [t1|] eqn:E1; cbn [bind]; [|discriminate]. destruct (moved tol t0 t1) eqn:Mv; [discriminate|]. exfalso.
  destruct (round_flat n t0 t1 E1) as (_ & Ls & F).
  assert (S0 : sigma t0 = map (fun _ => diag_tenth d) (seq 0 n)).
  { unfold gm_init in E0. destruct (init_centroids randint d x n i_mu); cbn [bind] in E0; [|discriminate]. cbn [init_covariances bind] in E0.
    destruct (init_mixture_coefficient n i_mix); cbn [bind] in E0; [|discriminate]. now injection E0 as <-. }
  unfold moved in Mv. apply orb_false_iff in Mv. destruct Mv as [Mv _]. apply orb_false_iff in Mv. destruct Mv as [_ Mv]. rewrite S0 in Mv.
  destruct n as [|n]; [lia|]. destruct (sigma t1) as [|s ss] eqn:E; [discriminate|]. cbn [seq map combine existsb fst snd] in Mv.
  apply orb_false_iff in Mv. destruct Mv as [Mv _]. inversion F as [|? ? Fs _]; subst.
  assert (Sq : square d s).
  { unfold em_round in E1. destruct (posterior rnd d t0 x) as [gamma|]; cbn [bind] in E1; [|discriminate].
    destruct (calculate_means d (S n) x gamma) as [m|]; cbn [bind] in E1; [|discriminate].
    destruct (calculate_covariances d (S n) x m gamma) as [ss'|] eqn:Ec; cbn [bind] in E1; [|discriminate].
    assert (Q : ss' = s :: ss) by (rewrite <- E; now injection E1 as <-). unfold calculate_covariances in Ec. cbn [seq mapM] in Ec.
    destruct (weighted_cov d x gamma (nth 0 m []) 0) as [s'|] eqn:Ew; cbn [bind] in Ec; [|discriminate].
    destruct (mapM _ _) as [ss''|]; cbn [bind] in Ec; [|discriminate]. assert (s' = s) as -> by (rewrite Q in Ec; now injection Ec).
    unfold weighted_cov in Ew. destruct (Reqb _ 0); [discriminate|]. injection Ew as <-. split; [now rewrite map_length, seq_length|].
    apply Forall_forall. intros l I. apply in_map_iff in I. destruct I as (a & <- & _). now rewrite map_length, seq_length. }
  pose proof (tenth_not_flat s tol Fs) as T. apply (Rlt_irrefl (1 / 10)). apply Rle_lt_trans with (2 := Ht). apply T. intros a b Ha Hb.
  destruct Sq as [Sq1 Sq2]. unfold entry. apply far_nth.
  - unfold diag_tenth. rewrite nth_map_seq by auto. now rewrite map_length, seq_length.
  - unfold diag_tenth. rewrite nth_map_seq by auto. rewrite map_length, seq_length. rewrite Forall_forall in Sq2. symmetry. apply Sq2, nth_In. lia.
  - destruct (far tol (nth a (diag_tenth d) []) (nth a s [])) eqn:Q; auto. exfalso.
    assert (T' : existsb (fun q => far tol (fst q) (snd q)) (combine (diag_tenth d) s) = true); [|congruence].
    apply existsb_exists. exists (nth a (diag_tenth d) [], nth a s []). split; [|exact Q].
    assert (L : length (diag_tenth d) = d) by (unfold diag_tenth; now rewrite map_length, seq_length).
    rewrite <- combine_nth by lia. apply nth_In. rewrite combine_length. lia.
Qed.
End Mixture.
