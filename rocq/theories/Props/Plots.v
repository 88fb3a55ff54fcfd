(** Property theorems C78: what the two-dimensional plots show
    (classicML/api/plots/linear_model.py, cluster.py, support_vector_machine.py,
    ensemble.py, bayes.py). *)
From Coq Require Import List ZArith Reals Lra Lia Bool Arith Permutation String.
From Verif.Model Require Import Base Hull Tree Activations Logistic Lda Smo Plots.
From Verif.Spec Require Import Smo Plots Hull.
From Verif.Proof Require Import BaseLemmas Hull Activations Smo SmoMain Plots.
Import ListNotations.
Local Open Scope R_scope.
Local Notation length := List.length.

(** ** Samples *)

(** The two groups are the samples with the two labels. *)
Theorem C78_samples : forall neg x y, (neg <> 1)%Z ->
  (length y = length x -> exists a b, scatter neg x y = Ok (a, b) /\
     picked (fun l => l = neg) x y a /\ picked (fun l => l = 1%Z) x y b) /\
  (length y <> length x -> scatter neg x y = Err IndexError).
Proof. intros neg x y _. split; [apply scatter_spec|apply scatter_fails]. Qed.
Print Assumptions C78_samples.

(** With no other labels every sample is drawn exactly once; a sample with another
    label is silently left out. *)
Theorem C78_each_sample_once : forall neg x y a b, (neg <> 1)%Z -> scatter neg x y = Ok (a, b) ->
  ((forall l, In l y -> l = neg \/ l = 1%Z) -> Permutation (a ++ b) x) /\
  ((exists l, In l y /\ l <> neg /\ l <> 1%Z) -> (length a + length b < length x)%nat).
Proof.
  intros neg x y a b N E. apply scatter_Ok in E. destruct E as (L & Ha & Hb).
  assert (D : forall l, ~ (l = neg /\ l = 1%Z)) by (intros l [-> ->]; congruence). split.
  - intros H. eapply picked_total; eauto.
  - intros H. apply (picked_bound _ _ _ _ _ _ Ha Hb D). exact H.
Qed.
Print Assumptions C78_each_sample_once.

(** ** Grids of predictions *)

(** The colour at every grid position is the prediction for exactly that position. *)
Theorem C78_background : forall (A : Type) (f : point -> result A) predict x0 x1, row_by_row f predict ->
  (forall g, background predict x0 x1 = Ok g -> shows f x0 x1 g) /\
  ((forall u v, In u x0 -> In v x1 -> exists y, f (u, v) = Ok y) -> exists g, background predict x0 x1 = Ok g).
Proof. intros A f predict x0 x1 R. split; [intros g; now apply background_shows|now apply background_total with (f := f)]. Qed.
Print Assumptions C78_background.

(** The coordinates run evenly from one end to the other, stay in between, and come
    within half a step of every value. *)
Theorem C78_coordinates : forall a b n, (2 <= n)%nat -> a <= b ->
  evenly a b n (linspace a b n) /\ (forall u, In u (linspace a b n) -> a <= u <= b) /\
  (forall p, a <= p <= b -> exists u, In u (linspace a b n) /\ Rabs (u - p) <= (b - a) / INR (n - 1) / 2).
Proof.
  intros a b n Hn Hab. split; [now apply linspace_evenly|]. split; [intros u; now apply linspace_In|]. intros p Hp. now apply linspace_near.
Qed.
Print Assumptions C78_coordinates.

(** ** Support vector classifier *)

(** A trained classifier drawn with its training data: the circled samples are its
    support vectors, the background its predictions; the frame ends at height 4/5. *)
Theorem C78_svc : forall K C tol perms fuel epochs (x : list point) y m, length y = length x ->
  pm_labels (map IZR y) -> 0 <= C -> permutations_of (length x) perms ->
  svc_fit K (map (fun p => [fst p; snd p]) x) (map IZR y) C tol perms fuel epochs = Ok m ->
  exists a b s g, plot_svc true false (support m) (fun ps => Ok (map (fun p => svc_predict K m [fst p; snd p]) ps)) x y = Ok (a, b, s, g) /\
  picked (fun l => l = (-1)%Z) x y a /\ picked (fun l => l = 1%Z) x y b /\
  map (fun p => [fst p; snd p]) s = support_vector m /\
  shows (fun p => Ok (svc_predict K m [fst p; snd p])) (linspace 0 1 300) (linspace 0 (4/5) 300) g.
Proof.
  intros K C tol perms fuel epochs x y m L Pm HC Hperm E.
  assert (Hs : forall i, In i (support m) -> (i < length x)%nat).
  { destruct (support_set K (map (fun p => [fst p; snd p]) x) (map IZR y) C tol perms fuel epochs m) as (al & _ & Hal & _); try rewrite !map_length; auto.
    intros i Hi. apply Hal in Hi. now rewrite map_length in Hi. }
  destruct (scatter_spec (-1) x y L) as (a & b & Eab & Ha & Hb).
  set (f := fun p : point => Ok (svc_predict K m [fst p; snd p])).
  assert (R : row_by_row f (fun ps => Ok (map (fun p => svc_predict K m [fst p; snd p]) ps))).
  { intros ps. unfold f. induction ps as [|p ps IH]; [reflexivity|]. cbn [mapM map]. rewrite <- IH. reflexivity. }
  destruct (background_total f _ (linspace 0 1 300) (linspace 0 (4/5) 300) R) as (g & Eg); [intros; eexists; reflexivity|].
  assert (S1 : exists s, mapM (get_at x) (support m) = Ok s /\ map (fun p => [fst p; snd p]) s = support_vector m).
  { unfold svc_fit in E. apply bind_Ok in E. destruct E as (st & _ & E). injection E as <-. unfold svc_of in *. cbn [support support_vector] in *.
    revert Hs. generalize (Ops.nonzero (non_zero st)). induction l as [|i l IH]; intros Hs; [exists []; auto|]. destruct IH as (s & E1 & E2); [intros; apply Hs; now right|].
    destruct (nth_error x i) as [p|] eqn:Ep; [|apply nth_error_None in Ep; specialize (Hs i (or_introl eq_refl)); lia].
    exists (p :: s). cbn [mapM map]. unfold get_at at 1. rewrite Ep. cbn [bind]. rewrite E1. cbn [bind]. split; [reflexivity|]. f_equal; [|exact E2].
    symmetry. apply (nth_error_nth (map (fun p => [fst p; snd p]) x) i). rewrite nth_error_map. unfold point in *. rewrite Ep. reflexivity. }
  destruct S1 as (s & E1 & E2). exists a, b, s, g. unfold plot_svc, guarded. cbn [negb andb]. rewrite Eab. cbn [bind]. rewrite E1. cbn [bind]. rewrite Eg.
  cbn [bind fst snd]. split; [reflexivity|]. split; [exact Ha|]. split; [exact Hb|]. split; [exact E2|]. now apply background_shows with (predict := fun ps => Ok (map (fun p => svc_predict K m [fst p; snd p]) ps)).
Qed.
Print Assumptions C78_svc.

(** ** Ensembles *)
Theorem C78_ensemble : forall es f x y show r, Forall (fun e => row_by_row (fst e) (snd e)) es ->
  forall predict, row_by_row f predict -> plot_ensemble true false (map snd es) predict x y show = Ok r ->
  let '(a, b, gs, g) := r in
  picked (fun l => l = (-1)%Z) x y a /\ picked (fun l => l = 1%Z) x y b /\
  shows f (linspace 0 1 300) (linspace 0 1 300) g /\
  (if show then Forall2 (fun e g => shows (fst e) (linspace 0 1 300) (linspace 0 1 300) g) es gs else gs = []).
Proof.
  intros es f x y show [[[a b] gs] g] He predict R E. unfold plot_ensemble, guarded in E. cbn [negb andb] in E.
  apply bind_Ok in E. destruct E as ([a' b'] & E1 & E). apply bind_Ok in E. destruct E as (gs' & E2 & E). apply bind_Ok in E. destruct E as (g' & E3 & E).
  injection E as <- <- <- <-. apply scatter_Ok in E1. destruct E1 as (_ & H1 & H2). split; [exact H1|]. split; [exact H2|].
  split; [now apply background_shows with (predict := predict)|]. destruct show; [|now injection E2 as <-].
  revert gs' E2. induction He as [|[fe e] es Hfe He IH]; intros gs' E2; cbn [map mapM snd] in E2.
  - injection E2 as <-. constructor.
  - apply bind_Ok in E2. destruct E2 as (ge & Ege & E2). apply bind_Ok in E2. destruct E2 as (gs'' & E4 & E2). injection E2 as <-.
    constructor; [|now apply IH]. cbn [fst snd] in *. now apply background_shows with (predict := e).
Qed.
Print Assumptions C78_ensemble.

(** ** Logistic regression *)

(** The drawn line consists of the points with probability one half; above it the
    probability is larger if the second weight is positive, smaller if negative. *)
Theorem C78_logistic_line : forall b0 b1 b2 d x y a b line, plot_logistic true false [b0; b1; b2] d x y = Ok (a, b, line) ->
  d = 2%nat /\ picked (fun l => l = 0%Z) x y a /\ picked (fun l => l = 1%Z) x y b /\ map fst line = linspace 0 1 50 /\
  (forall u h, In (u, h) line -> h = None <-> b1 = 0) /\
  (forall u v, In (u, Some v) line -> forall v', (forward_row [b0; b1; b2] [u; v'] = 1/2 <-> v' = v) /\
     (0 < b1 -> (1/2 < forward_row [b0; b1; b2] [u; v'] <-> v < v')) /\ (b1 < 0 -> (1/2 < forward_row [b0; b1; b2] [u; v'] <-> v' < v))).
Proof.
  intros b0 b1 b2 d x y a b line E. unfold plot_logistic, guarded in E. cbn [negb andb] in E. remember (linspace 0 1 50) as xs eqn:Exs. clear Exs. destruct (Nat.eqb_spec d 2) as [->|]; [|discriminate]. cbn [negb] in E.
  apply bind_Ok in E. destruct E as ([a' b'] & E1 & E). injection E as <- <- <-. apply scatter_Ok in E1. destruct E1 as (_ & H1 & H2).
  split; [reflexivity|]. split; [exact H1|]. split; [exact H2|]. split; [rewrite map_map; apply map_id|].
  unfold logistic_height. cbn [nth]. unfold Reqb. split.
  - intros u h H. apply in_map_iff in H. destruct H as (t & Et & _). injection Et as _ <-. destruct (Req_EM_T b1 0); split; intros; congruence.
  - intros u v H v'. apply in_map_iff in H. destruct H as (t & Et & _). injection Et as -> Ev. destruct (Req_EM_T b1 0) as [|Nz]; [discriminate|]. injection Ev as <-.
    unfold forward_row, with_one. cbn [app dot]. set (z := u * b0 + (v' * b1 + (1 * b2 + 0))). set (v := - (b0 * u + b2) / b1).
    assert (Ez : z = b1 * (v' - v)) by (unfold z, v; field; exact Nz).
    assert (Half : forall z, 1 / 2 < sigmoid z <-> 0 < z).
    { intros z0. rewrite <- sigmoid_0. split; intros H; [|now apply sigmoid_incr]. destruct (Rle_or_lt z0 0) as [[H0| ->]|H0]; [apply sigmoid_incr in H0; lra|lra|exact H0]. }
    split; [|split].
    + rewrite <- sigmoid_0. split; intros H.
      * apply sigmoid_inj in H. rewrite Ez in H. apply Rmult_integral in H. destruct H; lra.
      * rewrite Ez, H. now replace (b1 * (v - v)) with 0 by ring.
    + intros Hb. rewrite Half, Ez. split; intros H; [|apply Rmult_lt_0_compat; lra]. apply Rmult_lt_reg_l with b1; lra.
    + intros Hb. rewrite Half, Ez. split; intros H; [|replace (b1 * (v' - v)) with ((- b1) * (v - v')) by ring; apply Rmult_lt_0_compat; lra].
      apply Rmult_lt_reg_l with (- b1); lra.
Qed.
Print Assumptions C78_logistic_line.

Theorem C78_logistic_other_dimensions : forall beta d x y, d <> 2%nat -> plot_logistic true false beta d x y = Err ValueError.
Proof. intros beta d x y H. unfold plot_logistic, guarded. cbn [negb andb]. now destruct (Nat.eqb_spec d 2). Qed.
Print Assumptions C78_logistic_other_dimensions.

(** ** Linear discriminant analysis *)

(** Every sample is joined to the foot of its perpendicular on the direction, the
    nearest point there, and the foot is classified like the sample; the means are
    projected in the same way. *)
Theorem C78_lda_projections : forall w mu0 mu1 x y a b c0 c1 line, w <> (0, 0) ->
  plot_lda true false w mu0 mu1 x y = Ok (a, b, (c0, c1), line) ->
  picked (fun l => l = 0%Z) x y (map fst a) /\ picked (fun l => l = 1%Z) x y (map fst b) /\
  (forall p q, In (p, q) (a ++ b) \/ (p, q) = (mu0, c0) \/ (p, q) = (mu1, c1) -> exists f, q = Some f /\ foot w p f /\
     (forall k, square_distance p f <= square_distance p (times k w)) /\
     (forall m, lda_w m = [fst w; snd w] -> lda_predict m [fst f; snd f] = lda_predict m [fst p; snd p])).
Proof.
  intros w mu0 mu1 x y a b c0 c1 line Hw E. unfold plot_lda, guarded in E. cbn [negb andb] in E. remember (linspace 0 1 50) as xs eqn:Exs. clear Exs. apply bind_Ok in E. destruct E as ([a' b'] & E1 & E).
  apply scatter_Ok in E1. destruct E1 as (_ & H1 & H2). destruct (unit_of w) as [u|] eqn:U; [|apply unit_none in U; contradiction].
  injection E as <- <- <- <- _. cbn [fst snd]. rewrite !map_map. cbn [fst]. rewrite !map_id. split; [exact H1|]. split; [exact H2|].
  assert (G : forall p, exists f, Some (projected u p) = Some f /\ foot w p f /\ (forall k, square_distance p f <= square_distance p (times k w)) /\
     (forall m, lda_w m = [fst w; snd w] -> lda_predict m [fst f; snd f] = lda_predict m [fst p; snd p])).
  { intros p. exists (projected u p). split; [reflexivity|]. pose proof (projected_foot w u p U) as F. split; [exact F|]. split; [now apply foot_nearest|].
    intros m Em. apply foot_same in F. unfold lda_predict. rewrite Em. cbn [dot]. unfold scalar in F.
    replace (fst (projected u p) * fst w + (snd (projected u p) * snd w + 0)) with (fst p * fst w + (snd p * snd w + 0)) by (rewrite !Rplus_0_r; now symmetry). reflexivity. }
  intros p q [H|[H|H]].
  - apply in_app_or in H. destruct H as [H|H]; apply in_map_iff in H; destruct H as (p' & Ep & _); injection Ep as -> <-; apply G.
  - injection H as -> ->. apply G.
  - injection H as -> ->. apply G.
Qed.
Print Assumptions C78_lda_projections.

(** The drawn line lies on the direction; a vertical direction is not drawn, and
    without a direction nothing is projected. *)
Theorem C78_lda_line : forall w mu0 mu1 x y a b c line, plot_lda true false w mu0 mu1 x y = Ok (a, b, c, line) ->
  map fst line = linspace 0 1 50 /\
  (forall u h, In (u, h) line -> h = None <-> fst w = 0) /\
  (forall u v, In (u, Some v) line -> exists k, (u, v) = times k w) /\
  (w = (0, 0) -> c = (None, None) /\ forall p q, In (p, q) (a ++ b) -> q = None).
Proof.
  intros w mu0 mu1 x y a b c line E. unfold plot_lda, guarded in E. cbn [negb andb] in E. remember (linspace 0 1 50) as xs eqn:Exs. clear Exs. apply bind_Ok in E. destruct E as ([a' b'] & E1 & E).
  injection E as <- <- <- <-. split; [rewrite map_map; apply map_id|]. unfold lda_height, Reqb. split; [|split].
  - intros u h H. apply in_map_iff in H. destruct H as (t & Et & _). injection Et as _ <-. destruct (Req_EM_T (fst w) 0); split; intros; congruence.
  - intros u v H. apply in_map_iff in H. destruct H as (t & Et & _). injection Et as -> Ev. destruct (Req_EM_T (fst w) 0) as [|Nz]; [discriminate|]. injection Ev as <-.
    exists (u / fst w). unfold times. f_equal; field; exact Nz.
  - intros ->. rewrite (proj2 (unit_none (0, 0)) eq_refl). split; [reflexivity|]. intros p q H. apply in_app_or in H.
    destruct H as [H|H]; apply in_map_iff in H; destruct H as (p' & Ep & _); congruence.
Qed.
Print Assumptions C78_lda_line.

(** ** Clusters *)

(** Group [k] has the samples of cluster [k]; if all labels are below the number of
    means, every sample is drawn exactly once. *)
Theorem C78_gaussian_mixture : forall mu cl x gs ms, plot_gaussian_mixture true false mu cl x = Ok (gs, ms) ->
  ms = mu /\ length gs = length mu /\
  (mu <> [] -> length cl = length x /\
   (forall k, (k < length mu)%nat -> exists g, nth_error gs k = Some g /\ picked (fun l => l = k) x cl g) /\
   ((forall l, In l cl -> (l < length mu)%nat) -> Permutation (List.concat gs) x)).
Proof.
  intros mu cl x gs ms E. unfold plot_gaussian_mixture, guarded in E. cbn [negb andb] in E. apply bind_Ok in E. destruct E as (gs' & E1 & E). injection E as <- <-.
  split; [reflexivity|]. split; [rewrite (mapM_length _ _ _ E1); apply seq_length|]. intros N.
  assert (L : length cl = length x).
  { destruct (Nat.eq_dec (length cl) (length x)) as [|L]; [assumption|]. destruct mu; [congruence|]. cbn [length seq mapM] in E1. rewrite masked_length in E1 by exact L. discriminate. }
  split; [exact L|]. split.
  - intros k Hk. destruct (seq_mapM_nth _ _ _ _ E1 Hk) as (g & G1 & G2). exists g. split; [exact G1|]. destruct (cluster_mask k x cl L) as (c & C1 & C2). congruence.
  - intros B. eapply groups_cover; eauto.
Qed.
Print Assumptions C78_gaussian_mixture.

(** The plot of k-means fails exactly when some cluster has fewer than two samples. *)
Theorem C78_k_means_fails : forall by_x n cs cl x, sorts_by_x by_x -> length cl = length x ->
  ((forall k, (k < n)%nat -> (2 <= count_occ Nat.eq_dec cl k)%nat) -> exists hs, plot_k_means by_x true false n cs cl x = Ok (x, cs, hs)) /\
  ((exists k, (k < n)%nat /\ (count_occ Nat.eq_dec cl k < 2)%nat) -> plot_k_means by_x true false n cs cl x = Err IndexError).
Proof.
  intros by_x n cs cl x S L. unfold plot_k_means, guarded. cbn [negb andb].
  assert (C : forall k, exists c, masked (map (Nat.eqb k) cl) x = Ok c /\ length c = count_occ Nat.eq_dec cl k).
  { intros k. destruct (cluster_mask k x cl L) as (c & C1 & C2). exists c. split; [exact C1|]. eapply picked_count; eauto. }
  split.
  - intros H. destruct (mapM_total (fun k => c <- masked (map (Nat.eqb k) cl) x ;; compute_convex_hull by_x c) (seq 0 n)) as (hs & E).
    + intros k Hk. apply in_seq in Hk. destruct (C k) as (c & C1 & C2). rewrite C1. cbn [bind]. apply (proj1 (hull_total by_x c S)). unfold Hull.point in *. rewrite C2. apply H. lia.
    + rewrite E. exists hs. reflexivity.
  - intros (k & Hk & Hc). rewrite mapM_error with (e := IndexError); [reflexivity| |].
    + intros k' _. destruct (C k') as (c & C1 & C2). rewrite C1. cbn [bind]. destruct (hull_total by_x c S) as [T1 T2].
      destruct (le_lt_dec 2 (length c)); [left; auto|right; auto].
    + exists k. split; [apply in_seq; lia|]. destruct (C k) as (c & C1 & C2). rewrite C1. cbn [bind]. apply (proj2 (hull_total by_x c S)). unfold Hull.point in *. now rewrite C2.
Qed.
Print Assumptions C78_k_means_fails.

(** Otherwise all samples are drawn and the hull of a cluster encloses its samples
    (distinct, ties as in C11) and has its corners among them. *)
Theorem C78_k_means_hulls : forall by_x n cs cl x xs cs' hs, sorts_by_x by_x -> plot_k_means by_x true false n cs cl x = Ok (xs, cs', hs) ->
  xs = x /\ cs' = cs /\ length hs = n /\
  forall k, (k < n)%nat -> exists h c, nth_error hs k = Some h /\ picked (fun l => l = k) x cl c /\
    (ties_ok (by_x c) -> (forall z, In z h -> In z c) /\ (forall i z, nth_error x i = Some z -> nth_error cl i = Some k -> in_hull h z)).
Proof.
  intros by_x n cs cl x xs cs' hs S E. unfold plot_k_means, guarded in E. cbn [negb andb] in E. apply bind_Ok in E. destruct E as (hs' & E1 & E). injection E as <- <- <-.
  split; [reflexivity|]. split; [reflexivity|]. split; [rewrite (mapM_length _ _ _ E1); apply seq_length|]. intros k Hk.
  destruct (seq_mapM_nth _ _ _ _ E1 Hk) as (h & H1 & H2). apply bind_Ok in H2. destruct H2 as (c & C1 & C2).
  assert (L : length cl = length x) by (destruct (Nat.eq_dec (length cl) (length x)) as [|L]; [assumption|rewrite masked_length in C1 by exact L; discriminate]).
  destruct (cluster_mask k x cl L) as (c' & C3 & C4). assert (c' = c) by congruence. subst c'. exists h, c. split; [exact H1|]. split; [exact C4|].
  intros T. destruct (hull_main by_x c h S T C2) as (_ & M1 & _ & M2). split; [exact M1|]. intros i z Hz Hc. apply M2. apply (picked_In _ _ _ _ C4). eauto.
Qed.
Print Assumptions C78_k_means_hulls.

(** ** Bayes classifiers *)

(** A successful plot has exactly two numeric columns; its frame reaches a tenth
    beyond every sample and its background shows the predictions. *)
Theorem C78_bayes : forall f predict cols y a b x0 x1 g, row_by_row f predict -> plot_bayes true false predict cols y = Ok (a, b, x0, x1, g) ->
  exists u v, cols = [map Num u; map Num v] /\
  picked (fun l => l = 0%Z) (combine u v) y a /\ picked (fun l => l = 1%Z) (combine u v) y b /\ shows f x0 x1 g /\
  (exists l0 h0 l1 h1, evenly l0 h0 300 x0 /\ evenly l1 h1 300 x1 /\
     forall p q, In (p, q) (combine u v) -> l0 + 1/10 <= p <= h0 - 1/10 /\ l1 + 1/10 <= q <= h1 - 1/10).
Proof.
  intros f predict cols y a b x0 x1 g R E. unfold plot_bayes, guarded in E. cbn [negb andb] in E.
  apply bind_Ok in E. destruct E as (c0 & G0 & E). apply bind_Ok in E. destruct E as (r0 & R0 & E). apply bind_Ok in E. destruct E as (c1 & G1 & E). apply bind_Ok in E. destruct E as (r1 & R1 & E).
  destruct (Nat.eqb_spec (length cols) 2) as [L|]; [|discriminate]. cbn [negb] in E. cbv zeta in E.
  remember (linspace (fst r0) (snd r0) 300) as l0 eqn:El0. remember (linspace (fst r1) (snd r1) 300) as l1 eqn:El1. apply bind_Ok in E. destruct E as (g' & Eg & E).
  destruct cols as [|c0' [|c1' [|]]]; try discriminate. unfold get_at in G0, G1. cbn in G0, G1. injection G0 as ->. injection G1 as ->.
  destruct (range_spec _ _ R0) as (u & U1 & U2 & U3). destruct (range_spec _ _ R1) as (v & V1 & V2 & V3).
  rewrite (proj2 (numbers_spec _ _) U1), (proj2 (numbers_spec _ _) V1) in E. apply bind_Ok in E. destruct E as ([a' b'] & Es & E).
  injection E as <- <- <- <- <-. rewrite El0, El1 in *.
  apply scatter_Ok in Es. destruct Es as (_ & H1 & H2). exists u, v. split; [now rewrite U1, V1|]. split; [exact H1|]. split; [exact H2|].
  split; [now apply background_shows with (predict := predict)|]. exists (fst r0), (snd r0), (fst r1), (snd r1).
  split; [apply linspace_evenly; lia|]. split; [apply linspace_evenly; lia|]. intros p q Hpq. split; [apply U3; eapply in_combine_l; eauto|apply V3; eapply in_combine_r; eauto].
Qed.
Print Assumptions C78_bayes.

(** More than two columns, or a text among the first two: no plot. *)
Theorem C78_bayes_fails : forall predict c0 c1 cols y,
  (c0 <> [] -> (exists s, In (Txt s) c0) -> plot_bayes true false predict (c0 :: c1 :: cols) y = Err TypeError) /\
  (forall r, plot_bayes true false predict (c0 :: c1 :: cols) y = Ok r -> cols = []).
Proof.
  intros predict c0 c1 cols y. split.
  - intros N T. unfold plot_bayes, guarded. cbn [negb andb]. cbn. now rewrite range_text.
  - intros r E. unfold plot_bayes, guarded in E. cbn [negb andb] in E.
    apply bind_Ok in E. destruct E as (? & _ & E). apply bind_Ok in E. destruct E as (? & _ & E). apply bind_Ok in E. destruct E as (? & _ & E). apply bind_Ok in E. destruct E as (? & _ & E).
    destruct (Nat.eqb_spec (length (c0 :: c1 :: cols)) 2) as [L|]; [|discriminate]. destruct cols; [reflexivity|discriminate].
Qed.
Print Assumptions C78_bayes_fails.

(** ** Untrained models are refused *)
Theorem C78_untrained : forall by_x beta d w m0 m1 sup predict es n mu cs cl cols x y show,
  plot_logistic false false beta d x y = Err ValueError /\ plot_lda false false w m0 m1 x y = Err ValueError /\
  plot_svc false false sup predict x y = Err ValueError /\ plot_ensemble false false es predict x y show = Err ValueError /\
  plot_bayes false false predict cols y = Err ValueError /\ plot_gaussian_mixture false false mu cl x = Err ValueError /\
  plot_k_means by_x false false n cs cl x = Err ValueError.
Proof. intros. repeat split. Qed.
Print Assumptions C78_untrained.

(** ** Concrete cases *)
Example C78_ex_samples : scatter 0 [(0, 0); (1, 2); (3, 4)] [0; 1; 2]%Z = Ok ([(0, 0)], [(1, 2)]).
Proof. reflexivity. Qed.
Example C78_ex_grid : background (fun ps => Ok (map (fun p => fst p + 10 * snd p) ps)) [0; 1] [2; 3; 4] =
  Ok [[0 + 10 * 2; 1 + 10 * 2]; [0 + 10 * 3; 1 + 10 * 3]; [0 + 10 * 4; 1 + 10 * 4]].
Proof. reflexivity. Qed.
Example C78_ex_lda : exists a b c line, plot_lda true false (3, 4) (0, 0) (5, 0) [(5, 0); (0, 5)] [0; 1]%Z = Ok (a, b, c, line) /\
  a = [((5, 0), Some (9/5, 12/5))] /\ b = [((0, 5), Some (12/5, 16/5))].
Proof.
  assert (S : sqrt (3 * 3 + 4 * 4) = 5) by (replace (3 * 3 + 4 * 4) with (5 * 5) by ring; apply sqrt_square; lra).
  exists [((5, 0), Some (projected (3/5, 4/5) (5, 0)))], [((0, 5), Some (projected (3/5, 4/5) (0, 5)))]. do 2 eexists. split.
  - unfold plot_lda, guarded. cbn [negb andb]. unfold unit_of. cbn [fst snd]. rewrite S. replace (Reqb 5 0) with false; [reflexivity|]. symmetry. unfold Reqb. destruct (Req_EM_T 5 0); [lra|reflexivity].
  - assert (P1 : projected (3/5, 4/5) (5, 0) = (9/5, 12/5)) by (unfold projected; cbn [fst snd]; f_equal; field).
    assert (P2 : projected (3/5, 4/5) (0, 5) = (12/5, 16/5)) by (unfold projected; cbn [fst snd]; f_equal; field).
    cbn [fst snd map]. rewrite P1, P2. split; reflexivity.
Qed.
Example C78_ex_clusters : exists hs, plot_k_means sort_x true false 2 [(0, 0); (9, 9)] [0; 0; 1; 1; 0]%nat [(0, 0); (2, 0); (8, 9); (9, 8); (1, 2)] =
  Ok ([(0, 0); (2, 0); (8, 9); (9, 8); (1, 2)], [(0, 0); (9, 9)], hs).
Proof.
  apply (C78_k_means_fails sort_x 2 [(0, 0); (9, 9)] [0; 0; 1; 1; 0]%nat [(0, 0); (2, 0); (8, 9); (9, 8); (1, 2)] sort_x_sorts eq_refl).
  intros [|[|k]] H; cbn; lia.
Qed.

(** Two numeric columns of the same length, predictions everywhere: the plot
    succeeds. *)
Theorem C78_bayes_succeeds : forall f predict u v y, row_by_row f predict -> (forall p, exists l, f p = Ok l) ->
  u <> [] -> length v = length u -> length y = length u ->
  exists r, plot_bayes true false predict [map Num u; map Num v] y = Ok r.
Proof.
  intros f predict u v y Hr T N L1 L2. unfold plot_bayes, guarded. cbn [negb andb].
  assert (G : forall w, w <> [] -> exists r, axis_range (map Num w) = Ok r).
  { intros w Nw. destruct w as [|z w]; [congruence|]. unfold axis_range. cbn [map]. rewrite (proj2 (numbers_spec (Num z :: map Num w) (z :: w)) eq_refl). eauto. }
  destruct (G u N) as (r0 & E0). destruct (G v) as (r1 & E1); [intros ->; destruct u; [congruence|discriminate]|].
  unfold get_at. cbn [nth_error bind]. rewrite E0. cbn [bind]. rewrite E1. cbn [bind length Nat.eqb negb].
  destruct (background_total f predict (linspace (fst r0) (snd r0) 300) (linspace (fst r1) (snd r1) 300) Hr) as (g & Eg); [auto|]. rewrite Eg. cbn [bind].
  rewrite !(proj2 (numbers_spec _ _) eq_refl).
  destruct (scatter_spec 0 (combine u v) y) as (a & b & Es & _); [unfold point; rewrite combine_length, L1, L2, Nat.min_id; reflexivity|]. rewrite Es. cbn [bind]. eauto.
Qed.
Print Assumptions C78_bayes_succeeds.

(** The same for ensembles on two-column data. *)
Theorem C78_ensemble_succeeds : forall es f predict x y show, Forall (fun e => row_by_row (fst e) (snd e) /\ forall p, exists l, fst e p = Ok l) es ->
  row_by_row f predict -> (forall p, exists l, f p = Ok l) -> length y = length x ->
  exists r, plot_ensemble true false (map snd es) predict x y show = Ok r.
Proof.
  intros es f predict x y show He Hr T L. unfold plot_ensemble, guarded. cbn [negb andb]. destruct (scatter_spec (-1) x y L) as (a & b & Es & _). rewrite Es. cbn [bind].
  assert (G : exists gs, (if show then mapM (fun e => background e (linspace 0 1 300) (linspace 0 1 300)) (map snd es) else Ok []) = Ok gs).
  { destruct show; [|eauto]. apply mapM_total. intros e H. apply in_map_iff in H. destruct H as ([fe e'] & <- & H). rewrite Forall_forall in He. destruct (He _ H) as [H1 H2].
    apply background_total with (f := fe); auto. }
  destruct G as (gs & Eg). rewrite Eg. cbn [bind]. destruct (background_total f predict (linspace 0 1 300) (linspace 0 1 300) Hr) as (g & E); [auto|]. rewrite E. cbn [bind]. eauto.
Qed.
Print Assumptions C78_ensemble_succeeds.
