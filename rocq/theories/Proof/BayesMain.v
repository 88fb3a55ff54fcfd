(** Main results about the Bayes classifiers. *)
From Coq Require Import List ZArith Reals Lra Lia Bool Sorted Permutation.
From Verif.Model Require Import Base Bayes.
From Verif.Spec Require Import Common Bayes.
From Verif.Proof Require Import BaseLemmas Counting Bayes Preprocessing.
Import ListNotations.
Local Open Scope R_scope.

(** ** Naive Bayes *)
Section NB.
Context {A : Type} (O : TotalOrder A).
Variable num : A -> R.
Variable continuous : list A -> bool.
Variable vc : list A -> list A.
Variable rnd : R -> R.

Lemma appearance_of_frequency col u : frequency_order col (vc col) -> appearance_order col u ->
  StronglySorted (more_frequent col) u -> appearance_order col (vc col).
Proof.
  intros F Hu S. rewrite (appearance_unique O _ _ Hu) in S. rewrite (frequency_is_unique O _ _ F S).
  apply unique_appearance.
Qed.

Lemma binary_distinct (y : list Z) : Forall (fun c => c = 0%Z \/ c = 1%Z) y -> In 0%Z y -> In 1%Z y -> num_distinct y 2.
Proof.
  intros F H0 H1. rewrite Forall_forall in F. exists [0%Z; 1%Z]. split; [|split; auto].
  - repeat constructor; simpl; intuition discriminate.
  - intros w. simpl. split; [intros [<-|[<-|[]]]; auto|]. intros Hw. destruct (F w Hw); auto.
Qed.

Lemma binary_counts (y : list Z) n0 n1 : Forall (fun c => c = 0%Z \/ c = 1%Z) y ->
  how_many (fun c => c = 0%Z) y n0 -> how_many (fun c => c = 1%Z) y n1 -> (n0 + n1 = length y)%nat.
Proof.
  revert n0 n1; induction y as [|c y IH]; intros n0 n1 F H0 H1; inversion H0; inversion H1; inversion F; subst; simpl;
    try (rewrite <- (IH _ _ ltac:(eassumption) ltac:(eassumption) ltac:(eassumption))); try lia; intuition congruence.
Qed.

Lemma nb_textbook cols y : Forall (fun c => c = 0%Z \/ c = 1%Z) y -> In 0%Z y -> In 1%Z y ->
  Forall (fun col => length col = length y /\ continuous col = false /\ ~ num_distinct col 1 /\
                     appearance_order col (vc col)) cols ->
  exists m, nb_fit O num continuous vc cols y true = Ok m /\
  forall q r0 r1 n0 n1, Forall2 (fun v col => In v col) q cols ->
    likelihood y 0 cols q r0 -> likelihood y 1 cols q r1 ->
    how_many (fun c => c = 0%Z) y n0 -> how_many (fun c => c = 1%Z) y n1 ->
    nb_predict O num rnd m q =
      Ok (if Rlt_dec ((INR n1 + 1) / (INR (length y) + 2) * r1) ((INR n0 + 1) / (INR (length y) + 2) * r0)
          then 0%Z else 1%Z).
Proof.
  intros Fy H0 H1 F.
  assert (Hy : y <> []) by (intros ->; contradiction).
  destruct (prior_total y true Hy) as (p0 & p1 & Hp).
  assert (E : exists infos, mapM (nb_attribute O num continuous vc y) cols = Ok infos).
  { clear -F O. induction F as [|col cols (L & C & N & U) F (is & IH)]; simpl; [eauto|].
    unfold nb_attribute at 1. rewrite C. destruct (_ =? 1)%nat eqn:E.
    - apply Nat.eqb_eq in E. exfalso. apply N. exists (unique O col).
      split; [apply unique_NoDup|]. split; auto. apply unique_In.
    - simpl. rewrite IH. simpl. eauto. }
  destruct E as (infos & E). unfold nb_fit. rewrite Hp, E. simpl. eexists; split; [reflexivity|].
  intros q r0 r1 n0 n1 M L0 L1 N0 N1.
  destruct (laplace_terms O num continuous vc rnd y cols q r0 r1 L0 L1) with (infos := infos) as (Lq & fs & Ff & Q0 & Q1); auto.
  - apply Forall_forall. intros col Hc. rewrite Forall_forall in F. destruct (F col Hc) as (L & _ & _ & U).
    repeat split; auto; [|now apply appearance_unique]. intros ->. destruct y; [congruence|discriminate].
  - apply Forall_forall. intros col Hc. rewrite Forall_forall in F. now destruct (F col Hc) as (_ & C & _).
  - pose proof (prior_smoothed _ _ _ 1%Z Hp H1) as (P0 & P1); [discriminate|].
    pose proof (prior_spec _ _ _ _ Hp) as (S & _ & _ & G).
    specialize (G n0 2%nat N0 (binary_distinct y Fy H0 H1)). cbn iota in G.
    pose proof (binary_counts y n0 n1 Fy N0 N1) as C.
    assert (Lp : 0 <= INR (length y)) by apply pos_INR.
    assert (G1 : p1 = (INR n1 + 1) / (INR (length y) + 2)).
    { assert (X : p1 = 1 - p0) by lra. rewrite X, G. replace (INR 2) with 2 by (simpl; lra).
      apply (f_equal INR) in C. rewrite plus_INR in C. replace (INR n1) with (INR (length y) - INR n0) by lra. field. lra. }
    rewrite (predict_product O num continuous vc rnd {| nb_p0 := p0; nb_p1 := p1; nb_pi := infos; nb_smoothing := true |} q fs);
      cbn [nb_p0 nb_p1 nb_pi nb_smoothing]; auto; try lra.
    rewrite Q0, Q1, G1, G. replace (INR 2) with 2 by (simpl; lra). reflexivity.
Qed.

Lemma nb_label_binary m q l : nb_predict O num rnd m q = Ok l -> l = 0%Z \/ l = 1%Z.
Proof.
  unfold nb_predict. destruct (nb_scores _ _ _ _ _); [|discriminate]. simpl. unfold nb_label.
  intros H; injection H as <-. destruct (egt _ _); auto.
Qed.

Lemma unseen_value m q i d0 d1 n0 n1 k v : (forall j, (j < i)%nat -> exists e w t, nth_error (nb_pi m) j = Some e /\
    nth_error q j = Some w /\ nb_term O num rnd (nb_smoothing m) e w = Ok t) ->
  nth_error (nb_pi m) i = Some (NBDisc d0 d1 n0 n1 k) -> nth_error q i = Some v -> dict_get O d0 v = None ->
  length q = length (nb_pi m) -> nb_predict O num rnd m q = Err KeyError.
Proof.
  intros B Hi Hq Hd L. unfold nb_predict. rewrite scores_fold by auto.
  generalize (elog (Some (nb_p0 m)), elog (Some (nb_p1 m))). revert i q B Hi Hq L. generalize (nb_smoothing m).
  intros s. generalize (nb_pi m). intros l; induction l as [|e l IH]; intros i [|w q] B Hi Hq L p; simpl in *;
    try discriminate; [destruct i; discriminate|].
  destruct i as [|i].
  - simpl in *. injection Hi as ->. injection Hq as ->. unfold step2 at 1. cbn [fst snd nb_term].
    unfold dict_lookup. rewrite Hd. reflexivity.
  - destruct (B 0%nat) as (e' & w' & t & E1 & E2 & E3); [lia|]. simpl in E1, E2. injection E1 as <-. injection E2 as <-.
    unfold step2 at 1. cbn [fst snd]. rewrite E3. cbn [bind]. apply (IH i); auto.
    intros j Hj. destruct (B (S j)) as (e' & w' & t' & E1 & E2 & E4); [lia|]. simpl in *. eauto 6.
Qed.
End NB.

(** ** Reported pair *)
Lemma pair_spec a b p q : a < 0 -> b < 0 -> nb_pair (Fin a, Fin b) = Some (p, q) ->
  p + q = 1 /\ 0 < p < 1 /\ 0 < q < 1 /\
  (q < p -> nb_label (Fin a, Fin b) = 1%Z) /\ (p < q -> nb_label (Fin a, Fin b) = 0%Z).
Proof.
  intros Ha Hb. unfold nb_pair. destruct (Reqb (a + b) 0) eqn:E; [discriminate|]. clear E.
  intros H. injection H as <- <-.
  assert (S : 0 < - (a + b)) by lra.
  assert (Ea : a / (a + b) = (- a) * / (- (a + b))) by (field; lra).
  assert (Eb : b / (a + b) = (- b) * / (- (a + b))) by (field; lra).
  rewrite Ea, Eb. assert (I := Rinv_0_lt_compat _ S).
  assert (T : - a * / - (a + b) + - b * / - (a + b) = 1) by (field; lra).
  assert (P : 0 < - a * / - (a + b)) by (apply Rmult_lt_0_compat; lra).
  assert (Q : 0 < - b * / - (a + b)) by (apply Rmult_lt_0_compat; lra).
  repeat split; try lra; unfold nb_label; simpl; intros H.
  - apply Rmult_lt_reg_r in H; auto. destruct (Rltb b a) eqn:F; auto. apply Rltb_true in F. lra.
  - apply Rmult_lt_reg_r in H; auto. destruct (Rltb b a) eqn:F; auto. apply Rltb_false in F. lra.
Qed.

Lemma pair_total a b : a < 0 -> b < 0 -> exists p q, nb_pair (Fin a, Fin b) = Some (p, q).
Proof.
  intros Ha Hb. unfold nb_pair. destruct (Reqb (a + b) 0) eqn:E; eauto. apply Reqb_true in E. lra.
Qed.

(** ** Density *)
Lemma sqrt2pi_pos : 0 < sqrt (2 * PI).
Proof. apply sqrt_lt_R0. pose proof PI_RGT_0. lra. Qed.

Lemma density_shape x m v : 0 < v ->
  get_probability_density (fun p => p) x m v = Some (normal_density m v x) /\ 0 < normal_density m v x.
Proof.
  intros Hv. unfold get_probability_density, normal_density. pose proof sqrt2pi_pos as S.
  destruct (Reqb v 0) eqn:E; [apply Reqb_true in E; lra|].
  set (e := exp _). assert (He : 0 < e) by apply exp_pos.
  assert (X : 0 < e / (v * sqrt (2 * PI))).
  { apply Rmult_lt_0_compat; auto. apply Rinv_0_lt_compat, Rmult_lt_0_compat; auto. }
  assert (Y : 1 / (sqrt (2 * PI) * v) * e = e / (v * sqrt (2 * PI))) by (field; lra).
  cbv zeta. rewrite Y. destruct (Reqb (e / _) 0) eqn:F; [apply Reqb_true in F; lra|]. split; auto.
Qed.

Lemma density_positive rnd x m v p : (forall r, 0 <= r -> 0 <= rnd r) -> 0 < v ->
  get_probability_density rnd x m v = Some p -> 0 < p.
Proof.
  intros Hr Hv. unfold get_probability_density. destruct (Reqb v 0) eqn:E; [discriminate|].
  set (r := _ * _). cbv zeta. set (tiny := 1 / 10 ^ 36).
  destruct (Reqb (rnd r) 0) eqn:F; intros H; [replace p with tiny by congruence|replace p with (rnd r) by congruence].
  - unfold tiny. apply Rmult_lt_0_compat; [lra|]. apply Rinv_0_lt_compat, pow_lt. lra.
  - apply Reqb_false in F. assert (0 <= rnd r); [|lra]. apply Hr. unfold r.
    apply Rmult_le_pos; [|apply Rlt_le, exp_pos]. apply Rmult_le_pos; [lra|].
    apply Rlt_le, Rinv_0_lt_compat, Rmult_lt_0_compat; auto. apply sqrt2pi_pos.
Qed.

Lemma density_symmetric rnd m v t : get_probability_density rnd (m + t) m v = get_probability_density rnd (m - t) m v.
Proof.
  unfold get_probability_density. replace ((m + t - m) ^ 2) with ((m - t - m) ^ 2) by ring. reflexivity.
Qed.

Lemma normal_closer m v x z : 0 < v -> Rabs (x - m) < Rabs (z - m) -> normal_density m v z < normal_density m v x.
Proof.
  intros Hv H. unfold normal_density. apply Rmult_lt_compat_r.
  - apply Rinv_0_lt_compat, Rmult_lt_0_compat; auto. apply sqrt2pi_pos.
  - apply exp_increasing. unfold Rdiv. rewrite !Ropp_mult_distr_l_reverse. apply Ropp_lt_contravar.
    apply Rmult_lt_compat_r; [apply Rinv_0_lt_compat; nra|].
    rewrite <- (pow2_abs (x - m)), <- (pow2_abs (z - m)). pose proof (Rabs_pos (x - m)). nra.
Qed.

Lemma normal_max m v x : 0 < v -> normal_density m v x <= normal_density m v m.
Proof.
  intros Hv. destruct (Req_dec x m) as [->|N]; [lra|]. apply Rlt_le, normal_closer; auto.
  rewrite Rminus_diag_eq, Rabs_R0 by auto. apply Rabs_pos_lt. lra.
Qed.

Lemma mean_var_spec l : statistics l (mean_var l).
Proof.
  unfold statistics, mean_var. destruct l as [|a l]; auto. split; [discriminate|].
  split; [apply Preprocessing.mean_of_rmean|apply Preprocessing.rvar_spec]; discriminate.
Qed.

Lemma nb_statistics {A} (O : TotalOrder A) num continuous vc y (col : list A) s0 s1 :
  nb_attribute O num continuous vc y col = Ok (NBCont s0 s1) ->
  continuous col = true /\ forall c s, (c, s) = (0%Z, s0) \/ (c, s) = (1%Z, s1) ->
  exists rows, selection (fun r => snd r = c) (combine col y) rows /\ statistics (map (fun r => num (fst r)) rows) s.
Proof.
  unfold nb_attribute. destruct (continuous col); [|destruct (_ =? 1)%nat; discriminate].
  intros H; injection H as <- <-. split; auto.
  assert (G : forall c, exists rows, selection (fun r => snd r = c) (combine col y) rows /\
             statistics (map (fun r => num (fst r)) rows) (mean_var (map num (of_class y c col)))).
  { intros c. exists (filter (fun p => (snd p =? c)%Z) (combine col y)). split.
    - induction (combine col y) as [|[v z] l IH]; simpl; [constructor|]. destruct (Z.eqb_spec z c); constructor; auto.
    - rewrite <- (map_map fst num). apply mean_var_spec. }
  intros c s [E|E]; injection E as -> ->; apply G.
Qed.

(** ** Super-parent estimators *)
Lemma eadd_assoc a b c : eadd a (eadd b c) = eadd (eadd a b) c.
Proof. destruct a, b, c; simpl; auto. now rewrite Rplus_assoc. Qed.
Lemma eadd_0_l a : eadd (Fin 0) a = a.
Proof. destruct a; simpl; auto. now rewrite Rplus_0_l. Qed.
Lemma eadd_0_r a : eadd a (Fin 0) = a.
Proof. destruct a; simpl; auto. now rewrite Rplus_0_r. Qed.

Lemma foldM_app {A S} (f : S -> A -> result S) l1 l2 s :
  foldM f (l1 ++ l2) s = (s' <- foldM f l1 s ;; foldM f l2 s').
Proof. revert s; induction l1 as [|a l IH]; intros s; simpl; auto. destruct (f s a); simpl; auto. Qed.

Section SP.
Context {A : Type} (O : TotalOrder A).
Variable num : A -> R.
Variable continuous : list A -> bool.
Variable rnd : R -> R.
Notation sp_step := (sp_step O num rnd).
Notation sp_scores := (sp_scores O num rnd).
Notation sp_predict := (sp_predict O num rnd).
Notation sp_table := (sp_table O num continuous).
Notation sp_fit := (sp_fit O num continuous).

Lemma sp_predict_binary st q l : sp_predict st q = Ok l -> l = 0%Z \/ l = 1%Z.
Proof.
  unfold Bayes.sp_predict. destruct (sp_scores st q); [|discriminate]. simpl. unfold nb_label.
  intros H; injection H as <-. destruct (egt _ _); auto.
Qed.

Lemma ao_predict_binary st q l : ao_predict O num rnd st q = Ok l -> l = 0%Z \/ l = 1%Z.
Proof.
  unfold ao_predict. destruct (ao_scores _ _ _ st q); [|discriminate]. simpl. unfold nb_label.
  intros H; injection H as <-. destruct (egt _ _); auto.
Qed.

Lemma sp_fit_append st cols y s i st' : sp_fit st cols y s i = Ok st' ->
  exists t, sp_fit [] cols y s i = Ok t /\ st' = st ++ t.
Proof.
  unfold Bayes.sp_fit. destruct (get_at cols i) as [p|]; [|discriminate]. simpl.
  destruct (sp_table cols y s p) as [t|]; [|discriminate]. simpl. intros H; injection H as <-. eauto.
Qed.

Lemma sp_fit_append_inv st cols y s i t : sp_fit [] cols y s i = Ok t -> sp_fit st cols y s i = Ok (st ++ t).
Proof.
  unfold Bayes.sp_fit. destruct (get_at cols i) as [p|]; [|discriminate]. simpl.
  destruct (sp_table cols y s p) as [t'|]; [|discriminate]. simpl. intros H; injection H as <-. auto.
Qed.

Notation do_fit := (do_fit O num continuous).

Lemma sp_history fs : forall st st', foldM do_fit fs st = Ok st' ->
  exists ts, Forall2 (fun f t => do_fit [] f = Ok t) fs ts /\ st' = st ++ concat ts.
Proof.
  induction fs as [|f fs IH]; intros st st' H; simpl in H.
  - injection H as <-. exists []. simpl. rewrite app_nil_r. split; [constructor|auto].
  - destruct (do_fit st f) as [s1|] eqn:E; [|discriminate]. simpl in H.
    destruct (IH _ _ H) as (ts & F & ->). destruct f as [[[cols y] s] i].
    apply sp_fit_append in E. destruct E as (t & E & ->). exists (t :: ts). split; [constructor; auto|].
    simpl. now rewrite app_assoc.
Qed.

(** The contribution of a table does not depend on what was added before. *)
Lemma step_shift q u v e a b : sp_step q (Fin 0, Fin 0) e = Ok (a, b) -> sp_step q (u, v) e = Ok (eadd u a, eadd v b).
Proof.
  unfold Bayes.sp_step. destruct (_ =? 0)%Z.
  - destruct (sp_entry_log _ _ _ q e); [|discriminate]. cbn [bind fst snd]. rewrite eadd_0_l. intros H; injection H as <- <-.
    now rewrite eadd_0_r.
  - destruct (_ =? 1)%Z.
    + destruct (sp_entry_log _ _ _ q e); [|discriminate]. cbn [bind fst snd]. rewrite eadd_0_l. intros H; injection H as <- <-.
      now rewrite eadd_0_r.
    + intros H; injection H as <- <-. now rewrite !eadd_0_r.
Qed.

Lemma step_err q u v e x : sp_step q (Fin 0, Fin 0) e = Err x -> sp_step q (u, v) e = Err x.
Proof.
  unfold Bayes.sp_step. destruct (_ =? 0)%Z; [|destruct (_ =? 1)%Z; [|discriminate]];
    (destruct (sp_entry_log _ _ _ q e); simpl; [discriminate|auto]).
Qed.

Lemma scores_shift q st : forall u v, foldM (sp_step q) st (u, v) =
  (s <- sp_scores st q ;; Ok (eadd u (fst s), eadd v (snd s))).
Proof.
  unfold Bayes.sp_scores. induction st as [|e st IH]; intros u v; simpl.
  - now rewrite !eadd_0_r.
  - destruct (sp_step q (Fin 0, Fin 0) e) as [[a b]|x] eqn:E.
    + rewrite (step_shift _ u v _ _ _ E). cbn [bind]. rewrite (IH (eadd u a)), (IH a).
      destruct (foldM _ st _) as [s|]; cbn [bind fst snd]; auto. now rewrite !eadd_assoc.
    + now rewrite (step_err _ u v _ _ E).
Qed.

Lemma scores_app q st1 st2 : sp_scores (st1 ++ st2) q =
  (s <- sp_scores st1 q ;; t <- sp_scores st2 q ;; Ok (eadd (fst s) (fst t), eadd (snd s) (snd t))).
Proof.
  unfold Bayes.sp_scores at 1. rewrite foldM_app. unfold Bayes.sp_scores at 1.
  destruct (foldM _ st1 _) as [[u v]|]; auto. cbn [bind]. rewrite scores_shift. reflexivity.
Qed.

Fixpoint etimes (k : nat) (a : ext) : ext := match k with 0%nat => a | S k => eadd a (etimes k a) end.
Lemma etimes_fin k r : etimes k (Fin r) = Fin (INR (S k) * r).
Proof. induction k; simpl etimes; [now rewrite Rmult_1_l|]. rewrite IHk. cbn [eadd]. f_equal. rewrite !S_INR. ring. Qed.
Lemma etimes_ninf k : etimes k NegInf = NegInf. Proof. induction k; simpl; auto. now rewrite IHk. Qed.
Lemma etimes_nan k : etimes k Nan = Nan. Proof. induction k; simpl; auto. Qed.

Lemma egt_times k a b : egt (etimes k a) (etimes k b) = egt a b.
Proof.
  destruct a as [a| |], b as [b| |]; rewrite ?etimes_fin, ?etimes_ninf, ?etimes_nan; auto. cbn [egt].
  assert (P : 0 < INR (S k)) by (apply lt_0_INR; lia).
  destruct (Rltb b a) eqn:E.
  - apply Rltb_true in E. apply Rltb_true. now apply Rmult_lt_compat_l.
  - apply Rltb_false in E. apply Rltb_false. apply Rmult_le_compat_l; lra.
Qed.

Lemma scores_repeat q t k a b : sp_scores t q = Ok (a, b) ->
  sp_scores (concat (repeat t (S k))) q = Ok (etimes k a, etimes k b).
Proof.
  intros E. induction k as [|k IH].
  - simpl. now rewrite app_nil_r.
  - change (concat (repeat t (S (S k)))) with (t ++ concat (repeat t (S k))).
    rewrite scores_app, E, IH. reflexivity.
Qed.

Lemma refit_same_data cols y s i t k st : sp_fit [] cols y s i = Ok t ->
  foldM do_fit (repeat (cols, y, s, i) (S k)) [] = Ok st ->
  forall q l, sp_predict t q = Ok l -> sp_predict st q = Ok l.
Proof.
  intros E H q l. apply sp_history in H. destruct H as (ts & F & ->).
  assert (ts = repeat t (S k)).
  { revert ts F. generalize (S k) as n. induction n as [|n IH]; intros ts F; inversion F; subst; auto.
    simpl. f_equal; auto. unfold Spec.Bayes.do_fit in H1. congruence. }
  subst ts. cbn [app]. unfold Bayes.sp_predict. destruct (sp_scores t q) as [[a b]|] eqn:Es; [|discriminate].
  rewrite (scores_repeat _ _ _ _ _ Es). cbn [bind]. unfold nb_label. cbn [fst snd]. now rewrite egt_times.
Qed.

(** ** The table *)
Lemma count_selected y c v (parent : list A) :
  how_many (row_is v c) (combine parent y) (count (fun b => b) (selected O y c v parent)).
Proof.
  unfold selected. rewrite count_map. apply hm_count. intros [w z] _. unfold row_is. simpl.
  rewrite andb_true_iff, eqb_true, Z.eqb_eq. tauto.
Qed.

Lemma pick_count w y c v : forall parent col : list A, length col = length parent ->
  how_many (fun r => fst (fst r) = w /\ snd (fst r) = v /\ snd r = c) (combine (combine col parent) y)
    (occurrences O w (pick (selected O y c v parent) col)).
Proof.
  unfold occurrences, pick, selected, count.
  induction y as [|z y IH]; intros [|p parent] [|x col] L; simpl in *; try discriminate; try apply hm_nil.
  specialize (IH parent col ltac:(lia)).
  destruct (eqb O p v) eqn:E1; [apply eqb_true in E1|apply eqb_false in E1]; simpl.
  - destruct (Z.eqb_spec z c); simpl.
    + destruct (eqb O w x) eqn:E2; [apply eqb_true in E2|apply eqb_false in E2]; simpl.
      * apply hm_yes; auto.
      * apply hm_no; auto. simpl. intuition congruence.
    + apply hm_no; auto. simpl. tauto.
  - apply hm_no; auto. simpl. tauto.
Qed.

Lemma pick_incl sel (col : list A) : incl (pick sel col) col.
Proof.
  intros v H. unfold pick in H. apply in_map_iff in H. destruct H as ((w & z) & <- & H).
  apply filter_In in H. destruct H as [H _]. now apply in_combine_l in H.
Qed.

Lemma pick_length sel (col : list A) : length col = length sel -> length (pick sel col) = count (fun b => b) sel.
Proof.
  unfold pick, count. rewrite map_length. revert sel; induction col as [|x col IH]; intros [|b sel] L; simpl in *;
    try discriminate; auto. destruct b; simpl; rewrite IH; auto.
Qed.

Lemma selected_length y c v (parent : list A) : length parent = length y -> length (selected O y c v parent) = length y.
Proof. intros L. unfold selected. rewrite map_length, combine_length. lia. Qed.

Lemma zsort_In l z : In z (zsort l) <-> In z l.
Proof. apply np_unique_In. Qed.
Lemma zsort_NoDup l : NoDup (zsort l).
Proof. apply np_unique_NoDup. Qed.

Lemma pairs_In (cs : list Z) (vs : list A) c v : In (c, v) (flat_map (fun c => map (fun v => (c, v)) vs) cs) <-> In c cs /\ In v vs.
Proof.
  rewrite in_flat_map. split.
  - intros (x & Hx & H). apply in_map_iff in H. destruct H as (w & E & Hw). injection E as -> ->. auto.
  - intros [Hc Hv]. exists c. split; auto. apply in_map_iff. eauto.
Qed.

Lemma NoDup_app' {B} (l1 l2 : list B) : NoDup l1 -> NoDup l2 -> (forall x, In x l1 -> ~ In x l2) -> NoDup (l1 ++ l2).
Proof.
  induction 1 as [|a l Ha N IH]; intros N2 D; simpl; auto. constructor.
  - rewrite in_app_iff. intros [H|H]; [contradiction|]. apply (D a); simpl; auto.
  - apply IH; auto. intros x Hx. apply D. simpl; auto.
Qed.

Lemma pairs_NoDup (cs : list Z) (vs : list A) : NoDup cs -> NoDup vs -> NoDup (flat_map (fun c => map (fun v => (c, v)) vs) cs).
Proof.
  intros Nc Nv. induction Nc as [|c cs Hc Nc IH]; simpl; [constructor|].
  apply NoDup_app'; auto.
  - apply FinFun.Injective_map_NoDup; auto. intros a b E. congruence.
  - intros [c' v] H H'. apply pairs_In in H'. apply in_map_iff in H. destruct H as (w & E & _). injection E as -> ->.
    destruct H'. contradiction.
Qed.

Lemma dep_prior a n k s p : get_dependent_prior_probability a n k s = Ok p ->
  p = if s then (INR a + 1) / (INR n + 2 * INR k) else INR a / INR n.
Proof.
  unfold get_dependent_prior_probability. destruct s; (destruct (_ =? 0)%nat; [discriminate|]); intros H.
  - assert (E : p = INR (a + 1) / INR (n + 2 * k)) by congruence. rewrite E.
    rewrite (plus_INR a 1), (plus_INR n (2 * k)), mult_INR. reflexivity.
  - congruence.
Qed.

Lemma continuous_entry y c v parent (col : list A) : length parent = length y -> length col = length y ->
  exists st rows n,
    @SPCont A (mean_var (map num (if (length (pick (selected O y c v parent) col) <=? 2)%nat
                               then of_class y c col else pick (selected O y c v parent) col))) = @SPCont A st /\
    statistics (map (fun r => num (fst (fst r))) rows) st /\
    how_many (row_is v c) (combine parent y) n /\
    selection (fun r => snd r = c /\ ((2 < n)%nat -> snd (fst r) = v)) (combine (combine col parent) y) rows.
Proof.
  intros Lp Lc. pose proof (count_selected y c v parent) as Hn.
  assert (Ln : length (pick (selected O y c v parent) col) = count (fun b => b) (selected O y c v parent)).
  { apply pick_length. now rewrite selected_length. }
  rewrite Ln. set (n := count _ _) in *.
  set (f := fun r : A * A * Z => if (n <=? 2)%nat then (snd r =? c)%Z else (snd r =? c)%Z && eqb O (snd (fst r)) v).
  exists (mean_var (map (fun r => num (fst (fst r))) (filter f (combine (combine col parent) y)))),
         (filter f (combine (combine col parent) y)), n.
  split; [|split; [apply mean_var_spec|split; [exact Hn|]]].
  - do 2 f_equal. rewrite <- (map_map (fun r : A * A * Z => fst (fst r)) num). f_equal.
    unfold f. clearbody n. clear Ln Hn. unfold of_class, pick, selected.
    revert parent col Lp Lc. induction y as [|z y IH]; intros [|p parent] [|x col] Lp Lc; simpl in *; try discriminate.
    + now destruct (n <=? 2)%nat.
    + specialize (IH parent col ltac:(lia) ltac:(lia)). destruct (n <=? 2)%nat.
      * destruct (z =? c)%Z; simpl; congruence.
      * destruct (z =? c)%Z, (eqb O p v); simpl; congruence.
  - clear Hn Ln. clearbody n. generalize (combine (combine col parent) y). intros l. induction l as [|[[a p] z] l IH]; simpl; [constructor|].
    unfold f at 1. cbn [fst snd]. destruct (n <=? 2)%nat eqn:E.
    + apply Nat.leb_le in E. destruct (Z.eqb_spec z c); constructor; auto; simpl; try tauto. split; auto. lia.
    + apply Nat.leb_gt in E. destruct (Z.eqb_spec z c); simpl; [|constructor; auto; simpl; tauto].
      destruct (eqb O p v) eqn:F; [apply eqb_true in F|apply eqb_false in F]; constructor; auto; simpl. tauto.
Qed.

Lemma table_entries cols y s parent t : length parent = length y ->
  Forall (fun col => length col = length y) cols -> sp_table cols y s parent = Ok t ->
  NoDup (map (fun e => (category e, sp_value e)) t) /\
  (forall c v, In (c, v) (map (fun e => (category e, sp_value e)) t) <-> In c y /\ In v parent) /\
  Forall (right_entry O num continuous cols y s parent) t.
Proof.
  intros L F H. unfold Bayes.sp_table in H. apply mapM_Ok in H.
  set (prs := flat_map _ _) in H.
  assert (E : map (fun e => (category e, sp_value e)) t = prs).
  { clear -H. clearbody prs. induction H as [|[c v] e prs t H _ IH]; simpl; auto.
    simpl in H. destruct (get_dependent_prior_probability _ _ _ _) in H; [|discriminate]. simpl in H. injection H as <-.
    simpl. now rewrite IH. }
  rewrite E. split; [apply pairs_NoDup; [apply zsort_NoDup|apply unique_NoDup]|]. split.
  - intros c v. unfold prs. rewrite pairs_In, zsort_In, unique_In. tauto.
  - clear E. clearbody prs. induction H as [|[c v] e prs t H _ IH]; constructor; auto. clear IH. simpl in H.
    destruct (get_dependent_prior_probability _ _ _ _) as [p|] eqn:Ep; [|discriminate]. simpl in H. injection H as <-.
    unfold right_entry. cbn [category sp_value p_c_xi infos]. split.
    + intros n k Hn Hk. apply dep_prior in Ep. rewrite Ep.
      rewrite (hm_unique _ _ _ _ Hn (count_selected y c v parent)), (unique_length O _ _ Hk). reflexivity.
    + split; [induction F as [|col cols Lc F IH]; simpl; constructor; auto; intros Hc; unfold sp_attribute; rewrite Hc|
              induction F as [|col cols Lc F IH]; simpl; constructor; auto; intros Hc; unfold sp_attribute; rewrite Hc;
              now apply continuous_entry].
      do 3 eexists. split; [reflexivity|]. split; [|split].
      * rewrite pick_length; [apply count_selected|]. now rewrite selected_length.
      * exists (unique O col). split; [apply unique_NoDup|]. split; auto. apply unique_In.
      * intros w Hw a Ha. rewrite (hm_unique _ _ _ _ Ha (pick_count w y c v parent col ltac:(congruence))).
        unfold dict_lookup. rewrite dict_map_get by now apply unique_In. reflexivity.
Qed.

(** The dependent priors form a distribution on values and classes. *)
Lemma zsort_binary y : Forall (fun c => c = 0%Z \/ c = 1%Z) y -> In 0%Z y -> In 1%Z y -> zsort y = [0%Z; 1%Z].
Proof.
  intros F H0 H1. transitivity (zsort [0%Z; 1%Z]); [|reflexivity]. apply np_unique_ext.
  rewrite Forall_forall in F. intros x. simpl. split; [intros Hx; destruct (F x Hx); auto|]. intros [<-|[<-|[]]]; auto.
Qed.

Lemma dep_priors_sum cols y s parent t : length parent = length y -> Forall (fun c => c = 0%Z \/ c = 1%Z) y ->
  In 0%Z y -> In 1%Z y -> sp_table cols y s parent = Ok t ->
  rsum (map p_c_xi t) = 1 /\ Forall (fun e => 0 <= p_c_xi e /\ (s = true -> 0 < p_c_xi e)) t.
Proof.
  intros L F H0 H1 H. unfold Bayes.sp_table in H. rewrite (zsort_binary y F H0 H1) in H.
  set (k := length (unique O parent)) in *.
  assert (Hp : parent <> []) by (intros ->; destruct y; [contradiction|discriminate]).
  assert (Kp : (0 < k)%nat) by now apply unique_pos.
  assert (Np : (0 < length y)%nat) by (destruct y; [contradiction|simpl; lia]).
  set (D := if s then INR (length y) + 2 * INR k else INR (length y)).
  set (one := if s then 1 else 0).
  assert (Dp : 0 < D).
  { unfold D. apply lt_0_INR in Kp. apply lt_0_INR in Np. destruct s; lra. }
  assert (G : forall cv e, (let sel := selected O y (fst cv) (snd cv) parent in
        p <- get_dependent_prior_probability (count (fun b => b) sel) (length y) k s;;
        Ok {| category := fst cv; sp_value := snd cv; p_c_xi := p;
              infos := map (sp_attribute O num continuous y s (fst cv) sel) cols |}) = Ok e ->
      p_c_xi e = (INR (occurrences O (snd cv) (of_class y (fst cv) parent)) + one) * / D).
  { intros [c v] e E. simpl in E. destruct (get_dependent_prior_probability _ _ _ _) as [p|] eqn:Ep; [|discriminate].
    simpl in E. injection E as <-. simpl. apply dep_prior in Ep. rewrite Ep.
    rewrite (hm_unique _ _ _ _ (count_selected y c v parent) (of_class_occ O y c v parent)).
    unfold D, one. destruct s; auto. unfold Rdiv. ring. }
  apply mapM_Ok in H.
  assert (E : map p_c_xi t = map (fun cv => (INR (occurrences O (snd cv) (of_class y (fst cv) parent)) + one) * / D)
                                 (flat_map (fun c => map (fun v => (c, v)) (unique O parent)) [0%Z; 1%Z])).
  { clear -H G. induction H as [|cv e l t H _ IH]; simpl; auto. now rewrite IH, (G _ _ H). }
  split.
  - rewrite E. rewrite rsum_map_scal_r. simpl flat_map. rewrite app_nil_r, map_app, rsum_app, !map_map. cbn [fst snd].
    rewrite !rsum_map_plus, !sum_occ, !rsum_map_const; try apply unique_NoDup;
      try (intros x Hx; apply unique_In; eapply of_class_incl; eassumption).
    pose proof (binary_counts y _ _ F (of_class_length y 0 parent L) (of_class_length y 1 parent L)) as C.
    fold k. apply (f_equal INR) in C. rewrite plus_INR in C.
    replace (INR (length (of_class y 0 parent)) + one * INR k + (INR (length (of_class y 1 parent)) + one * INR k)) with D.
    + field. lra.
    + unfold D, one. destruct s; lra.
  - clear E. induction H as [|cv e l t H _ IH]; constructor; auto. rewrite (G _ _ H).
    assert (I := Rinv_0_lt_compat _ Dp). pose proof (pos_INR (occurrences O (snd cv) (of_class y (fst cv) parent))).
    unfold one. split; [apply Rmult_le_pos; destruct s; lra|]. intros ->. apply Rmult_lt_0_compat; lra.
Qed.

(** Conditional probabilities in an entry. *)
Lemma entry_conditionals y s c sel col : s = true \/ (0 < length (pick sel col))%nat -> col <> [] -> continuous col = false ->
  exists P : A -> R,
    (forall v, In v col -> sp_info_log O num rnd (sp_attribute O num continuous y s c sel col) v = Ok (elog (Some (P v)))) /\
    (forall v, 0 <= P v /\ (s = true -> 0 < P v)) /\
    forall u, NoDup u -> (forall v, In v u <-> In v col) -> rsum (map P u) = 1.
Proof.
  intros Hs Hc Hd. unfold sp_attribute. rewrite Hd.
  pose proof (unique_pos O col Hc) as Up.
  destruct (table_sum O (unique O col) (unique O col) (fun v => occurrences O v (pick sel col)) (length (pick sel col)) s)
    as (P & A1 & A2 & A3); auto.
  - apply unique_NoDup.
  - destruct s; [lia|]. destruct Hs; [discriminate|auto].
  - apply sum_occ; [apply unique_NoDup|]. intros x Hx. apply unique_In. eapply pick_incl; eauto.
  - exists P. split; [|split; auto].
    + intros v Hv. apply (unique_In O) in Hv. destruct (A1 v Hv) as (a & Ha & Qa). rewrite combine_map_self in Ha.
      cbn [sp_info_log]. unfold dict_lookup. rewrite Ha. cbn [bind]. now rewrite Qa.
    + intros u Nu Iu. erewrite rsum_perm; [exact A3|]. apply Permutation_map, NoDup_Permutation; auto; [apply unique_NoDup|].
      intros x. rewrite Iu, unique_In. tauto.
Qed.

(** ** Averaged estimator *)
Lemma ao_fit_shared st cols y s m final lists : ao_fit O num continuous st cols y s m = Ok (final, lists) ->
  Forall (fun l => l = final) lists /\
  exists parents ts, length lists = length parents /\
    (forall i, In i parents <-> exists col, nth_error cols i = Some col /\ ao_eligible O continuous m col = true) /\
    Forall2 (fun i t => sp_fit [] cols y s i = Ok t) parents ts /\ final = st ++ concat ts.
Proof.
  unfold ao_fit. set (ps := filter _ _). destruct (foldM _ ps st) as [f|] eqn:E; [|discriminate]. cbn [bind].
  intros H; injection H as <- <-. split; [apply Forall_forall; intros x Hx; apply in_map_iff in Hx; now destruct Hx as (? & <- & _)|].
  exists (map fst ps).
  assert (G : exists ts, Forall2 (fun i t => sp_fit [] cols y s i = Ok t) (map fst ps) ts /\ f = st ++ concat ts).
  { clear -E. revert st E. induction ps as [|p ps IH]; intros st E; simpl in E.
    - injection E as <-. exists []. simpl. rewrite app_nil_r. split; [constructor|auto].
    - destruct (sp_fit st cols y s (fst p)) as [s1|] eqn:E1; [|discriminate]. cbn [bind] in E.
      destruct (IH _ E) as (ts & F & ->). apply sp_fit_append in E1. destruct E1 as (t & E1 & ->).
      exists (t :: ts). split; [simpl; constructor; auto|]. simpl. now rewrite app_assoc. }
  destruct G as (ts & F & ->). exists ts. split; [now rewrite !map_length|]. split; [|auto].
  intros i. rewrite in_map_iff. unfold ps, enumerate. split.
  - intros ((j & col) & <- & H). apply filter_In in H. destruct H as [H El]. simpl in *. exists col. split; auto.
    clear -H. change (nth_error cols j) with (nth_error ([] ++ cols) j) in *.
    assert (G : forall l k, In (j, col) (combine (seq k (length l)) l) -> (k <= j)%nat /\ nth_error l (j - k) = Some col).
    { induction l as [|c l IH]; intros k; simpl; [tauto|]. intros [E|Hi].
      - injection E as -> ->. rewrite Nat.sub_diag. auto.
      - apply IH in Hi. destruct Hi as [Hk Hn]. split; [lia|]. replace (j - k)%nat with (S (j - S k)) by lia. auto. }
    apply G in H. rewrite Nat.sub_0_r in H. tauto.
  - intros (col & Hn & El). exists (i, col). split; auto. apply filter_In. split; auto.
    assert (G : forall l k j, nth_error l j = Some col -> In ((k + j)%nat, col) (combine (seq k (length l)) l)).
    { induction l as [|c l IH]; intros k [|j] H; simpl in *; try discriminate.
      - injection H as ->. rewrite Nat.add_0_r. auto.
      - right. specialize (IH (S k) j H). now replace (k + S j)%nat with (S k + j)%nat by lia. }
    exact (G cols 0%nat i Hn).
Qed.

Lemma ao_eligible_spec m col : ao_eligible O continuous m col = true <->
  continuous col = false /\ forall v n, In v col -> how_many (fun w => w = v) col n -> (m < n)%nat.
Proof.
  unfold ao_eligible. rewrite andb_true_iff, negb_true_iff, forallb_forall. split; intros [H1 H2]; split; auto.
  - intros v n Hv Hn. specialize (H2 v (proj2 (unique_In O col v) Hv)). apply Nat.ltb_lt in H2.
    now rewrite (hm_unique _ _ _ _ Hn (occ_hm O v col)).
  - intros v Hv. apply Nat.ltb_lt, H2 with (v := v); [now apply unique_In in Hv|apply occ_hm].
Qed.

Lemma ao_nothing q : ao_predict O num rnd [] q = Ok 1%Z.
Proof. unfold ao_predict, ao_scores, enumerate. simpl. unfold nb_label. simpl.
  destruct (Rltb 0 0) eqn:E; auto. apply Rltb_true in E. lra. Qed.

(** One list only: the entries with the query's value decide. *)
Lemma fold_filter {E S} (p : E -> bool) (f : S -> E -> result S) l s :
  foldM (fun s e => if p e then f s e else Ok s) l s = foldM f (filter p l) s.
Proof. revert s; induction l as [|e l IH]; intros s; simpl; auto. destruct (p e); simpl; auto. destruct (f s e); simpl; auto. Qed.

Lemma ao_single t v q : ao_predict O num rnd [t] (v :: q) = sp_predict (filter (fun e => eqb O (sp_value e) v) t) (v :: q).
Proof.
  unfold ao_predict, ao_scores, Bayes.sp_predict, enumerate. cbn [length seq combine foldM fst snd get_at nth_error bind].
  rewrite (fold_filter (fun e => eqb O (sp_value e) v) (sp_step (v :: q))). fold (sp_scores (filter (fun e => eqb O (sp_value e) v) t) (v :: q)).
  destruct (sp_scores _ _) as [[a b]|]; cbn [bind fst snd]; auto. now rewrite !eadd_0_l.
Qed.

(** Scores as products over all entries of a class. *)
Lemma entry_product q e fs : length q = length (infos e) -> 0 < p_c_xi e ->
  Forall2 (fun p f => 0 < f /\ sp_info_log O num rnd (fst p) (snd p) = Ok (elog (Some f))) (combine (infos e) q) fs ->
  sp_entry_log O num rnd q e = Ok (Fin (ln (p_c_xi e * product fs))) /\ 0 < p_c_xi e * product fs.
Proof.
  intros L P F. unfold sp_entry_log, enumerate.
  rewrite (fold_enum (fun s p => t <- sp_info_log O num rnd (fst p) (snd p) ;; Ok (eadd s t)) (infos e) [] q _ L).
  rewrite elog_pos by auto. revert P. generalize (p_c_xi e). clear L.
  induction F as [|p f l fs (Pf & E) F IH]; intros a Ha; simpl.
  - rewrite Rmult_1_r. auto.
  - rewrite E, elog_pos by auto. cbn [bind eadd]. rewrite <- ln_mult by auto.
    destruct (IH (a * f)) as (-> & Q); [now apply Rmult_lt_0_compat|]. rewrite Rmult_assoc in *. auto.
Qed.

Definition factors_of (c : Z) (st : list (@sp_entry A)) (fs : list R) : R :=
  product (map snd (filter (fun p => (category (fst p) =? c)%Z) (combine st fs))).

Lemma sp_product q st fs : Forall2 (fun e f => 0 < f /\ sp_entry_log O num rnd q e = Ok (Fin (ln f))) st fs ->
  sp_predict st q = Ok (if Rlt_dec (factors_of 1 st fs) (factors_of 0 st fs) then 0%Z else 1%Z).
Proof.
  intros F.
  assert (G : forall a b, 0 < a -> 0 < b -> foldM (sp_step q) st (Fin (ln a), Fin (ln b)) =
     Ok (Fin (ln (a * factors_of 0 st fs)), Fin (ln (b * factors_of 1 st fs))) /\
     0 < factors_of 0 st fs /\ 0 < factors_of 1 st fs).
  { unfold factors_of. induction F as [|e f st fs (Pf & E) F IH]; intros a b Ha Hb; simpl.
    - rewrite !Rmult_1_r. split; auto; lra.
    - unfold Bayes.sp_step at 1. destruct (Z.eqb_spec (category e) 0) as [E0|E0].
      + rewrite E0. simpl. rewrite E. cbn [bind fst snd eadd]. rewrite <- ln_mult by auto.
        destruct (IH (a * f) b) as (-> & X & Y); auto; [now apply Rmult_lt_0_compat|].
        rewrite Rmult_assoc. repeat split; auto. now apply Rmult_lt_0_compat.
      + destruct (Z.eqb_spec (category e) 1) as [E1|E1].
        * simpl. rewrite E. cbn [bind fst snd eadd]. rewrite <- ln_mult by auto.
          destruct (IH a (b * f)) as (-> & X & Y); auto; [now apply Rmult_lt_0_compat|].
          rewrite Rmult_assoc. repeat split; auto. now apply Rmult_lt_0_compat.
        * simpl. apply IH; auto. }
  destruct (G 1 1) as (E & X & Y); [lra..|]. rewrite ln_1, !Rmult_1_l in E.
  unfold Bayes.sp_predict, Bayes.sp_scores. rewrite E. cbn [bind]. unfold nb_label. cbn [fst snd egt]. unfold Rltb.
  pose proof (ln_lt_iff _ _ Y X). destruct (Rlt_dec _ _), (Rlt_dec _ _); auto; tauto.
Qed.
End SP.
