(** Adam: moments, bias correction and bounds on the steps. *)
From Coq Require Import List Reals Arith Lia Lra.
From Verif.Model Require Import Base Activations Network.
From Verif.Spec Require Import Common Smo Network.
From Verif.Proof Require Import BaseLemmas Smo Kernels Gmm KMeans Network NetworkMain NetworkStep.
Import ListNotations.
Local Open Scope R_scope.

(** ** Entries *)
Lemma nth_combine_in {A B} (a : list A) (b : list B) k da db : length a = length b -> nth k (combine a b) (da, db) = (nth k a da, nth k b db).
Proof. apply combine_nth. Qed.
Lemma nth_lzip f a b k : same_network a b -> (k < length a)%nat ->
  nth k (lzip f a b) ([], []) = (mzip f (fst (nth k a ([], []))) (fst (nth k b ([], []))), zip2 f (snd (nth k a ([], []))) (snd (nth k b ([], [])))).
Proof.
  intros S Hk. apply Forall2_len in S as L. unfold lzip. rewrite (nth_map_in _ _ k _ (([], []), ([], []))) by (rewrite combine_length; unfold layer, neurons in *; lia).
  rewrite nth_combine_in by auto. reflexivity.
Qed.
Lemma nth_mzip f (a b : list (list R)) i : length a = length b -> (i < length a)%nat -> nth i (mzip f a b) [] = zip2 f (nth i a []) (nth i b []).
Proof.
  intros L Hi. unfold mzip. rewrite (nth_map_in _ _ i _ ([], [])) by (rewrite combine_length; lia). now rewrite nth_combine_in.
Qed.
Lemma same_nth a b k : same_network a b -> (k < length a)%nat -> same_layer (nth k a ([], [])) (nth k b ([], [])).
Proof.
  intros S. revert k. induction S as [|l e a b H S IH]; intros k Hk; [simpl in Hk; lia|]. destruct k; simpl; [exact H|]. apply IH. simpl in Hk. lia.
Qed.
Lemma same_rows_nth (a b : list (list R)) i : Forall2 (fun r s => length r = length s) a b -> (i < length a)%nat -> length (nth i a []) = length (nth i b []).
Proof.
  intros S. revert i. induction S as [|l e a b H S IH]; intros i Hi; [simpl in Hi; lia|]. destruct i; simpl; [exact H|]. apply IH. simpl in Hi. lia.
Qed.
Lemma at_lzip f a b q : same_network a b -> inside q a -> at_place q (lzip f a b) = f (at_place q a) (at_place q b).
Proof.
  intros S. destruct q as [k i j|k i]; cbn [inside at_place].
  - intros (Hk & Hi & Hj). destruct (same_nth a b k S Hk) as [S1 S2]. rewrite nth_lzip by auto. cbn [fst].
    rewrite nth_mzip by (auto; now apply Forall2_len in S1). apply nth_zip2; auto. now apply same_rows_nth.
  - intros (Hk & Hi). destruct (same_nth a b k S Hk) as [S1 S2]. rewrite nth_lzip by auto. cbn [snd]. now apply nth_zip2.
Qed.
Lemma inside_same a b q : same_network a b -> inside q a -> inside q b.
Proof.
  intros S. pose proof (Forall2_len _ _ _ S) as L. destruct q as [k i j|k i]; cbn [inside].
  - intros (Hk & Hi & Hj). destruct (same_nth a b k S Hk) as [S1 S2]. pose proof (Forall2_len _ _ _ S1). pose proof (same_rows_nth _ _ i S1 Hi). unfold neurons in *. split; [|split]; lia.
  - intros (Hk & Hi). destruct (same_nth a b k S Hk) as [S1 S2]. unfold neurons in *. split; lia.
Qed.
Lemma lmap_shape f a : same_network a (lmap f a).
Proof.
  unfold lmap. induction a as [|[w b] a IH]; simpl; constructor; auto. split; cbn [fst snd].
  - unfold mmap. clear. induction w; simpl; constructor; auto. now rewrite map_length.
  - now rewrite map_length.
Qed.
Lemma at_lmap_const c a q : inside q a -> at_place q (lmap (fun _ => c) a) = c.
Proof.
  unfold lmap. destruct q as [k i j|k i]; cbn [inside at_place].
  - intros (Hk & Hi & Hj). rewrite (nth_map_in _ _ k _ ([], [])) by auto. cbn [fst]. unfold mmap. rewrite (nth_map_in _ _ i _ []) by auto. now rewrite (nth_map_in _ _ j _ 0).
  - intros (Hk & Hi). rewrite (nth_map_in _ _ k _ ([], [])) by auto. cbn [snd]. now rewrite (nth_map_in _ _ i _ 0).
Qed.

(** The element-wise step. *)
Definition net_forall (P : R -> Prop) (ls : list neurons) : Prop := Forall (fun l => Forall (Forall P) (fst l) /\ Forall P (snd l)) ls.

Lemma zipM_ok (f : R -> R -> result R) a b r : length a = length b -> mapM (fun e => f (fst e) (snd e)) (combine a b) = Ok r ->
  length r = length a /\ forall i, (i < length a)%nat -> f (nth i a 0) (nth i b 0) = Ok (nth i r 0).
Proof.
  intros L E. apply mapM_Ok in E. revert b r L E. induction a as [|u a IH]; intros [|v b] r L E; try discriminate; simpl in E; inversion E; subst.
  - split; auto. intros i Hi. simpl in Hi. lia.
  - simpl in L. destruct (IH b l') as [A B]; auto. split; [simpl; lia|]. intros [|i] Hi; simpl in *; [assumption|]. apply B. lia.
Qed.
Lemma zipM_total (f : R -> R -> result R) (P : R -> Prop) a b : (forall u v, P v -> exists r, f u v = Ok r) -> Forall P b ->
  exists r, mapM (fun e => f (fst e) (snd e)) (combine a b) = Ok r.
Proof.
  intros H. revert b. induction a as [|u a IH]; intros b F; [exists []; reflexivity|]. destruct F as [|v b Hv F]; [exists []; reflexivity|].
  cbn [combine mapM fst snd]. destruct (H u v Hv) as [r Er]. destruct (IH b F) as [rs Es]. rewrite Er, Es. eexists; reflexivity.
Qed.
Lemma rowsM_ok (f : R -> R -> result R) a b r : Forall2 (fun r s => length r = length s) a b ->
  mapM (fun q => mapM (fun e => f (fst e) (snd e)) (combine (fst q) (snd q))) (combine a b) = Ok r ->
  Forall2 (fun r s => length r = length s) a r /\
  forall i j, (i < length a)%nat -> (j < length (nth i a []))%nat -> f (nth j (nth i a []) 0) (nth j (nth i b []) 0) = Ok (nth j (nth i r []) 0).
Proof.
  intros S E. apply mapM_Ok in E. revert r E. induction S as [|u v a b H S IH]; intros r E; simpl in E; inversion E; subst.
  - split; [constructor|]. intros i j Hi. simpl in Hi. lia.
  - destruct (IH l') as [A B]; auto. destruct (zipM_ok f u v y H) as [C D]; auto. split; [constructor; auto|].
    intros [|i] j Hi Hj; simpl in *; [now apply D|]. apply B; auto. lia.
Qed.
Lemma rowsM_total (f : R -> R -> result R) (P : R -> Prop) a b : (forall u v, P v -> exists r, f u v = Ok r) -> Forall (Forall P) b ->
  exists r, mapM (fun q => mapM (fun e => f (fst e) (snd e)) (combine (fst q) (snd q))) (combine a b) = Ok r.
Proof.
  intros H. revert b. induction a as [|u a IH]; intros b F; [exists []; reflexivity|]. destruct F as [|v b Hv F]; [exists []; reflexivity|].
  cbn [combine mapM fst snd]. destruct (zipM_total f P u v H Hv) as [r Er]. destruct (IH b F) as [rs Es]. rewrite Er, Es. eexists; reflexivity.
Qed.

Lemma lzipM_ok f a b r : same_network a b -> lzipM f a b = Ok r ->
  same_network a r /\ forall q, inside q a -> f (at_place q a) (at_place q b) = Ok (at_place q r).
Proof.
  intros S E. unfold lzipM in E. apply mapM_Ok in E. revert r E. induction S as [|l e a b [H1 H2] S IH]; intros r E; simpl in E; inversion E as [|? y ? l' E1 E2]; subst.
  - split; [constructor|]. intros [k i j|k i] Hq; simpl in Hq; lia.
  - cbn [fst snd] in E1. apply bind_Ok in E1. destruct E1 as (dw & Ew & E1). apply bind_Ok in E1. destruct E1 as (db & Eb & E1). injection E1 as <-.
    destruct (rowsM_ok f _ _ _ H1 Ew) as [A1 A2]. destruct (zipM_ok f _ _ _ H2 Eb) as [B1 B2]. destruct (IH l' E2) as [C1 C2].
    split; [constructor; auto; split; auto|]. intros [[|k] i j|[|k] i]; cbn [inside at_place nth fst snd length]; intros Hq.
    + now apply A2.
    + apply (C2 (Weight k i j)). cbn [inside]. destruct Hq as (? & ? & ?). split; [lia|auto].
    + now apply B2.
    + apply (C2 (Bias k i)). cbn [inside]. destruct Hq as (? & ?). split; [lia|auto].
Qed.
Lemma lzipM_total (f : R -> R -> result R) (P : R -> Prop) a b : (forall u v, P v -> exists r, f u v = Ok r) -> net_forall P b -> exists r, lzipM f a b = Ok r.
Proof.
  intros H. unfold lzipM. revert b. induction a as [|u a IH]; intros b F; [exists []; reflexivity|]. destruct F as [|v b [Hv1 Hv2] F]; [exists []; reflexivity|].
  cbn [combine mapM fst snd]. destruct (rowsM_total f P (fst u) (fst v) H Hv1) as [r1 E1]. destruct (zipM_total f P (snd u) (snd v) H Hv2) as [r2 E2].
  rewrite E1, E2. cbn [bind]. destruct (IH b F) as [rs Es]. rewrite Es. eexists; reflexivity.
Qed.
Lemma net_forall_lzip (P : R -> Prop) f a b : (forall u v, P u -> P (f u v)) -> net_forall P a -> net_forall P (lzip f a b).
Proof.
  intros H. assert (Z : forall u v, Forall P u -> Forall P (zip2 f u v)).
  { intros u v F. unfold zip2. apply Forall_forall. intros w Hw. apply in_map_iff in Hw. destruct Hw as ([p q] & <- & Hq). apply H. rewrite Forall_forall in F. apply F. now apply in_combine_l in Hq. }
  intros F. unfold net_forall, lzip. apply Forall_forall. intros l Hl. apply in_map_iff in Hl. destruct Hl as ([l1 l2] & <- & Hq). cbn [fst snd].
  apply in_combine_l in Hq. destruct (proj1 (Forall_forall _ _) F l1 Hq) as [A B]. split; [|now apply Z].
  unfold mzip. apply Forall_forall. intros r Hr. apply in_map_iff in Hr. destruct Hr as ([p q] & <- & Hp). apply Z. rewrite Forall_forall in A. apply A. now apply in_combine_l in Hp.
Qed.
Lemma net_forall_zero a : net_forall (fun v => 0 <= v) (lmap (fun _ => 0) a).
Proof.
  unfold net_forall, lmap. apply Forall_forall. intros l Hl. apply in_map_iff in Hl. destruct Hl as (e & <- & _). cbn [fst snd]. split.
  - unfold mmap. apply Forall_forall. intros r Hr. apply in_map_iff in Hr. destruct Hr as (s & <- & _). apply Forall_forall. intros v Hv. apply in_map_iff in Hv. destruct Hv as (t & <- & _). lra.
  - apply Forall_forall. intros v Hv. apply in_map_iff in Hv. destruct Hv as (t & <- & _). lra.
Qed.

(** ** One parameter *)
Lemma decayed_snoc b gs g : decayed b (gs ++ [g]) = b * decayed b gs + (1 - b) * g.
Proof.
  unfold decayed. rewrite app_length. simpl length. rewrite Nat.add_1_r, sum_below_S. rewrite nth_middle.
  replace (S (length gs) - 1 - length gs)%nat with 0%nat by lia. rewrite pow_O.
  assert (E : sum_below (length gs) (fun k => b ^ (S (length gs) - 1 - k) * nth k (gs ++ [g]) 0) = b * sum_below (length gs) (fun k => b ^ (length gs - 1 - k) * nth k gs 0)).
  { rewrite <- sum_below_scal. apply sum_below_ext. intros k Hk. rewrite app_nth1 by auto. replace (S (length gs) - 1 - k)%nat with (S (length gs - 1 - k)) by lia. simpl. ring. }
  rewrite E. ring.
Qed.
Lemma decayed_const b g n : decayed b (repeat g n) = (1 - b ^ n) * g.
Proof.
  induction n as [|n IH]; [unfold decayed; simpl; rewrite sum_below_zero; [lra|]; intros; lia|].
  replace (repeat g (S n)) with (repeat g n ++ [g]) by (rewrite <- (repeat_cons n g); reflexivity).
  rewrite decayed_snoc, IH. simpl. ring.
Qed.
Lemma decayed_bounds b gs lo hi : 0 <= b <= 1 -> Forall (fun g => lo <= g <= hi) gs ->
  (1 - b ^ length gs) * lo <= decayed b gs <= (1 - b ^ length gs) * hi.
Proof.
  intros Hb. induction gs as [|g gs IH] using rev_ind; intros F.
  - unfold decayed. simpl. rewrite sum_below_zero; [lra|]. intros; lia.
  - apply Forall_app in F. destruct F as [F1 F2]. inversion F2; subst. rewrite decayed_snoc, app_length. simpl length. rewrite Nat.add_1_r. cbn [pow].
    specialize (IH F1). split; nra.
Qed.
Lemma decayed_nonneg b gs : 0 <= b <= 1 -> Forall (fun g => 0 <= g) gs -> 0 <= decayed b gs.
Proof.
  intros Hb F. induction gs as [|g gs IH] using rev_ind; [unfold decayed; simpl; rewrite sum_below_zero; [lra|]; intros; lia|].
  apply Forall_app in F. destruct F as [F1 F2]. inversion F2; subst. rewrite decayed_snoc. specialize (IH F1). nra.
Qed.
(** The first moment is controlled by the second. *)
Lemma moments_bound b1 b2 gs : 0 <= b1 -> b1 ^ 2 < b2 -> b2 < 1 ->
  decayed b1 gs ^ 2 * ((1 - b2) * (b2 - b1 ^ 2)) <= (1 - b1) ^ 2 * b2 * decayed b2 (map (fun g => g ^ 2) gs).
Proof.
  intros H1 H2 H3. induction gs as [|g gs IH] using rev_ind.
  - unfold decayed. simpl. rewrite !sum_below_zero by (intros; lia). lra.
  - rewrite map_app. cbn [map]. rewrite !decayed_snoc. set (m := decayed b1 gs) in *. set (v := decayed b2 (map (fun g => g ^ 2) gs)) in *.
    assert (P : 0 < b2) by nra.
    (* (b1 m + (1 - b1) g)^2 (b2 - b1^2) <= b2 (b2 - b1^2) m^2 + b2 (1 - b1)^2 g^2 *)
    assert (Q : (b1 * m + (1 - b1) * g) ^ 2 * (b2 - b1 ^ 2) <= b2 * ((b2 - b1 ^ 2) * m ^ 2 + (1 - b1) ^ 2 * g ^ 2)).
    { assert (S : 0 <= ((b2 - b1 ^ 2) * m - b1 * (1 - b1) * g) ^ 2) by apply pow2_ge_0. nra. }
    apply Rle_trans with ((1 - b2) * (b2 * ((b2 - b1 ^ 2) * m ^ 2 + (1 - b1) ^ 2 * g ^ 2))).
    + replace ((b1 * m + (1 - b1) * g) ^ 2 * ((1 - b2) * (b2 - b1 ^ 2))) with ((1 - b2) * ((b1 * m + (1 - b1) * g) ^ 2 * (b2 - b1 ^ 2))) by ring.
      apply Rmult_le_compat_l; lra.
    + assert (T : b2 * (m ^ 2 * ((1 - b2) * (b2 - b1 ^ 2))) <= b2 * ((1 - b1) ^ 2 * b2 * v)) by (apply Rmult_le_compat_l; lra).
      nra.
Qed.

(** ** The whole network *)
Lemma foldM_snoc {A S} (f : S -> A -> result S) l a s : foldM f (l ++ [a]) s = (s' <- foldM f l s ;; f s' a).
Proof. revert s. induction l as [|b l IH]; intros s; simpl; [destruct (f s a); reflexivity|]. destruct (f s b); simpl; auto. Qed.
Lemma number_snoc {A} (l : list A) a : combine (seq 1 (length (l ++ [a]))) (l ++ [a]) = combine (seq 1 (length l)) l ++ [(S (length l), a)].
Proof.
  rewrite app_length. simpl length. rewrite Nat.add_1_r.
  assert (G : forall k, combine (seq k (S (length l))) (l ++ [a]) = combine (seq k (length l)) l ++ [((k + length l)%nat, a)]).
  { induction l as [|b l IH]; intros k; [simpl; now rewrite Nat.add_0_r|]. cbn [length]. change (seq k (S (S (length l)))) with (k :: seq (S k) (S (length l))).
    change (seq k (S (length l))) with (k :: seq (S k) (length l)). cbn [app combine]. rewrite IH. do 4 f_equal. lia. }
  apply (G 1%nat).
Qed.
Lemma adam_updates_snoc o gs g s : adam_updates o (gs ++ [g]) s = (s' <- adam_updates o gs s ;; adam_update o (S (length gs)) s' g).
Proof. unfold adam_updates. rewrite number_snoc, foldM_snoc. reflexivity. Qed.

Lemma adam_update_ok o t s g s' ls : same_network ls (params s) -> same_network ls (m_state s) -> same_network ls (v_state s) -> same_network ls g ->
  adam_update o t s g = Ok s' ->
  same_network ls (params s') /\ same_network ls (m_state s') /\ same_network ls (v_state s') /\
  forall q, inside q ls ->
    at_place q (m_state s') = beta_1 o * at_place q (m_state s) + (1 - beta_1 o) * at_place q g /\
    at_place q (v_state s') = beta_2 o * at_place q (v_state s) + (1 - beta_2 o) * at_place q g ^ 2 /\
    exists step, adam_step o t (at_place q (m_state s')) (at_place q (v_state s')) = Ok step /\ at_place q (params s') = at_place q (params s) - step.
Proof.
  intros Sp Sm Sv Sg E. unfold adam_update in E. apply bind_Ok in E. destruct E as (st & E & E'). injection E' as <-. cbn [params m_state v_state].
  assert (Smg : same_network (m_state s) g) by (apply (same_network_trans _ ls); auto; now apply same_network_sym).
  assert (Svg : same_network (v_state s) g) by (apply (same_network_trans _ ls); auto; now apply same_network_sym).
  pose proof (lzip_shape (moment_1 o) _ _ Smg) as M. pose proof (lzip_shape (moment_2 o) _ _ Svg) as V.
  pose proof (same_network_trans _ _ _ Sm M) as M'. pose proof (same_network_trans _ _ _ Sv V) as V'.
  destruct (lzipM_ok _ _ _ _ (same_network_trans _ _ _ (same_network_sym _ _ M') V') E) as [T1 T2].
  pose proof (same_network_trans _ _ _ M' T1) as T'.
  assert (Spt : same_network (params s) st) by (apply (same_network_trans _ ls); auto; now apply same_network_sym).
  pose proof (lzip_shape Rminus _ _ Spt) as PP.
  split; [now apply (same_network_trans _ (params s))|]. split; auto. split; auto.
  intros q Hq. split; [|split].
  - rewrite at_lzip by (auto; now apply (inside_same ls)). reflexivity.
  - rewrite at_lzip by (auto; now apply (inside_same ls)). reflexivity.
  - exists (at_place q st). split; [apply T2; now apply (inside_same ls)|]. apply at_lzip; auto. now apply (inside_same ls).
Qed.

Lemma adam_invariant o ls gs s : Forall (same_network ls) gs -> adam_updates o gs (adam_init ls) = Ok s ->
  same_network ls (params s) /\ same_network ls (m_state s) /\ same_network ls (v_state s) /\
  forall q, inside q ls -> at_place q (m_state s) = decayed (beta_1 o) (map (at_place q) gs) /\
    at_place q (v_state s) = decayed (beta_2 o) (map (fun g => at_place q g ^ 2) gs).
Proof.
  revert s. induction gs as [|g gs IH] using rev_ind; intros s F E.
  - injection E as <-. cbn [params m_state v_state adam_init]. split; [apply same_network_refl|]. split; [apply lmap_shape|]. split; [apply lmap_shape|].
    intros q Hq. rewrite at_lmap_const by auto. unfold decayed. simpl. rewrite !sum_below_zero by (intros; lia). split; lra.
  - apply Forall_app in F. destruct F as [F1 F2]. inversion F2 as [|? ? Sg _]; subst. rewrite adam_updates_snoc in E. apply bind_Ok in E. destruct E as (s0 & E0 & E).
    destruct (IH s0 F1 E0) as (A & B & C & D). destruct (adam_update_ok o _ s0 g s ls A B C Sg E) as (A' & B' & C' & D').
    split; auto. split; auto. split; auto. intros q Hq. destruct (D q Hq) as [D1 D2]. destruct (D' q Hq) as (X & Y & _).
    rewrite !map_app. cbn [map]. rewrite !decayed_snoc. rewrite X, Y, D1, D2. split; reflexivity.
Qed.

Definition good_options (o : adam_options) : Prop := 0 <= beta_1 o < 1 /\ 0 <= beta_2 o < 1 /\ 0 < epsilon o.
Lemma correction_pos b t : 0 <= b < 1 -> (1 <= t)%nat -> 0 < 1 - b ^ t <= 1 /\ 1 - b <= 1 - b ^ t.
Proof.
  intros Hb Ht. destruct t as [|t]; [lia|]. assert (P : 0 <= b ^ t <= 1). { split; [apply pow_le; lra|]. rewrite <- (pow1 t). apply pow_incr. lra. }
  cbn [pow]. nra.
Qed.
Lemma adam_step_value o t m v : good_options o -> (1 <= t)%nat -> 0 <= v ->
  adam_step o t m v = Ok (rate o * (m / (1 - beta_1 o ^ t)) / (sqrt (v / (1 - beta_2 o ^ t)) + epsilon o)).
Proof.
  intros (H1 & H2 & H3) Ht Hv. destruct (correction_pos _ t H1 Ht) as [A _]. destruct (correction_pos _ t H2 Ht) as [B _]. unfold adam_step.
  replace (Reqb (1 - beta_1 o ^ t) 0) with false by (symmetry; apply Reqb_false; lra).
  replace (Reqb (1 - beta_2 o ^ t) 0) with false by (symmetry; apply Reqb_false; lra). cbn [orb].
  assert (W : 0 <= v / (1 - beta_2 o ^ t)) by (apply Rmult_le_pos; auto; left; apply Rinv_0_lt_compat; lra).
  replace (Rltb (v / (1 - beta_2 o ^ t)) 0) with false by (symmetry; now apply Rltb_false).
  replace (Reqb (sqrt (v / (1 - beta_2 o ^ t)) + epsilon o) 0) with false; auto.
  symmetry. apply Reqb_false. pose proof (sqrt_pos (v / (1 - beta_2 o ^ t))). lra.
Qed.

Lemma adam_total o ls gs : good_options o -> Forall (same_network ls) gs ->
  exists s, adam_updates o gs (adam_init ls) = Ok s /\ net_forall (fun v => 0 <= v) (v_state s).
Proof.
  intros G. induction gs as [|g gs IH] using rev_ind; intros F.
  - eexists. split; [reflexivity|]. apply net_forall_zero.
  - apply Forall_app in F. destruct F as [F1 F2]. destruct (IH F1) as (s & E & N). rewrite adam_updates_snoc, E. cbn [bind]. unfold adam_update.
    assert (N' : net_forall (fun v => 0 <= v) (lzip (moment_2 o) (v_state s) g)).
    { apply net_forall_lzip; auto. intros u v Hu. unfold moment_2. destruct G as (_ & ? & _). pose proof (pow2_ge_0 v). nra. }
    destruct (lzipM_total (adam_step o (S (length gs))) (fun v => 0 <= v) (lzip (moment_1 o) (m_state s) g) (lzip (moment_2 o) (v_state s) g)) as [st Es]; auto.
    { intros u v Hv. eexists. apply adam_step_value; auto. lia. }
    cbv zeta. match goal with |- context [lzipM ?f ?a ?b] => assert (Es1 : lzipM f a b = Ok st) by exact Es; rewrite Es1 end. cbn [bind]. eexists. split; [reflexivity|]. exact N'.
Qed.

Lemma adam_last o ls gs g s' : good_options o -> Forall (same_network ls) (gs ++ [g]) -> adam_updates o (gs ++ [g]) (adam_init ls) = Ok s' ->
  exists s, adam_updates o gs (adam_init ls) = Ok s /\ forall q, inside q ls ->
    let t := S (length gs) in
    let m := decayed (beta_1 o) (map (at_place q) (gs ++ [g])) in
    let v := decayed (beta_2 o) (map (fun g => at_place q g ^ 2) (gs ++ [g])) in
    0 <= v /\
    at_place q (params s') = at_place q (params s) - rate o * (m / (1 - beta_1 o ^ t)) / (sqrt (v / (1 - beta_2 o ^ t)) + epsilon o).
Proof.
  intros G F E. pose proof (adam_invariant o ls _ s' F E) as (_ & _ & _ & I'). pose proof F as F0. apply Forall_app in F. destruct F as [F1 F2]. inversion F2 as [|? ? Sg _]; subst.
  rewrite adam_updates_snoc in E. apply bind_Ok in E. destruct E as (s & E0 & E). exists s. split; auto. intros q Hq t m v.
  destruct (adam_invariant o ls gs s F1 E0) as (A & B & C & _). destruct (adam_update_ok o _ s g s' ls A B C Sg E) as (_ & _ & _ & D). destruct (D q Hq) as (_ & _ & st & Es & Ep).
  destruct (I' q Hq) as [Im Iv]. rewrite Im, Iv in Es. fold m v in Es.
  assert (V : 0 <= v). { apply decayed_nonneg; [destruct G as (_ & ? & _); lra|]. apply Forall_forall. intros w Hw. apply in_map_iff in Hw. destruct Hw as (h & <- & _). apply pow2_ge_0. }
  split; auto. rewrite adam_step_value in Es by (auto; lia). rewrite Ep. injection Es as <-. reflexivity.
Qed.

Lemma step_size b1 b2 e r m v t : 0 <= b1 -> b1 <= b2 -> 0 < b2 -> b2 < 1 -> 0 < e -> 0 <= r -> 0 <= v -> (1 <= t)%nat ->
  m ^ 2 * ((1 - b2) * (b2 - b1 ^ 2)) <= (1 - b1) ^ 2 * b2 * v ->
  Rabs (r * (m / (1 - b1 ^ t)) / (sqrt (v / (1 - b2 ^ t)) + e)) <= r * sqrt ((1 - b1) * b2 / ((1 - b2) * (b2 - b1 ^ 2))).
Proof.
  intros H1 H2 H3 H4 He Hr Hv Ht Hm.
  destruct (correction_pos b1 t ltac:(lra) Ht) as [C1 C1']. destruct (correction_pos b2 t ltac:(lra) Ht) as [C2 _].
  assert (C12 : 1 - b2 ^ t <= 1 - b1 ^ t). { assert (b1 ^ t <= b2 ^ t) by (apply pow_incr; lra). lra. }
  set (c1 := 1 - b1 ^ t) in *. set (c2 := 1 - b2 ^ t) in *.
  assert (SQ : b1 ^ 2 < b2). { destruct (Rle_lt_or_eq_dec 0 b1 H1) as [P|P]; [nra|rewrite <- P; lra]. }
  set (A := (1 - b2) * (b2 - b1 ^ 2)) in *. assert (PA : 0 < A) by (apply Rmult_lt_0_compat; lra).
  set (K2 := (1 - b1) * b2 / A). assert (PK : 0 <= K2) by (apply Rmult_le_pos; [nra|left; now apply Rinv_0_lt_compat]).
  assert (W : 0 <= v / c2) by (apply Rmult_le_pos; auto; left; apply Rinv_0_lt_compat; lra).
  assert (Q : (m / c1) ^ 2 <= K2 * (v / c2)).
  { apply Rmult_le_reg_r with (c1 ^ 2 * c2 * A); [repeat apply Rmult_lt_0_compat; nra|].
    replace ((m / c1) ^ 2 * (c1 ^ 2 * c2 * A)) with (m ^ 2 * A * c2) by (field; lra).
    replace (K2 * (v / c2) * (c1 ^ 2 * c2 * A)) with ((1 - b1) * b2 * v * c1 ^ 2) by (unfold K2; field; lra).
    apply Rle_trans with ((1 - b1) ^ 2 * b2 * v * c2); [apply Rmult_le_compat_r; lra|].
    replace ((1 - b1) ^ 2 * b2 * v * c2) with ((1 - b1) * b2 * v * ((1 - b1) * c2)) by ring.
    apply Rmult_le_compat_l; [apply Rmult_le_pos; auto; nra|].
    replace (c1 ^ 2) with (c1 * c1) by ring. apply Rmult_le_compat; lra. }
  assert (B : Rabs (m / c1) <= sqrt K2 * sqrt (v / c2)).
  { rewrite <- sqrt_mult by auto. rewrite <- sqrt_Rsqr_abs. apply sqrt_le_1_alt. unfold Rsqr. lra. }
  set (D := sqrt (v / c2) + e). assert (PD : 0 < D) by (unfold D; pose proof (sqrt_pos (v / c2)); lra).
  unfold Rdiv at 1. rewrite !Rabs_mult, (Rabs_right r) by lra. rewrite (Rabs_right (/ D)) by (apply Rle_ge; left; now apply Rinv_0_lt_compat).
  rewrite Rmult_assoc. apply Rmult_le_compat_l; auto. fold K2.
  apply Rmult_le_reg_r with D; auto. rewrite Rmult_assoc, Rinv_l, Rmult_1_r by lra.
  apply Rle_trans with (sqrt K2 * sqrt (v / c2)); auto. apply Rmult_le_compat_l; [apply sqrt_pos|]. unfold D. lra.
Qed.

Lemma adam_run_updates o x y : forall draws s s', foldM (adam_epoch o x y) (combine (seq 1 (length draws)) draws) s = Ok s' ->
  exists gs, length gs = length draws /\ adam_updates o gs s = Ok s' /\
    forall k, (k < length draws)%nat -> exists sk, adam_updates o (firstn k gs) s = Ok sk /\ sample_gradient x y (params sk) (nth k draws 0%nat) = Ok (nth k gs []).
Proof.
  intros draws. induction draws as [|i draws IH] using rev_ind; intros s s' E.
  - exists []. split; auto. split; [exact E|]. intros k Hk. simpl in Hk. lia.
  - rewrite number_snoc, foldM_snoc in E. apply bind_Ok in E. destruct E as (s0 & E0 & E). destruct (IH s s0 E0) as (gs & L & U & G).
    unfold adam_epoch in E. cbn [fst snd] in E. apply bind_Ok in E. destruct E as (g & Eg & E).
    exists (gs ++ [g]). split; [rewrite !app_length; simpl; lia|]. split; [rewrite adam_updates_snoc, U; cbn [bind]; now rewrite L|].
    intros k Hk. rewrite app_length in Hk. simpl in Hk. destruct (Nat.eq_dec k (length draws)) as [->|N].
    + exists s0. rewrite <- L at 1. rewrite firstn_app, firstn_all, Nat.sub_diag. cbn [firstn]. rewrite app_nil_r. split; auto.
      rewrite nth_middle. rewrite <- L. now rewrite nth_middle.
    + destruct (G k ltac:(lia)) as (sk & A & B). exists sk. rewrite firstn_app. replace (k - length gs)%nat with 0%nat by lia. cbn [firstn]. rewrite app_nil_r. split; auto.
      rewrite !app_nth1 by lia. exact B.
Qed.

Lemma adam_run_total o d c w x y ls : good_options o -> Forall (fun r => length r = d) x -> length y = length x ->
  w = 1%nat \/ w = c -> Forall (fun r => length r = w) y -> wired d ls c -> forall draws, Forall (fun i => (i < length x)%nat) draws ->
  exists s gs, foldM (adam_epoch o x y) (combine (seq 1 (length draws)) draws) (adam_init ls) = Ok s /\
    adam_updates o gs (adam_init ls) = Ok s /\ length gs = length draws /\ Forall (same_network ls) gs /\ same_network ls (params s).
Proof.
  intros G Fx Ly Hw Fy W draws. induction draws as [|i draws IH] using rev_ind; intros F.
  - exists (adam_init ls), []. split; [reflexivity|]. split; [reflexivity|]. split; [reflexivity|]. split; [constructor|]. apply same_network_refl.
  - apply Forall_app in F. destruct F as [F1 F2]. inversion F2 as [|? ? Hi _]; subst. destruct (IH F1) as (s & gs & E & U & L & FG & S).
    destruct (sample_gradient_total d c w (params s) x y i) as (g & Eg & Sg); auto; [now apply (wired_same c ls)|].
    assert (Sg' : same_network ls g) by now apply (same_network_trans _ (params s)).
    assert (FG' : Forall (same_network ls) (gs ++ [g])) by (apply Forall_app; auto).
    destruct (adam_total o ls (gs ++ [g]) G FG') as (s' & E' & _).
    exists s', (gs ++ [g]). rewrite number_snoc, foldM_snoc, E. cbn [bind]. unfold adam_epoch at 1. cbn [fst snd]. rewrite Eg. cbn [bind].
    pose proof E' as E2. rewrite adam_updates_snoc, U in E2. cbn [bind] in E2. rewrite <- L. split; auto. split; auto. split; [rewrite !app_length; simpl; lia|]. split; auto.
    apply (adam_invariant o ls _ s' FG' E').
Qed.
