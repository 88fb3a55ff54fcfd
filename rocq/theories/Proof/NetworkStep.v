(** Reported losses, single samples, updates and training runs of the network. *)
From Coq Require Import List Reals Arith Lia Lra Ranalysis Bool.
From Verif.Model Require Import Base Activations Network.
From Verif.Spec Require Import Common Smo Activations Network.
From Verif.Proof Require Import BaseLemmas Smo Kernels Gmm KMeans Activations Logistic Network NetworkMain NetworkGrad.
Import ListNotations.
Local Open Scope R_scope.

(** ** The reported loss *)
Lemma categorical_value p y : Forall (Forall (fun q => 0 < q)) p -> same_shape p y -> y <> [] ->
  categorical_crossentropy p y = Ok (total (map (fun a => total (map (fun b => - (snd b * ln (fst b))) (combine (fst a) (snd a)))) (combine p y)) / INR (length y)).
Proof.
  intros F S Hy. destruct (categorical_crossentropy p y) as [v|e] eqn:E.
  - destruct (cce_eq p y v E S) as (_ & _ & V). f_equal. rewrite <- V. pose proof (INR_pos_length y Hy). field. lra.
  - exfalso. unfold categorical_crossentropy in E. destruct (existsb _ p) eqn:X.
    + apply existsb_exists in X. destruct X as (r & Hr & X). apply existsb_exists in X. destruct X as (q & Hq & X). apply Rleb_true in X.
      rewrite Forall_forall in F. specialize (F r Hr). rewrite Forall_forall in F. specialize (F q Hq). lra.
    + destruct y; [congruence|discriminate].
Qed.
Lemma binary_value p y : Forall (fun q => 0 < q < 1) p -> length p = length y -> y <> [] ->
  binary_crossentropy p y = Ok (total (map (fun a => - (snd a * ln (fst a) + (1 - snd a) * ln (1 - fst a))) (combine p y)) / INR (length y)).
Proof.
  intros F S Hy. destruct (binary_crossentropy p y) as [v|e] eqn:E.
  - destruct (bce_eq p y v E) as (_ & _ & _ & V). f_equal. rewrite <- V. pose proof (INR_pos_length y Hy). field. lra.
  - exfalso. unfold binary_crossentropy in E. rewrite S, Nat.eqb_refl in E. cbn [negb] in E. destruct (existsb _ p) eqn:X.
    + apply existsb_exists in X. destruct X as (q & Hq & X). rewrite Forall_forall in F. specialize (F q Hq).
      apply orb_true_iff in X. destruct X as [X|X]; apply Rleb_true in X; lra.
    + destruct y; [congruence|discriminate].
Qed.

Lemma nonempty_len {A B} (x : list A) (y : list B) : x <> [] -> length y = length x -> y <> [].
Proof. destruct x, y; simpl; congruence. Qed.
Lemma combine_map_l {A B C} (f : A -> B) (x : list A) (y : list C) : combine (map f x) y = map (fun q => (f (fst q), snd q)) (combine x y).
Proof. revert y. induction x as [|u x IH]; intros [|v y]; simpl; auto. now rewrite IH. Qed.
Lemma combine_map_r {A B C} (f : B -> C) (x : list A) (y : list B) : combine x (map f y) = map (fun q => (fst q, f (snd q))) (combine x y).
Proof. revert y. induction x as [|u x IH]; intros [|v y]; simpl; auto. now rewrite IH. Qed.
Lemma row_class_loss z v : length v = length z ->
  total (map (fun b => - (snd b * ln (fst b))) (combine (map (fun v0 => exp v0 / total (map exp z)) z) v)) = class_loss z v.
Proof.
  intros L. unfold class_loss.
  replace (- sum_below (length z) (fun k => nth k v 0 * ln (softmax_prob z k))) with
     (-1 * sum_below (length z) (fun k => nth k v 0 * ln (softmax_prob z k))) by ring.
  rewrite <- sum_below_scal. change total with rsum at 1. rewrite (rsum_map_nth (0, 0)).
  rewrite combine_length, map_length. replace (Nat.min (length z) (length v)) with (length z) by lia.
  apply sum_below_ext. intros k Hk. rewrite combine_nth by (rewrite map_length; lia). cbn [fst snd].
  rewrite (nth_map_in _ _ k 0 0) by auto. unfold softmax_prob. ring.
Qed.

Section Batch.
Variables (d c : nat) (ls : list neurons) (x y : list (list R)).
Hypothesis (W : wired d ls c) (Hx : x <> []) (Fx : Forall (fun r => length r = d) x) (Ly : length y = length x).

Lemma multi_loss : (2 <= c)%nat -> Forall (fun r => length r = c) y -> forall p cs, forward ls x = Ok (p, cs) ->
  crossentropy c p y = Ok (mean_loss class_loss ls x y).
Proof.
  intros Hc Fy p cs E. destruct (multi_backward d c ls x y W Hx Fx Ly Hc Fy) as (q0 & E' & Rq & _).
  assert (PQ : p = q0) by congruence. rewrite <- PQ in Rq. clear PQ E E'. unfold crossentropy. replace (c =? 1)%nat with false by (symmetry; apply Nat.eqb_neq; lia).
  assert (NZ : forall u, output_scores ls u <> []). { intros u E. pose proof (output_scores_length c ls d u W) as L. rewrite E in L. simpl in L. lia. }
  rewrite categorical_value.
  - f_equal. unfold mean_loss. rewrite Ly. f_equal. rewrite Rq, combine_map_l, map_map. change total with rsum at 1. change total with rsum at 2.
    apply rsum_ext. intros [u v] Hq. cbn [fst snd]. apply row_class_loss. rewrite (output_scores_length c ls d u W).
    rewrite Forall_forall in Fy. apply Fy. now apply in_combine_r in Hq.
  - rewrite Rq. apply Forall_forall. intros r Hr. apply in_map_iff in Hr. destruct Hr as (u & <- & _). apply Forall_forall. intros q Hq.
    apply in_map_iff in Hq. destruct Hq as (v & <- & _). apply Rdiv_lt_0_compat; [apply exp_pos|]. apply exp_total_pos, NZ.
  - rewrite Rq. unfold same_shape. clear - Ly Fy W. revert y Ly Fy. generalize x as xs. induction xs as [|u xs IH]; intros [|v ys] L F; try discriminate; [constructor|].
    inversion F; subst. cbn [map]. constructor; [|apply IH; auto]. rewrite map_length. symmetry. rewrite (output_scores_length _ ls d u W). auto.
  - now apply (nonempty_len x y).
Qed.

Lemma single_loss : c = 1%nat -> Forall (fun r => length r = 1%nat) y -> forall p cs, forward ls x = Ok (p, cs) ->
  crossentropy c p y = Ok (mean_loss two_class_loss ls x y).
Proof.
  intros Hc Fy p cs E. destruct (single_backward d c ls x y W Hx Fx Ly Hc Fy) as (E' & _).
  assert (Rq : p = map (fun r => [sigmoid (nth 0 (output_scores ls r) 0)]) x) by congruence. clear E E'. unfold crossentropy. rewrite Hc. cbn [Nat.eqb].
  rewrite Rq, map_map. cbn [nth]. rewrite binary_value.
  - rewrite map_length. f_equal. unfold mean_loss. rewrite Ly. f_equal.
    rewrite combine_map_l, map_map. rewrite combine_map_r, map_map. reflexivity.
  - apply Forall_forall. intros q Hq. apply in_map_iff in Hq. destruct Hq as (u & <- & _). apply sigmoid_range.
  - now rewrite !map_length.
  - assert (Y : y <> []) by now apply (nonempty_len x y). destruct y; simpl; congruence.
Qed.
End Batch.

(** ** One sample with one output: a positive multiple of the gradient *)
Lemma single_factor d ls u y : wired d ls 1 -> length u = d -> y = 0 \/ y = 1 -> away_from_kinks ls u ->
  exists p cs g k, forward ls [u] = Ok (p, cs) /\ backward p [[y]] cs = Ok g /\ 3 / 4 <= k < 2 /\
    gradient_of (fun ls => k * mean_loss two_class_loss ls [u] [[y]]) ls g.
Proof.
  intros W Hu Hy K.
  assert (Fu : Forall (fun r => length r = d) [u]) by auto.
  destruct (single_backward d 1 ls [u] [[y]] W ltac:(discriminate) Fu eq_refl eq_refl) as (E1 & E2); [repeat constructor|].
  set (p := map _ [u]) in *. set (q := sigmoid (nth 0 (output_scores ls u) 0)). pose proof (sigmoid_range (nth 0 (output_scores ls u) 0)) as Q. fold q in Q.
  set (k := if Req_EM_T y 0 then 1 - q + q ^ 2 else 1 + q ^ 2).
  assert (Kk : 3 / 4 <= k < 2).
  { unfold k. destruct (Req_EM_T y 0); [|nra]. pose proof (pow2_ge_0 (q - / 2)). nra. }
  exists p, (caches_of ls [u] p). eexists. exists k. split; [exact E1|split; [exact E2|split; [exact Kk|]]].
  assert (G : gradient_of (fun ls => mean_loss (fun z y => k * two_class_loss z y) ls [u] [[y]]) ls
     (fst (back_rec 1 (caches_of ls [u] p) (map (fun q => code_signal (output_scores ls (fst q)) (snd q)) (combine [u] [[y]]))))).
  { apply (gradient_rows_at 1 d _ code_signal ls [u] [[y]] p); auto; [discriminate|]. intros a b [Hab|[]]. injection Hab as <- <-.
    split; [reflexivity|]. intros Z z' V EZ. destruct (vder_1 _ _ V) as [Ez _].
    replace (dot (code_signal (output_scores ls u) [y]) z') with (k * ((sigmoid (nth 0 (Z 0) 0) - nth 0 [y] 0) * nth 0 z' 0)).
    - apply (derivable_pt_lim_scal (fun t => two_class_loss (Z t) [y])). now apply two_class_deriv.
    - rewrite EZ. unfold code_signal. fold q. destruct z' as [|v z']; [discriminate|]. cbn [nth dot]. unfold k.
      destruct z'; cbn [dot]; destruct (Req_EM_T y 0) as [H0|H0]; destruct Hy as [Hy|Hy]; subst y; try lra; ring. }
  destruct G as [G1 G2]. split; auto. intros D S. eapply derivable_pt_lim_ext; [|apply (G2 D S)]. intros t. unfold mean_loss. change total with rsum.
  rewrite rsum_map_scal. unfold Rdiv. ring.
Qed.

(** ** Updates *)
Lemma zip2_shift rate a b : zip2 (fun p d => p - rate * d) a b = shifted (- rate) a b.
Proof. unfold zip2, shifted. apply map_ext. intros q. ring. Qed.
Lemma sgd_is_move rate ls g : sgd_update rate ls g = moved (- rate) ls g.
Proof.
  unfold sgd_update, lzip, moved. apply map_ext. intros [l e]. cbn [fst snd]. f_equal; [|apply zip2_shift].
  unfold mzip. apply map_ext. intros q. apply zip2_shift.
Qed.

Lemma descent_step f ls g : gradient_of f ls g -> 0 < pairing g g ->
  exists eps, 0 < eps /\ forall rate, 0 < rate < eps -> f (sgd_update rate ls g) < f ls.
Proof.
  intros [S G] P. specialize (G g S). destruct (G (pairing g g / 2)) as [[eps He] H]; [lra|]. exists eps. split; auto. intros rate Hr.
  specialize (H (- rate) ltac:(lra)). simpl in H. rewrite Rabs_Ropp, Rabs_right in H by lra. specialize (H ltac:(lra)).
  rewrite Rplus_0_l, (moved_0 ls g S) in H. rewrite sgd_is_move. apply Rabs_def2 in H. destruct H as [_ H].
  set (v := f (moved (- rate) ls g)) in *. destruct (Rlt_le_dec v (f ls)) as [|N]; auto. exfalso.
  assert ((v - f ls) / - rate <= 0).
  { unfold Rdiv. rewrite Rinv_opp. assert (0 < / rate) by (apply Rinv_0_lt_compat; lra). nra. }
  lra.
Qed.

Lemma pairing_self_nonneg g : 0 <= pairing g g.
Proof.
  unfold pairing. change total with rsum. apply rsum_nonneg. intros v Hv. apply in_map_iff in Hv. destruct Hv as ([l e] & <- & Hp).
  assert (l = e). { clear - Hp. induction g as [|a g IH]; simpl in Hp; [destruct Hp|]. destruct Hp as [Hp|Hp]; [congruence|auto]. } subst e. cbn [fst snd].
  assert (N : forall a, 0 <= inner a a). { intros a. induction a as [|b a IH]; simpl; [lra|]. nra. }
  apply Rplus_le_le_0_compat; [|apply N]. apply rsum_nonneg. intros v Hv. apply in_map_iff in Hv. destruct Hv as ([r s] & <- & Hq).
  assert (r = s). { clear - Hq. induction (fst l) as [|a w IH]; simpl in Hq; [destruct Hq|]. destruct Hq as [Hq|Hq]; [congruence|auto]. } subst s. apply N.
Qed.

(** ** Shapes *)
Lemma same_layer_sym a b : same_layer a b -> same_layer b a.
Proof.
  intros [H1 H2]. split; auto. clear H2. induction H1; constructor; auto.
Qed.
Lemma same_network_sym a b : same_network a b -> same_network b a.
Proof. induction 1; constructor; auto. now apply same_layer_sym. Qed.
Lemma same_layer_trans a b c : same_layer a b -> same_layer b c -> same_layer a c.
Proof.
  intros [H1 H2] [H3 H4]. split; [|congruence]. clear H2 H4. revert H3. generalize (fst c). induction H1 as [|r s w v H H1 IH]; intros u H3; inversion H3; subst; constructor; auto; congruence.
Qed.
Lemma same_network_trans a b c : same_network a b -> same_network b c -> same_network a c.
Proof.
  intros H. revert c. induction H as [|l e a b H S IH]; intros c H2; inversion H2; subst; constructor; [apply (same_layer_trans l e); auto|apply IH; auto].
Qed.
Lemma same_network_refl a : same_network a a.
Proof.
  induction a as [|[w b] a IH]; constructor; auto. split; auto. cbn [fst]. clear. induction w; constructor; auto.
Qed.
Lemma zip_rows_shape f (w v : list (list R)) : Forall2 (fun r s => length r = length s) w v -> Forall2 (fun r s => length r = length s) w (mzip f w v).
Proof. unfold mzip. induction 1; simpl; constructor; auto. now rewrite zip2_length. Qed.
Lemma lzip_shape f a b : same_network a b -> same_network a (lzip f a b).
Proof.
  unfold lzip. induction 1 as [|l e a b [H1 H2] S IH]; simpl; constructor; auto. split; cbn [fst snd]; [now apply zip_rows_shape|now rewrite zip2_length].
Qed.
Lemma wired_same c : forall ls ls' d, same_network ls ls' -> wired d ls c -> wired d ls' c.
Proof.
  induction ls as [|l ls IH]; intros ls' d S W; [destruct W|]. inversion S as [|? e ? ls2 S1 S2]; subst. destruct W as (W1 & W2 & W3 & W4).
  pose proof (same_layer_rows l e d S1 W2) as R1. destruct S1 as [S3 S4]. pose proof (Forall2_len _ _ _ S3) as L.
  split; [|split; [|split]]; auto.
  - intros E. rewrite E in L. destruct (fst l); [congruence|discriminate].
  - congruence.
  - fold (same_network ls ls2) in S2. destruct ls as [|l2 ls]; inversion S2; subst; [congruence|]. rewrite <- L. apply IH; auto.
Qed.

(** ** Class numbers as labels of a network with several outputs *)
Definition number_signal (z y : list R) : list R :=
  map (fun v => let p := exp v / total (map exp z) in p - nth 0 y 0 - p ^ 2 * (1 - p)) z.
Lemma softmax_inside z v : (2 <= length z)%nat -> In v z -> 0 < exp v / total (map exp z) < 1.
Proof.
  intros L Hv. assert (P : 0 < total (map exp z)) by (apply exp_total_pos; destruct z; simpl in *; [lia|congruence]).
  split; [apply Rdiv_lt_0_compat; auto; apply exp_pos|].
  assert (B : exp v < total (map exp z)).
  { destruct (in_split _ _ Hv) as (a & b & ->). change total with rsum. rewrite map_app, rsum_app. cbn [map]. unfold rsum at 2. cbn [fold_right]. fold (rsum (map exp b)).
    assert (N : forall l, 0 <= rsum (map exp l)). { intros l. apply rsum_nonneg. intros q Hq. apply in_map_iff in Hq. destruct Hq as (s & <- & _). left; apply exp_pos. }
    pose proof (N a). pose proof (N b).
    destruct a as [|q a].
    - destruct b as [|q b]; [simpl in L; lia|]. cbn [map]. unfold rsum. cbn [fold_right]. pose proof (exp_pos q). specialize (N b). unfold rsum in N. lra.
    - assert (0 < rsum (map exp (q :: a))); [|lra]. cbn [map]. unfold rsum. cbn [fold_right]. pose proof (exp_pos q). specialize (N a). unfold rsum in N. lra. }
  apply Rmult_lt_reg_r with (total (map exp z)); auto. unfold Rdiv. rewrite Rmult_assoc, Rinv_l by lra. lra.
Qed.

Lemma broadcast_signal T y z : (forall s, In s z -> 0 < exp s / T < 1) ->
  zip2 (fun p av => sigmoid_diff (- (y / p - (1 - y) / (1 - p))) p av) (map (fun v => exp v / T) z) (map (fun v => exp v / T) z)
  = map (fun v => let p := exp v / T in p - y - p ^ 2 * (1 - p)) z.
Proof.
  unfold zip2. induction z as [|s z IH]; intros IN; [reflexivity|]. cbn [map combine fst snd]. rewrite IH by (intros; apply IN; now right). f_equal.
  destruct (IN s (or_introl eq_refl)) as [A B]. unfold sigmoid_diff. cbv zeta. set (p := exp s / T) in *. field. lra.
Qed.

Section Numbers.
Variables (d c : nat) (ls : list neurons) (x y : list (list R)).
Hypothesis (W : wired d ls c) (Hx : x <> []) (Fx : Forall (fun r => length r = d) x) (Ly : length y = length x).
Lemma number_backward : (2 <= c)%nat -> Forall (fun r => length r = 1%nat) y ->
  exists p, forward ls x = Ok (p, caches_of ls x p) /\
    backward p y (caches_of ls x p) =
    Ok (fst (back_rec (length y) (caches_of ls x p) (map (fun q => number_signal (output_scores ls (fst q)) (snd q)) (combine x y)))).
Proof.
  intros Hc Fy. destruct (multi_backward d c ls x (map (fun _ => repeat 0 c) y) W Hx Fx) as (p & E & Rp & _); auto; [now rewrite map_length| |].
  { apply Forall_forall. intros r Hr. apply in_map_iff in Hr. destruct Hr as (s & <- & _). apply repeat_length. }
  exists p. split; [exact E|].
  apply backward_is_rec; [apply caches_nonempty, (wired_nonempty d ls c W)|now apply (nonempty_len x y)|]. rewrite last_cache by apply (wired_nonempty d ls c W).
  unfold output_signal. assert (Lp : length p = length y) by (rewrite Rp, map_length; auto). rewrite Lp, Nat.eqb_refl. cbn [negb].
  rewrite (width_rows 1 y) by (auto; now apply (nonempty_len x y)). cbn [Nat.eqb]. f_equal. rewrite Rp. clear - Ly W Hc. revert y Ly.
  generalize x as xs. induction xs as [|u xs IH]; intros [|v ys] L; try discriminate; simpl; auto. f_equal; [|apply IH; simpl in L; lia].
  unfold number_signal. pose proof (output_scores_length c ls d u W) as LZ.
  assert (IN : forall s, In s (output_scores ls u) -> 0 < exp s / total (map exp (output_scores ls u)) < 1) by (intros s; apply softmax_inside; lia).
  apply broadcast_signal. exact IN.
Qed.
End Numbers.

Lemma last_cons {A} (a : A) l d : l <> [] -> last (a :: l) d = last l d.
Proof. destruct l; [congruence|reflexivity]. Qed.
Lemma back_rec_nonempty n cs da : cs <> [] -> fst (back_rec n cs da) <> [].
Proof.
  destruct cs as [|c [|c2 cs]]; intros H; [congruence|cbn [back_rec fst]; discriminate|].
  rewrite back_rec_cons by discriminate. unfold step_back. cbn [fst]. discriminate.
Qed.
Lemma back_rec_last n da : forall cs, cs <> [] -> last (fst (back_rec n cs da)) ([], []) = fst (get_grad n da (last cs ([], [], []))).
Proof.
  induction cs as [|c cs IH]; intros H; [congruence|]. destruct cs as [|c2 cs]; [reflexivity|].
  rewrite back_rec_cons by discriminate. unfold step_back. cbn [fst]. rewrite last_cons by (apply back_rec_nonempty; discriminate).
  rewrite IH by discriminate. rewrite (last_cons c) by discriminate. reflexivity.
Qed.
Lemma last_cache_w c : forall ls d x p, wired d ls c -> length (snd (fst (last (caches_of ls x p) ([], [], [])))) = c.
Proof.
  induction ls as [|l ls IH]; intros d x p W; [destruct W|]. destruct W as (W1 & W2 & W3 & W4).
  destruct ls as [|l2 ls]; [exact W4|].
  change (caches_of (l :: l2 :: ls) x p) with ((x, fst l, map (hidden_act l) x) :: caches_of (l2 :: ls) (map (hidden_act l) x) p).
  rewrite last_cons by (apply caches_nonempty; discriminate). now apply (IH (length (fst l))).
Qed.

Lemma number_sign d c ls x y : wired d ls c -> x <> [] -> Forall (fun r => length r = d) x -> length y = length x ->
  (2 <= c)%nat -> Forall (fun r => length r = 1%nat) y ->
  exists p cs g, forward ls x = Ok (p, cs) /\ backward p y cs = Ok g /\
   (Forall (fun r => 1 <= nth 0 r 0) y -> forall k, (k < c)%nat -> nth k (snd (last g ([], []))) 0 < 0) /\
   (Forall (fun r => nth 0 r 0 = 0) y -> forall k, (k < c)%nat -> 0 < nth k (snd (last g ([], []))) 0).
Proof.
  intros W Hx Fx Ly Hc Fy. destruct (number_backward d c ls x y W Hx Fx Ly Hc Fy) as (p & E1 & E2).
  exists p, (caches_of ls x p). eexists. split; [exact E1|split; [exact E2|]].
  rewrite back_rec_last by (apply caches_nonempty, (wired_nonempty d ls c W)).
  pose proof (last_cache_w c ls d x p W) as LW. destruct (last (caches_of ls x p) ([], [], [])) as [[x0 w] a]. cbn [fst snd] in LW.
  unfold get_grad. cbn [fst snd]. rewrite LW.
  set (da := map _ (combine x y)).
  assert (NE : da <> []) by (unfold da; destruct x, y; simpl in *; congruence).
  pose proof (INR_pos_length y (nonempty_len x y Hx Ly)) as P.
  assert (SG : forall k r, (k < c)%nat -> In r (map (fun r => nth k r 0) da) -> exists q v, 0 < q < 1 /\ In v y /\ r = q - nth 0 v 0 - q ^ 2 * (1 - q)).
  { intros k r Hk Hr. apply in_map_iff in Hr. destruct Hr as (s & <- & Hs). unfold da in Hs. apply in_map_iff in Hs. destruct Hs as ([u v] & <- & Hq). cbn [fst snd].
    pose proof (output_scores_length c ls d u W) as L. unfold number_signal. rewrite (nth_map_in _ _ k 0 0) by lia.
    exists (exp (nth k (output_scores ls u) 0) / total (map exp (output_scores ls u))), v. split; [apply softmax_inside; [lia|apply nth_In; lia]|].
    split; [now apply in_combine_r in Hq|reflexivity]. }
  split; intros F k Hk; rewrite nth_map_seq by auto; rewrite Forall_forall in F.
  - assert (N : 0 < rsum (map (fun v => - v) (map (fun r => nth k r 0) da))).
    { apply rsum_pos; [destruct da; simpl; congruence|]. intros v Hv. apply in_map_iff in Hv. destruct Hv as (r & <- & Hr).
      destruct (SG k r Hk Hr) as (q & l & Q & Hl & ->). specialize (F l Hl). nra. }
    assert (E : rsum (map (fun v => - v) (map (fun r => nth k r 0) da)) = - rsum (map (fun r => nth k r 0) da)).
    { generalize (map (fun r => nth k r 0) da) as l. intros l. unfold rsum. induction l as [|v l IHl]; simpl; [lra|]. rewrite IHl. lra. }
    rewrite E in N. unfold Rdiv. assert (0 < / INR (length y)) by now apply Rinv_0_lt_compat. nra.
  - apply Rdiv_lt_0_compat; auto. apply rsum_pos; [destruct da; simpl; congruence|]. intros r Hr.
    destruct (SG k r Hk Hr) as (q & l & Q & Hl & ->). specialize (F l Hl). rewrite F.
    pose proof (pow2_ge_0 (q - / 2)). assert (Q1 : 0 < 1 - q * (1 - q)) by nra.
    replace (q - 0 - q ^ 2 * (1 - q)) with (q * (1 - q * (1 - q))) by ring. apply Rmult_lt_0_compat; lra.
Qed.

(** ** Training runs *)
Lemma backward_total d c w ls x y : wired d ls c -> x <> [] -> Forall (fun r => length r = d) x -> length y = length x ->
  w = 1%nat \/ w = c -> Forall (fun r => length r = w) y ->
  exists p cs g, forward ls x = Ok (p, cs) /\ backward p y cs = Ok g /\ same_network ls g.
Proof.
  intros W Hx Fx Ly Hw Fy.
  assert (C1 : (1 <= c)%nat).
  { clear - W. revert d W. induction ls as [|l ls IH]; intros d W; [destruct W|]. destruct W as (W1 & _ & _ & W4). destruct ls; [|now apply (IH _ W4)].
    destruct (fst l); [congruence|]. simpl in W4. lia. }
  assert (G : forall p sig, (forall u v, length v = w -> length (sig (output_scores ls u) v) = c) ->
     same_network ls (fst (back_rec (length y) (caches_of ls x p) (map (fun q => sig (output_scores ls (fst q)) (snd q)) (combine x y))))).
  { intros p sig Hs. apply (back_rec_rows c (length y) ls d x p); auto.
    - rewrite map_length, combine_length. lia.
    - apply Forall_forall. intros r Hr. apply in_map_iff in Hr. destruct Hr as ([u v] & <- & Hq). apply Hs. cbn [snd].
      apply in_combine_r in Hq. rewrite Forall_forall in Fy. now apply Fy. }
  destruct (Nat.eq_dec c 1) as [E|E].
  - assert (Fy1 : Forall (fun r => length r = 1%nat) y). { eapply Forall_impl; [|exact Fy]. cbv beta. intros; lia. }
    destruct (single_backward d c ls x y W Hx Fx Ly E Fy1) as (E1 & E2). do 3 eexists. split; [exact E1|split; [exact E2|]]. apply G. intros; now rewrite E.
  - destruct (Nat.eq_dec w 1) as [E1|E1].
    + rewrite E1 in Fy. destruct (number_backward d c ls x y W Hx Fx Ly) as (p & A & B); auto; [lia|]. do 3 eexists. split; [exact A|split; [exact B|]].
      apply (G p number_signal). intros u v _. unfold number_signal. rewrite map_length. now apply (output_scores_length c ls d).
    + assert (w = c) by lia. subst w. destruct (multi_backward d c ls x y W Hx Fx Ly) as (p & A & _ & B); auto; [lia|]. do 3 eexists. split; [exact A|split; [exact B|]].
      apply G. intros u v Hv. unfold class_signal. pose proof (output_scores_length c ls d u W). rewrite zip2_length; rewrite map_length; congruence.
Qed.

Lemma sample_gradient_total d c w ls x y i : wired d ls c -> Forall (fun r => length r = d) x -> length y = length x ->
  w = 1%nat \/ w = c -> Forall (fun r => length r = w) y -> (i < length x)%nat ->
  exists g, sample_gradient x y ls i = Ok g /\ same_network ls g.
Proof.
  intros W Fx Ly Hw Fy Hi. unfold sample_gradient, get_at.
  destruct (nth_error x i) as [xi|] eqn:Ex; [|apply nth_error_None in Ex; lia].
  destruct (nth_error y i) as [yi|] eqn:Ey; [|apply nth_error_None in Ey; lia]. cbn [bind].
  apply nth_error_In in Ex, Ey. rewrite Forall_forall in Fx, Fy.
  destruct (backward_total d c w ls [xi] [yi]) as (p & cs & g & E1 & E2 & S); auto; [discriminate| ].
  rewrite E1. cbn [bind fst snd]. eauto.
Qed.

Lemma sgd_run_total rate d c w x y : Forall (fun r => length r = d) x -> length y = length x ->
  w = 1%nat \/ w = c -> Forall (fun r => length r = w) y -> forall draws ls, wired d ls c -> Forall (fun i => (i < length x)%nat) draws ->
  exists ls', sgd_run rate x y ls draws = Ok ls' /\ same_network ls ls' /\ wired d ls' c.
Proof.
  intros Fx Ly Hw Fy. induction draws as [|i draws IH]; intros ls W F.
  - exists ls. split; [reflexivity|]. split; auto. apply same_network_refl.
  - inversion F as [|? ? Hi F']; subst. destruct (sample_gradient_total d c w ls x y i W Fx Ly Hw Fy Hi) as (g & E & S).
    unfold sgd_run. cbn [foldM]. unfold sgd_epoch at 1. rewrite E. cbn [bind].
    pose proof (lzip_shape (fun p d => p - rate * d) ls g S) as S1. fold (sgd_update rate ls g) in S1.
    destruct (IH (sgd_update rate ls g)) as (ls' & E' & S' & W'); auto; [now apply (wired_same c ls)|].
    exists ls'. split; [exact E'|]. split; auto. now apply (same_network_trans _ (sgd_update rate ls g)).
Qed.
