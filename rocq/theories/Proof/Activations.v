(** Proofs for C48 and C52. *)
From Coq Require Import List Reals Bool Arith Lia Lra Psatz.
From Verif.Model Require Import Base Activations.
From Verif.Spec Require Import Common Activations.
From Verif.Proof Require Import BaseLemmas.
Import ListNotations.
Local Open Scope R_scope.

(** ** Sigmoid *)
Lemma sigmoid_range z : 0 < sigmoid z < 1.
Proof.
  unfold sigmoid. pose proof (exp_pos (-z)). split.
  - apply Rdiv_lt_0_compat; lra.
  - apply Rmult_lt_reg_r with (1 + exp (-z)); [lra|]. replace (1 / (1 + exp (-z)) * (1 + exp (-z))) with 1 by (field; lra). lra.
Qed.
Lemma sigmoid_alt z : sigmoid z = exp z / (1 + exp z).
Proof. unfold sigmoid. rewrite exp_Ropp. pose proof (exp_pos z). field. lra. Qed.
Lemma sigmoid_opp z : sigmoid (- z) = 1 - sigmoid z.
Proof. rewrite (sigmoid_alt z). unfold sigmoid. rewrite Ropp_involutive. pose proof (exp_pos z). field. lra. Qed.
Lemma sigmoid_incr a b : a < b -> sigmoid a < sigmoid b.
Proof.
  intros H. unfold sigmoid, Rdiv. rewrite !Rmult_1_l. pose proof (exp_pos (-a)). pose proof (exp_pos (-b)).
  apply Rinv_lt_contravar; [nra|]. apply Rplus_lt_compat_l, exp_increasing. lra.
Qed.
Lemma sigmoid_0 : sigmoid 0 = 1 / 2.
Proof. unfold sigmoid. rewrite Ropp_0, exp_0. lra. Qed.
Lemma sigmoid_half z : 1 / 2 <= sigmoid z <-> 0 <= z.
Proof.
  rewrite <- sigmoid_0. split; intros H.
  - destruct (Rle_or_lt 0 z) as [|L]; auto. pose proof (sigmoid_incr _ _ L). lra.
  - destruct H as [H|H]; [left; now apply sigmoid_incr|subst; lra].
Qed.
Lemma sigmoid_inj a b : sigmoid a = sigmoid b -> a = b.
Proof. intros E. destruct (Rtotal_order a b) as [H|[H|H]]; auto; apply sigmoid_incr in H; lra. Qed.
Lemma sigmoid_deriv z : derivable_pt_lim sigmoid z (sigmoid z * (1 - sigmoid z)).
Proof.
  pose proof (exp_pos (-z)).
  assert (D : derivable_pt_lim (fun z => 1 + exp (- z)) z (0 + exp (- z) * (-1))).
  { apply derivable_pt_lim_plus; [apply derivable_pt_lim_const|].
    apply (derivable_pt_lim_comp Ropp exp); [|apply derivable_pt_lim_exp].
    exact (derivable_pt_lim_opp id z 1 (derivable_pt_lim_id z)). }
  replace (sigmoid z * (1 - sigmoid z)) with ((0 * (1 + exp (-z)) - (0 + exp (-z) * -1) * 1) / Rsqr (1 + exp (-z))).
  - unfold sigmoid. apply (derivable_pt_lim_div (fun _ => 1) (fun z => 1 + exp (-z))); auto; [apply derivable_pt_lim_const|lra].
  - unfold sigmoid, Rsqr. field. lra.
Qed.
Lemma softplus_deriv z : derivable_pt_lim (fun z => ln (1 + exp z)) z (sigmoid z).
Proof.
  pose proof (exp_pos z). rewrite sigmoid_alt. unfold Rdiv. rewrite Rmult_comm.
  apply (derivable_pt_lim_comp (fun z => 1 + exp z) ln).
  - replace (exp z) with (0 + exp z) by lra. apply derivable_pt_lim_plus; [apply derivable_pt_lim_const|apply derivable_pt_lim_exp].
  - apply derivable_pt_lim_ln. lra.
Qed.

(** ** Softmax *)
Lemma exp_sum_pos c row : row <> [] -> 0 < rsum (map (fun v => exp (v - c)) row).
Proof. intros H. apply rsum_pos; [destruct row; simpl; congruence|]. intros v Hv. apply in_map_iff in Hv. destruct Hv as (u & <- & _). apply exp_pos. Qed.

Lemma softmax_row c row : row <> [] ->
  let p := map (fun v => exp (v - c) / rsum (map (fun v => exp (v - c)) row)) row in
  positive_distribution p /\ proportional_to_exp row p.
Proof.
  intros Hr p. pose proof (exp_sum_pos c row Hr) as S. set (s := rsum _) in *. split; [split|split].
  - apply Forall_forall. intros v Hv. apply in_map_iff in Hv. destruct Hv as (u & <- & _). apply Rdiv_lt_0_compat; auto. apply exp_pos.
  - change total with rsum. unfold p, Rdiv. rewrite rsum_map_scal_r. fold s. apply Rinv_r. lra.
  - apply map_length.
  - exists (exp (- c) / s). split; [apply Rdiv_lt_0_compat; auto; apply exp_pos|]. intros i Hi. unfold p.
    rewrite (nth_indep _ 0 ((fun v => exp (v - c) / s) 0)) by now rewrite map_length.
    rewrite (map_nth (fun v => exp (v - c) / s)). unfold Rminus. rewrite exp_plus. unfold Rdiv. ring.
Qed.

Lemma softmax_main z p : softmax z = Ok p -> Forall (fun r => r <> []) z ->
  Forall2 (fun row q => positive_distribution q /\ proportional_to_exp row q) z p.
Proof.
  unfold softmax. destruct (matrix_max z) as [c|]; simpl; [|discriminate]. intros E Hz. injection E as <-.
  induction Hz as [|r z Hr Hz IH]; simpl; constructor; auto. now apply softmax_row.
Qed.

Lemma softmax_total z : z <> [] -> Forall (fun r => r <> []) z -> exists p, softmax z = Ok p.
Proof.
  intros Hz Hr. unfold softmax, matrix_max. destruct z as [|r z]; [congruence|]. inversion Hr; subst.
  destruct r as [|v r]; [congruence|]. simpl. eauto.
Qed.

(** Proportional distributions are unique. *)
Lemma proportional_unique z z' k p q : length z = length z' -> (forall i, (i < length z)%nat -> nth i z' 0 = nth i z 0 + k) ->
  positive_distribution p -> positive_distribution q -> proportional_to_exp z p -> proportional_to_exp z' q -> p = q.
Proof.
  intros Hl Hk [Pp Sp] [Pq Sq] (Lp & c & Hc & Ep) (Lq & c' & Hc' & Eq).
  assert (G : forall i, (i < length p)%nat -> nth i q 0 = (c' * exp k / c) * nth i p 0).
  { intros i Hi. rewrite Lp in Hi. rewrite Eq by lia. rewrite Ep by lia. rewrite Hk by lia. rewrite exp_plus. field. lra. }
  assert (T : forall (a b : list R) u, length a = length b -> (forall i, (i < length a)%nat -> nth i b 0 = u * nth i a 0) -> total b = u * total a).
  { induction a as [|x a IH]; intros [|y b] u L E; try discriminate; [simpl; lra|]. unfold total in *. cbn [fold_right].
    rewrite (IH b u) by (simpl in L; try lia; intros i Hi; apply (E (S i)); simpl; lia).
    pose proof (E 0%nat ltac:(simpl; lia)) as E0. simpl in E0. rewrite E0. lra. }
  pose proof (T p q _ ltac:(lia) G) as TT. rewrite Sp, Sq in TT.
  apply nth_ext with 0 0; [lia|]. intros i Hi. rewrite (G i Hi). replace (c' * exp k / c) with 1 by lra. lra.
Qed.

Lemma softmax_shift k z p p' : z <> [] -> Forall (fun r => r <> []) z -> softmax z = Ok p ->
  softmax (map (map (fun v => v + k)) z) = Ok p' -> p = p'.
Proof.
  intros Hz Hr E E'. pose proof (softmax_main z p E Hr) as F.
  assert (Hr' : Forall (fun r => r <> []) (map (map (fun v => v + k)) z)).
  { apply Forall_forall. intros r Hin. apply in_map_iff in Hin. destruct Hin as (s & <- & Hs). rewrite Forall_forall in Hr. specialize (Hr _ Hs). destruct s; simpl; congruence. }
  pose proof (softmax_main _ p' E' Hr') as F'. clear E E' Hz Hr'. revert p p' F F'.
  induction Hr as [|r z Hr0 Hr IH]; intros p p' F F'.
  { inversion F; subst. inversion F'; subst. reflexivity. }
  inversion F as [|? q ? p1 [A1 A2] FF]; subst. simpl in F'. inversion F' as [|? q' ? p2 [B1 B2] FF']; subst.
  f_equal; [|now apply IH].
  eapply (proportional_unique r (map (fun v => v + k) r) k); eauto; [now rewrite map_length|].
  intros i Hi. rewrite (nth_indep _ 0 ((fun v => v + k) 0)) by now rewrite map_length. now rewrite (map_nth (fun v => v + k)).
Qed.

(** ** Losses *)
Lemma ln_neg p : 0 < p < 1 -> ln p < 0.
Proof. intros H. rewrite <- ln_1. apply ln_increasing; lra. Qed.
Lemma ln_nonpos p : 0 < p <= 1 -> ln p <= 0.
Proof. intros H. destruct (Rle_lt_or_eq_dec p 1) as [L|L]; [lra|left; apply ln_neg; lra|rewrite L, ln_1; lra]. Qed.

Lemma bce_eq p y v : binary_crossentropy p y = Ok v -> length p = length y /\ y <> [] /\ Forall (fun q => 0 < q < 1) p /\
  v * INR (length y) = total (map (fun a => - (snd a * ln (fst a) + (1 - snd a) * ln (1 - fst a))) (combine p y)).
Proof.
  unfold binary_crossentropy. destruct (Nat.eqb_spec (length p) (length y)) as [L|]; cbn [negb]; [|discriminate].
  destruct (existsb _ p) eqn:E; [discriminate|].
  assert (F : Forall (fun q => 0 < q < 1) p).
  { apply Forall_forall. intros q Hq. destruct (Rleb q 0 || Rleb 1 q) eqn:Q.
    - assert (existsb (fun p => Rleb p 0 || Rleb 1 p) p = true) by (apply existsb_exists; eauto). congruence.
    - apply orb_false_iff in Q. destruct Q as [A B]. apply Rleb_false in A, B. lra. }
  destruct y as [|y0 y]; [discriminate|]. set (Y := y0 :: y) in *. intros H. assert (Hv : v = - (dot Y (map ln p) + dot (map (fun y => 1 - y) Y) (map (fun p => ln (1 - p)) p)) / INR (length Y)) by congruence.
  split; auto. split; [discriminate|]. split; auto. rewrite Hv.
  assert (P : 0 < INR (length Y)) by (apply lt_0_INR; subst Y; simpl; lia).
  replace (- (dot Y (map ln p) + dot (map (fun y => 1 - y) Y) (map (fun p => ln (1 - p)) p)) / INR (length Y) * INR (length Y))
    with (- (dot Y (map ln p) + dot (map (fun y => 1 - y) Y) (map (fun p => ln (1 - p)) p))) by (field; lra).
  clearbody Y. clear - L. revert Y L. unfold total. induction p as [|q p IH]; intros [|l Y] L; try discriminate; simpl; [lra|].
  rewrite <- (IH Y) by (simpl in L; lia). lra.
Qed.

Lemma bce_nonneg p y v : binary_crossentropy p y = Ok v -> Forall (fun l => l = 0 \/ l = 1) y -> 0 < v.
Proof.
  intros H Hy. destruct (bce_eq p y v H) as (L & Ne & F & E).
  assert (P : 0 < INR (length y)) by (apply lt_0_INR; destruct y; simpl; [congruence|lia]).
  assert (T : 0 < total (map (fun a => - (snd a * ln (fst a) + (1 - snd a) * ln (1 - fst a))) (combine p y))).
  { change total with rsum. apply rsum_pos; [destruct p, y; simpl in *; try congruence; discriminate|].
    intros u Hu. apply in_map_iff in Hu. destruct Hu as ((q & l) & <- & Hu). simpl.
    rewrite Forall_forall in F, Hy. pose proof (F q (in_combine_l _ _ _ _ Hu)) as Fq.
    pose proof (ln_neg q Fq). pose proof (ln_neg (1 - q) ltac:(lra)).
    destruct (Hy l (in_combine_r _ _ _ _ Hu)) as [-> | ->]; lra. }
  nra.
Qed.

(** Each sample contributes minus the logarithm of the probability given to its
    label. *)
Lemma cce_eq p y v : categorical_crossentropy p y = Ok v -> same_shape p y -> y <> [] /\ Forall (Forall (fun q => 0 < q)) p /\
  v * INR (length y) = total (map (fun a => total (map (fun b => - (snd b * ln (fst b))) (combine (fst a) (snd a)))) (combine p y)).
Proof.
  unfold categorical_crossentropy. destruct (existsb _ p) eqn:E; [discriminate|].
  assert (F : Forall (Forall (fun q => 0 < q)) p).
  { apply Forall_forall. intros r Hr. apply Forall_forall. intros q Hq. destruct (Rleb q 0) eqn:Q.
    - assert (existsb (existsb (fun p => Rleb p 0)) p = true) by (apply existsb_exists; exists r; split; auto; apply existsb_exists; eauto). congruence.
    - now apply Rleb_false in Q. }
  destruct y as [|y0 y]; [discriminate|]. set (Y := y0 :: y) in *. intros H Hs.
  assert (Hv : v = - rsum (List.concat (mzip (fun y p => y * ln p) Y p)) / INR (length Y)) by congruence.
  split; [discriminate|]. split; auto. rewrite Hv.
  assert (P : 0 < INR (length Y)) by (apply lt_0_INR; subst Y; simpl; lia).
  replace (- rsum (List.concat (mzip (fun y p => y * ln p) Y p)) / INR (length Y) * INR (length Y))
    with (- rsum (List.concat (mzip (fun y p => y * ln p) Y p))) by (field; lra).
  clearbody Y. clear - Hs. induction Hs as [|r s p Y Hrs Hs IH]; unfold total in *; simpl; [unfold rsum; simpl; lra|].
  unfold mzip in *. simpl. rewrite rsum_app, Ropp_plus_distr. rewrite IH. f_equal.
  clear - Hrs. revert s Hrs. unfold zip2, rsum. induction r as [|q r IH]; intros [|l s] L; try discriminate; simpl; [lra|].
  rewrite <- (IH s) by (simpl in L; lia). lra.
Qed.

Lemma one_hot_pick s r k : length r = length s -> (k < length s)%nat ->
  (forall j, (j < length s)%nat -> nth j s 0 = (if Nat.eqb j k then 1 else 0)) ->
  total (map (fun b => - (snd b * ln (fst b))) (combine r s)) = - ln (nth k r 0).
Proof.
  assert (Z : forall s r, length r = length s -> (forall j, (j < length s)%nat -> nth j s 0 = 0) ->
     total (map (fun b => - (snd b * ln (fst b))) (combine r s)) = 0).
  { induction s0 as [|l s0 IH]; intros [|q r0] L E; try discriminate; auto. unfold total in *. simpl.
    rewrite (IH r0) by (simpl in L; try lia; intros j Hj; apply (E (S j)); simpl; lia).
    pose proof (E 0%nat ltac:(simpl; lia)) as E0. simpl in E0. subst. lra. }
  revert r k. induction s as [|l s IH]; intros [|q r] k L Hk E; try discriminate; [simpl in Hk; lia|].
  destruct k as [|k].
  - unfold total in *. simpl. pose proof (E 0%nat ltac:(simpl; lia)) as E0. simpl in E0. subst l.
    rewrite (Z s r) by (simpl in L; try lia; intros j Hj; apply (E (S j)); simpl; lia). lra.
  - unfold total in *. simpl. pose proof (E 0%nat ltac:(simpl; lia)) as E0. simpl in E0. subst l.
    rewrite (IH r k); simpl in *; try lia; [lra|]. intros j Hj. apply (E (S j)). lia.
Qed.

Lemma cce_nonneg p y v : categorical_crossentropy p y = Ok v -> same_shape p y -> Forall one_hot_row y ->
  Forall positive_distribution p -> 0 <= v.
Proof.
  intros H Hs Hy Hp. destruct (cce_eq p y v H Hs) as (Ne & F & E).
  assert (P : 0 < INR (length y)) by (apply lt_0_INR; destruct y; simpl; [congruence|lia]).
  assert (T : 0 <= total (map (fun a => total (map (fun b => - (snd b * ln (fst b))) (combine (fst a) (snd a)))) (combine p y))).
  { clear E H Ne P F. induction Hs as [|r s p y L Hs IH]; unfold total in *; simpl; [lra|].
    inversion Hy as [|? ? (k & Hk & Ek) Hy']; subst. inversion Hp as [|? ? [Pr Sr] Hp']; subst. specialize (IH Hy' Hp').
    pose proof (one_hot_pick s r k L Hk Ek) as O. unfold total in O. rewrite O.
    assert (0 < nth k r 0 <= 1).
    { rewrite Forall_forall in Pr. split; [apply Pr, nth_In; lia|]. rewrite <- Sr.
      assert (G : forall l i, (forall v, In v l -> 0 < v) -> (i < length l)%nat -> nth i l 0 <= total l).
      { clear. unfold total. induction l as [|a l IH]; intros i Hl Hi; simpl in *; [lia|].
        assert (0 <= fold_right Rplus 0 l) by (change (0 <= rsum l); apply rsum_nonneg; intros; left; auto).
        destruct i as [|i]; [lra|]. specialize (IH i (fun v Hv => Hl v (or_intror Hv)) ltac:(lia)). pose proof (Hl a (or_introl eq_refl)). lra. }
      apply G; auto. lia. }
    pose proof (ln_nonpos _ H). lra. }
  nra.
Qed.

Lemma mse_zero_iff n p y : n <> 0%nat -> mean_squared_error n p y = Ok 0 <-> rsum (zip2 Rminus p y) = 0.
Proof.
  intros Hn. unfold mean_squared_error. destruct (Nat.eqb_spec n 0); [lia|]. assert (0 < INR n) by (apply lt_0_INR; lia).
  set (s := rsum _). split; intros E.
  - assert (E' : s ^ 2 / (2 * INR n) = 0) by congruence.
    assert (s ^ 2 = 0) by (replace (s ^ 2) with (s ^ 2 / (2 * INR n) * (2 * INR n)) by (field; lra); rewrite E'; lra). nra.
  - rewrite E. f_equal. field. lra.
Qed.
