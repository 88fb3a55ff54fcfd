(** Proofs about the SMO optimiser. *)
From Coq Require Import List ZArith Reals Lra Lia Bool Arith Permutation.
From Verif.Model Require Import Base Ops Smo.
From Verif.Spec Require Import Common Smo.
From Verif.Proof Require Import BaseLemmas Ops.
Import ListNotations.
Local Open Scope R_scope.

(** ** Sums *)
Lemma total_rsum l : total l = rsum l. Proof. reflexivity. Qed.
Lemma sum_below_S n f : sum_below (S n) f = sum_below n f + f n.
Proof. unfold sum_below. rewrite seq_S, map_app, !total_rsum, rsum_app. change (rsum (map f [(0 + n)%nat])) with (f n + 0). change total with rsum. lra. Qed.
Lemma sum_below_ext n f g : (forall m, (m < n)%nat -> f m = g m) -> sum_below n f = sum_below n g.
Proof. induction n as [|n IH]; intros H; [reflexivity|]. rewrite !sum_below_S, IH, H; auto. Qed.
Lemma sum_below_zero n f : (forall m, (m < n)%nat -> f m = 0) -> sum_below n f = 0.
Proof. induction n as [|n IH]; intros H; [reflexivity|]. rewrite sum_below_S, IH, H; auto. lra. Qed.
Lemma sum_below_plus n f g : sum_below n (fun m => f m + g m) = sum_below n f + sum_below n g.
Proof. induction n as [|n IH]; [unfold sum_below; simpl; lra|]. rewrite !sum_below_S, IH. lra. Qed.
Lemma sum_below_scal n c f : sum_below n (fun m => c * f m) = c * sum_below n f.
Proof. induction n as [|n IH]; [unfold sum_below; simpl; lra|]. rewrite !sum_below_S, IH. lra. Qed.
Lemma sum_below_one n i f : (i < n)%nat -> (forall m, (m < n)%nat -> m <> i -> f m = 0) -> sum_below n f = f i.
Proof.
  intros Hi H. revert Hi H. induction n as [|n IH]; intros Hi H; [lia|]. rewrite sum_below_S.
  destruct (Nat.eq_dec i n) as [->|N].
  - rewrite sum_below_zero; [lra|]. intros m Hm. apply H; lia.
  - rewrite IH, (H n); auto; try lia. lra.
Qed.
Lemma sum_below_two n i j f : (i < n)%nat -> (j < n)%nat -> i <> j ->
  (forall m, (m < n)%nat -> m <> i -> m <> j -> f m = 0) -> sum_below n f = f i + f j.
Proof.
  intros Hi Hj Hij H. revert Hi Hj H. induction n as [|n IH]; intros Hi Hj H; [lia|]. rewrite sum_below_S.
  destruct (Nat.eq_dec i n) as [->|Ni].
  - rewrite (sum_below_one n j); [lra|lia|]. intros m Hm N. apply H; lia.
  - destruct (Nat.eq_dec j n) as [->|Nj].
    + rewrite (sum_below_one n i); [lra|lia|]. intros m Hm N. apply H; lia.
    + rewrite IH, (H n); auto; try lia. lra.
Qed.
Lemma sum_below_minus n f g : sum_below n (fun m => f m - g m) = sum_below n f - sum_below n g.
Proof. induction n as [|n IH]; [unfold sum_below; simpl; lra|]. rewrite !sum_below_S, IH. lra. Qed.

(** Sum over the set flags. *)
Lemma enumerate_app {A} (l : list A) a : enumerate (l ++ [a]) = enumerate l ++ [(length l, a)].
Proof.
  unfold enumerate. rewrite app_length. simpl. rewrite Nat.add_1_r, seq_S. simpl.
  assert (G : forall (s : list nat) (l : list A) k a, length s = length l -> combine (s ++ [k]) (l ++ [a]) = combine s l ++ [(k, a)]).
  { clear. induction s as [|x s IH]; intros [|y l] k a H; simpl in *; try lia; auto. f_equal. apply IH. lia. }
  apply G. apply seq_length.
Qed.
Lemma nonzero_app f b : nonzero (f ++ [b]) = nonzero f ++ (if b then [length f] else []).
Proof. unfold nonzero. rewrite enumerate_app, filter_app, map_app. destruct b; reflexivity. Qed.

Lemma sum_nonzero flags f : rsum (map f (nonzero flags)) =
  sum_below (length flags) (fun m => if nth m flags false then f m else 0).
Proof.
  induction flags as [|b flags IH] using rev_ind; [reflexivity|].
  rewrite nonzero_app, app_length. simpl. rewrite Nat.add_1_r, sum_below_S, map_app, rsum_app, IH. f_equal.
  - apply sum_below_ext. intros m Hm. now rewrite app_nth1.
  - rewrite app_nth2, Nat.sub_diag by lia. simpl. destruct b; simpl; lra.
Qed.
Lemma nonzero_In flags m : In m (nonzero flags) <-> nth m flags false = true.
Proof.
  induction flags as [|b flags IH] using rev_ind; [simpl; destruct m; split; intros; try contradiction; discriminate|].
  rewrite nonzero_app, in_app_iff, IH. destruct (Nat.lt_trichotomy m (length flags)) as [L|[L|L]].
  - rewrite (app_nth1 flags [b]) by lia. destruct b; simpl; [|tauto]. split; [intros [H|[H|[]]]; auto; lia|auto].
  - subst m. rewrite (app_nth2 flags [b]), Nat.sub_diag by lia. simpl. rewrite (nth_overflow flags) by lia.
    destruct b; simpl; intuition discriminate.
  - rewrite !nth_overflow by (rewrite ?app_length; simpl; lia). destruct b; simpl; intuition; try discriminate; lia.
Qed.
Lemma nonzero_lt flags m : In m (nonzero flags) -> (m < length flags)%nat.
Proof. intros H. apply nonzero_In in H. destruct (Nat.lt_ge_cases m (length flags)); auto. rewrite nth_overflow in H by lia. discriminate. Qed.
Lemma nonzero_NoDup flags : NoDup (nonzero flags).
Proof.
  induction flags as [|b flags IH] using rev_ind; [constructor|]. rewrite nonzero_app.
  destruct b; [|now rewrite app_nil_r].
  apply NoDup_rev in IH. rewrite <- (rev_involutive (nonzero flags ++ [length flags])). apply NoDup_rev.
  rewrite rev_app_distr. simpl. constructor; auto. rewrite <- in_rev. intros H. apply nonzero_lt in H. lia.
Qed.
Lemma existsb_nonzero flags : existsb (fun f : bool => f) flags = false -> forall m, nth m flags false = false.
Proof.
  intros H m. destruct (nth m flags false) eqn:E; auto. exfalso.
  assert (Hin : In true flags). { rewrite <- E. apply nth_In. destruct (Nat.lt_ge_cases m (length flags)); auto. rewrite nth_overflow in E by lia. discriminate. }
  assert (existsb (fun f : bool => f) flags = true); [|congruence]. apply existsb_exists. exists true. auto.
Qed.

(** ** Invariant *)
Section Inv.
Variable K : list R -> list R -> R.
Variable x : list (list R).
Variable y : list R.
Variables C tol : R.
Variable perms : nat -> list nat.
Hypothesis Hxy : length x = length y.
Hypothesis Hpm : pm_labels y.
Hypothesis HC : 0 <= C.
Let n := length y.

Record good (s : smo) : Prop := {
  g_feas : feasible C y (alphas s);
  g_nz_len : length (non_zero s) = n;
  g_nb_len : length (non_bound s) = n;
  g_ca_len : length (error_cache s) = n;
  g_nz : forall m, (m < n)%nat -> (nth m (non_zero s) false = true <-> 0 < nth m (alphas s) 0);
  g_nb : forall m, (m < n)%nat -> (nth m (non_bound s) false = true <-> 0 < nth m (alphas s) 0 < C) }.

Lemma nth_repeat_any {A} (a : A) k m : nth m (repeat a k) a = a.
Proof. revert m; induction k; intros [|m]; simpl; auto. Qed.

Lemma init_good : good (smo_init x).
Proof.
  constructor; simpl; rewrite ?repeat_length; auto.
  - split; [now rewrite repeat_length|]. split.
    + intros m _. rewrite nth_repeat_any. lra.
    + apply sum_below_zero. intros m _. rewrite nth_repeat_any. lra.
  - intros m _. rewrite !nth_repeat_any. split; [discriminate|lra].
  - intros m _. rewrite !nth_repeat_any. split; [discriminate|lra].
Qed.

Lemma cache_length al nb nz b cache : length (update_error_cache K x y al nb nz b cache) = length cache.
Proof.
  unfold update_error_cache. generalize (nonzero nb) as idx. intros idx; revert cache.
  induction idx as [|k idx IH]; intros cache; simpl; auto. rewrite IH. apply set_nth_length.
Qed.

(** The numbers of one pair update. *)
Record pair_update (s : smo) (i j : nat) (ei ej : R) (s' : smo) (eta low high aj' ai' : R) : Prop := {
  p_ne : i <> j;
  p_eta : eta = K (nth i x []) (nth i x []) + K (nth j x []) (nth j x []) - 2 * K (nth i x []) (nth j x []);
  p_eta_pos : 0 < eta;
  p_low : low = if Reqb (nth i y 0) (nth j y 0) then Rmax 0 (nth i (alphas s) 0 + nth j (alphas s) 0 - C)
                else Rmax 0 (nth j (alphas s) 0 - nth i (alphas s) 0);
  p_high : high = if Reqb (nth i y 0) (nth j y 0) then Rmin C (nth i (alphas s) 0 + nth j (alphas s) 0)
                else Rmin C (C + nth j (alphas s) 0 - nth i (alphas s) 0);
  p_aj : aj' = clip_alpha (nth j (alphas s) 0 + nth j y 0 * (ei - ej) / eta) low high;
  p_move : 1 / 100000 <= Rabs (aj' - nth j (alphas s) 0);
  p_ai : ai' = nth i (alphas s) 0 + nth i y 0 * nth j y 0 * (nth j (alphas s) 0 - aj');
  p_al : alphas s' = set_nth (set_nth (alphas s) i ai') j aj';
  p_nb : non_bound s' = set_nth (set_nth (non_bound s) i (Rltb 0 ai' && Rltb ai' C)) j (Rltb 0 aj' && Rltb aj' C);
  p_nz : non_zero s' = set_nth (set_nth (non_zero s) i (Rltb 0 ai')) j (Rltb 0 aj');
  p_ca : error_cache s' = update_error_cache K x y (alphas s') (non_bound s) (non_zero s) (bias s') (error_cache s);
  p_b : bias s' = ((- ei - nth i y 0 * K (nth i x []) (nth i x []) * (ai' - nth i (alphas s) 0)
                    - nth j y 0 * K (nth j x []) (nth i x []) * (aj' - nth j (alphas s) 0) + bias s) +
                   (- ej - nth i y 0 * K (nth i x []) (nth j x []) * (ai' - nth i (alphas s) 0)
                    - nth j y 0 * K (nth j x []) (nth j x []) * (aj' - nth j (alphas s) 0) + bias s)) / 2 }.

Lemma update_pair s i j ei ej s' : update_alpha K x y C s i j ei ej = Some s' ->
  exists eta low high aj' ai', pair_update s i j ei ej s' eta low high aj' ai'.
Proof.
  unfold update_alpha. intros H.
  destruct (Nat.eqb_spec i j) as [|Hne]; [discriminate|]. cbv zeta in H.
  match type of H with (if Reqb ?l ?h then _ else _) = _ => set (low := l) in *; set (high := h) in * end.
  destruct (Reqb low high); [discriminate|].
  match type of H with (if Rleb ?e 0 then _ else _) = _ => set (eta := e) in * end.
  destruct (Rleb eta 0) eqn:E; [discriminate|]. apply Rleb_false in E.
  match type of H with (if Rltb (Rabs (?a - _)) _ then _ else _) = _ => set (aj' := a) in * end.
  destruct (Rltb _ (1 / 100000)) eqn:M; [discriminate|]. apply Rltb_false in M.
  injection H as <-. exists eta, low, high, aj', (nth i (alphas s) 0 + nth i y 0 * nth j y 0 * (nth j (alphas s) 0 - aj')).
  constructor; simpl; auto.
Qed.

Lemma nth_set2 {A} (l : list A) i j a b m d : i <> j -> (i < length l)%nat -> (j < length l)%nat ->
  nth m (set_nth (set_nth l i a) j b) d = if Nat.eqb m j then b else if Nat.eqb m i then a else nth m l d.
Proof.
  intros Hij Hi Hj. destruct (Nat.eqb_spec m j) as [->|Nj].
  - apply nth_set_nth_eq. now rewrite set_nth_length.
  - rewrite nth_set_nth_neq by auto. destruct (Nat.eqb_spec m i) as [->|Ni].
    + now apply nth_set_nth_eq.
    + apply nth_set_nth_neq; auto.
Qed.

Lemma pm_sq m : (m < n)%nat -> nth m y 0 * nth m y 0 = 1.
Proof. intros H. destruct (Hpm m H) as [->| ->]; lra. Qed.

Lemma box_pair s i j ei ej s' eta low high aj' ai' : good s -> (i < n)%nat -> (j < n)%nat ->
  pair_update s i j ei ej s' eta low high aj' ai' ->
  low <= nth j (alphas s) 0 <= high /\ low <= aj' <= high /\ 0 <= aj' <= C /\ 0 <= ai' <= C.
Proof.
  intros G Hi Hj P. destruct (g_feas _ G) as (_ & HB & _).
  pose proof (HB i Hi) as Bi. pose proof (HB j Hj) as Bj.
  set (ai := nth i (alphas s) 0) in *. set (aj := nth j (alphas s) 0) in *.
  pose proof (p_low _ _ _ _ _ _ _ _ _ _ _ P) as Elow. pose proof (p_high _ _ _ _ _ _ _ _ _ _ _ P) as Ehigh.
  fold ai aj in Elow, Ehigh.
  assert (B : low <= aj <= high).
  { rewrite Elow, Ehigh. destruct (Reqb _ _); unfold Rmax, Rmin; repeat destruct (Rle_dec _ _); lra. }
  split; [exact B|].
  assert (B' : low <= aj' <= high).
  { rewrite (p_aj _ _ _ _ _ _ _ _ _ _ _ P). apply clip_nearest. lra. }
  split; [exact B'|].
  pose proof (p_ai _ _ _ _ _ _ _ _ _ _ _ P) as Eai. fold ai aj in Eai.
  assert (Lm : (nth i y 0 = nth j y 0 /\ nth i y 0 * nth j y 0 = 1 /\ low = Rmax 0 (ai + aj - C) /\ high = Rmin C (ai + aj)) \/
               (nth i y 0 * nth j y 0 = -1 /\ low = Rmax 0 (aj - ai) /\ high = Rmin C (C + aj - ai))).
  { destruct (Reqb (nth i y 0) (nth j y 0)) eqn:E.
    - apply Reqb_true in E. left. rewrite E. split; auto. split; [now apply pm_sq|auto].
    - apply Reqb_false in E. right. split; auto. destruct (Hpm i Hi) as [Ei|Ei], (Hpm j Hj) as [Ej|Ej]; rewrite Ei, Ej in *; lra. }
  rewrite Eai. destruct Lm as [(_ & S & L & H)|(S & L & H)]; rewrite S, L, H in *; clear - B B' Bi Bj HC;
    unfold Rmax, Rmin in *; repeat destruct (Rle_dec _ _); lra.
Qed.

Lemma update_good s i j ei ej s' : good s -> (i < n)%nat -> (j < n)%nat ->
  update_alpha K x y C s i j ei ej = Some s' -> good s'.
Proof.
  intros G Hi Hj H. destruct (update_pair _ _ _ _ _ _ H) as (eta & low & high & aj' & ai' & P).
  pose proof (box_pair _ _ _ _ _ _ _ _ _ _ _ G Hi Hj P) as (_ & _ & Bj & Bi).
  pose proof (p_ne _ _ _ _ _ _ _ _ _ _ _ P) as Hij.
  destruct (g_feas _ G) as (Hl & HB & HS).
  assert (Li : (i < length (alphas s))%nat) by (rewrite Hl; auto).
  assert (Lj : (j < length (alphas s))%nat) by (rewrite Hl; auto).
  assert (EA : forall m, nth m (alphas s') 0 = if Nat.eqb m j then aj' else if Nat.eqb m i then ai' else nth m (alphas s) 0).
  { intros m. rewrite (p_al _ _ _ _ _ _ _ _ _ _ _ P). apply nth_set2; auto. }
  constructor.
  - split; [|split].
    + rewrite (p_al _ _ _ _ _ _ _ _ _ _ _ P), !set_nth_length. auto.
    + intros m Hm. rewrite EA. destruct (Nat.eqb_spec m j); [auto|]. destruct (Nat.eqb_spec m i); [auto|]. apply HB; auto.
    + assert (D : sum_below (length y) (fun m => nth m (alphas s') 0 * nth m y 0 - nth m (alphas s) 0 * nth m y 0) = 0).
      { rewrite (sum_below_two _ i j); auto.
        - rewrite !EA, Nat.eqb_refl, (proj2 (Nat.eqb_neq i j) Hij), Nat.eqb_refl.
          rewrite (p_ai _ _ _ _ _ _ _ _ _ _ _ P).
          replace ((nth i (alphas s) 0 + nth i y 0 * nth j y 0 * (nth j (alphas s) 0 - aj')) * nth i y 0)
            with (nth i (alphas s) 0 * nth i y 0 + (nth i y 0 * nth i y 0) * nth j y 0 * (nth j (alphas s) 0 - aj')) by ring.
          rewrite (pm_sq i Hi). ring.
        - intros m Hm Ni Nj. rewrite EA, (proj2 (Nat.eqb_neq m j) Nj), (proj2 (Nat.eqb_neq m i) Ni). ring. }
      rewrite sum_below_minus, HS in D. lra.
  - rewrite (p_nz _ _ _ _ _ _ _ _ _ _ _ P), !set_nth_length. apply (g_nz_len _ G).
  - rewrite (p_nb _ _ _ _ _ _ _ _ _ _ _ P), !set_nth_length. apply (g_nb_len _ G).
  - rewrite (p_ca _ _ _ _ _ _ _ _ _ _ _ P), cache_length. apply (g_ca_len _ G).
  - intros m Hm. rewrite EA, (p_nz _ _ _ _ _ _ _ _ _ _ _ P), nth_set2; auto; try (rewrite (g_nz_len _ G); auto).
    destruct (Nat.eqb m j); [apply Rltb_true|]. destruct (Nat.eqb m i); [apply Rltb_true|]. now apply (g_nz _ G).
  - intros m Hm. rewrite EA, (p_nb _ _ _ _ _ _ _ _ _ _ _ P), nth_set2; auto; try (rewrite (g_nb_len _ G); auto).
    destruct (Nat.eqb m j); [rewrite andb_true_iff, !Rltb_true; tauto|].
    destruct (Nat.eqb m i); [rewrite andb_true_iff, !Rltb_true; tauto|]. now apply (g_nb _ G).
Qed.

Notation reached' := (reached K x y C).
Lemma reached_good s : reached' s -> good s.
Proof.
  induction 1 as [|s i j ei ej s' R IH Hi Hj H]; [apply init_good|].
  rewrite Hxy in Hi, Hj. exact (update_good _ _ _ _ _ _ IH Hi Hj H).
Qed.
Lemma upd s i j ei ej s' : reached' s -> (i < n)%nat -> (j < n)%nat ->
  update_alpha K x y C s i j ei ej = Some s' -> reached' s'.
Proof. intros. eapply reached_update; eauto; rewrite Hxy; auto. Qed.

Definition valid_perms := forall d j, In j (perms d) -> (j < n)%nat.

Lemma try_reached s i ei js s' : reached' s -> (i < n)%nat -> (forall j, In j js -> (j < n)%nat) ->
  try_pairs K x y C s i ei js = Some s' -> reached' s'.
Proof.
  intros G Hi. induction js as [|j js IH]; intros Hj H; simpl in H; [discriminate|].
  destruct (update_alpha _ _ _ _ _ _ _ _ _) as [s1|] eqn:E.
  - injection H as <-. refine (upd _ _ _ _ _ _ G Hi _ E). apply Hj; simpl; auto.
  - apply IH; auto. intros k Hk; apply Hj; simpl; auto.
Qed.

Lemma parameters_reached sd i : valid_perms -> reached' (fst sd) -> (i < n)%nat ->
  reached' (fst (fst (update_parameters K x y C tol perms sd i))).
Proof.
  intros V G Hi. destruct sd as [s d]. unfold update_parameters. simpl in G.
  set (ei := if nth i (non_bound s) false then _ else _).
  destruct (_ || _)%bool; [|exact G].
  set (first := if existsb _ (non_bound s) then _ else _).
  assert (F : forall s', first = Some s' -> reached' s').
  { intros s' E. unfold first in E. destruct (existsb _ _); [|discriminate].
    destruct (select_second_alpha ei (error_cache s) (non_bound s)) as [[j ej]|] eqn:S; [|discriminate].
    apply select_spec in S. destruct S as (S & _). refine (upd _ _ _ _ _ _ G Hi _ E).
    assert (j < length (non_bound s))%nat by (apply nth_error_Some; congruence). rewrite (g_nb_len _ (reached_good _ G)) in H. auto. }
  destruct first as [s'|]; [apply F; reflexivity|].
  destruct (try_pairs K x y C s i ei (perms d)) as [s'|] eqn:E; [|exact G].
  simpl. refine (try_reached _ _ _ _ _ G Hi (V d) E).
Qed.

Lemma pass_reached idx : valid_perms -> (forall i, In i idx -> (i < n)%nat) -> forall sd,
  reached' (fst sd) -> reached' (fst (fst (pass K x y C tol perms idx sd))).
Proof.
  intros V. unfold pass. intros Hidx sd G.
  assert (Gen : forall idx acc, (forall i, In i idx -> (i < n)%nat) -> reached' (fst (fst acc)) ->
    reached' (fst (fst (fold_left (fun (acc : smo * nat * nat) i => let '(sd, k) := acc in
      let '(sd', changed) := update_parameters K x y C tol perms sd i in (sd', if changed : bool then S k else k)) idx acc)))).
  { clear idx sd Hidx G. induction idx as [|i idx IH]; intros [sd k] Hi G; simpl; auto.
    apply IH; [intros; apply Hi; simpl; auto|].
    destruct (update_parameters K x y C tol perms sd i) as [sd' c] eqn:E. simpl.
    change sd' with (fst (sd', c)). rewrite <- E. apply parameters_reached; auto. apply Hi; simpl; auto. }
  now apply Gen.
Qed.

Lemma loop_reached fuel epochs : valid_perms -> forall epoch entire sd s', reached' (fst sd) ->
  run_loop K x y C tol perms fuel epochs epoch entire sd = Ok s' -> reached' s'.
Proof.
  intros V. induction fuel as [|fuel IH]; intros epoch entire sd s' G H; simpl in H; [discriminate|].
  destruct (_ || _)%bool; [|injection H as <-; exact G].
  set (idx := if entire then _ else _) in H.
  destruct (pass K x y C tol perms idx sd) as [sd' k] eqn:E.
  assert (G' : reached' (fst sd')).
  { change sd' with (fst (sd', k)). rewrite <- E. apply pass_reached; auto. intros i Hi. unfold idx in Hi. destruct entire.
    - apply in_seq in Hi. rewrite Hxy in Hi. unfold n. lia.
    - apply nonzero_lt in Hi. rewrite (g_nb_len _ (reached_good _ G)) in Hi. auto. }
  destruct entire.
  - destruct (k =? 0)%nat; [injection H as <-; exact G'|]. eapply IH; [exact G'|exact H].
  - eapply IH; [exact G'|exact H].
Qed.


Lemma run_reached fuel epochs s : valid_perms -> smo_run K x y C tol perms fuel epochs = Ok s -> reached' s.
Proof. intros V H. refine (loop_reached _ _ V _ _ _ _ _ H). apply reached_start. Qed.
Lemma run_good fuel epochs s : valid_perms -> smo_run K x y C tol perms fuel epochs = Ok s -> good s.
Proof. intros V H. apply reached_good. exact (run_reached _ _ _ V H). Qed.

Lemma loop_total epochs : (0 <= epochs)%Z -> forall fuel epoch entire sd,
  (0 < Z.of_nat fuel)%Z -> (epochs - epoch < Z.of_nat fuel)%Z ->
  exists s, run_loop K x y C tol perms fuel epochs epoch entire sd = Ok s.
Proof.
  clear Hxy Hpm HC. intros He. induction fuel as [|fuel IH]; intros epoch entire sd Hp Hf; [simpl in Hp; lia|].
  cbn [run_loop]. rewrite (proj2 (Z.eqb_neq epochs (-1))) by lia. cbn [orb].
  destruct (Z.ltb_spec epoch epochs) as [L|L]; [|eauto].
  destruct (pass _ _ _ _ _ _ _ _) as [sd' k]. destruct entire.
  - destruct (k =? 0)%nat; [eauto|]. apply IH; lia.
  - apply IH; lia.
Qed.

(** ** Errors *)
Lemma calculate_error_flags i al nz b : length nz = length x ->
  calculate_error K x y i al nz b =
  sum_below (length x) (fun m => if nth m nz false then nth m al 0 * nth m y 0 * K (nth m x []) (nth i x []) else 0)
  + b - nth i y 0.
Proof.
  intros Hl. unfold calculate_error. destruct (existsb (fun f => f) nz) eqn:E.
  - rewrite sum_nonzero, Hl. reflexivity.
  - rewrite sum_below_zero; [lra|]. intros m _. rewrite (existsb_nonzero _ E). reflexivity.
Qed.

Lemma good_error s i : good s ->
  calculate_error K x y i (alphas s) (non_zero s) (bias s) = exact_error K x y (alphas s) (bias s) i.
Proof.
  intros G. rewrite calculate_error_flags by (rewrite (g_nz_len _ G); auto). unfold exact_error, decision.
  f_equal. f_equal. apply sum_below_ext. intros m Hm. rewrite Hxy in Hm.
  destruct (nth m (non_zero s) false) eqn:E; [reflexivity|].
  assert (~ 0 < nth m (alphas s) 0). { intros H. apply (g_nz _ G m Hm) in H. congruence. }
  destruct (g_feas _ G) as (_ & HB & _). specialize (HB m Hm). assert (Z : nth m (alphas s) 0 = 0) by lra. rewrite Z. ring.
Qed.

(** ** Dual objective *)
Lemma dual_perturb al al' : symmetric K ->
  dual K x y al' = dual K x y al
    + sum_below (length x) (fun m => (nth m al' 0 - nth m al 0) *
        (1 - nth m y 0 * sum_below (length x) (fun k => nth k al 0 * nth k y 0 * K (nth k x []) (nth m x []))))
    - 1 / 2 * sum_below (length x) (fun m => sum_below (length x) (fun k =>
        (nth m al' 0 - nth m al 0) * (nth k al' 0 - nth k al 0) * (nth m y 0 * nth k y 0 * K (nth m x []) (nth k x [])))).
Proof.
  intros Sy. unfold dual. set (N := length x).
  set (a := fun m => nth m al 0). set (d := fun m => nth m al' 0 - nth m al 0).
  set (Q := fun m k => nth m y 0 * nth k y 0 * K (nth m x []) (nth k x [])).
  assert (SQ : forall m k, Q m k = Q k m) by (intros m k; unfold Q; rewrite Sy; ring).
  assert (E1 : sum_below N (fun m => nth m al' 0) = sum_below N a + sum_below N d).
  { rewrite <- sum_below_plus. apply sum_below_ext. intros m _. unfold a, d. ring. }
  assert (E2 : sum_below N (fun m => sum_below N (fun k => nth m al' 0 * nth k al' 0 * Q m k)) =
     sum_below N (fun m => sum_below N (fun k => a m * a k * Q m k)) +
     (sum_below N (fun m => sum_below N (fun k => a m * d k * Q m k)) +
      sum_below N (fun m => sum_below N (fun k => d m * a k * Q m k))) +
     sum_below N (fun m => sum_below N (fun k => d m * d k * Q m k))).
  { rewrite <- !sum_below_plus. apply sum_below_ext. intros m _. rewrite <- !sum_below_plus.
    apply sum_below_ext. intros k _. unfold a, d. ring. }
  assert (E3 : sum_below N (fun m => sum_below N (fun k => a m * d k * Q m k)) =
               sum_below N (fun m => sum_below N (fun k => d m * a k * Q m k))).
  { assert (Sw : forall M f, sum_below M (fun m => sum_below N (fun k => f m k)) = sum_below N (fun k => sum_below M (fun m => f m k))).
    { clear. induction M as [|M IH]; intros f.
      - unfold sum_below at 1. simpl. symmetry. apply sum_below_zero. reflexivity.
      - rewrite sum_below_S, IH, <- sum_below_plus. apply sum_below_ext. intros k _. now rewrite sum_below_S. }
    rewrite Sw. apply sum_below_ext. intros m _. apply sum_below_ext. intros k _. rewrite (SQ k m). ring. }
  assert (E4 : sum_below N (fun m => d m * (1 - nth m y 0 * sum_below N (fun k => nth k al 0 * nth k y 0 * K (nth k x []) (nth m x [])))) =
               sum_below N d - sum_below N (fun m => sum_below N (fun k => d m * a k * Q m k))).
  { rewrite <- sum_below_minus. apply sum_below_ext. intros m _.
    assert (I : sum_below N (fun k => d m * a k * Q m k) = d m * nth m y 0 * sum_below N (fun k => nth k al 0 * nth k y 0 * K (nth k x []) (nth m x []))).
    { rewrite <- sum_below_scal. apply sum_below_ext. intros k _. unfold a, Q. rewrite (Sy (nth k x [])). ring. }
    rewrite I. ring. }
  change (sum_below N (fun m => nth m al' 0) - 1 / 2 * sum_below N (fun m => sum_below N (fun k => nth m al' 0 * nth k al' 0 * Q m k)) =
    sum_below N a - 1 / 2 * sum_below N (fun m => sum_below N (fun k => a m * a k * Q m k)) +
    sum_below N (fun m => d m * (1 - nth m y 0 * sum_below N (fun k => nth k al 0 * nth k y 0 * K (nth k x []) (nth m x [])))) -
    1 / 2 * sum_below N (fun m => sum_below N (fun k => d m * d k * Q m k))).
  rewrite E1, E2, E3, E4. lra.
Qed.

Lemma dual_two al al' i j : symmetric K -> i <> j -> (i < n)%nat -> (j < n)%nat -> differ_at i j al al' ->
  nth i al' 0 = nth i al 0 + nth i y 0 * nth j y 0 * (nth j al 0 - nth j al' 0) ->
  forall b, let t := nth j al' 0 - nth j al 0 in
  dual K x y al' = dual K x y al + nth j y 0 * (exact_error K x y al b i - exact_error K x y al b j) * t
    - 1 / 2 * (K (nth i x []) (nth i x []) + K (nth j x []) (nth j x []) - 2 * K (nth i x []) (nth j x [])) * t * t.
Proof.
  intros Sy Hij Hi Hj (_ & HD) Hai b t.
  assert (Li : (i < length x)%nat) by (rewrite Hxy; auto). assert (Lj : (j < length x)%nat) by (rewrite Hxy; auto).
  rewrite (dual_perturb al al' Sy).
  assert (Z : forall m, m <> i -> m <> j -> nth m al' 0 - nth m al 0 = 0) by (intros m A B; rewrite HD by auto; ring).
  rewrite (sum_below_two (length x) i j) by (auto; intros m _ A B; rewrite (Z m A B); ring).
  rewrite (sum_below_two (length x) i j (fun m => sum_below (length x) _)); auto.
  2: { intros m _ A B. apply sum_below_zero. intros k _. rewrite (Z m A B). ring. }
  rewrite !(sum_below_two (length x) i j (fun k => (_ - _) * (nth k al' 0 - nth k al 0) * _)); auto;
    try (intros m _ A B; rewrite (Z m A B); ring).
  unfold exact_error, decision.
  set (Si := sum_below (length x) (fun k => nth k al 0 * nth k y 0 * K (nth k x []) (nth i x []))).
  set (Sj := sum_below (length x) (fun k => nth k al 0 * nth k y 0 * K (nth k x []) (nth j x []))).
  rewrite Hai. rewrite (Sy (nth j x []) (nth i x [])).
  set (Kii := K (nth i x []) (nth i x [])). set (Kjj := K (nth j x []) (nth j x [])). set (Kij := K (nth i x []) (nth j x [])).
  unfold t. destruct (Hpm i Hi) as [-> | ->], (Hpm j Hj) as [-> | ->]; field.
Qed.

Lemma abs_sq r : Rabs r * Rabs r = r * r.
Proof. symmetry. exact (Rsqr_abs r). Qed.

(** On a segment a concave parabola is largest at the clipped vertex. *)
Lemma parabola_clip g eta low high t0 : 0 < eta -> low <= 0 <= high -> t0 = clip_alpha (g / eta) low high ->
  (forall t, low <= t <= high -> g * t - 1 / 2 * eta * t * t <= g * t0 - 1 / 2 * eta * t0 * t0) /\
  1 / 2 * eta * t0 * t0 <= g * t0 - 1 / 2 * eta * t0 * t0.
Proof.
  intros He H0 ->. set (v := g / eta). assert (Hg : g = v * eta) by (unfold v; field; lra). clearbody v. subst g.
  unfold clip_alpha.
  assert (Cmp : forall a b, Rabs (v - a) <= Rabs (v - b) ->
     v * eta * b - 1 / 2 * eta * b * b <= v * eta * a - 1 / 2 * eta * a * a).
  { intros a b Hab. assert (Hs : (v - a) * (v - a) <= (v - b) * (v - b)).
    { rewrite <- (abs_sq (v - a)), <- (abs_sq (v - b)). pose proof (Rabs_pos (v - a)). nra. }
    assert (G : v * eta * a - 1 / 2 * eta * a * a - (v * eta * b - 1 / 2 * eta * b * b) =
                1 / 2 * eta * ((v - b) * (v - b) - (v - a) * (v - a))) by field. nra. }
  split.
  - intros t Ht. apply Cmp. apply (clip_nearest v low high ltac:(lra)). exact Ht.
  - destruct (Rltb high v) eqn:A; [apply Rltb_true in A|apply Rltb_false in A; destruct (Rltb v low) eqn:B; [apply Rltb_true in B|apply Rltb_false in B]];
    [assert (0 <= eta * high * (v - high)) by (apply Rmult_le_pos; [apply Rmult_le_pos|]; lra); lra
    |assert (0 <= eta * (- low) * (low - v)) by (apply Rmult_le_pos; [apply Rmult_le_pos|]; lra); lra|lra].
Qed.

Lemma clip_shift a low high c : clip_alpha (a + c) (low + c) (high + c) = clip_alpha a low high + c.
Proof.
  unfold clip_alpha. destruct (Rltb high a) eqn:A.
  - apply Rltb_true in A. rewrite (proj2 (Rltb_true _ _)) by lra. reflexivity.
  - apply Rltb_false in A. rewrite (proj2 (Rltb_false (high + c) _)) by lra.
    destruct (Rltb a low) eqn:B.
    + apply Rltb_true in B. rewrite (proj2 (Rltb_true _ _)) by lra. reflexivity.
    + apply Rltb_false in B. rewrite (proj2 (Rltb_false _ (low + c))) by lra. reflexivity.
Qed.

Lemma differ_update s i j ei ej s' eta low high aj' ai' : good s -> (i < n)%nat -> (j < n)%nat ->
  pair_update s i j ei ej s' eta low high aj' ai' ->
  differ_at i j (alphas s) (alphas s') /\ nth i (alphas s') 0 = ai' /\ nth j (alphas s') 0 = aj'.
Proof.
  intros G Hi Hj P. pose proof (p_ne _ _ _ _ _ _ _ _ _ _ _ P) as Hij.
  destruct (g_feas _ G) as (Hl & _).
  assert (EA : forall m, nth m (alphas s') 0 = if Nat.eqb m j then aj' else if Nat.eqb m i then ai' else nth m (alphas s) 0).
  { intros m. rewrite (p_al _ _ _ _ _ _ _ _ _ _ _ P). apply nth_set2; auto; rewrite Hl; auto. }
  split; [split|split].
  - rewrite (p_al _ _ _ _ _ _ _ _ _ _ _ P), !set_nth_length. reflexivity.
  - intros m A B. rewrite EA, (proj2 (Nat.eqb_neq m j) B), (proj2 (Nat.eqb_neq m i) A). reflexivity.
  - rewrite EA, (proj2 (Nat.eqb_neq i j) Hij), Nat.eqb_refl. reflexivity.
  - rewrite EA, Nat.eqb_refl. reflexivity.
Qed.

(** The feasible pair values form exactly the clipping segment. *)
Lemma segment s i j al : good s -> (i < n)%nat -> (j < n)%nat -> i <> j ->
  differ_at i j (alphas s) al -> feasible C y al ->
  nth i al 0 = nth i (alphas s) 0 + nth i y 0 * nth j y 0 * (nth j (alphas s) 0 - nth j al 0) /\
  (if Reqb (nth i y 0) (nth j y 0) then Rmax 0 (nth i (alphas s) 0 + nth j (alphas s) 0 - C)
   else Rmax 0 (nth j (alphas s) 0 - nth i (alphas s) 0)) <= nth j al 0 <=
  (if Reqb (nth i y 0) (nth j y 0) then Rmin C (nth i (alphas s) 0 + nth j (alphas s) 0)
   else Rmin C (C + nth j (alphas s) 0 - nth i (alphas s) 0)).
Proof.
  intros G Hi Hj Hij (_ & HD) (_ & HB & HS). destruct (g_feas _ G) as (_ & HB0 & HS0).
  pose proof (HB i Hi) as Bi. pose proof (HB j Hj) as Bj. pose proof (HB0 i Hi). pose proof (HB0 j Hj).
  assert (D : sum_below (length y) (fun m => nth m al 0 * nth m y 0 - nth m (alphas s) 0 * nth m y 0) = 0)
    by (rewrite sum_below_minus; lra).
  rewrite (sum_below_two _ i j) in D; auto.
  2: { intros m Hm A B. rewrite HD by auto. ring. }
  destruct (Reqb (nth i y 0) (nth j y 0)) eqn:E; [apply Reqb_true in E|apply Reqb_false in E];
    destruct (Hpm i Hi) as [Ei|Ei], (Hpm j Hj) as [Ej|Ej]; rewrite Ei, Ej in *; try lra;
    split; try lra; unfold Rmax, Rmin; repeat destruct (Rle_dec _ _); lra.
Qed.

Lemma update_optimal s i j s' : symmetric K -> good s -> (i < n)%nat -> (j < n)%nat ->
  let e := exact_error K x y (alphas s) (bias s) in
  update_alpha K x y C s i j (e i) (e j) = Some s' ->
  (forall al, differ_at i j (alphas s) al -> feasible C y al -> dual K x y al <= dual K x y (alphas s')) /\
  dual K x y (alphas s) < dual K x y (alphas s').
Proof.
  intros Sy G Hi Hj e H. destruct (update_pair _ _ _ _ _ _ H) as (eta & low & high & aj' & ai' & P).
  pose proof (box_pair _ _ _ _ _ _ _ _ _ _ _ G Hi Hj P) as (Bold & _).
  destruct (differ_update _ _ _ _ _ _ _ _ _ _ _ G Hi Hj P) as (HD & Ei & Ej).
  pose proof (p_ne _ _ _ _ _ _ _ _ _ _ _ P) as Hij.
  pose proof (p_eta_pos _ _ _ _ _ _ _ _ _ _ _ P) as Heta.
  pose proof (p_ai _ _ _ _ _ _ _ _ _ _ _ P) as Eai.
  set (g := nth j y 0 * (e i - e j)).
  assert (T0 : aj' - nth j (alphas s) 0 = clip_alpha (g / eta) (low - nth j (alphas s) 0) (high - nth j (alphas s) 0)).
  { pose proof (p_aj _ _ _ _ _ _ _ _ _ _ _ P) as E.
    pose proof (clip_shift (g / eta) (low - nth j (alphas s) 0) (high - nth j (alphas s) 0) (nth j (alphas s) 0)) as Sh.
    replace (low - nth j (alphas s) 0 + nth j (alphas s) 0) with low in Sh by ring.
    replace (high - nth j (alphas s) 0 + nth j (alphas s) 0) with high in Sh by ring.
    replace (g / eta + nth j (alphas s) 0) with (nth j (alphas s) 0 + nth j y 0 * (e i - e j) / eta) in Sh by (unfold g; field; lra).
    rewrite E, Sh. ring. }
  destruct (parabola_clip g eta (low - nth j (alphas s) 0) (high - nth j (alphas s) 0) _ Heta ltac:(lra) T0) as (Opt & Inc).
  assert (W' : dual K x y (alphas s') = dual K x y (alphas s) + g * (aj' - nth j (alphas s) 0)
               - 1 / 2 * eta * (aj' - nth j (alphas s) 0) * (aj' - nth j (alphas s) 0)).
  { pose proof (dual_two (alphas s) (alphas s') i j Sy Hij Hi Hj HD) as W. rewrite Ei, Ej in W. specialize (W Eai (bias s)).
    cbv zeta in W. rewrite W, <- (p_eta _ _ _ _ _ _ _ _ _ _ _ P). unfold g, e. reflexivity. }
  split.
  - intros al HDa HF. destruct (segment s i j al G Hi Hj Hij HDa HF) as (Hai & Seg).
    rewrite <- (p_low _ _ _ _ _ _ _ _ _ _ _ P), <- (p_high _ _ _ _ _ _ _ _ _ _ _ P) in Seg.
    pose proof (dual_two (alphas s) al i j Sy Hij Hi Hj HDa Hai (bias s)) as W. cbv zeta in W.
    rewrite W, W', <- (p_eta _ _ _ _ _ _ _ _ _ _ _ P).
    specialize (Opt (nth j al 0 - nth j (alphas s) 0) ltac:(lra)). unfold g, e in *. lra.
  - rewrite W'. pose proof (p_move _ _ _ _ _ _ _ _ _ _ _ P) as Mv.
    assert (0 < (aj' - nth j (alphas s) 0) * (aj' - nth j (alphas s) 0)).
    { rewrite <- abs_sq. set (r := Rabs _) in *. nra. }
    assert (0 < 1 / 2 * eta * ((aj' - nth j (alphas s) 0) * (aj' - nth j (alphas s) 0))) by (apply Rmult_lt_0_compat; lra).
    lra.
Qed.

(** ** The error cache after an update *)
Lemma cache_fold al nz b idx cache k : NoDup idx -> (forall m, In m idx -> (m < length cache)%nat) ->
  nth k (fold_left (fun c m => set_nth c m (calculate_error K x y m al nz b)) idx cache) 0 =
  if in_dec Nat.eq_dec k idx then calculate_error K x y k al nz b else nth k cache 0.
Proof.
  revert cache; induction idx as [|m idx IH]; intros cache ND Hl; [reflexivity|].
  cbn [fold_left]. inversion ND as [|? ? Nm ND']; subst. rewrite IH; auto.
  2: { intros q Hq. rewrite set_nth_length. apply Hl; simpl; auto. }
  destruct (in_dec Nat.eq_dec k idx) as [I|I]; destruct (in_dec Nat.eq_dec k (m :: idx)) as [I'|I']; simpl in *; try tauto.
  - destruct I' as [->|]; [|tauto]. apply nth_set_nth_eq. apply Hl; auto.
  - apply nth_set_nth_neq. intuition.
Qed.

Lemma cache_after s i j ei ej s' k : good s -> (i < n)%nat -> (j < n)%nat ->
  update_alpha K x y C s i j ei ej = Some s' -> (k < n)%nat ->
  nth k (error_cache s') 0 =
  if nth k (non_bound s) false then
    exact_error K x y (alphas s') (bias s') k
    - (if nth i (non_zero s) false then 0 else nth i (alphas s') 0 * nth i y 0 * K (nth i x []) (nth k x []))
    - (if nth j (non_zero s) false then 0 else nth j (alphas s') 0 * nth j y 0 * K (nth j x []) (nth k x []))
  else nth k (error_cache s) 0.
Proof.
  intros G Hi Hj H Hk. destruct (update_pair _ _ _ _ _ _ H) as (eta & low & high & aj' & ai' & P).
  pose proof (p_ne _ _ _ _ _ _ _ _ _ _ _ P) as Hij.
  destruct (differ_update _ _ _ _ _ _ _ _ _ _ _ G Hi Hj P) as ((_ & HD) & _ & _).
  rewrite (p_ca _ _ _ _ _ _ _ _ _ _ _ P). unfold update_error_cache. rewrite cache_fold.
  2: apply nonzero_NoDup.
  2: { intros m Hm. apply nonzero_lt in Hm. rewrite (g_nb_len _ G) in Hm. rewrite (g_ca_len _ G). exact Hm. }
  destruct (in_dec Nat.eq_dec k (nonzero (non_bound s))) as [I|I].
  - apply nonzero_In in I. rewrite I. rewrite calculate_error_flags by (rewrite (g_nz_len _ G); auto).
    unfold exact_error, decision.
    assert (D : sum_below (length x) (fun m => (if nth m (non_zero s) false then nth m (alphas s') 0 * nth m y 0 * K (nth m x []) (nth k x []) else 0)
                 - nth m (alphas s') 0 * nth m y 0 * K (nth m x []) (nth k x [])) =
              - (if nth i (non_zero s) false then 0 else nth i (alphas s') 0 * nth i y 0 * K (nth i x []) (nth k x []))
              - (if nth j (non_zero s) false then 0 else nth j (alphas s') 0 * nth j y 0 * K (nth j x []) (nth k x []))).
    { rewrite (sum_below_two _ i j); auto; try (rewrite Hxy; auto).
      - destruct (nth i (non_zero s) false), (nth j (non_zero s) false); ring.
      - intros m Hm A B. destruct (nth m (non_zero s) false) eqn:E; [ring|].
        assert (Z : nth m (alphas s') 0 = 0).
        { rewrite HD by auto. assert (~ 0 < nth m (alphas s) 0) by (intros Q; apply (g_nz _ G m Hm) in Q; congruence).
          destruct (g_feas _ G) as (_ & HB & _). specialize (HB m Hm). lra. }
        rewrite Z. ring. }
    rewrite sum_below_minus in D. lra.
  - destruct (nth k (non_bound s) false) eqn:E; [|reflexivity]. exfalso. apply I. now apply nonzero_In.
Qed.

(** ** Support vectors *)
Lemma combine_map_same {A B D} (f : A -> B) (g : A -> D) l : combine (map f l) (map g l) = map (fun a => (f a, g a)) l.
Proof. induction l; simpl; f_equal; auto. Qed.

Lemma decision_support s q : symmetric K -> good s ->
  svc_decision K (svc_of x y s) q = decision K x y (alphas s) (bias s) q.
Proof.
  intros Sy G. unfold svc_decision, svc_of, decision. simpl. f_equal.
  rewrite !combine_map_same, map_map. simpl. rewrite sum_nonzero, (g_nz_len _ G), Hxy.
  apply sum_below_ext. intros m Hm. rewrite (Sy q). destruct (nth m (non_zero s) false) eqn:E; [reflexivity|].
  assert (~ 0 < nth m (alphas s) 0) by (intros Q; apply (g_nz _ G m Hm) in Q; congruence).
  destruct (g_feas _ G) as (_ & HB & _). specialize (HB m Hm). assert (Z : nth m (alphas s) 0 = 0) by lra. rewrite Z. ring.
Qed.

(** ** Convergence *)
Lemma parameters_false sd i sd' : update_parameters K x y C tol perms sd i = (sd', false) ->
  fst sd' = fst sd /\
  let s := fst sd in
  let e := if nth i (non_bound s) false then nth i (error_cache s) 0
           else calculate_error K x y i (alphas s) (non_zero s) (bias s) in
  kkt C tol (nth i y 0) (nth i (alphas s) 0) e \/ try_pairs K x y C s i e (perms (snd sd)) = None.
Proof.
  destruct sd as [s d]. unfold update_parameters. cbv zeta. simpl fst. simpl snd.
  set (e := if nth i (non_bound s) false then _ else _).
  destruct ((Rltb (nth i y 0 * e) (- tol) && Rltb (nth i (alphas s) 0) C) || (Rltb tol (nth i y 0 * e) && Rltb 0 (nth i (alphas s) 0)))%bool eqn:V.
  - set (first := if existsb _ (non_bound s) then _ else _).
    destruct first as [s'|]; [intros H; discriminate|].
    destruct (try_pairs K x y C s i e (perms d)) as [s'|] eqn:T; [intros H; discriminate|].
    intros H. injection H as <-. simpl. auto.
  - intros H. injection H as <-. simpl. split; auto. left. apply orb_false_iff in V. destruct V as (V1 & V2).
    split; intros A.
    + destruct (Rltb (nth i y 0 * e) (- tol)) eqn:B; [|apply Rltb_false in B; lra].
      simpl in V1. apply Rltb_false in V1. lra.
    + destruct (Rltb tol (nth i y 0 * e)) eqn:B; [|apply Rltb_false in B; lra].
      simpl in V2. apply Rltb_false in V2. lra.
Qed.

Lemma pass_zero idx sd sd' : pass K x y C tol perms idx sd = (sd', 0%nat) ->
  fst sd' = fst sd /\ forall i, In i idx -> exists d d', update_parameters K x y C tol perms (fst sd, d) i = ((fst sd, d'), false).
Proof.
  unfold pass.
  set (f := fun (acc : smo * nat * nat) i => let '(sd0, k) := acc in
      let '(sd'0, changed) := update_parameters K x y C tol perms sd0 i in (sd'0, if changed : bool then S k else k)).
  assert (Mono : forall idx acc sd' k', fold_left f idx acc = (sd', k') -> (snd acc <= k')%nat).
  { clear. induction idx as [|i idx IH]; intros acc sd' k' H; simpl in H; [now subst|].
    apply IH in H. unfold f in H at 1. destruct acc as [sd0 k]. destruct (update_parameters K x y C tol perms sd0 i) as [s1 [|]]; simpl in *; lia. }
  revert sd. induction idx as [|i idx IH]; intros sd H; cbn [fold_left] in H.
  - injection H as <-. split; auto. intros i [].
  - pose proof (Mono _ _ _ _ H) as L. unfold f at 2 in H. unfold f in L.
    destruct (update_parameters K x y C tol perms sd i) as [s1 [|]] eqn:E; [simpl in L; lia|].
    destruct (parameters_false _ _ _ E) as (Es & _). destruct (IH s1 H) as (Ef & A). rewrite Es in *.
    split; auto. intros q [->|Hq]; [|now apply A]. destruct sd as [s d], s1 as [s' d']. simpl in *. subst s'.
    exists d, d'. exact E.
Qed.

Lemma loop_converged fuel : forall epoch entire sd s, run_loop K x y C tol perms fuel (-1) epoch entire sd = Ok s ->
  exists sd1 sd2, pass K x y C tol perms (seq 0 (length x)) sd1 = (sd2, 0%nat) /\ s = fst sd2.
Proof.
  induction fuel as [|fuel IH]; intros epoch entire sd s H; [discriminate|].
  cbn [run_loop] in H. simpl orb in H. cbv iota in H. destruct (pass K x y C tol perms _ sd) as [sd' k] eqn:E.
  destruct entire.
  - destruct (Nat.eqb_spec k 0) as [->|]; [|eapply IH; exact H]. injection H as <-. exists sd, sd'. auto.
  - eapply IH; exact H.
Qed.

Lemma try_none s i e js : try_pairs K x y C s i e js = None ->
  forall j, In j js -> update_alpha K x y C s i j e (calculate_error K x y j (alphas s) (non_zero s) (bias s)) = None.
Proof.
  induction js as [|j js IH]; intros H q Hq; [destruct Hq|]. simpl in H.
  destruct (update_alpha _ _ _ _ _ _ j _ _) eqn:E; [discriminate|]. destruct Hq as [<-|Hq]; auto.
Qed.

Lemma converged fuel s : permutations_of (length x) perms -> smo_run K x y C tol perms fuel (-1) = Ok s ->
  forall i, (i < length x)%nat ->
  let e := if nth i (non_bound s) false then nth i (error_cache s) 0 else exact_error K x y (alphas s) (bias s) i in
  kkt C tol (nth i y 0) (nth i (alphas s) 0) e \/
  forall j, (j < length x)%nat -> update_alpha K x y C s i j e (exact_error K x y (alphas s) (bias s) j) = None.
Proof.
  intros HP H i Hi.
  assert (V : valid_perms). { intros d j Hj. apply (Permutation_in j (HP d)) in Hj. apply in_seq in Hj. unfold n. rewrite <- Hxy. lia. }
  pose proof (run_good _ _ _ V H) as G. destruct (loop_converged _ _ _ _ _ H) as (sd1 & sd2 & Hp & ->).
  destruct (pass_zero _ _ _ Hp) as (E & A). destruct (A i ltac:(apply in_seq; lia)) as (d & d' & U).
  apply parameters_false in U. destruct U as (_ & U). simpl in U. rewrite <- E in U.
  rewrite (good_error _ i G) in U. cbv zeta. destruct U as [U|U]; [left; exact U|right].
  intros j Hj. rewrite <- (good_error _ j G). refine (try_none _ _ _ _ U j _).
  apply (Permutation_in j (Permutation_sym (HP d))). apply in_seq. lia.
Qed.
End Inv.
