(** Proofs about stumps and two-level trees. *)
From Coq Require Import List ZArith Reals Lra Lia Bool Arith Permutation Sorting.Sorted.
From Verif.Model Require Import Base Metrics Stump.
From Verif.Spec Require Import Common Metrics Stump.
From Verif.Proof Require Import BaseLemmas Counting Metrics.
Import ListNotations.
Local Open Scope R_scope.

(** ** Choosing the first smallest value *)
Section Pick.
Context {A B : Type} (val : A -> option (R * B)).
Definition pick_step (best : option (R * B)) (a : A) : option (R * B) :=
  match val a with
  | None => best
  | Some (v, b) => match best with
                   | None => Some (v, b)
                   | Some (v0, _) => if Rltb v v0 then Some (v, b) else best
                   end
  end.
Definition pick_ok (l : list A) (r : option (R * B)) : Prop :=
  match r with
  | None => forall a, In a l -> val a = None
  | Some (v, b) => (exists a, In a l /\ val a = Some (v, b)) /\
                   forall a v' b', In a l -> val a = Some (v', b') -> v <= v'
  end.
Lemma pick_spec l : pick_ok l (fold_left pick_step l None).
Proof.
  assert (G : forall l pre r, pick_ok pre r -> pick_ok (pre ++ l) (fold_left pick_step l r)).
  { clear l. induction l as [|a l IH]; intros pre r H; simpl; [now rewrite app_nil_r|].
    replace (pre ++ a :: l) with ((pre ++ [a]) ++ l) by (rewrite <- app_assoc; auto). apply IH.
    unfold pick_step. destruct (val a) as [[v b]|] eqn:E.
    - destruct r as [[v0 b0]|].
      + destruct H as [(a0 & H0 & E0) H]. destruct (Rltb v v0) eqn:L.
        * apply Rltb_true in L. split; [exists a; rewrite in_app_iff; simpl; auto|].
          intros a' v' b' Hin E'. apply in_app_iff in Hin. destruct Hin as [Hin|[<-|[]]].
          -- specialize (H _ _ _ Hin E'). lra.
          -- rewrite E in E'. injection E' as <- _. lra.
        * apply Rltb_false in L. split; [exists a0; rewrite in_app_iff; auto|].
          intros a' v' b' Hin E'. apply in_app_iff in Hin. destruct Hin as [Hin|[<-|[]]].
          -- apply (H _ _ _ Hin E').
          -- rewrite E in E'. injection E' as <- _. lra.
      + simpl in H. split; [exists a; rewrite in_app_iff; simpl; auto|].
        intros a' v' b' Hin E'. apply in_app_iff in Hin. destruct Hin as [Hin|[<-|[]]].
        * rewrite (H _ Hin) in E'. discriminate.
        * rewrite E in E'. injection E' as <- _. lra.
    - destruct r as [[v0 b0]|].
      + destruct H as [(a0 & H0 & E0) H]. split; [exists a0; rewrite in_app_iff; auto|].
        intros a' v' b' Hin E'. apply in_app_iff in Hin. destruct Hin as [Hin|[<-|[]]]; [eauto|congruence].
      + simpl in *. intros a' Hin. apply in_app_iff in Hin. destruct Hin as [Hin|[<-|[]]]; auto. }
  apply (G l [] None). intros a [].
Qed.
End Pick.

(** ** Sorting *)
Section Sort.
Context {A : Type} (key : A -> R).
Lemma insert_perm x l : Permutation (insert_by key x l) (x :: l).
Proof.
  induction l as [|y l IH]; simpl; auto. destruct (Rleb (key x) (key y)); auto.
  rewrite IH. apply perm_swap.
Qed.
Lemma sort_perm l : Permutation (sort_by key l) l.
Proof. induction l as [|x l IH]; simpl; auto. unfold sort_by in *. simpl. rewrite insert_perm. now apply perm_skip. Qed.
Lemma insert_sorted x l : StronglySorted (fun a b => key a <= key b) l ->
  StronglySorted (fun a b => key a <= key b) (insert_by key x l).
Proof.
  induction 1 as [|y l Hs IH Hf]; simpl; [repeat constructor|].
  destruct (Rleb (key x) (key y)) eqn:E.
  - apply Rleb_true in E. constructor; [constructor; auto|]. constructor; auto.
    eapply Forall_impl; [|exact Hf]. simpl. intros. lra.
  - apply Rleb_false in E. constructor; auto. rewrite Forall_forall in *. intros z Hz.
    apply (Permutation_in _ (insert_perm x l)) in Hz. destruct Hz as [<-|Hz]; [lra|auto].
Qed.
Lemma sort_sorted l : StronglySorted (fun a b => key a <= key b) (sort_by key l).
Proof. induction l; simpl; [constructor|now apply insert_sorted]. Qed.
End Sort.

(** ** Every separating threshold is equivalent to a midpoint *)
Definition mids (s : list R) := map (fun p => (fst p + snd p) / 2) (combine s (tl s)).

Lemma mids_cons x y s : mids (x :: y :: s) = (x + y) / 2 :: mids (y :: s).
Proof. reflexivity. Qed.

Lemma mids_separate s t : StronglySorted Rle s -> (exists x, In x s /\ x < t) -> (exists y, In y s /\ t <= y) ->
  exists m, In m (mids s) /\ forall z, In z s -> (t <= z <-> m <= z).
Proof.
  induction 1 as [|x s Hs IH Hf]; intros (a & Ha & Hat) (b & Hb & Hbt); [contradiction|].
  rewrite Forall_forall in Hf.
  assert (Hxt : x < t). { destruct Ha as [->|Ha]; auto. specialize (Hf _ Ha). lra. }
  destruct Hb as [->|Hb]; [lra|].
  destruct s as [|y s]; [contradiction|]. rewrite mids_cons.
  destruct (Rlt_dec y t) as [Hy|Hy].
  - destruct IH as (m & Hm & Heq); [exists y; simpl; auto|exists b; auto|].
    exists m. split; [right; auto|]. intros z [<-|Hz]; [|auto]. split; intros Hz; [lra|].
    exfalso. assert (m <= y) by (specialize (Hf y (or_introl eq_refl)); lra).
    apply (Heq y (or_introl eq_refl)) in H. lra.
  - exists ((x + y) / 2). split; [left; auto|]. assert (Hxy : x <= y) by (apply Hf; simpl; auto).
    intros z [<-|Hz]; [split; intros; lra|]. inversion Hs as [|? ? _ Hf2]; subst. rewrite Forall_forall in Hf2.
    assert (y <= z) by (destruct Hz as [->|Hz]; [lra|auto]). split; intros; lra.
Qed.

Lemma sort_id_sorted l : StronglySorted Rle (sort_by (fun x => x) l).
Proof. apply (sort_sorted (fun x : R => x)). Qed.

Lemma midpoints_separate l t : (exists x, In x l /\ x < t) -> (exists y, In y l /\ t <= y) ->
  exists m, In m (neighbour_midpoints l) /\ forall z, In z l -> (t <= z <-> m <= z).
Proof.
  intros (x & Hx & Ht) (y & Hy & Ht').
  assert (P : forall z, In z l <-> In z (sort_by (fun x => x) l)).
  { intros z. split; apply Permutation_in; [apply Permutation_sym|]; apply sort_perm. }
  destruct (mids_separate (sort_by (fun x => x) l) t) as (m & Hm & He).
  - apply sort_id_sorted.
  - exists x. rewrite <- P; auto.
  - exists y. rewrite <- P; auto.
  - exists m. split; auto. intros z Hz. apply He. now apply P.
Qed.

Lemma midpoints_nonempty l : (2 <= length l)%nat -> neighbour_midpoints l <> [].
Proof.
  intros H. unfold neighbour_midpoints. fold (mids (sort_by (fun x => x) l)).
  pose proof (Permutation_length (sort_perm (fun x : R => x) l)) as L.
  destruct (sort_by _ l) as [|x [|y s]]; simpl in *; try lia. discriminate.
Qed.

Lemma midpoints_few l : (length l <= 1)%nat -> neighbour_midpoints l = [].
Proof.
  intros H. unfold neighbour_midpoints. fold (mids (sort_by (fun x => x) l)).
  pose proof (Permutation_length (sort_perm (fun x : R => x) l)) as L.
  destruct (sort_by _ l) as [|x [|y s]]; simpl in *; try lia; auto.
Qed.

(** ** Stump *)
Definition rule_of (c : nat * R * division_mode) : rule :=
  match c with (j, t, Gte) => NegativeFrom j t | (j, t, Le) => NegativeBelow j t end.
Definition wrong (c : nat * R * division_mode) (p : list R * Z) : bool :=
  match c with (j, t, m) => negb (Z.eqb (stump_label j t m (fst p)) (snd p)) end.

Lemma label_says j t m r : forall l, stump_label j t m r = l <-> says (rule_of (j, t, m)) r l.
Proof.
  intros l. unfold stump_label, feat. destruct m; simpl.
  - destruct (Rleb t (nth j r 0)) eqn:E; [apply Rleb_true in E|apply Rleb_false in E]; split.
    + intros <-; auto.
    + intros [[_ ->]|[H _]]; auto; lra.
    + intros <-; auto.
    + intros [[H _]|[_ ->]]; auto; lra.
  - destruct (Rltb (nth j r 0) t) eqn:E; [apply Rltb_true in E|apply Rltb_false in E]; split.
    + intros <-; auto.
    + intros [[_ ->]|[H _]]; auto; lra.
    + intros <-; auto.
    + intros [[H _]|[_ ->]]; auto; lra.
Qed.

Lemma wrong_iff c p : wrong c p = true <-> ~ says (rule_of c) (fst p) (snd p).
Proof.
  destruct c as [[j t] m]. unfold wrong. rewrite negb_true_iff, Z.eqb_neq.
  rewrite (label_says j t m (fst p) (snd p)). reflexivity.
Qed.

Lemma mistakes_count c D n : mistakes (rule_of c) D n <-> n = count (wrong c) D.
Proof.
  assert (H : mistakes (rule_of c) D (count (wrong c) D)) by (apply hm_count; intros; apply wrong_iff).
  split; [intros Hn; eapply hm_unique; eauto|intros ->; auto].
Qed.

Lemma stump_label_pm j t m r : (stump_label j t m r = 1 \/ stump_label j t m r = -1)%Z.
Proof. unfold stump_label. destruct m; [destruct (Rleb _ _)|destruct (Rltb _ _)]; auto. Qed.

Lemma evaluate_eq D j t m : D <> [] -> plus_minus D ->
  evaluate D j t m = INR (count (wrong (j, t, m)) D) / INR (length D).
Proof.
  intros Hne Hpm. unfold evaluate, binary_accuracy. destruct D as [|p D]; [congruence|].
  remember (p :: D) as E eqn:HE.
  assert (Hm : map (fun p => IZR (stump_label j t m (fst p))) E = IZR (stump_label j t m (fst p)) :: map (fun p => IZR (stump_label j t m (fst p))) D) by (subst; auto).
  rewrite Hm. rewrite <- Hm. clear Hm.
  assert (Hc : count (fun q => counted_wrong (fst q) (snd q)) (combine (map (fun p => IZR (stump_label j t m (fst p))) E) (map snd E))
             = count (wrong (j, t, m)) E).
  { clear HE Hne. induction E as [|q E IH]; [reflexivity|]. cbn [map combine]. rewrite !count_cons'.
    rewrite <- (IH (fun p Hp => Hpm p (or_intror Hp))). clear IH. f_equal. cbn [fst snd].
    assert (K : counted_wrong (IZR (stump_label j t m (fst q))) (snd q) = negb (Z.eqb (stump_label j t m (fst q)) (snd q))).
    { specialize (Hpm q (or_introl eq_refl)). unfold counted_wrong, Rltb, Rleb.
      destruct (stump_label_pm j t m (fst q)) as [->| ->], Hpm as [->| ->]; simpl;
      destruct (Rlt_dec _ _), (Rle_dec _ _); simpl; auto; lra. }
    rewrite K. reflexivity. }
  rewrite Hc, map_length.
  assert (INR (length E) <> 0) by (apply not_0_INR; subst; simpl; lia). field. auto.
Qed.

Lemma candidates_In w D j t m : In (j, t, m) (candidates w D) <->
  (j < w)%nat /\ In t (neighbour_midpoints (map (fun p => feat j (fst p)) D)).
Proof.
  unfold candidates. rewrite in_flat_map. split.
  - intros (j' & Hj & H). apply in_seq in Hj. apply in_flat_map in H. destruct H as (m' & _ & H).
    apply in_map_iff in H. destruct H as (t' & E & H). injection E as -> -> ->. split; [lia|auto].
  - intros [Hj Ht]. exists j. split; [apply in_seq; lia|]. apply in_flat_map. exists m. split; [destruct m; simpl; auto|].
    apply in_map_iff. exists t. auto.
Qed.

Definition cand_val D (c : nat * R * division_mode) : option (R * (nat * R * division_mode)) :=
  Some (match c with (j, t, m) => evaluate D j t m end, c).

Lemma stump_fit_pick w D : stump_fit w D =
  match fold_left (pick_step (cand_val D)) (candidates w D) None with None => None | Some (_, c) => Some c end.
Proof. reflexivity. Qed.

Lemma stump_some w D : (1 <= w)%nat -> (2 <= length D)%nat -> exists j t m, stump_fit w D = Some (j, t, m) /\ (j < w)%nat.
Proof.
  intros Hw HD. rewrite stump_fit_pick. pose proof (pick_spec (cand_val D) (candidates w D)) as P.
  destruct (fold_left _ _ None) as [[v [[j t] m]]|].
  - destruct P as [(c & Hc & E) _]. injection E as _ ->. exists j, t, m. split; auto. apply candidates_In in Hc. tauto.
  - exfalso. assert (Hm : neighbour_midpoints (map (fun p => feat 0 (fst p)) D) <> []) by (apply midpoints_nonempty; rewrite map_length; auto).
    destruct (neighbour_midpoints _) as [|t ts] eqn:E; [congruence|].
    assert (Hin : In (0%nat, t, Gte) (candidates w D)) by (apply candidates_In; rewrite E; simpl; split; auto; lia).
    specialize (P _ Hin). discriminate.
Qed.

Lemma frac_le a b n : (0 < n)%nat -> INR a / INR n <= INR b / INR n -> (a <= b)%nat.
Proof.
  intros Hn H. apply INR_le. assert (0 < INR n) by (apply lt_0_INR; auto).
  apply Rmult_le_reg_r with (/ INR n); auto. now apply Rinv_0_lt_compat.
Qed.

Lemma stump_best w D j t m : plus_minus D -> stump_fit w D = Some (j, t, m) ->
  In (j, t, m) (candidates w D) /\
  forall c, In c (candidates w D) -> (count (wrong (j, t, m)) D <= count (wrong c) D)%nat.
Proof.
  intros Hpm H. rewrite stump_fit_pick in H. pose proof (pick_spec (cand_val D) (candidates w D)) as P.
  destruct (fold_left _ _ None) as [[v c]|]; [|discriminate]. injection H as ->.
  destruct P as [(c & Hc & E) P]. injection E as Ev ->. split; auto.
  assert (Hne : D <> []). { intros ->. apply candidates_In in Hc. destruct Hc as [_ Hc]. now rewrite midpoints_few in Hc by (simpl; lia). }
  intros [[j' t'] m'] Hc'. specialize (P _ _ _ Hc' eq_refl). rewrite <- Ev in P.
  rewrite !evaluate_eq in P by auto. eapply frac_le; [|exact P]. destruct D; [congruence|simpl; lia].
Qed.

Lemma stump_main w D j t m : plus_minus D -> stump_fit w D = Some (j, t, m) ->
  (j < w)%nat /\
  forall u, (feature_of u < w)%nat -> separates u D -> forall n n',
    how_many (fun p => exists l, stump_predict (Some (j, t, m)) [fst p] = Ok [l] /\ l <> snd p) D n ->
    mistakes u D n' -> (n <= n')%nat.
Proof.
  intros Hpm H. destruct (stump_best _ _ _ _ _ Hpm H) as [Hin Hbest]. split; [apply candidates_In in Hin; tauto|].
  intros u Hu Hs n n' Hn Hn'.
  assert (En : n = count (wrong (j, t, m)) D).
  { refine (hm_is_count _ _ _ _ _ Hn). intros p _. unfold wrong. rewrite negb_true_iff, Z.eqb_neq. split.
    - intros Hw. exists (stump_label j t m (fst p)). simpl. auto.
    - intros (l & E & Hl). simpl in E. injection E as ->. auto. }
  assert (K : exists c, In c (candidates w D) /\ count (wrong c) D = n').
  { destruct u as [j' t'|j' t']; destruct Hs as [(p & Hp & Hlt) (q & Hq & Hge)]; simpl in Hu;
    destruct (midpoints_separate (map (fun p => feat j' (fst p)) D) t') as (mm & Hmm & He);
    [exists (feat j' (fst p)); split; [now apply (in_map (fun p => feat j' (fst p)))|auto]
    |exists (feat j' (fst q)); split; [now apply (in_map (fun p => feat j' (fst p)))|auto]
    |
    |exists (feat j' (fst p)); split; [now apply (in_map (fun p => feat j' (fst p)))|auto]
    |exists (feat j' (fst q)); split; [now apply (in_map (fun p => feat j' (fst p)))|auto]
    |].
    - exists (j', mm, Gte). split; [apply candidates_In; auto|].
      apply (mistakes_count (j', t', Gte)) in Hn'. subst n'. apply count_ext. intros a Ha.
      specialize (He (feat j' (fst a)) (in_map (fun p => feat j' (fst p)) _ _ Ha)). unfold wrong, stump_label.
      destruct (Rleb mm _) eqn:E1, (Rleb t' _) eqn:E2; auto.
      + apply Rleb_true in E1. apply Rleb_false in E2. apply He in E1. lra.
      + apply Rleb_false in E1. apply Rleb_true in E2. apply He in E2. lra.
    - exists (j', mm, Le). split; [apply candidates_In; auto|].
      apply (mistakes_count (j', t', Le)) in Hn'. subst n'. apply count_ext. intros a Ha.
      specialize (He (feat j' (fst a)) (in_map (fun p => feat j' (fst p)) _ _ Ha)). unfold wrong, stump_label.
      destruct (Rltb _ mm) eqn:E1, (Rltb _ t') eqn:E2; auto.
      + apply Rltb_true in E1. apply Rltb_false in E2. apply He in E2. lra.
      + apply Rltb_false in E1. apply Rltb_true in E2. apply He in E1. lra. }
  destruct K as (c & Hc & <-). subst n. auto.
Qed.

Lemma wrong_flip j t p : (snd p = 1 \/ snd p = -1)%Z -> wrong (j, t, Le) p = negb (wrong (j, t, Gte) p).
Proof.
  intros H. unfold wrong, stump_label.
  destruct (Rltb (feat j (fst p)) t) eqn:E1, (Rleb t (feat j (fst p))) eqn:E2.
  - apply Rltb_true in E1. apply Rleb_true in E2. lra.
  - destruct H as [->| ->]; reflexivity.
  - destruct H as [->| ->]; reflexivity.
  - apply Rltb_false in E1. apply Rleb_false in E2. lra.
Qed.

Lemma stump_half w D j t m n : plus_minus D -> stump_fit w D = Some (j, t, m) ->
  how_many (fun p => exists l, stump_predict (Some (j, t, m)) [fst p] = Ok [l] /\ l <> snd p) D n ->
  (2 * n <= length D)%nat.
Proof.
  intros Hpm H Hn. destruct (stump_best _ _ _ _ _ Hpm H) as [Hin Hbest].
  assert (En : n = count (wrong (j, t, m)) D).
  { refine (hm_is_count _ _ _ _ _ Hn). intros p _. unfold wrong. rewrite negb_true_iff, Z.eqb_neq. split.
    - intros Hw. exists (stump_label j t m (fst p)). simpl. auto.
    - intros (l & E & Hl). simpl in E. injection E as ->. auto. }
  apply candidates_In in Hin.
  assert (H1 := Hbest (j, t, Gte) (proj2 (candidates_In w D j t Gte) Hin)).
  assert (H2 := Hbest (j, t, Le) (proj2 (candidates_In w D j t Le) Hin)).
  rewrite (count_ext (wrong (j, t, Le)) (fun p => negb (wrong (j, t, Gte) p))) in H2
    by (intros; now apply wrong_flip; apply Hpm).
  pose proof (count_negb (wrong (j, t, Gte)) D). lia.
Qed.

Lemma stump_none w D : (w = 0)%nat \/ (length D <= 1)%nat -> stump_fit w D = None.
Proof.
  intros H. rewrite stump_fit_pick. pose proof (pick_spec (cand_val D) (candidates w D)) as P.
  destruct (fold_left _ _ None) as [[v [[j t] m]]|]; auto. destruct P as [(c & Hc & E) _]. injection E as _ ->.
  apply candidates_In in Hc. destruct Hc as [Hj Hc]. destruct H as [->|H]; [lia|].
  rewrite midpoints_few in Hc; [contradiction|]. now rewrite map_length.
Qed.
