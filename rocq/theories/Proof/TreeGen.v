(** Lemmas for C18-C20 and C65: growing trees. *)
From Coq Require Import List ZArith Reals Lra Lia Bool Arith Permutation Sorted String.
From Verif.Model Require Import Base Tree.
From Verif.Spec Require Import Common Tree.
From Verif.Proof Require Import BaseLemmas Impurity Tree.
Import ListNotations.
Local Open Scope R_scope.
Local Notation length := List.length.

(** ** Induction on trees *)
Section TreeInd.
Variable P : tree -> Prop.
Hypothesis HL : forall l, P (Leaf l).
Hypothesis HC : forall j v p n h g l, P g -> P l -> P (Cont j v p n h g l).
Hypothesis HD : forall j v n h kids, (forall a k, In (a, k) kids -> P k) -> P (Disc j v n h kids).
Fixpoint tree_ind' (t : tree) : P t :=
  match t with
  | Leaf l => HL l
  | Cont j v p n h g l => HC j v p n h g l (tree_ind' g) (tree_ind' l)
  | Disc j v n h kids => HD j v n h kids
      ((fix go (ks : list (cell * tree)) : forall a k, In (a, k) ks -> P k :=
          match ks return forall a k, In (a, k) ks -> P k with
          | [] => fun a k H => match H with end
          | (b, k0) :: ks' => fun a k H =>
              match H with
              | or_introl E => eq_ind k0 P (tree_ind' k0) k (f_equal snd E)
              | or_intror H' => go ks' a k H'
              end
          end) kids)
  end.
End TreeInd.

(** ** Prediction at a discrete node *)
Lemma predict_disc j v n h kids r :
  predict (Disc j v n h kids) r =
  (a <- get_at r j ;; match kid kids a with None => Err KeyError | Some k => predict k r end).
Proof.
  simpl. destruct (get_at r j) as [a|e]; simpl; auto.
  induction kids as [|[b k] kids IH]; simpl; auto. destruct (cell_eq_dec a b); auto.
Qed.

Lemma kid_In {A} (kids : list (cell * A)) a k : kid kids a = Some k -> In (a, k) kids.
Proof.
  induction kids as [|[b k'] kids IH]; simpl; [discriminate|]. destruct (cell_eq_dec a b) as [->|]; auto.
  intros E. injection E as ->. auto.
Qed.
Lemma kid_None {A} (kids : list (cell * A)) a : kid kids a = None <-> ~ In a (map fst kids).
Proof.
  induction kids as [|[b k'] kids IH]; simpl; [tauto|]. destruct (cell_eq_dec a b) as [->|Hne].
  - split; [discriminate|]. intros H. exfalso. auto.
  - rewrite IH. split; [intros H [E|H']; auto; congruence|]. intros H H'. auto.
Qed.

Lemma get_at_cell r j w : length r = w -> (j < w)%nat -> get_at r j = Ok (cell_at j r).
Proof.
  intros Hl Hj. unfold get_at, cell_at. destruct (nth_error r j) eqn:E.
  - f_equal. symmetry. now apply nth_error_nth.
  - apply nth_error_None in E. lia.
Qed.

Lemma rows_equal w (r r' : row) : length r = w -> length r' = w ->
  (forall j, (j < w)%nat -> cell_at j r = cell_at j r') -> r = r'.
Proof.
  intros H1 H2 H. apply nth_ext with (d := Txt EmptyString) (d' := Txt EmptyString); [congruence|].
  intros j Hj. apply H. lia.
Qed.

Lemma filter_length_lt {A} (f : A -> bool) l a : In a l -> f a = false -> (length (filter f l) < length l)%nat.
Proof.
  intros Ha Hf. pose proof (filter_partition f l) as H.
  assert (Hin : In a (filter (fun x => negb (f x)) l)) by (apply filter_In; rewrite Hf; auto).
  destruct (filter (fun x => negb (f x)) l); [contradiction|simpl in H; lia].
Qed.
Lemma filter_length_le {A} (f : A -> bool) l : (length (filter f l) <= length l)%nat.
Proof. pose proof (filter_partition f l). lia. Qed.

Lemma filter_nonempty {A} (f : A -> bool) l a : In a l -> f a = true -> filter f l <> [].
Proof. intros H1 H2 E. assert (H : In a []) by (rewrite <- E; now apply filter_In). contradiction. Qed.

Lemma nodup_one y : length (nodup Z.eq_dec y) = 1%nat <-> exists l, y <> [] /\ forall z, In z y -> z = l.
Proof.
  split.
  - intros H. destruct (nodup Z.eq_dec y) as [|l [|]] eqn:E; simpl in H; try lia. exists l. split.
    + intros ->. discriminate.
    + intros z Hz. apply (nodup_In Z.eq_dec) in Hz. rewrite E in Hz. destruct Hz as [<-|[]]; auto.
  - intros (l & Hne & Hall). pose proof (NoDup_nodup Z.eq_dec y) as Hn.
    assert (Hl : forall z, In z (nodup Z.eq_dec y) -> z = l) by (intros z Hz; apply nodup_In in Hz; auto).
    destruct (nodup Z.eq_dec y) as [|a [|b t]] eqn:E; simpl; auto.
    + destruct y as [|z y]; [congruence|]. assert (In z (nodup Z.eq_dec (z :: y))) by (apply nodup_In; simpl; auto).
      rewrite E in H. contradiction.
    + exfalso. inversion Hn as [|? ? Hna]; subst. apply Hna. rewrite (Hl a), (Hl b); simpl; auto.
Qed.

Lemma In_remove j j' (cols : list nat) : In j' (remove Nat.eq_dec j cols) <-> In j' cols /\ j' <> j.
Proof. split; [apply in_remove|intros [H1 H2]; now apply in_in_remove]. Qed.

Lemma remove_shorter j (cols : list nat) : In j cols -> (length (remove Nat.eq_dec j cols) < length cols)%nat.
Proof. apply remove_length_lt. Qed.

Lemma optimal_none c X D cols : optimal_division c X D cols = None -> forall j, In j cols -> attribute_value c X D j = None.
Proof.
  unfold optimal_division.
  set (step := fun best j => match attribute_value c X D j with
    | None => best
    | Some (v, t) => match best with
        | None => Some (j, (v, t))
        | Some (_, (v0, _)) => if better c v v0 then Some (j, (v, t)) else best
        end
    end).
  assert (G : forall cols best, fold_left step cols best = None ->
              best = None /\ forall j, In j cols -> attribute_value c X D j = None).
  { clear. induction cols as [|j cols IH]; simpl; intros best H; [split; auto; contradiction|].
    destruct (IH _ H) as [H1 H2]. unfold step in H1.
    destruct (attribute_value c X D j) as [[v t]|] eqn:E.
    - destruct best as [[j0 [v0 t0]]|]; [destruct (better c v v0)|]; discriminate.
    - split; auto. intros j' [<-|Hj]; auto. }
  intros H. apply (G _ _ H).
Qed.

Lemma Forall2_In_r {A B} (P : A -> B -> Prop) l r b : Forall2 P l r -> In b r -> exists a, In a l /\ P a b.
Proof.
  induction 1 as [|x y l r Hp _ IH]; simpl; [contradiction|]. intros [->|Hin]; [exists x; auto|].
  destruct (IH Hin) as (a & Ha & Hp'). exists a. auto.
Qed.

Section Gen.
Variable top : list Z -> Z.
Variable rnd : R -> R.
Variable c : criterion.
Variable X : list row.
Notation gen := (generate top rnd c X).

Definition part_ge t j (D : list (row * Z)) := filter (fun p => cell_ge t (cell_at j (fst p))) D.
Definition part_lt t j (D : list (row * Z)) := filter (fun p => cell_lt t (cell_at j (fst p))) D.
Definition part_eq j a (D : list (row * Z)) :=
  filter (fun p => if cell_eq_dec (cell_at j (fst p)) a then true else false) D.

Lemma part_eq_In j a D p : In p (part_eq j a D) <-> In p D /\ cell_at j (fst p) = a.
Proof. unfold part_eq. rewrite filter_In. destruct (cell_eq_dec (cell_at j (fst p)) a); intuition congruence. Qed.

(** How a call that succeeds went. *)
Inductive grown (f : nat) (e : bool) (cols : list nat) (D : list (row * Z)) : tree -> Prop :=
| grown_pure l : D <> [] -> (forall p, In p D -> snd p = l) -> grown f e cols D (Leaf l)
| grown_top : D <> [] -> e = true \/ cols = [] ->
    ~ (exists l, forall p, In p D -> snd p = l) -> grown f e cols D (Leaf (top (map snd D)))
| grown_cont j v t0 g l : e = false -> D <> [] ->
    optimal_division c X D cols = Some (j, (v, Some t0)) ->
    gen f false cols (part_ge (rnd t0) j D) = Ok g ->
    gen f false cols (part_lt (rnd t0) j D) = Ok l ->
    grown f e cols D (Cont j v (rnd t0) (num_of_leaves g + num_of_leaves l) (height g + height l + 1)%Z g l)
| grown_disc j v kids : e = false -> D <> [] ->
    optimal_division c X D cols = Some (j, (v, None)) ->
    Forall2 (fun a k => fst k = a /\
      ((part_eq j a D = [] /\ gen f true (remove Nat.eq_dec j cols) D = Ok (snd k)) \/
       (part_eq j a D <> [] /\ gen f false (remove Nat.eq_dec j cols) (part_eq j a D) = Ok (snd k))))
      (pd_unique cell_eq_dec (map (cell_at j) X)) kids ->
    grown f e cols D (Disc j v (fold_left (fun n k => n + num_of_leaves (snd k))%nat kids 0%nat)
      (fold_left (fun m k => if (m <? height (snd k))%Z then height (snd k) else m) kids (-1) + 1)%Z kids).

Lemma generate_step f e cols D t : gen (S f) e cols D = Ok t -> grown f e cols D t.
Proof.
  cbn [generate]. destruct (length (nodup Z.eq_dec (map snd D)) =? 1)%nat eqn:E1.
  - apply Nat.eqb_eq in E1. apply nodup_one in E1. destruct E1 as (l & Hne & Hall).
    destruct D as [|p D]; [simpl in Hne; congruence|]. simpl. intros H. injection H as <-.
    assert (Hl : snd p = l) by (apply Hall; simpl; auto). rewrite Hl. apply grown_pure; [discriminate|].
    intros q Hq. apply Hall. now apply in_map.
  - apply Nat.eqb_neq in E1.
    assert (Hns : D <> [] -> ~ exists l, forall p, In p D -> snd p = l).
    { intros Hne (l & Hl). apply E1. apply nodup_one. exists l. split.
      - intros H. apply map_eq_nil in H. auto.
      - intros z Hz. apply in_map_iff in Hz. destruct Hz as (p & <- & Hp). auto. }
    destruct (e || (length cols =? 0)%nat || (length D =? 0)%nat) eqn:E2.
    + intros H. apply bind_Ok in H. destruct H as (l & Hl & H). injection H as <-.
      destruct D as [|p D]; [discriminate|]. simpl in Hl. injection Hl as <-.
      assert (Hne : p :: D <> []) by discriminate.
      apply (grown_top f e cols (p :: D) Hne); auto.
      apply orb_true_iff in E2. destruct E2 as [E2|E2]; [|discriminate].
      apply orb_true_iff in E2. destruct E2 as [->|E2]; auto. right. apply Nat.eqb_eq in E2. now destruct cols.
    + apply orb_false_iff in E2. destruct E2 as [E2 E3]. apply orb_false_iff in E2. destruct E2 as [He Hc].
      assert (Hne : D <> []) by (intros ->; discriminate).
      destruct (optimal_division c X D cols) as [[j [v [t0|]]]|] eqn:Eo; [| |discriminate].
      * intros H. apply bind_Ok in H. destruct H as (g & Hg & H). apply bind_Ok in H. destruct H as (l & Hl & H).
        injection H as <-. apply (grown_cont f e cols D j v t0 g l); auto.
      * intros H. apply bind_Ok in H. destruct H as (kids & Hk & H). injection H as <-.
        apply grown_disc; auto. apply mapM_Ok in Hk. revert Hk. apply Forall2_impl. intros a k Hk.
        change (filter _ D) with (part_eq j a D) in Hk.
        destruct (part_eq j a D) as [|p q] eqn:Ep; simpl in Hk; apply bind_Ok in Hk; destruct Hk as (s & Hs & Ek);
          injection Ek as <-; simpl; split; auto. right. split; auto. discriminate.
Qed.

Lemma part_sub (f : row * Z -> bool) (D : list (row * Z)) p : In p (filter f D) -> In p D.
Proof. intros H. apply filter_In in H. tauto. Qed.

(** ** C20: predictions are training labels *)
Lemma generate_labels (Htop : forall y, y <> [] -> In (top y) y) : forall f e cols D t r l,
  gen f e cols D = Ok t -> predict t r = Ok l -> In l (map snd D).
Proof.
  induction f as [|f IH]; intros e cols D t r l H Hp; [discriminate|].
  apply generate_step in H. inversion H; subst.
  - simpl in Hp. injection Hp as <-. destruct D as [|p D]; [congruence|].
    rewrite <- (H1 p) by (simpl; auto). simpl; auto.
  - simpl in Hp. injection Hp as <-. apply Htop. intros E. apply map_eq_nil in E. auto.
  - simpl in Hp. apply bind_Ok in Hp. destruct Hp as (a & _ & Hp). destruct a as [x|]; [|discriminate].
    assert (Hs : forall q, In l (map snd (filter q D)) -> In l (map snd D)).
    { intros q Hq. apply in_map_iff in Hq. destruct Hq as (p & <- & Hq). apply in_map. eapply part_sub; eauto. }
    destruct (Rleb (rnd t0) x); [apply (Hs (fun p => cell_ge (rnd t0) (cell_at j (fst p))))|apply (Hs (fun p => cell_lt (rnd t0) (cell_at j (fst p))))];
      eapply IH; eauto.
  - rewrite predict_disc in Hp. apply bind_Ok in Hp. destruct Hp as (a & _ & Hp).
    destruct (kid kids a) as [k|] eqn:Ek; [|discriminate]. apply kid_In in Ek.
    destruct (Forall2_In_r _ _ _ _ H3 Ek) as (b & _ & _ & [[_ Hk]|[_ Hk]]); simpl in Hk.
    + eapply IH; eauto.
    + assert (Hin : In l (map snd (part_eq j b D))) by (eapply IH; eauto).
      apply in_map_iff in Hin. destruct Hin as (p & <- & Hin). apply in_map. eapply part_sub; eauto.
Qed.

(** ** The continuous split separates *)
Lemma cont_split D j v t0 : D <> [] -> (forall p, In p D -> In (fst p) X) -> keeps_sides rnd D ->
  attribute_value c X D j = Some (v, Some t0) ->
  (forall r, In r X -> exists x, cell_at j r = Num x) /\
  exists p q, In p D /\ In q D /\ cell_ge (rnd t0) (cell_at j (fst p)) = true /\ cell_ge (rnd t0) (cell_at j (fst q)) = false /\
    cell_lt (rnd t0) (cell_at j (fst q)) = true /\ cell_lt (rnd t0) (cell_at j (fst p)) = false.
Proof.
  intros Hne HX Hr. unfold attribute_value. destruct (is_continuous X (map fst D) j) eqn:Ec; [|discriminate].
  destruct (is_continuous_spec X D j Ec HX) as [Hnum _].
  destruct (get_value_continuous _ _) as [[v' t']|] eqn:G; [|discriminate]. intros H. injection H as _ ->.
  destruct (get_value_continuous_spec _ _ _ _ G) as (_ & (a & b & Ha & Hb & Hab & Ht & _) & _).
  rewrite map_map in Ha, Hb. simpl in Ha, Hb. apply in_map_iff in Ha, Hb.
  destruct Ha as (q & Ea & Hq), Hb as (p & Eb & Hp). split; auto.
  destruct (Hnum _ (HX q Hq)) as (x & Ex). destruct (Hnum _ (HX p Hp)) as (y & Ey).
  rewrite Ex in Ea. rewrite Ey in Eb. simpl in Ea, Eb. subst x y.
  exists p, q. rewrite Ex, Ey. simpl.
  destruct q as [rq lq], p as [rp lp]. simpl in *.
  destruct (Hr j rq lq rp lp a b Hq Hp Ex Ey Hab) as [R1 R2]. rewrite <- Ht in R1, R2.
  split; auto. split; auto. rewrite !Rleb_true, !Rltb_true, Rleb_false, Rltb_false. lra.
Qed.

Lemma keeps_sides_sub D D' : (forall p, In p D' -> In p D) -> keeps_sides rnd D -> keeps_sides rnd D'.
Proof. intros Hs H j r1 l1 r2 l2 a b H1 H2. apply H with (l1 := l1) (l2 := l2); auto. Qed.

Lemma none_agree D j : D <> [] -> (forall p, In p D -> In (fst p) X) -> attribute_value c X D j = None ->
  forall p q, In p D -> In q D -> cell_at j (fst p) = cell_at j (fst q).
Proof.
  intros Hne HX. unfold attribute_value. destruct (is_continuous X (map fst D) j) eqn:Ec; [|discriminate].
  destruct (is_continuous_spec X D j Ec HX) as [Hnum _].
  destruct (get_value_continuous _ _) as [[v' t']|] eqn:G; [discriminate|]. intros _ p q Hp Hq.
  pose proof (proj1 (get_value_continuous_none _ _) G (num_of (cell_at j (fst p)), snd p) (num_of (cell_at j (fst q)), snd q)) as H.
  simpl in H. destruct (Hnum _ (HX p Hp)) as (x & Ex). destruct (Hnum _ (HX q Hq)) as (y & Ey).
  rewrite Ex, Ey in *. simpl in H. rewrite H; auto; apply in_map_iff; [exists p|exists q]; rewrite ?Ex, ?Ey; auto.
Qed.

Variable w : nat.

(** The rows agree on the columns already used. *)
Definition agree (cols : list nat) (D : list (row * Z)) : Prop :=
  forall p q j, In p D -> In q D -> (j < w)%nat -> ~ In j cols -> cell_at j (fst p) = cell_at j (fst q).

Record node (cols : list nat) (D : list (row * Z)) : Prop := {
  node_ne : D <> [];
  node_X : forall p, In p D -> In (fst p) X;
  node_w : rectangular w D;
  node_cols : forall j, In j cols -> (j < w)%nat;
  node_agree : agree cols D;
  node_rnd : keeps_sides rnd D
}.

Lemma node_sub cols D D' : node cols D -> (forall p, In p D' -> In p D) -> D' <> [] -> node cols D'.
Proof.
  intros [H1 H2 H3 H4 H5 H6] Hs Hne. constructor; auto.
  - intros r l H. eapply H3; eauto.
  - intros p q j Hp Hq. apply H5; auto.
  - eapply keeps_sides_sub; eauto.
Qed.

Lemma node_part cols D j a : node cols D -> In j cols -> part_eq j a D <> [] -> node (remove Nat.eq_dec j cols) (part_eq j a D).
Proof.
  intros N Hj Hne. destruct (node_sub cols D (part_eq j a D) N) as [H1 H2 H3 H4 H5 H6]; auto.
  { intros p Hp. now apply part_eq_In in Hp. }
  constructor; auto.
  - intros j' Hj'. apply In_remove in Hj'. apply H4. tauto.
  - intros p q j' Hp Hq Hjw Hn. destruct (Nat.eq_dec j' j) as [->|Hne'].
    + apply part_eq_In in Hp, Hq. destruct Hp, Hq. congruence.
    + apply H5; auto. intros Hc. apply Hn. apply In_remove. auto.
Qed.

Lemma agree_all_conflict cols D : node cols D ->
  (forall j, In j cols -> forall p q, In p D -> In q D -> cell_at j (fst p) = cell_at j (fst q)) ->
  ~ (exists l, forall p, In p D -> snd p = l) -> ~ consistent D.
Proof.
  intros [H1 H2 H3 H4 H5 H6] Ha Hns Hc. destruct D as [|[r0 l0] D]; [congruence|].
  apply Hns. exists l0. intros [r l] Hp. simpl.
  assert (E : r = r0).
  { apply (rows_equal w); [eapply H3; eauto|eapply H3; simpl; eauto|]. intros j Hj.
    destruct (in_dec Nat.eq_dec j cols) as [Hin|Hn].
    - apply (Ha j Hin (r, l) (r0, l0)); simpl; auto.
    - apply (H5 (r, l) (r0, l0) j); simpl; auto. }
  subst r. apply (Hc r0 l l0); simpl; auto.
Qed.

Lemma mapM_outcome {A B} (f : A -> result B) e l :
  (forall a, In a l -> (exists b, f a = Ok b) \/ f a = Err e) ->
  (exists bs, mapM f l = Ok bs) \/ (mapM f l = Err e /\ exists a, In a l /\ f a = Err e).
Proof.
  induction l as [|a l IH]; intros H; simpl; [left; eauto|].
  destruct (H a (or_introl eq_refl)) as [(b & Eb)|Ee].
  - rewrite Eb. simpl. destruct IH as [(bs & E)|(E & a' & Ha & Ea)].
    + intros a' Ha'. apply H. simpl; auto.
    + rewrite E. simpl. left; eauto.
    + rewrite E. simpl. right. split; auto. exists a'. split; auto.
  - rewrite Ee. simpl. right. split; auto. exists a. auto.
Qed.

(** Growth ends; the only possible exception needs contradictory rows. *)
Lemma generate_total : forall f cols D, (length D + length cols < f)%nat -> node cols D ->
  (exists t, gen f false cols D = Ok t) \/ (gen f false cols D = Err ValueError /\ ~ consistent D).
Proof.
  induction f as [|f IH]; intros cols D Hf N; [lia|].
  pose proof (node_ne _ _ N) as Hne.
  cbn [generate]. destruct (length (nodup Z.eq_dec (map snd D)) =? 1)%nat eqn:E1.
  { left. destruct D as [|p D]; [congruence|]. simpl. eauto. }
  apply Nat.eqb_neq in E1.
  assert (Hns : ~ exists l, forall p, In p D -> snd p = l).
  { intros (l & Hl). apply E1. apply nodup_one. exists l. split.
    - intros H. apply map_eq_nil in H. auto.
    - intros z Hz. apply in_map_iff in Hz. destruct Hz as (p & <- & Hp). auto. }
  destruct (false || (length cols =? 0)%nat || (length D =? 0)%nat) eqn:E2.
  { left. destruct D as [|p D]; [congruence|]. simpl. eauto. }
  destruct (optimal_division c X D cols) as [[j [v pt]]|] eqn:Eo.
  - pose proof (optimal_division_spec c X D cols Hne (node_X _ _ N)) as Hspec. rewrite Eo in Hspec.
    destruct Hspec as (Hj & Ha & _).
    assert (Hc : consistent D -> forall D', (forall p, In p D' -> In p D) -> consistent D').
    { intros HC D' Hs r l l' H1 H2. eapply HC; eauto. }
    destruct pt as [t0|].
    + destruct (cont_split D j v t0 Hne (node_X _ _ N) (node_rnd _ _ N) Ha) as (_ & p & q & Hp & Hq & G1 & G2 & L1 & L2).
      fold (part_ge (rnd t0) j D) (part_lt (rnd t0) j D).
      assert (Sg : forall z, In z (part_ge (rnd t0) j D) -> In z D) by (intros z; apply part_sub).
      assert (Sl : forall z, In z (part_lt (rnd t0) j D) -> In z D) by (intros z; apply part_sub).
      destruct (IH cols (part_ge (rnd t0) j D)) as [(g & Eg)|(Eg & Hcon)].
      * pose proof (filter_length_lt (fun p => cell_ge (rnd t0) (cell_at j (fst p))) D q Hq G2). unfold part_ge. lia.
      * apply (node_sub cols D); auto. eapply filter_nonempty; [exact Hp|auto].
      * rewrite Eg. simpl. destruct (IH cols (part_lt (rnd t0) j D)) as [(l & El)|(El & Hcon)].
        -- pose proof (filter_length_lt (fun p => cell_lt (rnd t0) (cell_at j (fst p))) D p Hp L2). unfold part_lt. lia.
        -- apply (node_sub cols D); auto. eapply filter_nonempty; [exact Hq|auto].
        -- rewrite El. simpl. left; eauto.
        -- rewrite El. simpl. right. split; auto.
      * rewrite Eg. simpl. right. split; auto.
    + set (cols' := remove Nat.eq_dec j cols).
      assert (Hlen : (length cols' < length cols)%nat) by now apply remove_shorter.
      destruct (mapM_outcome (fun a =>
              let Da := filter (fun p => if cell_eq_dec (cell_at j (fst p)) a then true else false) D in
              k <- (if (length Da =? 0)%nat then gen f true cols' D else gen f false cols' Da) ;;
              Ok (a, k)) ValueError (pd_unique cell_eq_dec (map (cell_at j) X))) as [(bs & E)|(E & a & Ha' & Ea)].
      * intros a _. cbv zeta. fold (part_eq j a D).
        destruct (part_eq j a D) as [|p0 D0] eqn:Ep.
        -- simpl. left. destruct f as [|f']; [lia|]. cbn [generate].
           apply Nat.eqb_neq in E1. rewrite E1. simpl. destruct D as [|p D]; [congruence|]. simpl. eauto.
        -- rewrite <- Ep. assert (Hpe : part_eq j a D <> []) by (rewrite Ep; discriminate).
           replace (length (part_eq j a D) =? 0)%nat with false by (rewrite Ep; reflexivity).
           destruct (IH cols' (part_eq j a D)) as [(k & Ek)|(Ek & _)].
           ++ pose proof (filter_length_le (fun p => if cell_eq_dec (cell_at j (fst p)) a then true else false) D). unfold part_eq. lia.
           ++ apply node_part; auto.
           ++ rewrite Ek. simpl. left; eauto.
           ++ rewrite Ek. simpl. auto.
      * left. cbv zeta in E. rewrite E. simpl. eauto.
      * right. cbv zeta in E. rewrite E. simpl. split; auto. intros HC. cbv zeta in Ea. fold (part_eq j a D) in Ea.
        destruct (part_eq j a D) as [|p0 D0] eqn:Ep.
        -- simpl in Ea. destruct f as [|f']; [lia|]. cbn [generate] in Ea.
           apply Nat.eqb_neq in E1. rewrite E1 in Ea. simpl in Ea. destruct D as [|p D]; [congruence|]. discriminate.
        -- rewrite <- Ep in Ea. assert (Hpe : part_eq j a D <> []) by (rewrite Ep; discriminate).
           replace (length (part_eq j a D) =? 0)%nat with false in Ea by (rewrite Ep; reflexivity).
           destruct (IH cols' (part_eq j a D)) as [(k & Ek)|(Ek & Hcon)].
           ++ pose proof (filter_length_le (fun p => if cell_eq_dec (cell_at j (fst p)) a then true else false) D). unfold part_eq. lia.
           ++ apply node_part; auto.
           ++ rewrite Ek in Ea. discriminate.
           ++ apply Hcon. apply Hc; auto. intros p Hp. now apply part_eq_In in Hp.
  - right. split; auto. apply (agree_all_conflict cols D N); auto. intros j Hj.
    apply (none_agree D j Hne (node_X _ _ N)). eapply optimal_none; eauto.
Qed.

(** C18: the training rows come back. *)
Lemma generate_correct : forall f cols D t, node cols D -> consistent D -> gen f false cols D = Ok t ->
  forall r l, In (r, l) D -> predict t r = Ok l.
Proof.
  induction f as [|f IH]; intros cols D t N HC H r l Hin; [discriminate|].
  assert (Hc : forall D', (forall p, In p D' -> In p D) -> consistent D').
  { intros D' Hs r' l1 l2 H1 H2. eapply HC; eauto. }
  pose proof (node_w _ _ N r l Hin) as Hw.
  apply generate_step in H. inversion H; subst.
  - simpl. f_equal. symmetry. apply (H1 (r, l) Hin).
  - exfalso. destruct H1 as [|Hcols]; [discriminate|]. subst cols.
    apply (agree_all_conflict [] D N); auto. intros j [].
  - pose proof (optimal_division_spec c X D cols H1 (node_X _ _ N)) as Hspec. rewrite H2 in Hspec.
    destruct Hspec as (Hj & Ha & _).
    destruct (cont_split D j v t0 H1 (node_X _ _ N) (node_rnd _ _ N) Ha) as (Hnum & p & q & Hp & Hq & G1 & G2 & L1 & L2).
    simpl. rewrite (get_at_cell r j w Hw (node_cols _ _ N j Hj)). simpl.
    destruct (Hnum r (node_X _ _ N _ Hin)) as (x & Ex). rewrite Ex.
    destruct (Rleb (rnd t0) x) eqn:E.
    + apply (IH cols (part_ge (rnd t0) j D)); auto.
      * apply (node_sub cols D); auto; [intros z; apply part_sub|first [eapply filter_nonempty; [exact Hp|now auto]|eapply filter_nonempty; [exact Hq|now auto]]].
      * apply Hc. intros z; apply part_sub.
      * apply filter_In. simpl. rewrite Ex. auto.
    + apply (IH cols (part_lt (rnd t0) j D)); auto.
      * apply (node_sub cols D); auto; [intros z; apply part_sub|first [eapply filter_nonempty; [exact Hp|now auto]|eapply filter_nonempty; [exact Hq|now auto]]].
      * apply Hc. intros z; apply part_sub.
      * apply filter_In. simpl. rewrite Ex. split; auto. simpl. rewrite Rltb_true. now apply Rleb_false in E.
  - pose proof (optimal_division_spec c X D cols H1 (node_X _ _ N)) as Hspec. rewrite H2 in Hspec.
    destruct Hspec as (Hj & _). rewrite predict_disc.
    rewrite (get_at_cell r j w Hw (node_cols _ _ N j Hj)). simpl.
    set (a := cell_at j r). destruct (kid kids a) as [k|] eqn:Ek.
    + apply kid_In in Ek. destruct (Forall2_In_r _ _ _ _ H3 Ek) as (b & _ & Ef & Hk). simpl in Ef, Hk. subst b.
      assert (Hin' : In (r, l) (part_eq j a D)) by (apply part_eq_In; auto).
      destruct Hk as [[Hk _]|[Hk Hg]]; [rewrite Hk in Hin'; contradiction|].
      apply (IH (remove Nat.eq_dec j cols) (part_eq j a D)); auto.
      * apply node_part; auto.
      * apply Hc. intros z Hz. now apply part_eq_In in Hz.
    + exfalso. apply kid_None in Ek. apply Ek. assert (Hmap : map fst kids = pd_unique cell_eq_dec (map (cell_at j) X)).
      { clear -H3. induction H3 as [|b k l1 l2 [E _] _ IHl]; simpl; auto. congruence. }
      rewrite Hmap, pd_unique_In. apply in_map. apply (node_X _ _ N _ Hin).
Qed.

(** ** C19: reported numbers *)
Definition node_counts (s : tree) : Prop :=
  num_of_leaves s = leaf_count s /\
  match s with
  | Leaf _ => True
  | Cont _ _ _ _ h g l => h = (height g + height l + 1)%Z
  | Disc _ _ _ h kids => (forall a k, In (a, k) kids -> (height k < h)%Z) /\
      (exists a k, In (a, k) kids /\ (height k + 1 = h)%Z)
  end.

Lemma fold_leaves (kids : list (cell * tree)) n :
  (forall a k, In (a, k) kids -> num_of_leaves k = leaf_count k) ->
  fold_left (fun n k => n + num_of_leaves (snd k))%nat kids n = (n + list_sum (map (fun k => leaf_count (snd k)) kids))%nat.
Proof.
  revert n; induction kids as [|[a k] kids IH]; intros n H; simpl; [lia|].
  rewrite IH by (intros; apply (H a0); simpl; auto). simpl. rewrite (H a k) by (simpl; auto). lia.
Qed.

Lemma fold_height (kids : list (cell * tree)) : forall m, 
  let r := fold_left (fun m k => if (m <? height (snd k))%Z then height (snd k) else m) kids m in
  (m <= r)%Z /\ (forall a k, In (a, k) kids -> (height k <= r)%Z) /\ (r = m \/ exists a k, In (a, k) kids /\ height k = r).
Proof.
  induction kids as [|[a k] kids IH]; intros m; simpl.
  - split; [lia|]. split; auto. contradiction.
  - set (m' := if (m <? height k)%Z then height k else m).
    destruct (IH m') as (H1 & H2 & H3). fold m' in H1, H2, H3.
    assert (Hm : (m <= m')%Z /\ (height k <= m')%Z /\ (m' = m \/ m' = height k)).
    { unfold m'. destruct (Z.ltb_spec m (height k)); lia. }
    split; [lia|]. split.
    + intros b k' [E|Hin]; [injection E as <- <-; lia|]. apply (H2 b k' Hin).
    + destruct H3 as [H3|(b & k' & Hin & E)].
      * rewrite H3. destruct Hm as (_ & _ & [->| ->]); auto. right. exists a, k. auto.
      * right. exists b, k'. auto.
Qed.

Lemma grown_counts : X <> [] -> forall f e cols D t, gen f e cols D = Ok t -> forall s, subtree s t -> node_counts s /\ (0 <= height s)%Z.
Proof.
  intros HX0. induction f as [|f IH]; intros e cols D t H s Hs; [discriminate|].
  apply generate_step in H. inversion H; subst.
  - inversion Hs; subst. split; [split; simpl; auto|simpl; lia].
  - inversion Hs; subst. split; [split; simpl; auto|simpl; lia].
  - inversion Hs as [|s' ? ? ? ? ? ? ? Hs'|s' ? ? ? ? ? ? ? Hs'|]; subst; [|apply (IH _ _ _ _ H3 _ Hs')|apply (IH _ _ _ _ H4 _ Hs')].
    destruct (IH _ _ _ _ H3 g (sub_refl g)) as [[E1 _] P1]. destruct (IH _ _ _ _ H4 l (sub_refl l)) as [[E2 _] P2].
    split; [split; simpl; [congruence|auto]|simpl; lia].
  - assert (Hk : forall a k s', In (a, k) kids -> subtree s' k -> node_counts s' /\ (0 <= height s')%Z).
    { intros a k s' Hin Hs'. destruct (Forall2_In_r _ _ _ _ H3 Hin) as (b & _ & _ & [[_ Hg]|[_ Hg]]); eapply IH; eauto. }
    inversion Hs; subst; [|eapply Hk; eauto].
    destruct (fold_height kids (-1)) as (F1 & F2 & F3). cbv zeta in F1, F2, F3. split; [split|].
    + simpl. rewrite fold_leaves; auto. intros a k Hin. apply (Hk a k k Hin (sub_refl k)).
    + split.
      * intros a k Hin. specialize (F2 a k Hin). lia.
      * destruct F3 as [F3|(a & k & Hin & E)]; [|exists a, k; rewrite E; auto].
        destruct kids as [|[a k] kids'].
        { exfalso. destruct X as [|r0 X']; [congruence|]. apply Forall2_length in H3. simpl in H3.
          assert (Hin : In (cell_at j r0) (pd_unique cell_eq_dec (map (cell_at j) (r0 :: X')))) by (apply pd_unique_In; simpl; auto).
          simpl in Hin. destruct (pd_unique cell_eq_dec (cell_at j r0 :: map (cell_at j) X')); [contradiction|discriminate]. }
        exfalso.
        specialize (F2 a k (or_introl eq_refl)). destruct (Hk a k k (or_introl eq_refl) (sub_refl k)) as [_ Hp]. lia.
    + simpl. lia.
Qed.

End Gen.

Lemma list_max_in (l : list nat) : l <> [] -> In (list_max l) l.
Proof.
  induction l as [|a l IH]; [congruence|]. intros _. destruct l as [|b l]; [left; simpl; lia|].
  change (list_max (a :: b :: l)) with (Nat.max a (list_max (b :: l))).
  destruct (Nat.max_spec a (list_max (b :: l))) as [[_ ->]|[_ ->]]; [right; apply IH; discriminate|left; auto].
Qed.
Lemma list_max_ge (l : list nat) x : In x l -> (x <= list_max l)%nat.
Proof.
  induction l as [|a l IH]; simpl; [contradiction|]. intros [->|H]; [lia|]. specialize (IH H). lia.
Qed.

Lemma depth_le_height t : (forall s, subtree s t -> node_counts s /\ (0 <= height s)%Z) -> (Z.of_nat (depth t) <= height t)%Z.
Proof.
  induction t as [l|j v p n h g l IHg IHl|j v n h kids IHk] using tree_ind'; intros H.
  - simpl. lia.
  - destruct (H _ (sub_refl _)) as [[_ E] _]. assert (Hg := IHg (fun s Hs => H s (sub_ge _ _ _ _ _ _ _ _ Hs))).
    assert (Hl := IHl (fun s Hs => H s (sub_lt _ _ _ _ _ _ _ _ Hs))).
    destruct (H g (sub_ge _ _ _ _ _ _ _ _ (sub_refl g))) as [_ P1]. destruct (H l (sub_lt _ _ _ _ _ _ _ _ (sub_refl l))) as [_ P2].
    simpl depth. simpl height. rewrite E. lia.
  - destruct (H _ (sub_refl _)) as [[_ [E1 (a0 & k0 & Hk0 & _)]] P]. simpl depth. simpl height in *.
    assert (Hne : map (fun k => depth (snd k)) kids <> []) by (destruct kids; [contradiction|discriminate]).
    pose proof (list_max_in _ Hne) as Hin. apply in_map_iff in Hin. destruct Hin as ([a k] & Ek & Hin).
    rewrite <- Ek. simpl. specialize (E1 a k Hin).
    assert (Hd := IHk a k Hin (fun s Hs => H s (sub_kid _ _ _ _ _ _ _ _ Hin Hs))). lia.
Qed.

Lemma depth_eq_height t : (forall s, subtree s t -> node_counts s /\ (0 <= height s)%Z) ->
  (forall s, subtree s t -> ~ is_cont s) -> height t = Z.of_nat (depth t).
Proof.
  induction t as [l|j v p n h g l IHg IHl|j v n h kids IHk] using tree_ind'; intros H Hc.
  - reflexivity.
  - exfalso. apply (Hc _ (sub_refl _)). exact I.
  - assert (Hk : forall a k, In (a, k) kids -> height k = Z.of_nat (depth k)).
    { intros a k Hin. apply (IHk a k Hin); intros s Hs; [apply H|apply Hc]; eapply sub_kid; eauto. }
    destruct (H _ (sub_refl _)) as [[_ [E1 (a0 & k0 & Hk0 & E2)]] P]. simpl depth. simpl height in *.
    assert (Hne : map (fun k => depth (snd k)) kids <> []) by (destruct kids; [contradiction|discriminate]).
    pose proof (list_max_in _ Hne) as Hin. apply in_map_iff in Hin. destruct Hin as ([a k] & Ek & Hin).
    pose proof (list_max_ge _ _ (in_map (fun k => depth (snd k)) _ _ Hk0)) as Hge. rewrite <- Ek in *. simpl in *.
    specialize (E1 a k Hin). rewrite (Hk a k Hin) in E1. rewrite (Hk a0 k0 Hk0) in E2. lia.
Qed.

(** ** Gain and Entropy *)
Lemma optimal_gain X D cols :
  optimal_division Gain X D cols =
  match optimal_division Entropy X D cols with
  | None => None
  | Some (j, (v, pt)) => Some (j, (entropy (map snd D) - v, pt))
  end.
Proof.
  unfold optimal_division.
  assert (Ha : forall j, attribute_value Gain X D j =
    match attribute_value Entropy X D j with None => None | Some (v, pt) => Some (entropy (map snd D) - v, pt) end).
  { intros j. unfold attribute_value. simpl impurity. destruct (is_continuous X (map fst D) j); [|reflexivity].
    destruct (get_value_continuous entropy _) as [[v t]|]; reflexivity. }
  set (sg := fun best j => match attribute_value Gain X D j with
    | None => best
    | Some (v, t) => match best with
        | None => Some (j, (v, t))
        | Some (_, (v0, _)) => if better Gain v v0 then Some (j, (v, t)) else best end end).
  set (se := fun best j => match attribute_value Entropy X D j with
    | None => best
    | Some (v, t) => match best with
        | None => Some (j, (v, t))
        | Some (_, (v0, _)) => if better Entropy v v0 then Some (j, (v, t)) else best end end).
  set (conv := fun o : option (nat * (R * option R)) => match o with None => None | Some (j, (v, pt)) => Some (j, (entropy (map snd D) - v, pt)) end).
  change (fold_left sg cols (conv None) = conv (fold_left se cols None)).
  generalize (@None (nat * (R * option R))).
  induction cols as [|j cols IH]; intros o; [reflexivity|]. simpl. rewrite <- IH. f_equal.
  unfold sg at 1, se at 1. rewrite Ha. destruct (attribute_value Entropy X D j) as [[v t]|]; [|reflexivity].
  destruct o as [[j0 [v0 t0]]|]; [|reflexivity]. simpl.
  destruct (Rltb v v0) eqn:E1, (Rltb (entropy (map snd D) - v0) (entropy (map snd D) - v)) eqn:E2; auto; exfalso;
    rewrite ?Rltb_true, ?Rltb_false in *; lra.
Qed.

Definition same_outcome (a b : result tree) : Prop :=
  match a, b with Ok t, Ok t' => same_shape t t' | Err e, Err e' => e = e' | _, _ => False end.

Lemma same_numbers t t' : same_shape t t' -> num_of_leaves t = num_of_leaves t' /\ height t = height t'.
Proof. intros H. inversion H; subst; auto. Qed.

Lemma same_kids kids kids' (H : Forall2 (fun k k' : cell * tree => fst k = fst k' /\ same_shape (snd k) (snd k')) kids kids') :
  forall n m,
  fold_left (fun n k => n + num_of_leaves (snd k))%nat kids n = fold_left (fun n k => n + num_of_leaves (snd k))%nat kids' n /\
  fold_left (fun m k => if (m <? height (snd k))%Z then height (snd k) else m) kids m =
  fold_left (fun m k => if (m <? height (snd k))%Z then height (snd k) else m) kids' m.
Proof.
  induction H as [|k k' ks ks' [_ Hk] _ IH]; intros n m; simpl; auto.
  destruct (same_numbers _ _ Hk) as [-> ->]. apply IH.
Qed.

Lemma same_mapM {A} (f f' : A -> result (cell * tree)) l :
  (forall a, match f a, f' a with
             | Ok k, Ok k' => fst k = fst k' /\ same_shape (snd k) (snd k')
             | Err e, Err e' => e = e' | _, _ => False end) ->
  match mapM f l, mapM f' l with
  | Ok ks, Ok ks' => Forall2 (fun k k' => fst k = fst k' /\ same_shape (snd k) (snd k')) ks ks'
  | Err e, Err e' => e = e' | _, _ => False end.
Proof.
  intros H. induction l as [|a l IH]; simpl; [constructor|]. specialize (H a).
  destruct (f a), (f' a); simpl; try contradiction; auto.
  destruct (mapM f l), (mapM f' l); simpl; try contradiction; auto.
Qed.

Lemma gain_entropy top rnd X : forall f e cols D,
  same_outcome (generate top rnd Gain X f e cols D) (generate top rnd Entropy X f e cols D).
Proof.
  induction f as [|f IH]; intros e cols D; [reflexivity|]. cbn [generate].
  destruct (length (nodup Z.eq_dec (map snd D)) =? 1)%nat.
  { destruct (map snd D); simpl; auto. constructor. }
  destruct (e || (length cols =? 0)%nat || (length D =? 0)%nat).
  { destruct (map snd D); simpl; auto. constructor. }
  rewrite optimal_gain. destruct (optimal_division Entropy X D cols) as [[j [v [t0|]]]|]; [| |reflexivity].
  - cbv zeta. set (Dg := filter _ D). set (Dl := filter _ D).
    pose proof (IH false cols Dg) as H1. pose proof (IH false cols Dl) as H2. unfold same_outcome in H1, H2.
    destruct (generate top rnd Gain X f false cols Dg), (generate top rnd Entropy X f false cols Dg); try contradiction; [|exact H1].
    simpl. destruct (generate top rnd Gain X f false cols Dl), (generate top rnd Entropy X f false cols Dl); try contradiction; [|exact H2].
    simpl. destruct (same_numbers _ _ H1) as [-> ->]. destruct (same_numbers _ _ H2) as [-> ->]. constructor; auto.
  - cbv zeta. match goal with |- same_outcome (_ <- mapM ?f1 ?l ;; _) (_ <- mapM ?f2 _ ;; _) =>
      pose proof (same_mapM f1 f2 l) as H; destruct (mapM f1 l) as [ks|], (mapM f2 l) as [ks'|]; simpl end.
    + destruct (same_kids ks ks') with (n := 0%nat) (m := (-1)%Z) as [-> ->]; [|constructor]; apply H; clear H; intros a;
      (set (Da := filter _ D); destruct (length Da =? 0)%nat;
       [pose proof (IH true (remove Nat.eq_dec j cols) D) as H1|pose proof (IH false (remove Nat.eq_dec j cols) Da) as H1]; unfold same_outcome in H1;
       match type of H1 with match ?x with _ => _ end => destruct x end;
       match type of H1 with match ?x with _ => _ end => destruct x end; simpl; auto).
    + apply H; clear H; intros a;
      (set (Da := filter _ D); destruct (length Da =? 0)%nat;
       [pose proof (IH true (remove Nat.eq_dec j cols) D) as H1|pose proof (IH false (remove Nat.eq_dec j cols) Da) as H1]; unfold same_outcome in H1;
       match type of H1 with match ?x with _ => _ end => destruct x end;
       match type of H1 with match ?x with _ => _ end => destruct x end; simpl; auto).
    + apply H; clear H; intros a;
      (set (Da := filter _ D); destruct (length Da =? 0)%nat;
       [pose proof (IH true (remove Nat.eq_dec j cols) D) as H1|pose proof (IH false (remove Nat.eq_dec j cols) Da) as H1]; unfold same_outcome in H1;
       match type of H1 with match ?x with _ => _ end => destruct x end;
       match type of H1 with match ?x with _ => _ end => destruct x end; simpl; auto).
    + apply H; clear H; intros a;
      (set (Da := filter _ D); destruct (length Da =? 0)%nat;
       [pose proof (IH true (remove Nat.eq_dec j cols) D) as H1|pose proof (IH false (remove Nat.eq_dec j cols) Da) as H1]; unfold same_outcome in H1;
       match type of H1 with match ?x with _ => _ end => destruct x end;
       match type of H1 with match ?x with _ => _ end => destruct x end; simpl; auto).
Qed.

Lemma same_predict t : forall t', same_shape t t' -> forall r, predict t r = predict t' r.
Proof.
  induction t as [l|j v p n h g l IHg IHl|j v n h kids IHk] using tree_ind'; intros t' H r.
  - inversion H; reflexivity.
  - inversion H; subst. simpl. destruct (get_at r j) as [[x|]|]; simpl; auto.
    rewrite (IHg g'), (IHl l') by auto. reflexivity.
  - inversion H as [| |? ? v' ? ? ? kids' HF]; subst. rewrite !predict_disc. destruct (get_at r j) as [a|]; simpl; auto.
    clear H. induction HF as [|[b k] [b' k'] ks ks' [E Hk] HF IHF]; simpl; auto. simpl in E, Hk. subst b'.
    destruct (cell_eq_dec a b) as [->|].
    + apply (IHk b k); simpl; auto.
    + apply IHF. intros a' k0 Hin. apply (IHk a'). simpl; auto.
Qed.
