(** C18: a grown tree makes the fewest training errors. *)
From Coq Require Import List ZArith Reals Lra Lia Bool Arith.
From Verif.Model Require Import Base Tree.
From Verif.Spec Require Import Common Tree.
From Verif.Proof Require Import BaseLemmas Counting Tree TreeGen TreeMain.
Import ListNotations.
Local Notation length := List.length.

Definition row_dec : forall r r' : row, {r = r'} + {r <> r'} := list_eq_dec cell_eq_dec.
Definition same_row (r : row) (p : row * Z) : bool := if row_dec (fst p) r then true else false.
Definition labels_of (r : row) (D : list (row * Z)) : list Z := map snd (filter (same_row r) D).
Notation votes := (count_occ Z.eq_dec).

Lemma labels_filter r f (D : list (row * Z)) : (forall l, f (r, l) = true) -> labels_of r (filter f D) = labels_of r D.
Proof.
  intros H. unfold labels_of. f_equal. induction D as [|[r' l] D IH]; [reflexivity|]. cbn [filter].
  destruct (f (r', l)) eqn:E; cbn [filter].
  - destruct (same_row r (r', l)); [f_equal|]; exact IH.
  - destruct (same_row r (r', l)) eqn:S; [|exact IH]. unfold same_row in S. cbn [fst] in S.
    destruct (row_dec r' r) as [->|_]; [rewrite H in E; discriminate|discriminate].
Qed.

Section Best.
Variable top : list Z -> Z.
Variable rnd : R -> R.
Variable c : criterion.
Variable X : list row.
Hypothesis Htop : forall y z, y <> [] -> (votes y z <= votes y (top y))%nat.
Variable w : nat.

Lemma generate_majority : forall f cols D t, node rnd X w cols D -> generate top rnd c X f false cols D = Ok t ->
  forall r l, In (r, l) D ->
  exists m, predict t r = Ok m /\ forall z, (votes (labels_of r D) z <= votes (labels_of r D) m)%nat.
Proof.
  induction f as [|f IH]; intros cols D t N H r l Hin; [discriminate|].
  apply generate_step in H. inversion H; subst; pose proof (node_w _ _ _ _ _ N r l Hin) as Hw.
  - exists l0. split; [reflexivity|]. intros z.
    assert (A : forall v, In v (labels_of r D) -> v = l0).
    { intros v V. apply in_map_iff in V as (p & <- & V). apply filter_In in V as [V _]. auto. }
    destruct (Z.eq_dec z l0) as [->|Hz]; [lia|]. rewrite (proj1 (count_occ_not_In Z.eq_dec (labels_of r D) z)); [lia|]. auto.
  - destruct H1 as [|Hcols]; [discriminate|]. subst cols. exists (top (map snd D)). split; [reflexivity|].
    replace (labels_of r D) with (map snd D).
    + intros z. apply Htop. intros E. apply map_eq_nil in E. auto.
    + unfold labels_of. f_equal. symmetry. rewrite <- (filter_ext_In (fun _ => true)).
      * clear. induction D as [|p D IH]; [reflexivity|]. cbn. now rewrite IH.
      * intros [r' l'] Hp. unfold same_row. cbn [fst]. destruct (row_dec r' r) as [|Hr]; [reflexivity|]. exfalso. apply Hr.
        apply (rows_equal w); [eapply (node_w _ _ _ _ _ N); eauto|auto|]. intros j Hj.
        apply (node_agree _ _ _ _ _ N (r', l') (r, l) j); auto.
  - pose proof (optimal_division_spec c X D cols H1 (node_X _ _ _ _ _ N)) as Hspec. rewrite H2 in Hspec.
    destruct Hspec as (Hj & Ha & _).
    destruct (cont_split rnd c X D j v t0 H1 (node_X _ _ _ _ _ N) (node_rnd _ _ _ _ _ N) Ha) as (Hnum & p & q & Hp & Hq & G1 & G2 & L1 & L2).
    simpl. rewrite (get_at_cell r j w Hw (node_cols _ _ _ _ _ N j Hj)). simpl.
    destruct (Hnum r (node_X _ _ _ _ _ N _ Hin)) as (x & Ex). rewrite Ex.
    destruct (Rleb (rnd t0) x) eqn:E.
    + rewrite <- (labels_filter r (fun p => cell_ge (rnd t0) (cell_at j (fst p))) D) by (intros l'; cbn [fst]; rewrite Ex; exact E).
      apply (IH cols (part_ge (rnd t0) j D) g) with (l := l); auto.
      * apply (node_sub _ _ _ cols D); auto; [intros z; apply part_sub|first [eapply filter_nonempty; [exact Hp|now auto]|eapply filter_nonempty; [exact Hq|now auto]]].
      * apply filter_In. simpl. rewrite Ex. auto.
    + assert (E' : Rltb x (rnd t0) = true) by (apply Rltb_true; now apply Rleb_false in E).
      rewrite <- (labels_filter r (fun p => cell_lt (rnd t0) (cell_at j (fst p))) D) by (intros l'; cbn [fst]; rewrite Ex; exact E').
      apply (IH cols (part_lt (rnd t0) j D) l0) with (l := l); auto.
      * apply (node_sub _ _ _ cols D); auto; [intros z; apply part_sub|first [eapply filter_nonempty; [exact Hp|now auto]|eapply filter_nonempty; [exact Hq|now auto]]].
      * apply filter_In. simpl. rewrite Ex. auto.
  - pose proof (optimal_division_spec c X D cols H1 (node_X _ _ _ _ _ N)) as Hspec. rewrite H2 in Hspec.
    destruct Hspec as (Hj & _). rewrite predict_disc.
    rewrite (get_at_cell r j w Hw (node_cols _ _ _ _ _ N j Hj)). simpl.
    set (a := cell_at j r). destruct (kid kids a) as [k|] eqn:Ek.
    + apply kid_In in Ek. destruct (Forall2_In_r _ _ _ _ H3 Ek) as (b & _ & Ef & Hk). simpl in Ef, Hk. subst b.
      assert (Hin' : In (r, l) (part_eq j a D)) by (apply part_eq_In; auto).
      destruct Hk as [[Hk _]|[Hk Hg]]; [rewrite Hk in Hin'; contradiction|].
      rewrite <- (labels_filter r (fun p => if cell_eq_dec (cell_at j (fst p)) a then true else false) D).
      * apply (IH (remove Nat.eq_dec j cols) (part_eq j a D) k) with (l := l); auto. apply node_part; auto.
      * intros l'. cbn [fst]. fold a. now destruct (cell_eq_dec a a).
    + exfalso. apply kid_None in Ek. apply Ek. assert (Hmap : map fst kids = pd_unique cell_eq_dec (map (cell_at j) X)).
      { clear -H3. induction H3 as [|b k l1 l2 [E _] _ IHl]; simpl; auto. congruence. }
      rewrite Hmap, pd_unique_In. apply in_map. apply (node_X _ _ _ _ _ N _ Hin).
Qed.
End Best.

(** The answers given row by row: no other function of the rows has fewer errors. *)
Definition misses (h : row -> Z) (D : list (row * Z)) : nat := length (filter (fun p => negb (h (fst p) =? snd p)%Z) D).
Lemma misses_split h f D : misses h D = (misses h (filter f D) + misses h (filter (fun p => negb (f p)) D))%nat.
Proof.
  unfold misses. induction D as [|p D IH]; [reflexivity|]. cbn [filter].
  destruct (f p); cbn [filter negb]; destruct (negb (h (fst p) =? snd p)%Z); cbn [length]; lia.
Qed.
Lemma misses_same h r D : (forall p, In p D -> fst p = r) -> (misses h D + votes (map snd D) (h r))%nat = length D.
Proof.
  unfold misses. induction D as [|p D IH]; intros H; [reflexivity|]. cbn [filter map length count_occ].
  rewrite (H p (or_introl eq_refl)). assert (IH' := IH (fun q I => H q (or_intror I))).
  destruct (Z.eq_dec (snd p) (h r)) as [E|E].
  - rewrite E, Z.eqb_refl. cbn [negb]. lia.
  - destruct (h r =? snd p)%Z eqn:Q; [apply Z.eqb_eq in Q; congruence|]. cbn [negb length]. lia.
Qed.
Lemma fewest h g : forall n D, (length D <= n)%nat ->
  (forall r l, In (r, l) D -> forall z, (votes (labels_of r D) z <= votes (labels_of r D) (h r))%nat) ->
  (misses h D <= misses g D)%nat.
Proof.
  induction n as [|n IH]; intros D L H; [destruct D; [apply le_n|cbn in L; lia]|].
  destruct D as [|[r l] D']; [apply le_n|]. set (D := (r, l) :: D') in *.
  rewrite (misses_split h (same_row r)), (misses_split g (same_row r)).
  assert (A : forall p, In p (filter (same_row r) D) -> fst p = r).
  { intros p P. apply filter_In in P as [_ P]. unfold same_row in P. now destruct (row_dec (fst p) r). }
  pose proof (misses_same h r _ A). pose proof (misses_same g r _ A).
  pose proof (H r l (or_introl eq_refl) (g r)) as V. unfold labels_of in V.
  enough (misses h (filter (fun p => negb (same_row r p)) D) <= misses g (filter (fun p => negb (same_row r p)) D))%nat by lia.
  apply IH.
  - assert (E : filter (fun p => negb (same_row r p)) D = filter (fun p => negb (same_row r p)) D').
    { unfold D. cbn [filter]. unfold same_row at 1. cbn [fst]. destruct (row_dec r r); [reflexivity|contradiction]. }
    rewrite E. pose proof (filter_length_le (fun p => negb (same_row r p)) D'). cbn in L. lia.
  - intros r' l' I z. apply filter_In in I as [I S]. rewrite labels_filter; [eapply H; eauto|].
    intros l2. unfold same_row in *. cbn [fst] in *. now destruct (row_dec r' r).
Qed.

Lemma misses_count h D n : how_many (fun p => h (fst p) <> snd p) D n -> misses h D = n.
Proof.
  unfold misses. induction 1 as [|p D n P _ IH|p D n P _ IH]; [reflexivity| |]; cbn [filter].
  - destruct (h (fst p) =? snd p)%Z eqn:E; [apply Z.eqb_eq in E; contradiction|]. cbn [negb length]. now rewrite IH.
  - destruct (h (fst p) =? snd p)%Z eqn:E; [exact IH|]. apply Z.eqb_neq in E. contradiction.
Qed.

Lemma how_many_ext {A} (P Q : A -> Prop) l n : (forall a, In a l -> (P a <-> Q a)) -> how_many P l n -> how_many Q l n.
Proof.
  intros H K. induction K as [|a l n Pa _ IH|a l n Pa _ IH]; [constructor|apply hm_yes|apply hm_no]; try (apply IH; intros b B; apply H; now right).
  - apply H; [now left|exact Pa].
  - intros Qa. apply Pa. apply H; [now left|exact Qa].
Qed.

Lemma fit_fewest top rnd c w D t g n m : (forall y z, y <> [] -> (votes y z <= votes y (top y))%nat) ->
  rectangular w D -> keeps_sides rnd D -> fit_tree top rnd c w D = Ok t ->
  how_many (fun p => predict t (fst p) <> Ok (snd p)) D n -> how_many (fun p => g (fst p) <> snd p) D m -> (n <= m)%nat.
Proof.
  intros Ht Hw Hr E Hn Hm. pose proof (fit_nonempty _ _ _ _ _ _ E) as Hne.
  pose proof (generate_majority top rnd c (map fst D) Ht w _ _ _ _ (fit_node rnd w D Hne Hw Hr) E) as M.
  set (h := fun r => match predict t r with Ok l => l | Err _ => 0%Z end).
  assert (P : forall p, In p D -> predict t (fst p) = Ok (h (fst p))).
  { intros [r l] I. destruct (M r l I) as (k & K & _). unfold h. cbn [fst]. now rewrite K. }
  assert (Hn' : how_many (fun p => h (fst p) <> snd p) D n).
  { eapply how_many_ext; [|exact Hn]. intros p I. cbn beta. rewrite (P p I). split; intros Q Z; apply Q; congruence. }
  apply misses_count in Hn'. apply misses_count in Hm. subst n m. apply (fewest h g (length D)); [lia|].
  intros r l I z. destruct (M r l I) as (k & K & V). unfold h. rewrite K. apply V.
Qed.

(** A choice of the most frequent label. *)
Definition mode (y : list Z) : Z := fold_left (fun b z => if (votes y b <? votes y z)%nat then z else b) y (hd 0%Z y).
Lemma mode_fold y l : forall b, let r := fold_left (fun b z => if (votes y b <? votes y z)%nat then z else b) l b in
  (votes y b <= votes y r)%nat /\ forall z, In z l -> (votes y z <= votes y r)%nat.
Proof.
  induction l as [|x l IH]; intros b; cbn [fold_left]; [split; [lia|intros z []]|].
  destruct (IH (if (votes y b <? votes y x)%nat then x else b)) as [A B]. cbv zeta.
  destruct (Nat.ltb_spec (votes y b) (votes y x)) as [Q|Q]; (split; [lia|]); intros z [<-|I]; auto; lia.
Qed.
Lemma mode_top y z : y <> [] -> (votes y z <= votes y (mode y))%nat.
Proof.
  intros _. destruct (in_dec Z.eq_dec z y) as [I|I]; [now apply mode_fold|].
  apply (count_occ_not_In Z.eq_dec) in I. lia.
Qed.
