(** Lemmas for C11. *)
From Coq Require Import List Reals Lra Lia Bool Arith Permutation Sorted Psatz.
From Verif.Model Require Import Base Hull.
From Verif.Spec Require Import Hull.
From Verif.Proof Require Import BaseLemmas.
Import ListNotations.
Local Open Scope R_scope.

Lemma cross_turn a b c : get_cross_product a b c = turn a b c.
Proof. reflexivity. Qed.

(** ** Geometry around a pivot [s] *)
Section Pivot.
Variable s : R * R.

(** [u] comes before [v] in the order around [s]: smaller angle, or on the
    segment from [s] to [v]. *)
Definition bef (u v : R * R) : Prop :=
  0 < turn s u v \/
  exists t, 0 <= t < 1 /\ fst u = fst s + t * (fst v - fst s) /\ snd u = snd s + t * (snd v - snd s).

Lemma bef_turn u v : bef u v -> 0 <= turn s u v.
Proof.
  intros [H|(t & Ht & H1 & H2)]; [lra|]. unfold turn. rewrite H1, H2.
  apply Req_le. ring.
Qed.

Lemma bef_s v : bef s v.
Proof. right. exists 0. lra. Qed.

Lemma bef_to_s u : bef u s -> u = s.
Proof.
  intros [H|(t & Ht & H1 & H2)].
  - unfold turn in H. lra.
  - destruct u, s; simpl in *. f_equal; lra.
Qed.

Ltac xs := unfold turn in *; simpl in *.

Lemma pos_cancel x y : 0 < x -> 0 <= x * y -> 0 <= y.
Proof. intros Hx H. destruct (Rle_or_lt 0 y); auto. exfalso. nra. Qed.

(** [p] lies left of the lower edge. *)
Lemma geo_lower a b c p :
  bef a b -> bef b c -> bef b p -> 0 <= turn b c p -> 0 <= turn a b c -> 0 <= turn a b p.
Proof.
  intros Hab Hbc Hbp H1 H2. pose proof (bef_turn _ _ Hab) as Tab. pose proof (bef_turn _ _ Hbp) as Tbp.
  destruct Hbc as [Hbc|(t & Ht & E1 & E2)].
  - apply (pos_cancel (turn s b c)); auto.
    replace (turn s b c * turn a b p) with (turn b c p * turn s a b + turn a b c * turn s b p) by (unfold turn; ring).
    apply Rplus_le_le_0_compat; apply Rmult_le_pos; auto.
  - destruct (Req_dec t 0) as [->|Htn].
    + assert (b = s) by (destruct b, s; simpl in *; f_equal; lra). subst b. apply bef_to_s in Hab. subst a.
      unfold turn. lra.
    + assert (Hz : t * turn a b c = - ((1 - t) * turn s a b)).
      { unfold turn. rewrite E1, E2. ring. }
      assert (turn s a b <= 0) by nra.
      destruct Hab as [Hab|(t' & Ht' & F1 & F2)]; [lra|].
      replace (turn a b p) with ((1 - t') * turn s b p) by (unfold turn; rewrite F1, F2; ring).
      apply Rmult_le_pos; lra.
Qed.

(** An earlier point lies left of the new edge. *)
Lemma geo_new a b p z :
  bef a b -> bef b p -> bef z b -> 0 <= turn a b p -> 0 <= turn a b z -> 0 <= turn b p z.
Proof.
  intros Hab Hbp Hzb H1 H2. pose proof (bef_turn _ _ Hbp) as Tbp. pose proof (bef_turn _ _ Hzb) as Tzb.
  destruct Hab as [Hab|(t & Ht & E1 & E2)].
  - apply (pos_cancel (turn s a b)); auto.
    replace (turn s a b * turn b p z) with (turn s b p * turn a b z + turn a b p * turn s z b) by (unfold turn; ring).
    apply Rplus_le_le_0_compat; apply Rmult_le_pos; auto.
  - assert (Hz : turn a b z = - ((1 - t) * turn s z b)) by (unfold turn; rewrite E1, E2; ring).
    assert (turn s z b <= 0) by nra.
    destruct Hzb as [Hzb|(t' & Ht' & F1 & F2)]; [lra|].
    replace (turn b p z) with ((1 - t') * turn s b p) by (unfold turn; rewrite F1, F2; ring).
    apply Rmult_le_pos; lra.
Qed.

(** Points between the new and the popped top of the stack. *)
Lemma geo_pop_between b c p z :
  bef b c -> bef c p -> bef b p -> bef b z -> turn b c p < 0 -> 0 <= turn b c z -> 0 <= turn b p z.
Proof.
  intros Hbc Hcp Hbp Hbz H1 H2. pose proof (bef_turn _ _ Hbp) as Tbp. pose proof (bef_turn _ _ Hbz) as Tbz.
  pose proof (bef_turn _ _ Hcp) as Tcp.
  destruct Hbc as [Hbc|(t & Ht & E1 & E2)].
  - apply (pos_cancel (turn s b c)); auto.
    replace (turn s b c * turn b p z) with ((- turn b c p) * turn s b z + turn s b p * turn b c z) by (unfold turn; ring).
    apply Rplus_le_le_0_compat; apply Rmult_le_pos; auto; lra.
  - exfalso. assert (turn b c p = (1 - t) * turn s c p) by (unfold turn; rewrite E1, E2; ring). nra.
Qed.

(** ** The scan *)
(** Edges of a stack (top first). *)
Definition sedge (st : list (R * R)) (a b : R * R) : Prop := exists l1 l2, st = l1 ++ b :: a :: l2.

Definition top_is (st : list (R * R)) (t : R * R) : Prop := exists st', st = t :: st'.

(** [done] lists the points seen so far in order, starting with [s]. *)
Record inv (done st : list (R * R)) : Prop := {
  inv_sub : forall z, In z st -> In z done;
  inv_cmp : forall z b, In z done -> In b st -> z = b \/ bef z b \/ bef b z;
  inv_sort : forall a b l1 l2 l3, st = l1 ++ b :: l2 ++ a :: l3 -> bef a b;
  inv_edges : forall a b z, sedge st a b -> In z done -> 0 <= turn a b z;
  inv_bottom : exists l, st = l ++ [s]
}.

Lemma sedge_cons x st a b : sedge st a b -> sedge (x :: st) a b.
Proof. intros (l1 & l2 & ->). exists (x :: l1), l2. reflexivity. Qed.

Lemma sedge_inv x st a b : sedge (x :: st) a b -> (x = b /\ top_is st a) \/ sedge st a b.
Proof.
  intros (l1 & l2 & E). destruct l1 as [|y l1]; simpl in E; injection E as <- E.
  - left. split; auto. subst. eexists; reflexivity.
  - right. exists l1, l2. auto.
Qed.

Lemma inv_tail done x st : inv done (x :: st) -> st <> [] -> inv done st.
Proof.
  intros I Hne. constructor.
  - intros z Hz. apply (inv_sub _ _ I). simpl; auto.
  - intros z b Hz Hb. apply (inv_cmp _ _ I); simpl; auto.
  - intros a b l1 l2 l3 E. apply (inv_sort _ _ I a b (x :: l1) l2 l3). now rewrite E.
  - intros a b z E. apply (inv_edges _ _ I). now apply sedge_cons.
  - destruct (inv_bottom _ _ I) as (l & E). destruct l as [|y l]; simpl in E.
    + injection E as -> ->. congruence.
    + injection E as _ ->. eauto.
Qed.

(** What the pop loop establishes. *)
Definition jcond (done : list (R * R)) (p : R * R) (st : list (R * R)) : Prop :=
  forall t z, top_is st t -> In z done -> z = t \/ bef z t \/ 0 <= turn t p z.

Lemma pop_loop_spec done p st :
  inv done st -> (forall z, In z done -> bef z p) -> jcond done p st ->
  let st' := pop_loop p st in
  inv done st' /\ st' <> [] /\ jcond done p st' /\ (forall b a l, st' = b :: a :: l -> 0 <= turn a b p).
Proof.
  intros I Hp. induction st as [|c st IH]; intros J st'.
  - exfalso. destruct (inv_bottom _ _ I) as ([|] & E); discriminate.
  - destruct st as [|b st].
    + subst st'. simpl. split; auto. split; [discriminate|]. split; auto. intros; discriminate.
    + subst st'. simpl. destruct (Rltb (get_cross_product b c p) 0) eqn:E.
      * apply Rltb_true in E. rewrite cross_turn in E.
        assert (I' : inv done (b :: st)) by (apply (inv_tail _ _ _ I); discriminate).
        apply IH; auto. intros t z (st0 & Et) Hz. injection Et as <- _.
        assert (Hbc : bef b c) by (apply (inv_sort _ _ I b c [] [] st); reflexivity).
        assert (Hb : In b done) by (apply (inv_sub _ _ I); simpl; auto).
        assert (Hc : In c done) by (apply (inv_sub _ _ I); simpl; auto).
        destruct (inv_cmp _ _ I z b Hz) as [->|[Hzb|Hbz]]; [simpl; auto|auto|auto|].
        right; right. assert (Hedge : 0 <= turn b c z).
        { apply (inv_edges _ _ I); auto. exists [], st. reflexivity. }
        apply (geo_pop_between b c p z); auto.
      * apply Rltb_false in E. rewrite cross_turn in E.
        split; auto. split; [discriminate|]. split; auto. intros b' a' l Hl. injection Hl as <- <- _. auto.
Qed.

Lemma lower_edges done p st :
  inv done st -> (forall z, In z done -> bef z p) ->
  (forall b a l, st = b :: a :: l -> 0 <= turn a b p) ->
  forall a b, sedge st a b -> 0 <= turn a b p.
Proof.
  intros I Hp. induction st as [|c st IH]; intros Ht a b He.
  - destruct He as ([|] & ? & E); discriminate.
  - apply sedge_inv in He. destruct He as [[<- (l & ->)]|He]; [apply (Ht c a l); auto|].
    destruct st as [|b1 st]; [destruct He as ([|] & ? & E); discriminate|].
    assert (I' : inv done (b1 :: st)) by (apply (inv_tail _ _ _ I); discriminate).
    apply IH; auto. intros b' a' l E. injection E as <- ->.
    assert (Hc : In c done) by (apply (inv_sub _ _ I); simpl; auto).
    assert (Hb : In b1 done) by (apply (inv_sub _ _ I); simpl; auto).
    apply (geo_lower a' b1 c p).
    + apply (inv_sort _ _ I a' b1 [c] [] l). reflexivity.
    + apply (inv_sort _ _ I b1 c [] [] (a' :: l)). reflexivity.
    + auto.
    + apply (Ht c b1 (a' :: l)); auto.
    + apply (inv_edges _ _ I); auto. exists [c], l. reflexivity.
Qed.

Lemma scan_step done p st :
  inv done st -> (forall t z, top_is st t -> In z done -> z = t \/ bef z t) ->
  (forall z, In z done -> bef z p) ->
  inv (done ++ [p]) (p :: pop_loop p st) /\ exists l, st = l ++ pop_loop p st.
Proof.
  intros I Htop Hp.
  assert (Hsuf : exists l, st = l ++ pop_loop p st).
  { clear. induction st as [|c st IH]; [exists []; auto|]. simpl. destruct st as [|b st]; [exists []; auto|].
    destruct (Rltb (get_cross_product b c p) 0); [|exists []; auto].
    destruct IH as (l & E). exists (c :: l). simpl. f_equal. exact E. }
  split; auto.
  destruct (pop_loop_spec done p st I Hp) as (I' & Hne & J & Ht).
  { intros t z H1 H2. destruct (Htop t z H1 H2); auto. }
  set (st' := pop_loop p st) in *. clear Hsuf.
  constructor.
  - intros z [<-|Hz]; apply in_or_app; [right; simpl; auto|left; now apply (inv_sub _ _ I')].
  - intros z b Hz Hb. apply in_app_or in Hz. simpl in Hz, Hb.
    destruct Hz as [Hz|[<-|[]]], Hb as [<-|Hb]; auto.
    + apply (inv_cmp _ _ I'); auto.
    + right; right. apply Hp. now apply (inv_sub _ _ I').
  - intros a b l1 l2 l3 E. destruct l1 as [|y l1]; simpl in E; injection E as <- E.
    + apply Hp. apply (inv_sub _ _ I'). rewrite E. apply in_or_app; right; simpl; auto.
    + apply (inv_sort _ _ I' a b l1 l2 l3); auto.
  - intros a b z He Hz. apply in_app_or in Hz. apply sedge_inv in He. destruct He as [[<- (l & E)]|He].
    + (* new edge a -> p *)
      destruct Hz as [Hz|[<-|[]]]; [|unfold turn; lra].
      assert (Ha : In a done) by (apply (inv_sub _ _ I'); rewrite E; simpl; auto).
      destruct (J a z) as [->|[Hza|Hok]]; auto; [eexists; eauto|unfold turn; lra|].
      destruct l as [|a' l].
      * destruct (inv_bottom _ _ I') as (l & El). rewrite E in El.
        destruct l as [|? [|]]; simpl in El; try discriminate. injection El as ->.
        apply bef_to_s in Hza. subst. unfold turn; lra.
      * apply (geo_new a' a p z); auto.
        -- apply (inv_sort _ _ I' a' a [] [] l); auto.
        -- apply (Ht a a' l); auto.
        -- apply (inv_edges _ _ I'); auto. rewrite E. exists [], l. reflexivity.
    + destruct Hz as [Hz|[<-|[]]]; [apply (inv_edges _ _ I'); auto|].
      apply (lower_edges done p st'); auto.
  - destruct (inv_bottom _ _ I') as (l & E). exists (p :: l). rewrite E. reflexivity.
Qed.

Lemma scan_inv pts : forall done st,
  inv done st -> (forall t z, top_is st t -> In z done -> z = t \/ bef z t) ->
  (forall z p, In z done -> In p pts -> bef z p) -> StronglySorted bef pts ->
  let st' := fold_left (fun st p => p :: pop_loop p st) pts st in
  inv (done ++ pts) st' /\ (forall t z, top_is st' t -> In z (done ++ pts) -> z = t \/ bef z t).
Proof.
  induction pts as [|p pts IH]; intros done st I Htop Hall Hs st'.
  - subst st'. simpl. rewrite app_nil_r. auto.
  - inversion Hs as [|? ? Hs' Hf]; subst.
    destruct (scan_step done p st I Htop) as (I' & _); [intros z Hz; apply Hall; simpl; auto|].
    replace (done ++ p :: pts) with ((done ++ [p]) ++ pts) by (now rewrite <- app_assoc).
    apply (IH (done ++ [p]) (p :: pop_loop p st)); auto.
    + intros t z (l & E) Hz. injection E as <- _. apply in_app_or in Hz. simpl in Hz.
      destruct Hz as [Hz|[<-|[]]]; auto. right. apply Hall; simpl; auto.
    + intros z q Hz Hq. apply in_app_or in Hz. simpl in Hz. destruct Hz as [Hz|[<-|[]]].
      * apply Hall; simpl; auto.
      * rewrite Forall_forall in Hf. auto.
Qed.

(** ** Nothing is lost: popped points stay in the convex hull *)
Lemma in_hull_trans S S' z : in_hull S z -> (forall p, In p S -> in_hull S' p) -> in_hull S' z.
Proof.
  intros H HS. induction H as [p Hp|p q r t _ IHp _ IHq Ht E1 E2]; auto.
  apply (hull_segment S' p q r t); auto.
Qed.

Lemma triangle_hull S a b c z al be ga :
  in_hull S a -> in_hull S b -> in_hull S c -> 0 <= al -> 0 <= be -> 0 <= ga -> 0 < al + be + ga ->
  (al + be + ga) * fst z = al * fst a + be * fst b + ga * fst c ->
  (al + be + ga) * snd z = al * snd a + be * snd b + ga * snd c -> in_hull S z.
Proof.
  intros Ha Hb Hc H1 H2 H3 H4 E1 E2. set (w := al + be + ga) in *.
  destruct (Req_dec (be + ga) 0) as [Hz|Hz].
  - assert (be = 0) by lra. assert (ga = 0) by lra. assert (Hw : w = al) by (unfold w; lra). subst be ga.
    apply (hull_segment S a b z 1); auto; [lra| |]; apply (Rmult_eq_reg_l w); try lra; [rewrite E1|rewrite E2]; rewrite Hw; ring.
  - assert (P : 0 < be + ga) by lra.
    pose (m := ((be * fst b + ga * fst c) / (be + ga), (be * snd b + ga * snd c) / (be + ga))).
    assert (Hm : in_hull S m).
    { apply (hull_segment S b c m (be / (be + ga))); auto.
      - split; [apply Rmult_le_pos; [lra|left; now apply Rinv_0_lt_compat]|].
        apply (Rmult_le_reg_r (be + ga)); auto. field_simplify; lra.
      - unfold m; simpl; field; lra.
      - unfold m; simpl; field; lra. }
    apply (hull_segment S a m z (al / w)); auto.
    + split; [apply Rmult_le_pos; [lra|left; now apply Rinv_0_lt_compat]|].
      apply (Rmult_le_reg_r w); auto. field_simplify; try lra. unfold w; lra.
    + apply (Rmult_eq_reg_l w); [|lra]. rewrite E1. unfold m; simpl. unfold w. field. fold w. split; lra.
    + apply (Rmult_eq_reg_l w); [|lra]. rewrite E2. unfold m; simpl. unfold w. field. fold w. split; lra.
Qed.

Lemma pop_loop_span done p st : inv done st -> (forall z, In z done -> bef z p) ->
  forall z, In z st -> in_hull (p :: pop_loop p st) z.
Proof.
  intros I Hp. induction st as [|c st IH]; intros z Hz; [contradiction|].
  destruct st as [|b st]; [simpl; apply hull_vertex; simpl in *; tauto|].
  cbn [pop_loop]. destruct (Rltb (get_cross_product b c p) 0) eqn:E; [|apply hull_vertex; simpl in *; tauto].
  apply Rltb_true in E. rewrite cross_turn in E.
  assert (I' : inv done (b :: st)) by (apply (inv_tail _ _ _ I); discriminate).
  destruct Hz as [<-|Hz]; [|now apply IH].
  assert (Hs : In s (b :: st)).
  { destruct (inv_bottom _ _ I') as (l & El). rewrite El. apply in_or_app; right; simpl; auto. }
  assert (Hbc : bef b c) by (apply (inv_sort _ _ I b c [] [] st); reflexivity).
  assert (Hc : In c done) by (apply (inv_sub _ _ I); simpl; auto).
  pose proof (bef_turn _ _ Hbc) as T1. pose proof (bef_turn _ _ (Hp c Hc)) as T2.
  apply (triangle_hull _ s b p c (- turn b c p) (turn s c p) (turn s b c)); auto; try lra.
  - apply IH; simpl; auto.
  - apply hull_vertex; simpl; auto.
  - unfold turn; ring.
  - unfold turn; ring.
Qed.

Lemma scan_span pts : forall done st,
  inv done st -> (forall t z, top_is st t -> In z done -> z = t \/ bef z t) ->
  (forall z p, In z done -> In p pts -> bef z p) -> StronglySorted bef pts ->
  (forall z, In z done -> in_hull st z) ->
  forall z, In z (done ++ pts) -> in_hull (fold_left (fun st p => p :: pop_loop p st) pts st) z.
Proof.
  induction pts as [|p pts IH]; intros done st I Htop Hall Hs Hsp z Hz.
  - rewrite app_nil_r in Hz. simpl. auto.
  - inversion Hs as [|? ? Hs' Hf]; subst.
    assert (Hp : forall z, In z done -> bef z p) by (intros; apply Hall; simpl; auto).
    destruct (scan_step done p st I Htop Hp) as (I' & _).
    replace (done ++ p :: pts) with ((done ++ [p]) ++ pts) in Hz by (now rewrite <- app_assoc).
    simpl. apply (IH (done ++ [p]) (p :: pop_loop p st)); auto.
    + intros t y (l & E) Hy. injection E as <- _. apply in_app_or in Hy. simpl in Hy.
      destruct Hy as [Hy|[<-|[]]]; auto.
    + intros y q Hy Hq. apply in_app_or in Hy. simpl in Hy. destruct Hy as [Hy|[<-|[]]].
      * apply Hall; simpl; auto.
      * rewrite Forall_forall in Hf. auto.
    + intros y Hy. apply in_app_or in Hy. simpl in Hy. destruct Hy as [Hy|[<-|[]]]; [|apply hull_vertex; simpl; auto].
      apply (in_hull_trans st); auto. intros q Hq. apply (pop_loop_span done); auto.
Qed.

Lemma inv_init : inv [s] [s].
Proof.
  constructor.
  - auto.
  - intros z b [<-|[]] [<-|[]]; auto.
  - intros a b l1 l2 l3 E. destruct l1 as [|? [|]]; simpl in E; try discriminate.
    injection E as <- E. destruct l2; discriminate.
  - intros a b z (l1 & l2 & E). destruct l1 as [|? [|]]; discriminate.
  - exists []. reflexivity.
Qed.

Lemma edge_rev st a b : edge (rev st) a b -> sedge st a b.
Proof.
  intros (h1 & h2 & E). apply (f_equal (@rev _)) in E. rewrite rev_involutive, rev_app_distr in E.
  simpl in E. rewrite <- !app_assoc in E. simpl in E. exists (rev h2), (rev h1). exact E.
Qed.

(** All edges of the closed hull have all points on their left. *)
Lemma scan_enclose pts : pts <> [] -> StronglySorted bef pts ->
  let h := rev (scan s pts) ++ [s] in
  (exists m, h = s :: m ++ [s]) /\ (forall z, In z h -> In z (s :: pts)) /\
  (forall a b z, edge h a b -> In z (s :: pts) -> 0 <= turn a b z) /\
  (forall z, In z (s :: pts) -> in_hull h z).
Proof.
  intros Hne Hs h. unfold scan in h.
  assert (Hspan := scan_span pts [s] [s] inv_init).
  assert (T0 : forall t z, top_is [s] t -> In z [s] -> z = t \/ bef z t).
  { intros t z (l & E) [<-|[]]. injection E as <- _. auto. }
  assert (T1 : forall z p, In z [s] -> In p pts -> bef z p) by (intros z p [<-|[]] _; apply bef_s).
  specialize (Hspan T0 T1 Hs (fun z Hz => hull_vertex _ _ Hz)).
  destruct (scan_inv pts [s] [s] inv_init) as (I & Htop); auto.
  set (st := fold_left (fun (st : list point) (p : point) => p :: pop_loop p st) pts [s]) in *. change ([s] ++ pts) with (s :: pts) in *.
  assert (Hh : h = rev (s :: st)) by reflexivity. clearbody h. subst h.
  split; [|split; [|split]].
  - destruct (inv_bottom _ _ I) as (l & E). exists (rev l). cbn [rev]. rewrite E, rev_app_distr. reflexivity.
  - intros z Hz. apply in_rev in Hz. destruct Hz as [<-|Hz]; [simpl; auto|]. now apply (inv_sub _ _ I).
  - intros a b z He Hz.
    apply edge_rev in He. apply sedge_inv in He.
    destruct He as [[<- Ht]|He]; [|apply (inv_edges _ _ I); auto].
    (* closing edge a -> s *)
    replace (turn a s z) with (turn s z a) by (unfold turn; ring).
    destruct (Htop a z Ht Hz) as [->|Hb]; [unfold turn; lra|now apply bef_turn].
  - intros z Hz. apply (in_hull_trans st); [now apply Hspan|]. intros q Hq. apply hull_vertex.
    apply in_rev. rewrite rev_involutive. simpl; auto.
Qed.
End Pivot.

(** ** Sorting *)
Section Sorting.
Context {A : Type} (le : A -> A -> bool).
Lemma insert_by_perm x l : Permutation (x :: l) (insert_by le x l).
Proof.
  induction l as [|y l IH]; simpl; auto. destruct (le x y); auto.
  rewrite perm_swap. constructor. exact IH.
Qed.
Lemma stable_sort_perm l : Permutation l (stable_sort le l).
Proof. induction l as [|x l IH]; simpl; auto. rewrite <- insert_by_perm. constructor. exact IH. Qed.

Hypothesis le_total : forall x y, le x y = true \/ le y x = true.
Hypothesis le_trans : forall x y z, le x y = true -> le y z = true -> le x z = true.

(** Sorted and stable: equal keys keep the order [R0] that held before. *)
Variable R0 : A -> A -> Prop.
Definition stab x y := le x y = true /\ (le y x = true -> R0 x y).

Lemma insert_by_sorted x l :
  (forall y, In y l -> le y x = true -> R0 x y) ->
  StronglySorted stab l -> StronglySorted stab (insert_by le x l).
Proof.
  intros Hx Hs. induction Hs as [|y l Hs IH Hf]; simpl.
  - repeat constructor.
  - destruct (le x y) eqn:E.
    + constructor; [constructor; auto|]. rewrite Forall_forall in *. intros z Hz. split.
      * destruct Hz as [<-|Hz]; auto. destruct (Hf z Hz). eauto.
      * intros Hzx. apply Hx; auto.
    + constructor; [apply IH; intros; apply Hx; simpl; auto|].
      rewrite Forall_forall in *. intros z Hz. apply (Permutation_in _ (Permutation_sym (insert_by_perm x l))) in Hz.
      destruct Hz as [<-|Hz]; auto. split; [destruct (le_total x y); congruence|congruence].
Qed.

Lemma stable_sort_sorted l : StronglySorted R0 l -> StronglySorted stab (stable_sort le l).
Proof.
  induction 1 as [|x l Hs IH Hf]; simpl; [constructor|]. apply insert_by_sorted; auto.
  intros y Hy _. rewrite Forall_forall in Hf. apply Hf.
  apply (Permutation_in _ (Permutation_sym (stable_sort_perm l))). exact Hy.
Qed.
End Sorting.

Lemma slope_leb_total a b : slope_leb a b = true \/ slope_leb b a = true.
Proof. destruct a as [x|], b as [y|]; simpl; auto. rewrite !Rleb_true. lra. Qed.
Lemma slope_leb_trans a b c : slope_leb a b = true -> slope_leb b c = true -> slope_leb a c = true.
Proof. destruct a as [x|], b as [y|], c as [z|]; simpl; auto; try discriminate. rewrite !Rleb_true. lra. Qed.

(** Lexicographic order, the order a sort by x then y would give. *)
Definition lex (p q : R * R) : Prop := fst p < fst q \/ (fst p = fst q /\ snd p < snd q).

(** The sort order around the start point is the order [bef]. *)
Lemma slope_bef s p q :
  lex s p -> lex s q ->
  slope_leb (get_slope s p) (get_slope s q) = true ->
  (slope_leb (get_slope s q) (get_slope s p) = true -> fst p <= fst q /\ p <> q /\ (fst s = fst p -> fst p = fst q -> snd p < snd q)) ->
  bef s p q.
Proof.
  destruct s as [sx sy], p as [px py], q as [qx qy]. unfold lex, get_slope, bef, turn, Reqb. simpl.
  intros Hp Hq. destruct (Req_EM_T sx px) as [Ep|Ep], (Req_EM_T sx qx) as [Eq|Eq]; simpl; intros H1 H2.
  - destruct H2 as (_ & _ & H2); auto. right. subst. assert (py < qy) by auto.
    exists ((py - sy) / (qy - sy)).
    assert (0 < py - sy) by lra. assert (0 < qy - sy) by lra. split; [split|split].
    + apply Rmult_le_pos; [lra|left; now apply Rinv_0_lt_compat].
    + apply (Rmult_lt_reg_r (qy - sy)); auto. field_simplify; lra.
    + ring.
    + field. lra.
  - discriminate.
  - left. subst. nra.
  - rewrite !Rleb_true in *.
    assert (Dp : 0 < px - sx) by lra. assert (Dq : 0 < qx - sx) by lra.
    replace ((sy - py) / (sx - px)) with ((py - sy) / (px - sx)) in * by (field; lra).
    replace ((sy - qy) / (sx - qx)) with ((qy - sy) / (qx - sx)) in * by (field; lra).
    set (mp := (py - sy) / (px - sx)) in *. set (mq := (qy - sy) / (qx - sx)) in *.
    assert (Yp : py - sy = mp * (px - sx)) by (unfold mp; field; lra).
    assert (Yq : qy - sy = mq * (qx - sx)) by (unfold mq; field; lra).
    destruct (Rlt_or_le mp mq) as [Hlt|Hle].
    + left. rewrite Yp, Yq.
      replace ((px - sx) * (mq * (qx - sx)) - mp * (px - sx) * (qx - sx)) with ((mq - mp) * ((px - sx) * (qx - sx))) by ring.
      apply Rmult_lt_0_compat; [lra|]. now apply Rmult_lt_0_compat.
    + destruct (H2 Hle) as (Hx & Hne & _). assert (Em : mp = mq) by lra.
      assert (px <> qx) by (intros ->; apply Hne; f_equal; rewrite Em in Yp; lra).
      right. exists ((px - sx) / (qx - sx)). split; [split|split].
      * apply Rmult_le_pos; [lra|left; now apply Rinv_0_lt_compat].
      * apply (Rmult_lt_reg_r (qx - sx)); auto. field_simplify; lra.
      * field. lra.
      * rewrite Yq. rewrite <- Em. assert (py = sy + mp * (px - sx)) by lra. rewrite H0. field. lra.
Qed.

Lemma SS_impl {A} (P Q : A -> A -> Prop) l :
  (forall x y, In x l -> In y l -> P x y -> Q x y) -> StronglySorted P l -> StronglySorted Q l.
Proof.
  intros H Hs. induction Hs as [|x l Hs IH Hf]; constructor.
  - apply IH. intros; apply H; simpl; auto.
  - rewrite Forall_forall in *. intros y Hy. apply H; simpl; auto.
Qed.

Lemma hull_main by_x points h :
  sorts_by_x by_x -> ties_ok (by_x points) ->
  compute_convex_hull by_x points = Ok h ->
  (exists s m, h = s :: m ++ [s]) /\ (forall z, In z h -> In z points) /\
  (forall a b z, edge h a b -> In z points -> 0 <= turn a b z) /\
  (forall z, In z points -> in_hull h z).
Proof.
  intros Hby [Ht1 Ht2] H. unfold compute_convex_hull in H.
  destruct (Hby points) as [Hperm _].
  destruct (by_x points) as [|s rest] eqn:E; [discriminate|].
  destruct rest as [|r0 rest']; [discriminate|]. set (rest := r0 :: rest') in *.
  injection H as <-.
  set (le := fun p q => slope_leb (get_slope s p) (get_slope s q)).
  specialize (Ht2 s eq_refl).
  inversion Ht1 as [|? ? Hs1 Hf1]; subst. inversion Ht2 as [|? ? Hs2 Hf2]; subst.
  rewrite Forall_forall in Hf1, Hf2.
  assert (Hlex : forall p, In p rest -> lex s p).
  { intros p Hp. destruct (Hf1 p Hp) as [H1 H2]. specialize (Hf2 p Hp eq_refl). unfold lex.
    destruct (Req_dec (fst s) (fst p)); [right|left; lra]. split; auto. }
  pose (R0 := fun p q : R * R => (fst p <= fst q /\ p <> q) /\ (fst p = fst s -> fst q = fst s -> snd p < snd q)).
  assert (Hboth : StronglySorted R0 rest).
  { clear -Hs1 Hs2. induction rest as [|x l IH]; constructor; inversion Hs1; inversion Hs2; subst; auto.
    rewrite Forall_forall in *. intros y Hy. unfold R0. split; auto. }
  assert (Hbef : StronglySorted (bef s) (stable_sort le rest)).
  { apply (SS_impl (stab le R0)).
    - intros p q Hp Hq [H1 H2].
      apply (Permutation_in _ (Permutation_sym (stable_sort_perm le rest))) in Hp, Hq.
      apply slope_bef; auto. intros H3. destruct (H2 H3) as [[Hx Hne] Hy]. split; auto. split; auto.
      intros E1 E2. apply Hy; congruence.
    - apply stable_sort_sorted; auto.
      + intros x y. apply slope_leb_total.
      + intros x y z. apply slope_leb_trans. }
  assert (Hne : stable_sort le rest <> []).
  { intros En. pose proof (stable_sort_perm le rest) as P. rewrite En in P. apply Permutation_sym, Permutation_nil in P. discriminate. }
  destruct (scan_enclose s (stable_sort le rest) Hne Hbef) as ((m & Hm) & Hsub & Henc & Hspan).
  assert (Hin : forall z, In z (s :: stable_sort le rest) <-> In z points).
  { intros z. split; intros Hz.
    - apply (Permutation_in _ (Permutation_sym Hperm)). destruct Hz as [<-|Hz]; [simpl; auto|right].
      apply (Permutation_in _ (Permutation_sym (stable_sort_perm le rest))). exact Hz.
    - apply (Permutation_in _ Hperm) in Hz. destruct Hz as [<-|Hz]; [simpl; auto|right].
      apply (Permutation_in _ (stable_sort_perm le rest)). exact Hz. }
  split; [|split; [|split]].
  - exists s, m. exact Hm.
  - intros z Hz. apply Hin. now apply Hsub.
  - intros a b z He Hz. apply Henc; auto. now apply Hin.
  - intros z Hz. apply Hspan. now apply Hin.
Qed.

(** The hull spans exactly what the points span. *)
Lemma hull_same_span by_x points h :
  sorts_by_x by_x -> ties_ok (by_x points) -> compute_convex_hull by_x points = Ok h ->
  forall z, in_hull points z <-> in_hull h z.
Proof.
  intros H1 H2 H3. destruct (hull_main by_x points h H1 H2 H3) as (_ & Hs & _ & Hsp). intros z.
  split; intros Hz; apply (in_hull_trans _ _ _ Hz); auto. intros p Hp. apply hull_vertex. auto.
Qed.

(** Convexity is a special case. *)
Lemma hull_left_turns (points h : list (R * R)) :
  (forall z, In z h -> In z points) -> (forall a b z, edge h a b -> In z points -> 0 <= turn a b z) ->
  forall a b c, consecutive3 h a b c -> 0 <= turn a b c.
Proof.
  intros Hs He a b c (h1 & h2 & E). apply He.
  - exists h1, (c :: h2). exact E.
  - apply Hs. rewrite E. apply in_or_app. right. simpl; auto.
Qed.

Lemma unique_leftmost_ties by_x points :
  sorts_by_x by_x -> NoDup points -> unique_leftmost points -> ties_ok (by_x points).
Proof.
  intros Hby Hnd (s & l1 & l2 & E & Hmin). destruct (Hby points) as [Hperm Hsort].
  assert (Hnd' : NoDup (by_x points)) by (eapply Permutation_NoDup; eauto).
  assert (Hmin' : forall p, In p points -> p = s \/ fst s < fst p).
  { intros p Hp. rewrite E in Hp. apply in_app_or in Hp. simpl in Hp.
    destruct Hp as [Hp|[<-|Hp]]; auto; right; apply Hmin; apply in_or_app; auto. }
  assert (Hone : forall p, In p (by_x points) -> p = s \/ fst s < fst p).
  { intros p Hp. apply Hmin'. eapply Permutation_in; [apply Permutation_sym|]; eauto. }
  assert (Hs : In s (by_x points)).
  { eapply Permutation_in; eauto. rewrite E. apply in_or_app; right; simpl; auto. }
  split.
  - clear -Hsort Hnd'. induction Hsort as [|x l Hs IH Hf]; constructor; inversion Hnd'; subst; auto.
    rewrite Forall_forall in *. intros y Hy. split; auto. congruence.
  - intros s' Hhd. assert (Es : s' = s).
    { destruct (by_x points) as [|x l]; [discriminate|]. injection Hhd as ->.
      destruct (Hone s' (or_introl eq_refl)) as [|Hlt]; auto.
      inversion Hsort as [|? ? _ Hf]; subst. rewrite Forall_forall in Hf.
      destruct Hs as [->|Hs]; auto. specialize (Hf s Hs). lra. }
    subst s'. clear -Hone Hnd'. induction (by_x points) as [|x l IH]; constructor; inversion Hnd'; subst.
    + apply IH; auto. intros; apply Hone; simpl; auto.
    + rewrite Forall_forall. intros y Hy H3 H4. exfalso.
      destruct (Hone x (or_introl eq_refl)); [|lra]. destruct (Hone y (or_intror Hy)); [|lra]. congruence.
Qed.

Lemma hull_total by_x points : sorts_by_x by_x ->
  ((2 <= length points)%nat -> exists h, compute_convex_hull by_x points = Ok h) /\
  ((length points < 2)%nat -> compute_convex_hull by_x points = Err IndexError).
Proof.
  intros Hby. destruct (Hby points) as [P _]. apply Permutation_length in P. unfold compute_convex_hull.
  destruct (by_x points) as [|s [|r l]]; simpl in P; split; intros H; unfold point in *; try lia; try reflexivity.
  eexists; reflexivity.
Qed.

(** ** A concrete sort by x *)
Definition sort_x : list (R * R) -> list (R * R) := stable_sort (fun p q => Rleb (fst p) (fst q)).

Lemma sort_x_sorts : sorts_by_x sort_x.
Proof.
  intros l. split; [apply stable_sort_perm|].
  apply (SS_impl (stab (fun p q => Rleb (fst p) (fst q)) (fun _ _ => True))).
  - intros x y _ _ [H _]. now apply Rleb_true in H.
  - apply stable_sort_sorted.
    + intros x y. rewrite !Rleb_true. lra.
    + intros x y z. rewrite !Rleb_true. lra.
    + induction l; constructor; auto. apply Forall_forall. auto.
Qed.

Ltac rb := repeat (match goal with
  | |- context [Rleb ?a ?b] =>
      first [ rewrite (proj2 (Rleb_true a b)) by lra | rewrite (proj2 (Rleb_false a b)) by lra ]
  | |- context [Rltb ?a ?b] =>
      first [ rewrite (proj2 (Rltb_true a b)) by lra | rewrite (proj2 (Rltb_false a b)) by lra ]
  end; cbn -[Rleb Rltb get_slope]).

Lemma slope_val s p m : fst s <> fst p -> (snd s - snd p = m * (fst s - fst p)) -> get_slope s p = Some m.
Proof.
  intros H E. unfold get_slope. destruct (Reqb (fst s) (fst p)) eqn:Er; [apply Reqb_true in Er; contradiction|].
  f_equal. rewrite E. field. lra.
Qed.

(** An interior point given twice is never popped. *)
Lemma hull_duplicate_bad :
  compute_convex_hull sort_x [(0, 0); (4, 0); (2, 1); (2, 1); (4, 4)] =
  Ok [(0, 0); (4, 0); (2, 1); (2, 1); (4, 4); (0, 0)].
Proof.
  unfold compute_convex_hull, sort_x, stable_sort. cbn -[Rleb Rltb get_slope slope_leb].
  assert (S1 : get_slope (0,0) (4,0) = Some 0) by (apply slope_val; cbn; lra).
  assert (S2 : get_slope (0,0) (2,1) = Some (1/2)) by (apply slope_val; cbn; lra).
  assert (S3 : get_slope (0,0) (4,4) = Some 1) by (apply slope_val; cbn; lra).
  repeat (progress (rb; rewrite ?S1, ?S2, ?S3; cbn -[Rleb Rltb get_slope]);
          unfold get_cross_product; cbn -[Rleb Rltb get_slope]).
  reflexivity.
Qed.

(** With two leftmost points a vertex can be lost. *)
Lemma hull_tie_bad :
  compute_convex_hull sort_x [(0, 2); (0, 0); (4, 1)] = Ok [(0, 2); (0, 0); (0, 2)].
Proof.
  unfold compute_convex_hull, sort_x, stable_sort. cbn -[Rleb Rltb get_slope slope_leb].
  assert (S1 : get_slope (0,2) (4,1) = Some (-1/4)) by (apply slope_val; cbn; lra).
  assert (S2 : get_slope (0,2) (0,0) = None)
    by (unfold get_slope; cbn; destruct (Reqb 0 0) eqn:E; auto; apply Reqb_false in E; lra).
  repeat (progress (rb; rewrite ?S1, ?S2; cbn -[Rleb Rltb get_slope]);
          unfold get_cross_product; cbn -[Rleb Rltb get_slope]).
  reflexivity.
Qed.
