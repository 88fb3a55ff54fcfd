(** Lemmas for the tree drawing (C77). *)
From Coq Require Import List ZArith Reals Lra Lia Bool Arith.
From Verif.Model Require Import Base Tree TreePlot Pruner.
From Verif.Spec Require Import Common Tree TreePlot Pruner.
From Verif.Proof Require Import BaseLemmas Tree TreeGen TreeMain Pruner.
Import ListNotations.
Local Open Scope R_scope.
Local Notation length := List.length.

(** ** Nodes in a list of branches *)
Fixpoint spots_of (ks : list (branch * tree)) (a d : nat) (me : spot) : list (spot * option (spot * branch)) :=
  match ks with
  | [] => []
  | (b, k) :: ks' => spots k a d (Some (me, b)) ++ spots_of ks' (a + leaf_count k)%nat d me
  end.
Definition spot_of (t : tree) (a d : nat) : spot := {| what := content_of t; first := a; width := leaf_count t; level := d |}.

Lemma spots_unfold t a d up : spots t a d up = (spot_of t a d, up) :: spots_of (branches t) a (S d) (spot_of t a d).
Proof.
  destruct t as [l|j v p n h g l|j v n h kids]; [reflexivity| |].
  - cbn [branches spots_of]. rewrite app_nil_r. reflexivity.
  - cbn [branches].
    cbn [spots]. f_equal. fold (spot_of (Disc j v n h kids) a d). set (me := spot_of _ _ _). clearbody me. revert a.
    induction kids as [|[x k] ks IH]; intros a; [reflexivity|]. cbn [map spots_of fst snd]. f_equal. apply IH.
Qed.

Lemma leaf_count_branches t : match t with Leaf _ => True | _ => leaf_count t = list_sum (map (fun k => leaf_count (snd k)) (branches t)) end.
Proof.
  destruct t as [l|j v p n h g l|j v n h kids]; [exact I| |].
  - cbn. lia.
  - cbn [leaf_count branches]. rewrite map_map. reflexivity.
Qed.

Lemma sub_branch t b k : In (b, k) (branches t) -> forall s, subtree s k -> subtree s t.
Proof.
  destruct t as [l|j v p n h g l|j v n h kids]; cbn [branches]; intros H s Hs.
  - destruct H.
  - destruct H as [H|[H|[]]]; injection H as _ <-; [now apply sub_ge|now apply sub_lt].
  - apply in_map_iff in H. destruct H as ([a k'] & E & H). cbn in E. injection E as _ <-. eapply sub_kid; eauto.
Qed.

Lemma counted_branch t b k : counted t -> In (b, k) (branches t) -> counted k.
Proof. intros C H s Hs. apply C. eapply sub_branch; eauto. Qed.

(** Induction on trees through branches. *)
Lemma tree_branch_ind (P : tree -> Prop) : (forall t, (forall b k, In (b, k) (branches t) -> P k) -> P t) -> forall t, P t.
Proof.
  intros H. induction t as [l|j v p n h g l IHg IHl|j v n h kids IHk] using tree_ind'; apply H; cbn [branches].
  - intros b k [].
  - intros b k [E|[E|[]]]; injection E as _ <-; assumption.
  - intros b k E. apply in_map_iff in E. destruct E as ([a k'] & E & Hin). cbn in E. injection E as _ <-. eauto.
Qed.

Lemma counted_pos t : counted t -> (1 <= leaf_count t)%nat.
Proof.
  induction t as [t IH] using tree_branch_ind. intros C. pose proof (leaf_count_branches t) as L.
  assert (Hb : match t with Leaf _ => True | _ => branches t <> [] end).
  { destruct t as [l|j v p n h g l|j v n h kids]; [exact I|discriminate|]. destruct (C _ (sub_refl _)) as [_ Hk]. cbn. intros E. apply Hk. destruct kids; [reflexivity|discriminate]. }
  destruct t as [l|j v p n h g l|j v n h kids]; [simpl; lia| |]; rewrite L; clear L;
    destruct (branches _) as [|[b k] ks] eqn:E; try congruence;
    (assert (1 <= leaf_count k)%nat; [|cbn [map list_sum fold_right snd]; unfold list_sum; cbn [fold_right]; lia]);
    (apply (IH b k); [left; reflexivity|]); (eapply counted_branch; [exact C|rewrite E; left; reflexivity]).
Qed.

(** ** The drawing *)
Definition step_branch (n h : R) (here : point) (acc : list mark * point) (k : branch * tree) : list mark * point :=
  match snd k with
  | Leaf l =>
      let st' := (fst (snd acc) + 1 / n, snd (snd acc)) in
      (fst acc ++ [note here st' (Some (fst k)); Node here st' (Category l)], st')
  | _ => let r := draw n h (snd k) here (Some (fst k)) (snd acc) in (fst acc ++ fst r, snd r)
  end.

Lemma draw_unfold n h t parent b st : (forall l, t <> Leaf l) ->
  let here := (fst st + (1 + INR (num_of_leaves t)) / (2 * n), snd st) in
  let acc := fold_left (step_branch n h here) (branches t) ([], (fst st, snd st - 1 / h)) in
  draw n h t parent b st =
  ([note parent here b; Node parent here (content_of t)] ++ fst acc, (fst (snd acc), snd (snd acc) + 1 / h)).
Proof.
  intros Nl. destruct t as [l|j v p m hh g l|j v m hh kids]; [elim (Nl l); reflexivity|reflexivity|]. cbv zeta.
  cbn [branches content_of num_of_leaves]. cbn [draw num_of_leaves].
  set (here := (fst st + (1 + INR m) / (2 * n), snd st)). set (a0 := ([], (fst st, snd st - 1 / h))).
  match goal with |- context [fst (?F kids a0)] => assert (E : forall ks acc, F ks acc =
     fold_left (step_branch n h here) (map (fun k => (Value (fst k), snd k)) ks) acc) end.
  { induction ks as [|[a k] ks IH]; intros acc; [reflexivity|]. cbn [map fold_left fst snd]. rewrite IH. reflexivity. }
  rewrite (E kids a0). reflexivity.
Qed.

Definition Xpos (N a : nat) : R := (INR a - 1 / 2) / INR N.
Definition Ypos (h : Z) (d : nat) : R := 1 - INR d / IZR h.

Lemma note_middle p q b : note p q b = Note (middle p q) b.
Proof. unfold note, middle. f_equal. f_equal; field. Qed.

Lemma here_place N h t a d : (N <> 0)%nat -> num_of_leaves t = leaf_count t ->
  (Xpos N a + (1 + INR (num_of_leaves t)) / (2 * INR N), Ypos h d) = place N h (spot_of t a d).
Proof.
  intros Hn E. unfold place, Xpos, Ypos, spot_of. cbn [first width level]. rewrite E. f_equal. field. now apply not_0_INR.
Qed.

Lemma draw_spec N h : (N <> 0)%nat -> (h <> 0)%Z -> forall t, counted t -> (forall l, t <> Leaf l) ->
  forall a d up, 
  draw (INR N) (IZR h) t (match up with None => place N h (spot_of t a d) | Some (q, _) => place N h q end) (option_map snd up) (Xpos N a, Ypos h d) =
  (flat_map (drawn N h) (spots t a d up), (Xpos N (a + leaf_count t), Ypos h d)).
Proof.
  intros Hn Hh. assert (Hn' : INR N <> 0) by now apply not_0_INR. assert (Hh' : IZR h <> 0) by (apply IZR_neq; lia).
  induction t as [t IH] using tree_branch_ind. intros C Nl a d up.
  rewrite draw_unfold by exact Nl. cbv zeta. cbn [fst snd].
  rewrite (here_place N h t a d Hn (proj1 (C _ (sub_refl _)))). set (me := spot_of t a d).
  assert (F : forall ks, (forall b k, In (b, k) ks -> In (b, k) (branches t)) -> forall a' ms,
     fold_left (step_branch (INR N) (IZR h) (place N h me)) ks (ms, (Xpos N a', Ypos h (S d))) =
     (ms ++ flat_map (drawn N h) (spots_of ks a' (S d) me), (Xpos N (a' + list_sum (map (fun k => leaf_count (snd k)) ks)), Ypos h (S d)))).
  { induction ks as [|[b k] ks IHks]; intros Hin a' ms.
    - cbn. rewrite app_nil_r, Nat.add_0_r. reflexivity.
    - cbn [fold_left spots_of map snd list_sum fold_right]. rewrite flat_map_app.
      assert (E : step_branch (INR N) (IZR h) (place N h me) (ms, (Xpos N a', Ypos h (S d))) (b, k) =
         (ms ++ flat_map (drawn N h) (spots k a' (S d) (Some (me, b))), (Xpos N (a' + leaf_count k), Ypos h (S d)))).
      { assert (Hk : In (b, k) (branches t)) by (apply Hin; left; reflexivity).
        destruct k as [l|j v p n hh g l|j v n hh kids].
        - unfold step_branch. cbn [snd fst spots flat_map drawn app leaf_count what content_of]. rewrite note_middle.
          assert (P : (Xpos N a' + 1 / INR N, Ypos h (S d)) = place N h {| what := Category l; first := a'; width := 1; level := S d |}).
          { unfold place, Xpos, Ypos. cbn [first width level]. change (INR 1) with 1. f_equal. field. exact Hn'. }
          rewrite P. f_equal. rewrite <- P. unfold Xpos. rewrite plus_INR. change (INR 1) with 1. f_equal. field. exact Hn'.
        - unfold step_branch. cbn [snd fst]. pose proof (IH b _ Hk (counted_branch _ _ _ C Hk) ltac:(discriminate) a' (S d) (Some (me, b))) as D.
          cbn [option_map snd] in D. rewrite D. reflexivity.
        - unfold step_branch. cbn [snd fst]. pose proof (IH b _ Hk (counted_branch _ _ _ C Hk) ltac:(discriminate) a' (S d) (Some (me, b))) as D.
          cbn [option_map snd] in D. rewrite D. reflexivity. }
      rewrite E, IHks by (intros; apply Hin; now right). rewrite <- app_assoc, Nat.add_assoc. reflexivity. }
  assert (Y1 : Ypos h d - 1 / IZR h = Ypos h (S d)) by (unfold Ypos; rewrite S_INR; field; exact Hh').
  rewrite Y1, (F (branches t)) by auto. cbn [fst snd app]. rewrite spots_unfold. fold me. cbn [flat_map]. f_equal.
  - unfold drawn at 1. cbn [fst snd]. replace (content_of t) with (what me) by reflexivity.
    destruct up as [[q b]|]; cbn [option_map snd app]; rewrite note_middle; [reflexivity|].
    replace (middle (place N h me) (place N h me)) with (place N h me); [reflexivity|].
    unfold middle. destruct (place N h me) as [x y]. cbn. f_equal; field.
  - f_equal; [|unfold Ypos; rewrite S_INR; field; exact Hh']. do 2 f_equal.
    pose proof (leaf_count_branches t) as L. destruct t as [l| |]; [elim (Nl l); reflexivity| |]; now rewrite L.
Qed.

(** The whole drawing. *)
Lemma plot_spec t : counted t -> ((height t = 0)%Z <-> exists l, t = Leaf l) ->
  plot_tree t = Ok (flat_map (drawn (leaf_count t) (height t)) (spots t 0 0 None)).
Proof.
  intros C H0. pose proof (counted_pos t C) as Hp. unfold plot_tree. rewrite (proj1 (C _ (sub_refl _))).
  destruct (Nat.eqb_spec (leaf_count t) 0); [lia|]. destruct (Z.eqb_spec (height t) 0) as [E|E].
  - destruct (proj1 H0 E) as (l & ->). cbn [leaf_count spots flat_map drawn fst snd app what content_of height].
    change (INR 1) with 1.
    assert (P : (- (1 / 2) / 1 + (1 + 1) / (2 * 1), 1) = place 1 0 {| what := Category l; first := 0; width := 1; level := 0 |}).
    { unfold place. cbn [first width level]. change (INR 1) with 1. change (INR 0) with 0. replace (0 / 0) with 0 by (unfold Rdiv; ring). f_equal; field. }
    rewrite P. assert (Q : (1 / 2, 1) = place 1 0 {| what := Category l; first := 0; width := 1; level := 0 |}) by (rewrite <- P; f_equal; field).
    rewrite Q, note_middle. unfold middle. do 2 f_equal. f_equal. set (p := place _ _ _). destruct p as [x y]. cbn. f_equal; field.
  - assert (Nl : forall l, t <> Leaf l) by (intros l X; apply E, H0; eauto).
    pose proof (draw_spec (leaf_count t) (height t) n E t C Nl 0 0 None) as D. cbn [option_map] in D.
    assert (Hn' : INR (leaf_count t) <> 0) by now apply not_0_INR.
    assert (P : place (leaf_count t) (height t) (spot_of t 0 0) = (1 / 2, 1)).
    { unfold place, spot_of. cbn [first width level]. change (INR 0) with 0. f_equal; [field; exact Hn'|]. unfold Rdiv. ring. }
    rewrite P in D. assert (Q : (Xpos (leaf_count t) 0, Ypos (height t) 0) = (- (1 / 2) / INR (leaf_count t), 1)).
    { unfold Xpos, Ypos. change (INR 0) with 0. f_equal; [f_equal; ring|unfold Rdiv; ring]. }
    rewrite Q in D. rewrite D. reflexivity.
Qed.

(** ** Where the nodes are *)
Definition within (a m d : nat) (s : spot) : Prop := (a <= first s)%nat /\ (1 <= width s)%nat /\ (first s + width s <= a + m)%nat /\ (d <= level s)%nat.

Lemma spots_within t : counted t -> forall a d up s q, In (s, q) (spots t a d up) ->
  within a (leaf_count t) d s /\ (level s <= d + depth t)%nat.
Proof.
  induction t as [t IH] using tree_branch_ind. intros C a d up s q Hs. rewrite spots_unfold in Hs. destruct Hs as [E|Hs].
  - injection E as <- <-. unfold within, spot_of. cbn [first width level]. pose proof (counted_pos t C). lia.
  - assert (D : forall b k, In (b, k) (branches t) -> (S (depth k) <= depth t)%nat).
    { intros b k Hk. destruct t as [l|j v p n h g l|j v n h kids]; cbn [branches] in Hk.
      - destruct Hk.
      - destruct Hk as [Hk|[Hk|[]]]; injection Hk as _ <-; cbn [depth]; lia.
      - apply in_map_iff in Hk. destruct Hk as ([x k'] & E & Hk). cbn in E. injection E as _ <-. cbn [depth]. apply le_n_S.
        pose proof (proj1 (list_max_le (map (fun k => depth (snd k)) kids) _) (le_n _)) as M. rewrite Forall_forall in M. apply M.
        apply in_map_iff. exists (x, k'). auto. }
    assert (G : forall ks, (forall b k, In (b, k) ks -> In (b, k) (branches t)) -> forall a' me, In (s, q) (spots_of ks a' (S d) me) ->
       within a' (list_sum (map (fun k => leaf_count (snd k)) ks)) (S d) s /\ (level s <= d + depth t)%nat).
    { induction ks as [|[b k] ks IHks]; intros Hin a' me Hq; [destruct Hq|]. cbn [spots_of] in Hq. apply in_app_or in Hq.
      assert (Hk : In (b, k) (branches t)) by (apply Hin; left; reflexivity). change (list_sum (map (fun k0 => leaf_count (snd k0)) ((b, k) :: ks))) with (leaf_count k + list_sum (map (fun k0 => leaf_count (snd k0)) ks))%nat.
      unfold within. destruct Hq as [Hq|Hq].
      - destruct (IH b k Hk (counted_branch _ _ _ C Hk) _ _ _ _ _ Hq) as [W L]. pose proof (D b k Hk). unfold within in W. split; lia.
      - destruct (IHks (fun b k H => Hin b k (or_intror H)) _ _ Hq) as [W L]. unfold within in W. split; lia. }
    destruct (G _ (fun b k H => H) _ _ Hs) as [W L]. split; [|exact L]. unfold within in *.
    pose proof (leaf_count_branches t) as Lc. destruct t as [l| |]; [destruct Hs| |]; rewrite Lc; lia.
Qed.

Lemma spots_deepest t : counted t -> forall a d up, exists s q, In (s, q) (spots t a d up) /\ level s = (d + depth t)%nat.
Proof.
  induction t as [t IH] using tree_branch_ind. intros C a d up.
  assert (D : (depth t = 0)%nat \/ exists b k, In (b, k) (branches t) /\ depth t = S (depth k)).
  { destruct t as [l|j v p n h g l|j v n h kids]; cbn [branches depth]; [auto| |]; right.
    - destruct (Nat.max_spec (depth g) (depth l)) as [[_ ->]|[_ ->]]; [exists (Below p), l|exists (AtLeast p), g]; simpl; auto.
    - destruct (C _ (sub_refl _)) as [_ Nk].
      assert (X : exists k, In k kids /\ list_max (map (fun k => depth (snd k)) kids) = depth (snd k)).
      { clear -Nk. induction kids as [|k ks IHk]; [congruence|]. destruct ks as [|k' ks]; [exists k; simpl; split; [auto|lia]|].
        destruct IHk as (m & Hm & Em); [discriminate|]. cbn [map list_max fold_right] in *. unfold list_max in *. cbn [fold_right] in *.
        destruct (Nat.max_spec (depth (snd k)) (fold_right Nat.max 0%nat (map (fun k0 => depth (snd k0)) (k' :: ks)))) as [[_ X]|[_ X]].
        - exists m. split; [now right|]. cbn [map fold_right] in *. lia.
        - exists k. split; [now left|]. cbn [map fold_right] in *. lia. }
      destruct X as ([x k] & Hk & Ek). exists (Value x), k. split; [apply in_map_iff; exists (x, k); auto|]. now rewrite Ek. }
  destruct D as [E|(b & k & Hk & E)].
  - exists (spot_of t a d), up. rewrite spots_unfold. split; [now left|]. cbn. lia.
  - assert (G : forall ks, In (b, k) ks -> forall a' me, exists s q, In (s, q) (spots_of ks a' (S d) me) /\ level s = (d + depth t)%nat).
    { induction ks as [|[b' k'] ks IHks]; intros Hin a' me; [destruct Hin|]. cbn [spots_of]. destruct Hin as [Eq|Hin].
      - injection Eq as -> ->. destruct (IH b k Hk (counted_branch _ _ _ C Hk) a' (S d) (Some (me, b))) as (s & q & Hs & Hl).
        exists s, q. split; [apply in_or_app; now left|]. lia.
      - destruct (IHks Hin (a' + leaf_count k')%nat me) as (s & q & Hs & Hl). exists s, q. split; [apply in_or_app; now right|exact Hl]. }
    destruct (G _ Hk a (spot_of t a d)) as (s & q & Hs & Hl). exists s, q. rewrite spots_unfold. split; [now right|exact Hl].
Qed.

(** Different nodes: disjoint leaves, or different levels. *)
Definition coordinate (s : spot) : nat * nat := ((2 * first s + width s)%nat, level s).
Lemma NoDup_app_disjoint {A} (l l' : list A) : NoDup l -> NoDup l' -> (forall x, In x l -> ~ In x l') -> NoDup (l ++ l').
Proof.
  induction 1 as [|x l Hx Hl IH]; intros Hl' Hd; [exact Hl'|]. cbn. constructor.
  - intros H. apply in_app_or in H. destruct H; [auto|]. apply (Hd x); [now left|assumption].
  - apply IH; [assumption|]. intros y Hy. apply Hd. now right.
Qed.
Lemma spots_distinct t : counted t -> forall a d up, NoDup (map (fun x => coordinate (fst x)) (spots t a d up)).
Proof.
  induction t as [t IH] using tree_branch_ind. intros C a d up. rewrite spots_unfold. cbn [map fst].
  assert (W : forall ks, (forall b k, In (b, k) ks -> In (b, k) (branches t)) -> forall a' me x, In x (map (fun x => coordinate (fst x)) (spots_of ks a' (S d) me)) ->
     (2 * a' < fst x)%nat /\ (S d <= snd x)%nat).
  { induction ks as [|[b k] ks IHks]; intros Hin a' me x Hx; [destruct Hx|]. cbn [spots_of] in Hx. rewrite map_app in Hx. apply in_app_or in Hx.
    assert (Hk : In (b, k) (branches t)) by (apply Hin; left; reflexivity). destruct Hx as [Hx|Hx].
    - apply in_map_iff in Hx. destruct Hx as ([s q] & <- & Hs). destruct (spots_within k (counted_branch _ _ _ C Hk) _ _ _ _ _ Hs) as [X _]. unfold within in X. unfold coordinate. cbn. lia.
    - destruct (IHks (fun b k H => Hin b k (or_intror H)) _ _ _ Hx). lia. }
  constructor.
  - intros Hx. destruct (W _ (fun b k H => H) _ _ _ Hx) as [_ L]. unfold coordinate, spot_of in L. cbn in L. lia.
  - assert (G : forall ks, (forall b k, In (b, k) ks -> In (b, k) (branches t)) -> forall a' me, NoDup (map (fun x => coordinate (fst x)) (spots_of ks a' (S d) me))).
    { induction ks as [|[b k] ks IHks]; intros Hin a' me; [constructor|]. cbn [spots_of]. rewrite map_app.
      assert (Hk : In (b, k) (branches t)) by (apply Hin; left; reflexivity). apply NoDup_app_disjoint.
      - apply (IH b k Hk). eapply counted_branch; eauto.
      - apply IHks. intros; apply Hin; now right.
      - intros x Hx Hx'. destruct (W ks (fun b k H => Hin b k (or_intror H)) _ _ _ Hx') as [L _].
        apply in_map_iff in Hx. destruct Hx as ([s q] & <- & Hs). destruct (spots_within k (counted_branch _ _ _ C Hk) _ _ _ _ _ Hs) as [X _].
        unfold within in X. unfold coordinate in L. cbn in L. lia. }
    apply G. auto.
Qed.

Lemma spots_length t a d up : length (spots t a d up) = node_count t.
Proof.
  revert a d up. induction t as [t IH] using tree_branch_ind. intros a d up. rewrite spots_unfold. cbn [length].
  assert (G : forall ks, (forall b k, In (b, k) ks -> In (b, k) (branches t)) -> forall a' me,
     length (spots_of ks a' (S d) me) = list_sum (map (fun k => node_count (snd k)) ks)).
  { induction ks as [|[b k] ks IHks]; intros Hin a' me; [reflexivity|]. cbn [spots_of]. rewrite app_length.
    rewrite (IH b k) by (apply Hin; now left). rewrite IHks by (intros; apply Hin; now right). reflexivity. }
  rewrite G by auto. destruct t as [l|j v p n h g l|j v n h kids]; cbn [branches node_count]; [reflexivity|cbn; lia|].
  rewrite map_map. reflexivity.
Qed.

Lemma boxes_of n h l : boxes_at (flat_map (drawn n h) l) = map (fun x => place n h (fst x)) l.
Proof.
  unfold boxes_at. induction l as [|[s [[q b]|]] l IH]; [reflexivity| |]; cbn [flat_map map fst]; rewrite flat_map_app, IH; reflexivity.
Qed.

Lemma place_coordinate n h s s' : (n <> 0)%nat -> (h <> 0)%Z -> place n h s = place n h s' -> coordinate s = coordinate s'.
Proof.
  intros Hn Hh E. assert (Hn' : INR n <> 0) by now apply not_0_INR. assert (Hh' : IZR h <> 0) by (apply IZR_neq; lia).
  unfold place in E. injection E as E1 E2. unfold coordinate. f_equal.
  - apply INR_eq. rewrite !plus_INR, !mult_INR. change (INR 2) with 2.
    apply Rmult_eq_reg_r in E1; [lra|now apply Rinv_neq_0_compat].
  - apply INR_eq. assert (E3 : INR (level s) / IZR h = INR (level s') / IZR h) by lra.
    apply Rmult_eq_reg_r in E3; [exact E3|now apply Rinv_neq_0_compat].
Qed.

Lemma boxes_distinct t : counted t -> ((height t = 0)%Z <-> exists l, t = Leaf l) ->
  NoDup (map (fun x => place (leaf_count t) (height t) (fst x)) (spots t 0 0 None)).
Proof.
  intros C H0. destruct (Z.eq_dec (height t) 0) as [E|E].
  - destruct (proj1 H0 E) as (l & ->). cbn. constructor; [intros []|constructor].
  - pose proof (spots_distinct t C 0 0 None) as N. pose proof (counted_pos t C) as Hp. revert N. generalize (spots t 0 0 None).
    assert (Hn : (leaf_count t <> 0)%nat) by lia.
    induction l as [|x l IH]; intros N; [constructor|]. cbn [map] in *. inversion N; subst. constructor; auto.
    intros Hin. apply in_map_iff in Hin. destruct Hin as (y & Ey & Hy). apply place_coordinate in Ey; auto.
    match goal with H : ~ In _ _ |- _ => apply H end. rewrite <- Ey. apply in_map_iff. eauto.
Qed.

Lemma place_x n h s : (n <> 0)%nat -> within 0 n 0 s -> 0 < fst (place n h s) < 1.
Proof.
  intros Hn (W1 & W2 & W3 & _). assert (Hn' : 0 < INR n) by (apply lt_0_INR; lia). cbn [place fst].
  assert (A : 0 <= INR (first s)) by apply pos_INR. assert (B : 1 <= INR (width s)) by (apply (le_INR 1); lia).
  assert (D : INR (first s) + INR (width s) <= INR n) by (rewrite <- plus_INR; apply le_INR; lia).
  split.
  - apply Rdiv_lt_0_compat; lra.
  - apply (Rmult_lt_reg_r (INR n)); [exact Hn'|]. field_simplify; lra.
Qed.

Lemma place_y n h s : (0 < h)%Z -> (Z.of_nat (level s) <= h)%Z <-> 0 <= snd (place n h s).
Proof.
  intros Hh. assert (Hh' : 0 < IZR h) by now apply IZR_lt. cbn [place snd]. rewrite INR_IZR_INZ. split; intros H.
  - apply IZR_le in H. assert (IZR (Z.of_nat (level s)) / IZR h <= 1); [|lra]. apply (Rmult_le_reg_r (IZR h)); [exact Hh'|]. field_simplify; lra.
  - apply le_IZR. assert (X : IZR (Z.of_nat (level s)) / IZR h <= 1) by lra. apply (Rmult_le_compat_r (IZR h)) in X; [|lra]. field_simplify in X; lra.
Qed.
Lemma place_y1 n h s : (0 <= h)%Z -> (h = 0 -> level s = 0%nat)%Z -> snd (place n h s) <= 1.
Proof.
  intros Hh H0. cbn [place snd]. destruct (Z.eq_dec h 0) as [E|E].
  - rewrite (H0 E). cbn. unfold Rdiv. rewrite Rmult_0_l. lra.
  - assert (0 < IZR h) by (apply IZR_lt; lia). assert (0 <= INR (level s) / IZR h); [|lra].
    apply Rmult_le_pos; [apply pos_INR|]. left. now apply Rinv_0_lt_compat.
Qed.

Lemma parent_spot t : forall a d up s q b, In (s, Some (q, b)) (spots t a d up) -> up = Some (q, b) \/ exists u, In (q, u) (spots t a d up).
Proof.
  induction t as [t IH] using tree_branch_ind. intros a d up s q b H. rewrite spots_unfold in H. destruct H as [H|H].
  - injection H as _ ->. now left.
  - right. rewrite spots_unfold. set (me := spot_of t a d) in *.
    assert (G : forall ks, (forall b k, In (b, k) ks -> In (b, k) (branches t)) -> forall a', In (s, Some (q, b)) (spots_of ks a' (S d) me) ->
       q = me \/ exists u, In (q, u) (spots_of ks a' (S d) me)).
    { induction ks as [|[b' k] ks IHks]; intros Hin a' Hq; [destruct Hq|]. cbn [spots_of] in *. apply in_app_or in Hq. destruct Hq as [Hq|Hq].
      - destruct (IH b' k (Hin _ _ (or_introl eq_refl)) _ _ _ _ _ _ Hq) as [E|(u & Hu)]; [injection E as -> _; now left|]. right. exists u. apply in_or_app. now left.
      - destruct (IHks (fun b k H => Hin b k (or_intror H)) _ Hq) as [E|(u & Hu)]; [now left|]. right. exists u. apply in_or_app. now right. }
    destruct (G _ (fun b k H => H) _ H) as [->|(u & Hu)]; [exists up; now left|exists u; now right].
Qed.

Lemma plot_inside t : counted t -> ((height t = 0)%Z <-> exists l, t = Leaf l) -> (0 <= height t)%Z ->
  ((Z.of_nat (depth t) <= height t)%Z <-> forall p, In p (points_of (flat_map (drawn (leaf_count t) (height t)) (spots t 0 0 None))) -> inside p).
Proof.
  intros C H0 Hh. pose proof (counted_pos t C) as Hp. assert (Hn : (leaf_count t <> 0)%nat) by lia. split.
  - intros Hd.
    assert (I : forall s u, In (s, u) (spots t 0 0 None) -> inside (place (leaf_count t) (height t) s)).
    { intros s u Hs. destruct (spots_within t C _ _ _ _ _ Hs) as [W L]. cbn in W. unfold inside.
      destruct (place_x _ (height t) _ Hn W) as [X1 X2]. split; [lra|]. split.
      - destruct (Z.eq_dec (height t) 0) as [E|E]; [|apply place_y; lia].
        destruct (proj1 H0 E) as (l & ->). cbn [depth] in L. cbn [place snd]. replace (level s) with 0%nat by lia. cbn. unfold Rdiv. rewrite Rmult_0_l. lra.
      - apply place_y1; [lia|]. intros E. destruct (proj1 H0 E) as (l & ->). cbn [depth] in L. lia. }
    intros p Hin. unfold points_of in Hin. apply in_flat_map in Hin. destruct Hin as (m & Hm & Hin). apply in_flat_map in Hm. destruct Hm as ([s u] & Hs & Hm).
    pose proof (I _ _ Hs) as Is. unfold drawn in Hm. cbn [fst snd] in Hm. destruct u as [[q b]|].
    + destruct (parent_spot _ _ _ _ _ _ _ Hs) as [E|(u & Hu)]; [discriminate|]. pose proof (I _ _ Hu) as Iq.
      destruct Hm as [<-|[<-|[]]]; cbn in Hin; [destruct Hin as [<-|[]]|destruct Hin as [<-|[<-|[]]]]; auto.
      unfold inside, middle in *. cbn [fst snd] in *. lra.
    + destruct Hm as [<-|[<-|[]]]; cbn in Hin; [destruct Hin as [<-|[]]|destruct Hin as [<-|[<-|[]]]]; auto.
  - intros HI. destruct (Z.eq_dec (height t) 0) as [E|E]; [destruct (proj1 H0 E) as (l & ->); cbn; lia|].
    destruct (spots_deepest t C 0 0 None) as (s & u & Hs & Hl). rewrite Nat.add_0_l in Hl. rewrite <- Hl.
    apply (place_y (leaf_count t)); [lia|]. apply HI. unfold points_of. apply in_flat_map.
    destruct u as [[q b]|].
    + eexists. split; [apply in_flat_map; eexists; split; [exact Hs|]; cbn; right; left; reflexivity|]. cbn. auto.
    + eexists. split; [apply in_flat_map; eexists; split; [exact Hs|]; cbn; right; left; reflexivity|]. cbn. auto.
Qed.

(** ** Fitted trees *)
Definition ready (t : tree) : Prop := counted t /\ ((height t = 0)%Z <-> exists l, t = Leaf l) /\ (0 <= height t)%Z.

Lemma counted_of t w : well_formed w t -> (forall s, subtree s t -> num_of_leaves s = leaf_count s) -> counted t.
Proof. intros W H s Hs. split; [auto|]. specialize (W s Hs). destruct s; auto. apply W. Qed.

Lemma collapsed_subtree t' s' : subtree s' t' -> forall t, collapsed t t' -> exists s, subtree s t /\ collapsed s s'.
Proof.
  induction 1 as [t'|s' j v p n h g l Hs IH|s' j v p n h g l Hs IH|s' j v n h kids a k Hk Hs IH]; intros t C.
  - exists t. split; [constructor|exact C].
  - inversion C; subst. match goal with H : collapsed _ g |- _ => destruct (IH _ H) as (s & S1 & S2) end. exists s. split; [now apply sub_ge|exact S2].
  - inversion C; subst. match goal with H : collapsed _ l |- _ => destruct (IH _ H) as (s & S1 & S2) end. exists s. split; [now apply sub_lt|exact S2].
  - inversion C as [| |? ? ? ? ? ? kids0 ? HF]; subst. 
    assert (X : exists k0, In k0 kids0 /\ collapsed (snd k0) k).
    { clear -HF Hk. induction HF as [|x y l l' [Exy Cxy] HF IHF]; [destruct Hk|]. destruct Hk as [->|Hk]; [exists x; split; [now left|exact Cxy]|].
      destruct (IHF Hk) as (k0 & K1 & K2). exists k0. split; [now right|exact K2]. }
    destruct X as ([b k0] & K1 & K2). destruct (IH _ K2) as (s & S1 & S2). exists s. split; [eapply sub_kid; eauto|exact S2].
Qed.

Lemma collapsed_counted w t t' : well_formed w t -> collapsed t t' -> (forall s, subtree s t' -> num_of_leaves s = leaf_count s) -> counted t'.
Proof.
  intros W C H s' Hs'. split; [auto|]. destruct (collapsed_subtree _ _ Hs' _ C) as (s & Hs & Cs). specialize (W s Hs). destruct s'; auto.
  inversion Cs; subst. destruct W as (_ & _ & N).
  match goal with HF : Forall2 _ ?k _ |- _ => intros ->; inversion HF; subst; congruence end.
Qed.

Lemma ready_of t : counted t -> (Z.of_nat (depth t) <= height t)%Z -> ready t.
Proof.
  intros C H. split; [exact C|]. split; [|lia]. split.
  - intros E. destruct t; [eauto| |]; cbn [depth] in H; rewrite E in H; lia.
  - intros (l & ->). reflexivity.
Qed.

Lemma fit_ready top rnd c w D t : fit_tree top rnd c w D = Ok t -> ready t /\ (Z.of_nat (depth t) <= height t)%Z.
Proof.
  intros H. pose proof (fit_height_ge _ _ _ _ _ _ H t (sub_refl _)) as G. split; [|exact G]. apply ready_of; [|exact G].
  eapply counted_of; [eapply fit_wf; eauto|eapply fit_leaves; eauto].
Qed.
Lemma pre_ready top rnd c w D V t : fit_pruned top rnd c Pre w D (Some V) = Ok t -> ready t /\ (Z.of_nat (depth t) <= height t)%Z.
Proof.
  intros H. destruct (fit_pre_main _ _ _ _ _ _ _ H) as (t0 & H0 & C & _ & L & G). split; [|auto using sub_refl].
  apply ready_of; [|auto using sub_refl]. eapply collapsed_counted; eauto. eapply fit_wf; eauto.
Qed.

(** Recorded heights after post-pruning are positive at splits. *)
Definition tall (t : tree) : Prop := forall s, subtree s t -> (0 <= height s)%Z /\ ((height s = 0)%Z -> exists l, s = Leaf l).
Lemma tall_sub t s : tall t -> subtree s t -> tall s.
Proof. intros H Hs s' Hs'. apply H. eapply subtree_trans; eauto. Qed.
Lemma tall_leaf l : tall (Leaf l).
Proof. intros s Hs. inversion Hs; subst. split; [cbn; lia|eauto]. Qed.
Lemma loop_grows (ks : list (cell * tree)) : forall m, (m <= fold_left (fun m k => if (m <? height (snd k))%Z then (height (snd k) + 1)%Z else m) ks m)%Z.
Proof. induction ks as [|k ks IH]; intros m; [cbn; lia|]. cbn [fold_left]. eapply Z.le_trans; [|apply IH]. destruct (Z.ltb_spec m (height (snd k))); lia.
Qed.
Lemma post_tall top w : forall t D V t', well_formed w t -> tall t -> post_prune top t D V = Ok t' -> tall t'.
Proof.
  induction t as [l|j v p n h g l IHg IHl|j v n h kids IHk] using tree_ind'; intros D V t' W T H.
  - injection H as <-. exact T.
  - cbn [post_prune] in H. destruct (length V =? 0)%nat; [injection H as <-; exact T|].
    apply bind_Ok in H. destruct H as (cur & _ & H). destruct (negb _); [discriminate|].
    apply bind_Ok in H. destruct H as (g' & Hg & H). apply bind_Ok in H. destruct H as (l' & Hl & H).
    apply wf_cont in W. destruct W as (_ & Wg & Wl).
    pose proof (IHg _ _ _ Wg (tall_sub _ _ T (sub_ge _ _ _ _ _ _ _ _ (sub_refl _))) Hg) as Tg.
    pose proof (IHl _ _ _ Wl (tall_sub _ _ T (sub_lt _ _ _ _ _ _ _ _ (sub_refl _))) Hl) as Tl.
    assert (T1 : tall (Cont j v p (num_of_leaves g' + num_of_leaves l') (Z.max (height g') (height l') + 1)%Z g' l')).
    { intros s Hs. inversion Hs; subst; [|now apply Tg|now apply Tl]. cbn [height]. pose proof (proj1 (Tg _ (sub_refl _))). split; [lia|intros; lia]. }
    cbv zeta in H. destruct (is_leaf g' && is_leaf l').
    + apply bind_Ok in H. destruct H as (c & _ & H). destruct (c <? _)%nat; injection H as <-; [apply tall_leaf|exact T1].
    + injection H as <-. exact T1.
  - rewrite post_disc in H. destruct (length V =? 0)%nat; [injection H as <-; exact T|].
    apply bind_Ok in H. destruct H as (cur & _ & H). apply bind_Ok in H. destruct H as (kids' & Hk & H).
    apply prune_kids_Ok in Hk. apply wf_disc in W. destruct W as (_ & _ & Ne & Wk).
    assert (Tk : forall a k', In (a, k') kids' -> tall k').
    { intros a k' Hin. destruct (kids_In_r _ _ _ _ Hk Hin) as ([b k] & Hink & _ & Hp). simpl in Hp.
      eapply (IHk b k Hink); [eapply Wk; eauto| |exact Hp]. eapply tall_sub; [exact T|]. eapply sub_kid; [exact Hink|apply sub_refl]. }
    assert (Lh : (1 <= loop_height kids')%Z).
    { destruct kids' as [|[a k'] ks]; [inversion Hk; subst; congruence|]. unfold loop_height. cbn [fold_left snd].
      pose proof (proj1 (Tk a k' (or_introl eq_refl) _ (sub_refl _))) as P. replace (-1 <? height k')%Z with true by (symmetry; apply Z.ltb_lt; lia).
      pose proof (loop_grows ks (height k' + 1)%Z). lia. }
    assert (T1 : tall (Disc j v (leaves_sum kids') (loop_height kids') kids')).
    { intros s Hs. inversion Hs; subst; [|match goal with Hi : In (?a, ?k) kids', Hx : subtree s ?k |- _ => now apply (Tk a k Hi) end]. cbn [height]. split; [lia|intros; lia]. }
    cbv zeta in H. destruct (forallb _ kids').
    + apply bind_Ok in H. destruct H as (c & _ & H). destruct (c <? _)%nat; injection H as <-; [apply tall_leaf|exact T1].
    + injection H as <-. exact T1.
Qed.

Lemma post_ready top rnd c w D V t : rectangular w V -> fit_pruned top rnd c Post w D (Some V) = Ok t -> ready t.
Proof.
  intros RV H. destruct (fit_post_main _ _ _ _ _ _ _ RV H) as (t0 & H0 & C & _).
  assert (Tt : tall t).
  { pose proof H as H'. unfold fit_pruned in H'. rewrite H0 in H'. cbn [bind] in H'. eapply (post_tall top w); [eapply fit_wf; eauto| |exact H'].
    intros s Hs. pose proof (fit_height_ge _ _ _ _ _ _ H0 s Hs). split; [lia|]. intros E. destruct s; [eauto| |]; cbn [depth] in *; rewrite E in *; lia. }
  destruct (Tt _ (sub_refl _)) as [T1 T2]. split; [|split; [split; [exact T2|intros (l & ->); reflexivity]|exact T1]].
  eapply collapsed_counted; eauto; [eapply fit_wf; eauto|eapply fit_post_counts; eauto].
Qed.

(** ** Leaves from left to right *)
Definition is_category (c : content) : bool := match c with Category _ => true | _ => false end.
Lemma leaf_spots t : forall a d up, map (fun x => (first (fst x), width (fst x))) (filter (fun x => is_category (what (fst x))) (spots t a d up)) =
  map (fun i => (i, 1%nat)) (seq a (leaf_count t)).
Proof.
  induction t as [t IH] using tree_branch_ind. intros a d up. rewrite spots_unfold.
  assert (G : forall ks, (forall b k, In (b, k) ks -> In (b, k) (branches t)) -> forall a' me,
     map (fun x => (first (fst x), width (fst x))) (filter (fun x => is_category (what (fst x))) (spots_of ks a' (S d) me)) =
     map (fun i => (i, 1%nat)) (seq a' (list_sum (map (fun k => leaf_count (snd k)) ks)))).
  { induction ks as [|[b k] ks IHks]; intros Hin a' me; [reflexivity|]. cbn [spots_of]. rewrite filter_app, map_app.
    rewrite (IH b k) by (apply Hin; now left). rewrite IHks by (intros; apply Hin; now right).
    change (list_sum (map (fun k0 => leaf_count (snd k0)) ((b, k) :: ks))) with (leaf_count k + list_sum (map (fun k0 => leaf_count (snd k0)) ks))%nat.
    rewrite seq_app, map_app. reflexivity. }
  pose proof (leaf_count_branches t) as L. cbn [filter fst]. destruct t as [l|j v p n h g l|j v n h kids].
  - reflexivity.
  - cbn [spot_of what content_of is_category]. rewrite L. now apply G.
  - cbn [spot_of what content_of is_category]. rewrite L. now apply G.
Qed.
Lemma leaf_xs n h l : leaf_columns (flat_map (drawn n h) l) = map (fun x => fst (place n h (fst x))) (filter (fun x => is_category (what (fst x))) l).
Proof.
  unfold leaf_columns. induction l as [|[s [[q b]|]] l IH]; [reflexivity| |]; cbn [flat_map map filter fst]; rewrite flat_map_app, IH;
  unfold drawn; cbn [fst snd flat_map app]; destruct (what s); reflexivity.
Qed.
Lemma leaf_columns_even t n h : leaf_columns (flat_map (drawn n h) (spots t 0 0 None)) = map (fun i => (INR i + 1 / 2) / INR n) (seq 0 (leaf_count t)).
Proof.
  rewrite leaf_xs. pose proof (leaf_spots t 0 0 None) as E. apply (f_equal (map (fun p : nat * nat => (INR (fst p) + INR (snd p) / 2) / INR n))) in E.
  rewrite !map_map in E. cbn [fst snd] in E. change (INR 1) with 1 in E. exact E.
Qed.
