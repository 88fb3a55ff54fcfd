(** Other units of measurement: decision trees (C98). *)
From Coq Require Import List ZArith Reals Lra Lia Bool Arith String.
From Verif.Model Require Import Base Tree Pruner.
From Verif.Spec Require Import Common Tree Pruner Units.
From Verif.Proof Require Import BaseLemmas Tree TreeGen Pruner Units.
Import ListNotations.
Local Open Scope R_scope.
Local Notation length := List.length.

Lemma cell_in_inj f a b : unit_change f -> cell_in f a = cell_in f b -> a = b.
Proof. intros U; destruct a, b; cbn; try discriminate; intros H; injection H as H; [f_equal; now apply (unit_inj f)|now f_equal]. Qed.
Lemma cell_at_in fs r j : length r = length fs -> (j < length fs)%nat -> cell_at j (row_in fs r) = cell_in (unit_of fs j) (cell_at j r).
Proof.
  unfold cell_at, row_in, unit_of; revert r j; induction fs as [|f fs IH]; intros [|x r] [|j] L H; cbn in *; try lia; [reflexivity|].
  apply IH; lia.
Qed.
Lemma get_at_in fs r j : length r = length fs -> get_at (row_in fs r) j = (c <- get_at r j ;; Ok (cell_in (unit_of fs j) c)).
Proof.
  unfold get_at, row_in, unit_of; revert r j; induction fs as [|f fs IH]; intros [|x r] [|j] L; cbn in *; try lia; try reflexivity.
  apply IH; lia.
Qed.
Lemma is_num_in f c : is_num (cell_in f c) = is_num c.
Proof. now destruct c. Qed.
Lemma cell_ge_in f t c : unit_change f -> cell_ge (f t) (cell_in f c) = cell_ge t c.
Proof. intros U; destruct c; [apply unit_leb; exact U|reflexivity]. Qed.
Lemma cell_lt_in f t c : unit_change f -> cell_lt (f t) (cell_in f c) = cell_lt t c.
Proof. intros U; destruct c; [apply unit_ltb; exact U|reflexivity]. Qed.
Lemma nodup_map {A B} (da : forall x y : A, {x = y} + {x <> y}) (db : forall x y : B, {x = y} + {x <> y}) (g : A -> B) l :
  (forall x y, g x = g y -> x = y) -> nodup db (map g l) = map g (nodup da l).
Proof.
  intros I; induction l as [|a l IH]; [reflexivity|]; cbn [map nodup].
  destruct (in_dec db (g a) (map g l)) as [H|H], (in_dec da a l) as [H'|H']; [exact IH| | |cbn; now rewrite IH].
  - exfalso; apply H'; apply in_map_iff in H; destruct H as (b & E & Hb); apply I in E; now subst.
  - exfalso; apply H; now apply in_map.
Qed.
Lemma pd_unique_map (g : cell -> cell) l : (forall x y, g x = g y -> x = y) -> pd_unique cell_eq_dec (map g l) = map g (pd_unique cell_eq_dec l).
Proof. intros I; unfold pd_unique; now rewrite <- map_rev, (nodup_map cell_eq_dec cell_eq_dec g), map_rev. Qed.
Lemma dec_in (g : cell -> cell) a b : (forall x y, g x = g y -> x = y) ->
  (if cell_eq_dec (g a) (g b) then true else false) = (if cell_eq_dec a b then true else false).
Proof. intros I; destruct (cell_eq_dec (g a) (g b)) as [E|E], (cell_eq_dec a b) as [E'|E']; auto; [now apply I in E|now subst]. Qed.

(** Thresholds. *)
Lemma insert_uniq_map f x l : unit_change f -> insert_uniq ROrder (f x) (map f l) = map f (insert_uniq ROrder x l).
Proof.
  intros U; induction l as [|y l IH]; [reflexivity|]; cbn [map insert_uniq leb ROrder]; rewrite !unit_leb by exact U.
  destruct (Rleb x y); [destruct (Rleb y x); reflexivity|]; cbn [map]; f_equal; exact IH.
Qed.
Lemma np_unique_map f l : unit_change f -> np_unique ROrder (map f l) = map f (np_unique ROrder l).
Proof. intros U; induction l as [|x l IH]; [reflexivity|]; cbn [map np_unique fold_right] in *; unfold np_unique in *; rewrite IH; now apply insert_uniq_map. Qed.
Lemma midpoints_map f l : unit_change f -> midpoints (map f l) = map f (midpoints l).
Proof. intros U; unfold midpoints; rewrite combine_tl_map, !map_map; apply map_ext; intros p; cbn [fst snd]; now apply unit_middle. Qed.
Lemma split_value_in f imp D t : unit_change f -> split_value imp (map (fun p => (f (fst p), snd p)) D) (f t) = split_value imp D t.
Proof.
  intros U; unfold split_value.
  rewrite (filter_map (fun p => (f (fst p), snd p)) (fun p => Rleb t (fst p)) (fun p => Rleb (f t) (fst p))) by (intros x _; cbn; now apply unit_leb).
  rewrite (filter_map (fun p => (f (fst p), snd p)) (fun p => Rltb (fst p) t) (fun p => Rltb (fst p) (f t))) by (intros x _; cbn; now apply unit_ltb).
  rewrite !map_length, !map_map; reflexivity.
Qed.
Lemma get_value_continuous_in f imp D : unit_change f ->
  get_value_continuous imp (map (fun p => (f (fst p), snd p)) D) = option_map (fun p => (fst p, f (snd p))) (get_value_continuous imp D).
Proof.
  intros U; unfold get_value_continuous, best_threshold; rewrite map_map; cbn [fst]; rewrite <- (map_map fst f), np_unique_map, midpoints_map by exact U.
  pose proof (fold_best (split_value imp D) (split_value imp (map (fun p => (f (fst p), snd p)) D)) f (midpoints (np_unique ROrder (map fst D))) None) as H.
  cbn [option_map] in H; rewrite <- H by (intros t _; now apply split_value_in); reflexivity.
Qed.
Lemma get_value_discrete_in g imp (D : list (cell * Z)) : (forall x y, g x = g y -> x = y) ->
  get_value_discrete imp (map (fun p => (g (fst p), snd p)) D) = get_value_discrete imp D.
Proof.
  intros I; unfold get_value_discrete; rewrite map_map; cbn [fst]; rewrite <- (map_map fst g), pd_unique_map, map_map by exact I; f_equal; apply map_ext; intros v.
  rewrite (filter_map (fun p => (g (fst p), snd p)) (fun p => if cell_eq_dec v (fst p) then true else false)) by (intros x _; cbn [fst]; now apply dec_in).
  rewrite !map_length, !map_map; reflexivity.
Qed.

(** Trees. *)
Fixpoint tree_in (fs : list (R -> R)) (t : tree) : tree :=
  match t with
  | Leaf l => Leaf l
  | Cont j v p n h g l => Cont j v (unit_of fs j p) n h (tree_in fs g) (tree_in fs l)
  | Disc j v n h kids => Disc j v n h (map (fun k => (cell_in (unit_of fs j) (fst k), tree_in fs (snd k))) kids)
  end.
Lemma tree_in_leaves fs t : num_of_leaves (tree_in fs t) = num_of_leaves t.
Proof. now destruct t. Qed.
Lemma tree_in_height fs t : height (tree_in fs t) = height t.
Proof. now destruct t. Qed.
Lemma tree_in_leaf fs t : is_leaf (tree_in fs t) = is_leaf t.
Proof. now destruct t. Qed.
Lemma predict_in fs t r : Forall unit_change fs -> length r = length fs -> predict (tree_in fs t) (row_in fs r) = predict t r.
Proof.
  intros F L; induction t as [l|j v p n h g l IHg IHl|j v n h kids IHk] using tree_ind'; [reflexivity|..]; cbn [tree_in predict]; rewrite get_at_in by exact L;
    pose proof (unit_of_change fs j F) as U; (destruct (get_at r j) as [a|]; cbn [bind]; [|reflexivity]).
  - destruct a as [x|s]; cbn [cell_in]; [|reflexivity]; rewrite unit_leb by exact U; now rewrite IHg, IHl.
  - induction kids as [|[b k] kids IH]; [reflexivity|]; cbn [map fst snd].
    destruct (cell_eq_dec (cell_in (unit_of fs j) a) (cell_in (unit_of fs j) b)) as [E|E], (cell_eq_dec a b) as [E'|E'].
    + apply (IHk b k); now left.
    + exfalso; apply E'; now apply (cell_in_inj (unit_of fs j)).
    + exfalso; apply E; now subst.
    + apply IH; intros b' k' H; apply (IHk b' k'); now right.
Qed.

Section Grow.
Variable top : list Z -> Z.
Variable rnd : R -> R.
Variable c : criterion.
Variable fs : list (R -> R).
Hypothesis F : Forall unit_change fs.
Hypothesis Hrnd : forall f t, In f fs -> rnd (f t) = f (rnd t).
Variable X : list row.
Hypothesis WX : width (length fs) X.
Hypothesis frac : forall r j x, In r X -> cell_at j r = Num x -> (j < length fs)%nat -> has_frac (unit_of fs j x) = has_frac x.
Notation X' := (map (row_in fs) X).
Lemma wx r : In r X -> length r = length fs.
Proof. intros H; unfold width in WX; rewrite Forall_forall in WX; now apply WX. Qed.
Lemma is_continuous_in D j : incl D X -> (j < length fs)%nat -> is_continuous X' (map (row_in fs) D) j = is_continuous X D j.
Proof.
  intros I H; unfold is_continuous.
  assert (E : map (cell_at j) X' = map (cell_in (unit_of fs j)) (map (cell_at j) X)).
  { rewrite !map_map; apply map_ext_in; intros r Hr; apply cell_at_in; [now apply wx|exact H]. }
  rewrite E; assert (E2 : forallb is_num (map (cell_in (unit_of fs j)) (map (cell_at j) X)) = forallb is_num (map (cell_at j) X)).
  { clear; induction (map (cell_at j) X) as [|a l IH]; [reflexivity|]; cbn; now rewrite is_num_in, IH. }
  rewrite E2; destruct (forallb is_num (map (cell_at j) X)) eqn:N; [|reflexivity]; cbn [andb].
  rewrite forallb_forall in N; clear E E2.
  induction D as [|r D IH]; [reflexivity|]; cbn [map existsb]; rewrite IH by (intros x Hx; apply I; now right); f_equal.
  assert (Hr : In r X) by (apply I; now left); rewrite cell_at_in by (auto; now apply wx).
  specialize (N (cell_at j r) (in_map _ _ _ Hr)); destruct (cell_at j r) as [x|s] eqn:Ec; [|discriminate]; cbn [cell_in num_of]; now apply (frac r).
Qed.
Lemma attribute_value_in D j : incl (map fst D) X -> (j < length fs)%nat ->
  attribute_value c X' (table_in fs D) j = option_map (fun p => (fst p, option_map (unit_of fs j) (snd p))) (attribute_value c X D j).
Proof.
  intros I H; unfold attribute_value; pose proof (unit_of_change fs j F) as U.
  assert (E1 : map fst (table_in fs D) = map (row_in fs) (map fst D)) by (unfold table_in; rewrite !map_map; reflexivity).
  assert (E2 : map snd (table_in fs D) = map snd D) by (unfold table_in; rewrite !map_map; reflexivity).
  rewrite E1, E2, is_continuous_in by assumption; clear E1 E2.
  assert (Lr : forall p, In p D -> length (fst p) = length fs) by (intros p Hp; apply wx; apply I; now apply in_map).
  destruct (is_continuous X (map fst D) j) eqn:C.
  - assert (E : map (fun p => (num_of (cell_at j (fst p)), snd p)) (table_in fs D) =
                map (fun p => (unit_of fs j (fst p), snd p)) (map (fun p => (num_of (cell_at j (fst p)), snd p)) D)).
    { unfold table_in; rewrite !map_map; apply map_ext_in; intros p Hp; cbn [fst snd]; rewrite cell_at_in by auto; f_equal.
      unfold is_continuous in C; apply andb_true_iff in C; destruct C as [C _]; rewrite forallb_forall in C.
      specialize (C (cell_at j (fst p)) (in_map _ _ _ (I _ (in_map fst _ _ Hp)))); now destruct (cell_at j (fst p)). }
    rewrite E, get_value_continuous_in by exact U; destruct (get_value_continuous (impurity c) _) as [[v t]|]; reflexivity.
  - assert (E : map (fun p => (cell_at j (fst p), snd p)) (table_in fs D) =
                map (fun p => (cell_in (unit_of fs j) (fst p), snd p)) (map (fun p => (cell_at j (fst p), snd p)) D)).
    { unfold table_in; rewrite !map_map; apply map_ext_in; intros p Hp; cbn [fst snd]; now rewrite cell_at_in by auto. }
    rewrite E, get_value_discrete_in by (intros x y; now apply cell_in_inj); reflexivity.
Qed.
Lemma optimal_division_in D cols : incl (map fst D) X -> (forall j, In j cols -> (j < length fs)%nat) ->
  optimal_division c X' (table_in fs D) cols =
  option_map (fun b => (fst b, (fst (snd b), option_map (unit_of fs (fst b)) (snd (snd b))))) (optimal_division c X D cols).
Proof.
  intros I; unfold optimal_division.
  change (None (A := nat * (R * option R))) with (option_map (fun b : nat * (R * option R) => (fst b, (fst (snd b), option_map (unit_of fs (fst b)) (snd (snd b))))) None) at 1.
  generalize (None (A := nat * (R * option R))) as best; induction cols as [|j cols IH]; intros best H; [reflexivity|]; cbn [fold_left].
  rewrite <- IH by (intros k Hk; apply H; now right); f_equal; rewrite attribute_value_in by (auto; apply H; now left).
  destruct (attribute_value c X D j) as [[v t]|]; cbn [option_map fst snd]; [|reflexivity]; destruct best as [[j0 [v0 t0]]|]; cbn [option_map fst snd]; [|reflexivity].
  destruct (better c v v0); reflexivity.
Qed.
Lemma optimal_division_col D cols j p : optimal_division c X D cols = Some (j, p) -> In j cols.
Proof.
  unfold optimal_division.
  assert (G : forall l best b, fold_left (fun best j => match attribute_value c X D j with None => best | Some (v, t) =>
      match best with None => Some (j, (v, t)) | Some (_, (v0, _)) => if better c v v0 then Some (j, (v, t)) else best end end) l best = Some b -> best = Some b \/ In (fst b) l).
  { induction l as [|k l IH]; intros best b Hb; [now left|]; cbn [fold_left] in Hb; apply IH in Hb; destruct Hb as [Hb|Hb]; [|right; now right].
    destruct (attribute_value c X D k) as [[v t]|]; [|now left]; destruct best as [[j0 [v0 t0]]|].
    - destruct (better c v v0); [injection Hb as <-; right; now left|now left].
    - injection Hb as <-; right; now left. }
  intros H; apply G in H; destruct H as [H|H]; [discriminate|exact H].
Qed.
Lemma table_length (D : list (row * Z)) : length (table_in fs D) = length D.
Proof. apply map_length. Qed.
Lemma table_filter (q p : row * Z -> bool) (D : list (row * Z)) : (forall x, In x D -> q (row_in fs (fst x), snd x) = p x) ->
  filter q (table_in fs D) = table_in fs (filter p D).
Proof. intros H; unfold table_in; now apply filter_map. Qed.
Lemma generate_in fuel : forall xempty cols D, incl (map fst D) X -> (forall j, In j cols -> (j < length fs)%nat) ->
  generate top rnd c X' fuel xempty cols (table_in fs D) = (t <- generate top rnd c X fuel xempty cols D ;; Ok (tree_in fs t)).
Proof.
  induction fuel as [|fuel IH]; intros xempty cols D I H; [reflexivity|]; cbn [generate].
  assert (E2 : map snd (table_in fs D) = map snd D) by (unfold table_in; rewrite !map_map; reflexivity).
  rewrite E2, table_length; destruct (length (nodup Z.eq_dec (map snd D)) =? 1)%nat; [destruct (map snd D); reflexivity|].
  destruct (xempty || (length cols =? 0)%nat || (length D =? 0)%nat); [destruct (most_common top (map snd D)); reflexivity|].
  rewrite optimal_division_in by assumption; destruct (optimal_division c X D cols) as [[j [v o]]|] eqn:O; cbn [option_map fst snd]; [|reflexivity].
  apply optimal_division_col in O; pose proof (H j O) as Hj; pose proof (unit_of_change fs j F) as U.
  assert (Lr : forall p, In p D -> length (fst p) = length fs) by (intros p Hp; apply wx; apply I; now apply in_map).
  assert (If : forall q, incl (map fst (filter q D)) X).
  { intros q x Hx; apply in_map_iff in Hx; destruct Hx as (p & <- & Hp); apply filter_In in Hp; apply I; now apply in_map. }
  destruct o as [t0|]; cbn [option_map].
  - assert (R1 : rnd (unit_of fs j t0) = unit_of fs j (rnd t0)) by (apply Hrnd; unfold unit_of; now apply nth_In).
    rewrite R1.
    rewrite (table_filter _ (fun p => cell_ge (rnd t0) (cell_at j (fst p)))) by (intros x Hx; cbn [fst]; rewrite cell_at_in by auto; now apply cell_ge_in).
    rewrite (table_filter _ (fun p => cell_lt (rnd t0) (cell_at j (fst p)))) by (intros x Hx; cbn [fst]; rewrite cell_at_in by auto; now apply cell_lt_in).
    rewrite !IH by auto.
    destruct (generate top rnd c X fuel false cols (filter (fun p => cell_ge (rnd t0) (cell_at j (fst p))) D)) as [g|]; cbn [bind]; [|reflexivity].
    destruct (generate top rnd c X fuel false cols (filter (fun p => cell_lt (rnd t0) (cell_at j (fst p))) D)) as [l|]; cbn [bind]; [|reflexivity].
    cbn [tree_in]; now rewrite !tree_in_leaves, !tree_in_height.
  - assert (H' : forall k, In k (remove Nat.eq_dec j cols) -> (k < length fs)%nat) by (intros k Hk; apply in_remove in Hk; now apply H).
    assert (E : map (cell_at j) X' = map (cell_in (unit_of fs j)) (map (cell_at j) X)).
    { rewrite !map_map; apply map_ext_in; intros r Hr; apply cell_at_in; [now apply wx|exact Hj]. }
    rewrite E, pd_unique_map by (intros x y; now apply cell_in_inj); clear E.
    set (vals := pd_unique cell_eq_dec (map (cell_at j) X)).
    assert (G : forall vals, mapM (fun a => let Da := filter (fun p => if cell_eq_dec (cell_at j (fst p)) a then true else false) (table_in fs D) in
        k <- (if (length Da =? 0)%nat then generate top rnd c X' fuel true (remove Nat.eq_dec j cols) (table_in fs D) else generate top rnd c X' fuel false (remove Nat.eq_dec j cols) Da) ;; Ok (a, k))
        (map (cell_in (unit_of fs j)) vals) =
      (ks <- mapM (fun a => let Da := filter (fun p => if cell_eq_dec (cell_at j (fst p)) a then true else false) D in
        k <- (if (length Da =? 0)%nat then generate top rnd c X fuel true (remove Nat.eq_dec j cols) D else generate top rnd c X fuel false (remove Nat.eq_dec j cols) Da) ;; Ok (a, k)) vals ;;
       Ok (map (fun k => (cell_in (unit_of fs j) (fst k), tree_in fs (snd k))) ks))).
    { cbv zeta; clear vals; induction vals as [|a vals IHv]; [reflexivity|]; cbn [map mapM]; rewrite IHv.
      rewrite (table_filter _ (fun p => if cell_eq_dec (cell_at j (fst p)) a then true else false))
        by (intros x Hx; cbn [fst]; rewrite cell_at_in by auto; apply dec_in; intros y z; now apply cell_in_inj).
      rewrite table_length, !IH by auto.
      destruct (length (filter (fun p => if cell_eq_dec (cell_at j (fst p)) a then true else false) D) =? 0)%nat;
        [destruct (generate top rnd c X fuel true (remove Nat.eq_dec j cols) D)|
         destruct (generate top rnd c X fuel false (remove Nat.eq_dec j cols) (filter (fun p => if cell_eq_dec (cell_at j (fst p)) a then true else false) D))]; cbn [bind]; try reflexivity;
        (match goal with |- context [mapM ?f vals] => destruct (mapM f vals) end; reflexivity). }
    cbv zeta in G |- *; rewrite G; destruct (mapM _ vals) as [kids|]; cbn [bind]; [|reflexivity]; cbn [tree_in].
    assert (E3 : forall s0, fold_left (fun n k => (n + num_of_leaves (snd k))%nat) (map (fun k => (cell_in (unit_of fs j) (fst k), tree_in fs (snd k))) kids) s0 =
      fold_left (fun n (k : cell * tree) => (n + num_of_leaves (snd k))%nat) kids s0).
    { clear; induction kids as [|k kids IH]; intros s0; [reflexivity|]; cbn [map fold_left snd]; now rewrite tree_in_leaves, IH. }
    assert (E4 : forall s0, fold_left (fun m k => if (m <? height (snd k))%Z then height (snd k) else m) (map (fun k => (cell_in (unit_of fs j) (fst k), tree_in fs (snd k))) kids) s0 =
      fold_left (fun m (k : cell * tree) => if (m <? height (snd k))%Z then height (snd k) else m) kids s0).
    { clear; induction kids as [|k kids IH]; intros s0; [reflexivity|]; cbn [map fold_left snd]; now rewrite tree_in_height, IH. }
    now rewrite E3, E4.
Qed.
End Grow.

(** Post-pruning. *)
Section Prune.
Variable top : list Z -> Z.
Variable fs : list (R -> R).
Hypothesis F : Forall unit_change fs.
Definition W (D : list (row * Z)) : Prop := width (length fs) (map fst D).
Lemma table_row D p : W D -> In p D -> length (fst p) = length fs.
Proof. intros H Hp; unfold W, width in H; rewrite Forall_forall in H; apply H; now apply in_map. Qed.
Lemma table_width_filter q D : W D -> W (filter q D).
Proof.
  intros H; unfold W, width in *; rewrite Forall_forall in *; intros r Hr; apply in_map_iff in Hr; destruct Hr as (p & <- & Hp); apply filter_In in Hp.
  apply H; now apply in_map.
Qed.
Lemma rows_ge_in p j D : W D -> (j < length fs)%nat -> rows_ge (unit_of fs j p) j (table_in fs D) = table_in fs (rows_ge p j D).
Proof.
  intros H Hj; unfold rows_ge; apply table_filter; intros x Hx; cbn [fst]; rewrite cell_at_in by (auto; now apply (table_row D)); apply cell_ge_in; now apply unit_of_change.
Qed.
Lemma rows_lt_in p j D : W D -> (j < length fs)%nat -> rows_lt (unit_of fs j p) j (table_in fs D) = table_in fs (rows_lt p j D).
Proof.
  intros H Hj; unfold rows_lt; apply table_filter; intros x Hx; cbn [fst]; rewrite cell_at_in by (auto; now apply (table_row D)); apply cell_lt_in; now apply unit_of_change.
Qed.
Lemma rows_eq_in a j D : W D -> (j < length fs)%nat -> rows_eq (cell_in (unit_of fs j) a) j (table_in fs D) = table_in fs (rows_eq a j D).
Proof.
  intros H Hj; unfold rows_eq; apply table_filter; intros x Hx; cbn [fst]; rewrite cell_at_in by (auto; now apply (table_row D)).
  apply dec_in; intros y z; apply cell_in_inj; now apply unit_of_change.
Qed.
Lemma numeric_column_in j D : W D -> (j < length fs)%nat -> numeric_column j (table_in fs D) = numeric_column j D.
Proof.
  intros H Hj; unfold numeric_column; pose proof (fun p => table_row D p H) as L; clear H; induction D as [|p D IH]; [reflexivity|]; cbn [table_in map forallb fst].
  rewrite cell_at_in, is_num_in by (auto; apply L; now left); f_equal; apply IH; intros q Hq; apply L; now right.
Qed.
Lemma correct_of_node_in t V : W V -> correct_of_node (tree_in fs t) (table_in fs V) = correct_of_node t V.
Proof.
  intros H; unfold correct_of_node; f_equal; pose proof (fun p => table_row V p H) as L; clear H.
  induction V as [|p V IH]; [reflexivity|]; cbn [table_in map mapM fst snd]; rewrite predict_in by (auto; apply L; now left).
  destruct (predict t (fst p)) as [l|]; cbn [bind]; [|reflexivity]; fold (table_in fs V); rewrite IH by (intros q Hq; apply L; now right); reflexivity.
Qed.
Lemma correct_as_leaf_in l V : correct_as_leaf l (table_in fs V) = correct_as_leaf l V.
Proof. unfold correct_as_leaf, count; rewrite (table_filter fs _ (fun q => Z.eqb (snd q) l)) by reflexivity; apply table_length. Qed.
Lemma table_labels (D : list (row * Z)) : map snd (table_in fs D) = map snd D.
Proof. unfold table_in; rewrite !map_map; reflexivity. Qed.
Lemma post_prune_in t : forall D V, W D -> W V -> well_formed (length fs) t ->
  post_prune top (tree_in fs t) (table_in fs D) (table_in fs V) = (t' <- post_prune top t D V ;; Ok (tree_in fs t')).
Proof.
  induction t as [l|j v p n h g l IHg IHl|j v n h kids IHk] using tree_ind'; intros D V WD WV WF; [reflexivity|..].
  - apply wf_cont in WF; destruct WF as (Hj & Wg & Wl); cbn [tree_in post_prune]; rewrite table_length, table_labels.
    destruct (length V =? 0)%nat; [reflexivity|]; destruct (most_common top (map snd D)) as [cur|]; cbn [bind]; [|reflexivity].
    rewrite !numeric_column_in by assumption; destruct (negb (numeric_column j D && numeric_column j V)); [reflexivity|].
    rewrite !rows_ge_in, !rows_lt_in, IHg, IHl by (auto; unfold rows_ge, rows_lt; now apply table_width_filter).
    destruct (post_prune top g _ _) as [g'|]; cbn [bind]; [|reflexivity]; destruct (post_prune top l _ _) as [l'|]; cbn [bind]; [|reflexivity].
    rewrite !tree_in_leaves, !tree_in_height, !tree_in_leaf.
    set (t' := Cont j v p (num_of_leaves g' + num_of_leaves l') (Z.max (height g') (height l') + 1)%Z g' l').
    change (Cont j v (unit_of fs j p) (num_of_leaves g' + num_of_leaves l') (Z.max (height g') (height l') + 1)%Z (tree_in fs g') (tree_in fs l')) with (tree_in fs t').
    destruct (is_leaf g' && is_leaf l'); [|reflexivity]; rewrite correct_of_node_in, correct_as_leaf_in by exact WV.
    destruct (correct_of_node t' V) as [k|]; cbn [bind]; [|reflexivity]; now destruct (k <? correct_as_leaf cur V)%nat.
  - apply wf_disc in WF; destruct WF as (Hj & _ & _ & Wk); cbn [tree_in]; rewrite !post_disc, table_length, table_labels.
    destruct (length V =? 0)%nat; [reflexivity|]; destruct (most_common top (map snd D)) as [cur|]; cbn [bind]; [|reflexivity].
    set (up := fun k : cell * tree => (cell_in (unit_of fs j) (fst k), tree_in fs (snd k))).
    assert (G : forall ks, (forall a k, In (a, k) ks -> In (a, k) kids) ->
      prune_kids (post_prune top) j (table_in fs D) (table_in fs V) (map up ks) = (ks' <- prune_kids (post_prune top) j D V ks ;; Ok (map up ks'))).
    { induction ks as [|[a k] ks IH]; intros I; [reflexivity|]; change (map up ((a, k) :: ks)) with ((cell_in (unit_of fs j) a, tree_in fs k) :: map up ks); cbn [prune_kids].
      rewrite !rows_eq_in by assumption.
      rewrite (IHk a k) by (try (apply I; now left); try (unfold rows_eq; now apply table_width_filter); apply (Wk a); apply I; now left).
      destruct (post_prune top k _ _) as [k'|]; cbn [bind]; [|reflexivity]; fold (prune_kids (post_prune top) j (table_in fs D) (table_in fs V)); fold (prune_kids (post_prune top) j D V).
      rewrite IH by (intros b m Hm; apply I; now right); now destruct (prune_kids (post_prune top) j D V ks). }
    rewrite G by auto; clear G; destruct (prune_kids (post_prune top) j D V kids) as [ks'|]; cbn [bind]; [|reflexivity].
    assert (E3 : leaves_sum (map up ks') = leaves_sum ks').
    { unfold leaves_sum; generalize 0%nat; clear; induction ks' as [|k ks IH]; intros s0; [reflexivity|]; cbn [map fold_left]; rewrite IH; unfold up; cbn [snd]; now rewrite tree_in_leaves. }
    assert (E4 : loop_height (map up ks') = loop_height ks').
    { unfold loop_height; generalize (-1)%Z; clear; induction ks' as [|k ks IH]; intros s0; [reflexivity|]; cbn [map fold_left]; rewrite IH; unfold up; cbn [snd]; now rewrite tree_in_height. }
    assert (E5 : forallb (fun k => is_leaf (snd k)) (map up ks') = forallb (fun k => is_leaf (snd k)) ks').
    { clear; induction ks' as [|k ks IH]; [reflexivity|]; cbn [map forallb]; rewrite IH; unfold up; cbn [snd]; now rewrite tree_in_leaf. }
    cbv zeta; rewrite E3, E4, E5; set (t' := Disc j v (leaves_sum ks') (loop_height ks') ks').
    change (Disc j v (leaves_sum ks') (loop_height ks') (map up ks')) with (tree_in fs t').
    destruct (forallb (fun k => is_leaf (snd k)) ks'); [|reflexivity]; rewrite correct_of_node_in, correct_as_leaf_in by exact WV.
    destruct (correct_of_node t' V) as [k|]; cbn [bind]; [|reflexivity]; now destruct (k <? correct_as_leaf cur V)%nat.
Qed.

(** Fitting and answering. *)
Variable rnd : R -> R.
Variable c : criterion.
Hypothesis Hrnd : forall f t, In f fs -> rnd (f t) = f (rnd t).
Definition keeps_fractions (x : list row) : Prop :=
  forall r j v, In r x -> cell_at j r = Num v -> (j < length fs)%nat -> has_frac (unit_of fs j v) = has_frac v.
Lemma fit_tree_in D : W D -> keeps_fractions (map fst D) ->
  fit_tree top rnd c (length fs) (table_in fs D) = (t <- fit_tree top rnd c (length fs) D ;; Ok (tree_in fs t)).
Proof.
  intros WD K; unfold fit_tree; rewrite table_length.
  replace (map fst (table_in fs D)) with (map (row_in fs) (map fst D)) by (unfold table_in; rewrite !map_map; reflexivity).
  apply generate_in; auto; [exact (incl_refl _)|]; intros j Hj; apply in_seq in Hj; lia.
Qed.
Lemma fit_post_in D V : W D -> W V -> keeps_fractions (map fst D) ->
  fit_pruned top rnd c Post (length fs) (table_in fs D) (Some (table_in fs V)) = (t <- fit_pruned top rnd c Post (length fs) D (Some V) ;; Ok (tree_in fs t)).
Proof.
  intros WD WV K; unfold fit_pruned; rewrite fit_tree_in by assumption; destruct (fit_tree top rnd c (length fs) D) as [t|] eqn:E; cbn [bind]; [|reflexivity].
  apply post_prune_in; auto; now apply fit_wf in E.
Qed.
End Prune.

Lemma whole_keeps fs x : width (length fs) x -> keeps_whole fs x -> keeps_fractions fs x.
Proof.
  intros W0 K r j v Hr Hc Hj.
  unfold width in W0; rewrite Forall_forall in W0; pose proof (W0 r Hr) as L.
  assert (E1 : nth_error fs j = Some (unit_of fs j)) by (unfold unit_of; now apply nth_error_nth').
  assert (E2 : nth_error r j = Some (Num v)) by (unfold cell_at in Hc; rewrite <- Hc; apply nth_error_nth'; lia).
  pose proof (K r j _ v Hr E1 E2) as I.
  destruct (has_frac v) eqn:A, (has_frac (unit_of fs j v)) eqn:B; auto; exfalso.
  - assert (N : ~ forall z : Z, unit_of fs j v <> IZR z) by (intros N; apply (proj2 (has_frac_true _)) in N; congruence).
    apply N; intros z Ez; destruct (proj1 I (ex_intro _ z Ez)) as (z' & Ez'); exact (proj1 (has_frac_true v) A z' Ez').
  - assert (N : ~ forall z : Z, v <> IZR z) by (intros N; apply (proj2 (has_frac_true _)) in N; congruence).
    apply N; intros z Ez; destruct (proj2 I (ex_intro _ z Ez)) as (z' & Ez'); exact (proj1 (has_frac_true _) B z' Ez').
Qed.
