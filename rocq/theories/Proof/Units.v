(** Other units of measurement: trees and ensembles (C98). *)
From Coq Require Import List ZArith Reals Lra Lia Bool Arith.
From Verif.Model Require Import Base Ops Metrics Tree Pruner Stump Ensemble.
From Verif.Spec Require Import Units.
From Verif.Proof Require Import BaseLemmas.
From Verif.Proof Require Tree Pruner.
Import ListNotations.
Local Open Scope R_scope.
Local Notation length := List.length.

Lemma unit_leb f t x : unit_change f -> Rleb (f t) (f x) = Rleb t x.
Proof.
  intros (a & b & Ha & E); rewrite !E; destruct (Rleb t x) eqn:X; [apply Rleb_true in X; apply Rleb_true|apply Rleb_false in X; apply Rleb_false]; nra.
Qed.
Lemma unit_ltb f t x : unit_change f -> Rltb (f t) (f x) = Rltb t x.
Proof.
  intros (a & b & Ha & E); rewrite !E; destruct (Rltb t x) eqn:X; [apply Rltb_true in X; apply Rltb_true|apply Rltb_false in X; apply Rltb_false]; nra.
Qed.
Lemma unit_inj f x y : unit_change f -> f x = f y -> x = y.
Proof. intros (a & b & Ha & E); rewrite !E; intros H; nra. Qed.
Lemma unit_middle f x y : unit_change f -> (f x + f y) / 2 = f ((x + y) / 2).
Proof. intros (a & b & Ha & E); rewrite !E; field. Qed.
Lemma unit_id : unit_change (fun x => x).
Proof. exists 1, 0; split; [lra|]; intros x; ring. Qed.

Definition unit_of (fs : list (R -> R)) (j : nat) : R -> R := nth j fs (fun x => x).
Lemma unit_of_change fs j : Forall unit_change fs -> unit_change (unit_of fs j).
Proof.
  intros F; unfold unit_of; destruct (Nat.ltb_spec j (length fs)); [|rewrite nth_overflow by lia; apply unit_id].
  rewrite Forall_forall in F; apply F; now apply nth_In.
Qed.
Lemma feat_in fs r j : length r = length fs -> (j < length fs)%nat -> feat j (in_units fs r) = unit_of fs j (feat j r).
Proof.
  unfold feat, in_units, unit_of; revert r j; induction fs as [|f fs IH]; intros [|x r] [|j] L H; cbn in *; try lia; [reflexivity|].
  apply IH; lia.
Qed.
Lemma in_units_length fs r : length r = length fs -> length (in_units fs r) = length fs.
Proof. intros L; unfold in_units; rewrite map_length, combine_length; lia. Qed.

(** ** Sorting *)
Lemma insert_by_map {A B} (key : B -> R) (key0 : A -> R) (g : A -> B) f x l : unit_change f ->
  (forall y, In y (x :: l) -> key (g y) = f (key0 y)) -> insert_by key (g x) (map g l) = map g (insert_by key0 x l).
Proof.
  intros U H; induction l as [|y l IH]; [reflexivity|]; cbn [insert_by map].
  rewrite (H x), (H y), unit_leb by (cbn; auto); destruct (Rleb (key0 x) (key0 y)); [reflexivity|]; cbn [map]; f_equal; apply IH.
  intros z [<-|Hz]; apply H; cbn; auto.
Qed.
Lemma insert_by_In {A} (key : A -> R) x l z : In z (insert_by key x l) <-> z = x \/ In z l.
Proof.
  induction l as [|y l IH]; cbn; [intuition|]; destruct (Rleb (key x) (key y)); cbn; [intuition|]; rewrite IH; intuition.
Qed.
Lemma sort_by_In {A} (key : A -> R) l z : In z (sort_by key l) <-> In z l.
Proof. induction l as [|y l IH]; cbn; [reflexivity|]; rewrite insert_by_In, IH; intuition. Qed.
Lemma sort_by_map {A B} (key : B -> R) (key0 : A -> R) (g : A -> B) f l : unit_change f ->
  (forall y, In y l -> key (g y) = f (key0 y)) -> sort_by key (map g l) = map g (sort_by key0 l).
Proof.
  intros U; induction l as [|x l IH]; intros H; [reflexivity|]; cbn [sort_by map fold_right] in *; unfold sort_by in *.
  rewrite IH by (intros y Hy; apply H; now right); apply (insert_by_map key key0 g f); [exact U|].
  intros y [<-|Hy]; apply H; [now left|right]; exact (proj1 (sort_by_In key0 l y) Hy).
Qed.
Lemma combine_tl_map {A B} (f : A -> B) l : combine (map f l) (tl (map f l)) = map (fun p => (f (fst p), f (snd p))) (combine l (tl l)).
Proof.
  destruct l as [|a l]; [reflexivity|]; cbn [map tl]; revert a; induction l as [|b l IH]; intros a; [reflexivity|]; cbn [map combine fst snd]; f_equal; exact (IH b).
Qed.
Lemma neighbour_midpoints_map f l : unit_change f -> neighbour_midpoints (map f l) = map f (neighbour_midpoints l).
Proof.
  intros U; unfold neighbour_midpoints; rewrite (sort_by_map (fun x => x) (fun x => x) f f l U) by auto.
  rewrite combine_tl_map, !map_map; apply map_ext; intros p; cbn [fst snd]; now apply unit_middle.
Qed.

(** ** Stumps *)
Definition stump_in (fs : list (R -> R)) (c : nat * R * division_mode) : nat * R * division_mode :=
  match c with (j, t, m) => (j, unit_of fs j t, m) end.
Lemma stump_label_in fs j t m r : Forall unit_change fs -> length r = length fs -> (j < length fs)%nat ->
  stump_label j (unit_of fs j t) m (in_units fs r) = stump_label j t m r.
Proof.
  intros F L H; unfold stump_label; rewrite feat_in by assumption; pose proof (unit_of_change fs j F) as U.
  destruct m; [rewrite unit_leb by exact U|rewrite unit_ltb by exact U]; reflexivity.
Qed.
Lemma evaluate_in fs D j t m : Forall unit_change fs -> width (length fs) (map fst D) -> (j < length fs)%nat ->
  evaluate (labelled_in fs D) j (unit_of fs j t) m = evaluate D j t m.
Proof.
  intros F W H; unfold evaluate, labelled_in; rewrite !map_map; cbn [fst snd].
  erewrite map_ext_in; [reflexivity|]; intros p Hp; cbn [fst]; rewrite stump_label_in; auto.
  unfold width in W; rewrite Forall_forall in W; apply W; now apply in_map.
Qed.
Lemma candidates_in fs D w : Forall unit_change fs -> w = length fs -> width w (map fst D) ->
  candidates w (labelled_in fs D) = map (stump_in fs) (candidates w D).
Proof.
  intros F -> W; unfold candidates; rewrite !flat_map_concat_map, concat_map, map_map; f_equal; apply map_ext_in; intros j Hj; apply in_seq in Hj.
  assert (E : map (fun p => feat j (fst p)) (labelled_in fs D) = map (unit_of fs j) (map (fun p => feat j (fst p)) D)).
  { unfold labelled_in; rewrite !map_map; apply map_ext_in; intros p Hp; cbn [fst]; apply feat_in; [|lia].
    unfold width in W; rewrite Forall_forall in W; apply W; now apply in_map. }
  rewrite E, neighbour_midpoints_map by (now apply unit_of_change); cbn [flat_map]; rewrite !app_nil_r, map_app, !map_map; reflexivity.
Qed.
Lemma candidates_feature w D c : In c (candidates w D) -> (fst (fst c) < w)%nat.
Proof.
  unfold candidates; intros H; apply in_flat_map in H; destruct H as (j & Hj & H); apply in_seq in Hj; apply in_flat_map in H; destruct H as (m & _ & H).
  apply in_map_iff in H; destruct H as (t & <- & _); cbn; lia.
Qed.
Lemma fold_best {C C'} (sc : C -> R) (sc' : C' -> R) (h : C -> C') l best : (forall c, In c l -> sc' (h c) = sc c) ->
  fold_left (fun best c => match best with None => Some (sc' c, c) | Some (e0, _) => if Rltb (sc' c) e0 then Some (sc' c, c) else best end)
    (map h l) (option_map (fun p => (fst p, h (snd p))) best) =
  option_map (fun p => (fst p, h (snd p)))
    (fold_left (fun best c => match best with None => Some (sc c, c) | Some (e0, _) => if Rltb (sc c) e0 then Some (sc c, c) else best end) l best).
Proof.
  revert best; induction l as [|c l IH]; intros best H; [reflexivity|]; cbn [map fold_left]; rewrite (H c (or_introl eq_refl)).
  rewrite <- IH by (intros d Hd; apply H; now right); f_equal; destruct best as [[e0 c0]|]; cbn; [|reflexivity]; destruct (Rltb (sc c) e0); reflexivity.
Qed.
Lemma stump_fit_in fs D w : Forall unit_change fs -> w = length fs -> width w (map fst D) ->
  stump_fit w (labelled_in fs D) = option_map (stump_in fs) (stump_fit w D).
Proof.
  intros F E W; unfold stump_fit; rewrite candidates_in by assumption.
  pose proof (fold_best (fun c => match c with (j, t, m) => evaluate D j t m end) (fun c => match c with (j, t, m) => evaluate (labelled_in fs D) j t m end)
    (stump_in fs) (candidates w D) None) as H; cbn [option_map] in H.
  cbv zeta; rewrite H.
  - destruct (fold_left _ (candidates w D) None) as [[e c]|]; reflexivity.
  - intros [[j t] m] Hc; apply candidates_feature in Hc; cbn [fst snd stump_in] in *; subst w; now apply evaluate_in.
Qed.
Lemma fold_left_In {C} (step : option (R * C) -> C -> option (R * C)) l best :
  (forall b c, step b c = b \/ exists e, step b c = Some (e, c)) ->
  forall r, fold_left step l best = Some r -> Some r = best \/ In (snd r) l.
Proof.
  intros H; revert best; induction l as [|c l IH]; intros best r E; cbn in E; [now left|]; destruct (IH _ _ E) as [X|X]; [|right; now right].
  destruct (H best c) as [Y|(e & Y)]; rewrite Y in X; [now left|]; injection X as ->; right; now left.
Qed.
Lemma stump_fit_feature w D j t m : stump_fit w D = Some (j, t, m) -> (j < w)%nat.
Proof.
  unfold stump_fit; destruct (fold_left _ (candidates w D) None) as [[e c]|] eqn:E; [|discriminate]; intros X; injection X as ->.
  apply fold_left_In in E; [destruct E as [E|E]; [discriminate|]; now apply candidates_feature in E|].
  intros [[e0 c0]|] c; [destruct (Rltb _ e0)|]; eauto.
Qed.
Lemma stump_units fs D w x : Forall unit_change fs -> w = length fs -> width w (map fst D) -> width w x ->
  stump_predict (stump_fit w (labelled_in fs D)) (map (in_units fs) x) = stump_predict (stump_fit w D) x.
Proof.
  intros F E W Wx; rewrite stump_fit_in by assumption; destruct (stump_fit w D) as [[[j t] m]|] eqn:S; [|reflexivity]; cbn [option_map stump_in stump_predict].
  f_equal; rewrite map_map; apply map_ext_in; intros r Hr; apply stump_fit_feature in S; subst w; apply stump_label_in; auto.
  unfold width in Wx; rewrite Forall_forall in Wx; now apply Wx.
Qed.

(** ** Bagging *)
Definition stumps_in (fs : list (R -> R)) (b : bagging) : bagging :=
  {| bag_seed := bag_seed b; bag_stumps := map (option_map (stump_in fs)) (bag_stumps b) |}.
Lemma mapM_get_map {A B} (g : A -> B) l idx : mapM (get_at (map g l)) idx = (r <- mapM (get_at l) idx ;; Ok (map g r)).
Proof.
  induction idx as [|i idx IH]; [reflexivity|]; cbn [mapM]; rewrite IH; unfold get_at at 1 3; rewrite nth_error_map.
  destruct (nth_error l i); cbn [option_map bind]; [|reflexivity]; destruct (mapM (get_at l) idx); reflexivity.
Qed.
Lemma mapM_get_In {A} (l : list A) idx r : mapM (get_at l) idx = Ok r -> incl r l.
Proof.
  intros H; apply mapM_Ok in H; induction H as [|i a idx r E _ IH]; intros x Hx; [destruct Hx|]; destruct Hx as [<-|Hx]; [|auto].
  unfold get_at in E; destruct (nth_error l i) eqn:N; [injection E as ->; now apply nth_error_In in N|discriminate].
Qed.
Lemma combine_map_l {A B C} (g : A -> C) (l : list A) (m : list B) : combine (map g l) m = map (fun p => (g (fst p), snd p)) (combine l m).
Proof. revert m; induction l as [|a l IH]; intros [|b m]; cbn; [reflexivity..|]; now rewrite IH. Qed.
Lemma bag_round_in fs choice w x y b : Forall unit_change fs -> w = length fs -> width w x ->
  bag_round choice w (map (in_units fs) x) y (stumps_in fs b) = (b' <- bag_round choice w x y b ;; Ok (stumps_in fs b')).
Proof.
  intros F E W; unfold bag_round, bootstrap_sampling; cbn [as_rows bag_seed stumps_in]; rewrite !map_length.
  destruct (negb (seed_ok (bag_seed b))); [reflexivity|].
  destruct (negb (length x =? length y)%nat); [reflexivity|].
  rewrite mapM_get_map; destruct (mapM (get_at x) (choice (bag_seed b) (length x))) as [xs|] eqn:Ex; cbn [bind]; [|reflexivity].
  destruct (mapM (get_at (map (fun x : Z => [x]) y)) (choice (bag_seed b) (length x))) as [ys|]; cbn [bind]; [|reflexivity].
  unfold stumps_in; cbn [bag_seed bag_stumps]; rewrite map_app; cbn [map]; do 4 f_equal.
  rewrite combine_map_l; rewrite <- (stump_fit_in fs (combine xs (map (fun r => nth 0 r 0%Z) ys)) w F E); [reflexivity|].
  unfold width in *; rewrite Forall_forall in *; intros r Hr; apply in_map_iff in Hr; destruct Hr as ([r' l] & <- & Hr); apply in_combine_l in Hr.
  apply W; now apply (mapM_get_In _ _ _ Ex).
Qed.
Lemma bag_fit_in fs choice n w x y b : Forall unit_change fs -> w = length fs -> width w x ->
  bag_fit choice n w (map (in_units fs) x) y (stumps_in fs b) = (b' <- bag_fit choice n w x y b ;; Ok (stumps_in fs b')).
Proof.
  intros F E W; revert b; induction n as [|n IH]; intros b; [reflexivity|]; cbn [bag_fit]; rewrite bag_round_in by assumption.
  destruct (bag_round choice w x y b); cbn [bind]; [apply IH|reflexivity].
Qed.
Definition known_features (w : nat) (b : bagging) : Prop :=
  Forall (fun s => match s with Some (j, _, _) => (j < w)%nat | None => True end) (bag_stumps b).
Lemma bag_predict_in fs w b x : Forall unit_change fs -> w = length fs -> known_features w b -> width w x ->
  bag_predict (stumps_in fs b) (map (in_units fs) x) = bag_predict b x.
Proof.
  intros F E K W; unfold bag_predict; cbn [bag_stumps stumps_in]; rewrite map_length.
  replace (mapM (fun s => stump_predict s (map (in_units fs) x)) (map (option_map (stump_in fs)) (bag_stumps b))) with (mapM (fun s => stump_predict s x) (bag_stumps b)); [reflexivity|].
  unfold known_features in K; induction K as [|s l H _ IH]; [reflexivity|]; cbn [map mapM]; rewrite IH; destruct s as [[[j t] m]|]; [|reflexivity]; cbn [option_map stump_in stump_predict].
  replace (map (stump_label j (unit_of fs j t) m) (map (in_units fs) x)) with (map (stump_label j t m) x); [reflexivity|].
  rewrite map_map; apply map_ext_in; intros r Hr; symmetry; subst w; apply stump_label_in; auto; unfold width in W; rewrite Forall_forall in W; now apply W.
Qed.
Lemma bag_fit_features choice n w x y b b' : known_features w b -> bag_fit choice n w x y b = Ok b' -> known_features w b'.
Proof.
  revert b; induction n as [|n IH]; intros b K H; cbn [bag_fit] in H; [now injection H as <-|].
  destruct (bag_round choice w x y b) as [b1|] eqn:E; [|discriminate]; cbn [bind] in H; apply (IH b1); [|exact H]; clear IH H.
  unfold bag_round in E; destruct (negb _); [discriminate|]; destruct (bootstrap_sampling _ _ _) as [[xs [ys|]]|]; cbn [bind] in E; try discriminate; injection E as <-.
  unfold known_features in *; cbn [bag_stumps]; apply Forall_app; split; [exact K|]; constructor; [|constructor].
  destruct (stump_fit w _) as [[[j t] m]|] eqn:S; [now apply stump_fit_feature in S|exact I].
Qed.

(** ** Two-level trees *)
Definition sample_in (fs : list (R -> R)) (s : sample) : sample := (in_units fs (s_row s), s_lab s, s_w s).
Lemma filter_map {A B} (g : A -> B) p q l : (forall x, In x l -> q (g x) = p x) -> filter q (map g l) = map g (filter p l).
Proof.
  induction l as [|a l IH]; intros H; [reflexivity|]; cbn [map filter]; rewrite (H a (or_introl eq_refl)), IH by (intros x Hx; apply H; now right).
  destruct (p a); reflexivity.
Qed.
Lemma weight_in fs D : weight (map (sample_in fs) D) = weight D.
Proof. unfold weight; now rewrite map_map. Qed.
Lemma filter_lab_in fs l D : filter (fun s => Z.eqb (s_lab s) l) (map (sample_in fs) D) = map (sample_in fs) (filter (fun s => Z.eqb (s_lab s) l) D).
Proof. now apply filter_map. Qed.
Lemma weighted_gini_in fs D : weighted_gini (map (sample_in fs) D) = weighted_gini D.
Proof.
  destruct D as [|s D]; [reflexivity|]; unfold weighted_gini.
  change (match map (sample_in fs) (s :: D) with [] => Some 1 | _ :: _ => ?e end) with e; rewrite weight_in.
  destruct (Reqb (weight (s :: D)) 0); [reflexivity|]; do 3 f_equal.
  replace (map s_lab (map (sample_in fs) (s :: D))) with (map s_lab (s :: D)) by (rewrite map_map; reflexivity).
  apply map_ext; intros l; now rewrite filter_lab_in, weight_in.
Qed.
Section TwoLevel.
Variable fs : list (R -> R).
Hypothesis F : Forall unit_change fs.
Variable D : list sample.
Hypothesis W : width (length fs) (map s_row D).
Lemma width_In s : In s D -> length (s_row s) = length fs.
Proof. intros H; unfold width in W; rewrite Forall_forall in W; apply W; now apply in_map. Qed.
Lemma up_in j t D' : incl D' D -> (j < length fs)%nat -> up j (unit_of fs j t) (map (sample_in fs) D') = map (sample_in fs) (up j t D').
Proof.
  intros I H; apply filter_map; intros s Hs; cbn [s_row sample_in fst snd]; change (s_row (sample_in fs s)) with (in_units fs (s_row s)).
  rewrite feat_in by (try assumption; apply width_In; auto); apply unit_leb; now apply unit_of_change.
Qed.
Lemma low_in j t D' : incl D' D -> (j < length fs)%nat -> low j (unit_of fs j t) (map (sample_in fs) D') = map (sample_in fs) (low j t D').
Proof.
  intros I H; apply filter_map; intros s Hs; change (s_row (sample_in fs s)) with (in_units fs (s_row s)).
  rewrite feat_in by (try assumption; apply width_In; auto); apply unit_ltb; now apply unit_of_change.
Qed.
Lemma threshold_value_in j t D' : incl D' D -> (j < length fs)%nat -> threshold_value j (map (sample_in fs) D') (unit_of fs j t) = threshold_value j D' t.
Proof. intros I H; unfold threshold_value; rewrite up_in, low_in, !weighted_gini_in, !weight_in by assumption; reflexivity. Qed.
Lemma gini_get_value_in j D' : incl D' D -> (j < length fs)%nat ->
  gini_get_value j (map (sample_in fs) D') = option_map (fun p => (fst p, unit_of fs j (snd p))) (gini_get_value j D').
Proof.
  intros I H; unfold gini_get_value; pose proof (unit_of_change fs j F) as U.
  rewrite (sort_by_map (fun s => feat j (s_row s)) (fun s => feat j (s_row s)) (sample_in fs) (unit_of fs j) D' U)
    by (intros s Hs; change (s_row (sample_in fs s)) with (in_units fs (s_row s)); apply feat_in; [apply width_In; auto|exact H]).
  set (S := sort_by _ D'); assert (IS : incl S D) by (intros s Hs; apply I; exact (proj1 (sort_by_In _ D' s) Hs)).
  assert (E : map (fun s => feat j (s_row s)) (map (sample_in fs) S) = map (unit_of fs j) (map (fun s => feat j (s_row s)) S)).
  { rewrite !map_map; apply map_ext_in; intros s Hs; change (s_row (sample_in fs s)) with (in_units fs (s_row s)); apply feat_in; [apply width_In; auto|exact H]. }
  cbv zeta; rewrite E, neighbour_midpoints_map by exact U; clear E.
  generalize (neighbour_midpoints (map (fun s => feat j (s_row s)) S)) as ts; intros ts.
  change (None (A := R * R)) with (option_map (fun p => (fst p, unit_of fs j (snd p))) (None (A := R * R))) at 1.
  generalize (None (A := R * R)) as best; induction ts as [|t ts IH]; intros best; [reflexivity|]; cbn [map fold_left].
  rewrite <- IH, threshold_value_in by assumption; f_equal; destruct (threshold_value j S t) as [v|]; [|reflexivity]; destruct best as [[v0 t0]|]; cbn; [|reflexivity].
  destruct (Rltb v v0); reflexivity.
Qed.
Lemma choose_feature_in D' : incl D' D ->
  choose_feature (length fs) (map (sample_in fs) D') = option_map (fun p => (fst p, unit_of fs (fst p) (snd p))) (choose_feature (length fs) D').
Proof.
  intros I; unfold choose_feature.
  assert (G : forall js best, (forall j, In j js -> (j < length fs)%nat) ->
    fold_left (fun best j => match gini_get_value j (map (sample_in fs) D') with
      | None => best
      | Some (v, t) => match best with None => Some (v, (j, t)) | Some (v0, _) => if Rltb v v0 then Some (v, (j, t)) else best end end) js
      (option_map (fun p => (fst p, (fst (snd p), unit_of fs (fst (snd p)) (snd (snd p))))) best) =
    option_map (fun p => (fst p, (fst (snd p), unit_of fs (fst (snd p)) (snd (snd p)))))
      (fold_left (fun best j => match gini_get_value j D' with
        | None => best
        | Some (v, t) => match best with None => Some (v, (j, t)) | Some (v0, _) => if Rltb v v0 then Some (v, (j, t)) else best end end) js best)).
  { induction js as [|j js IH]; intros best H; [reflexivity|]; cbn [fold_left]; rewrite <- IH by (intros k Hk; apply H; now right).
    f_equal; rewrite gini_get_value_in by (auto; apply H; now left); destruct (gini_get_value j D') as [[v t]|]; cbn [option_map]; [|reflexivity].
    destruct best as [[v0 p0]|]; cbn [option_map fst snd]; [|reflexivity]; destruct (Rltb v v0); reflexivity. }
  specialize (G (seq 0 (length fs)) None ltac:(intros j Hj; apply in_seq in Hj; lia)); cbn [option_map] in G; rewrite G; clear G.
  destruct (fold_left _ (seq 0 (length fs)) None) as [[v [j t]]|]; reflexivity.
Qed.
Lemma choose_feature_lt w D' j t : choose_feature w D' = Some (j, t) -> (j < w)%nat.
Proof.
  unfold choose_feature.
  assert (G : forall js best, (forall k, In k js -> (k < w)%nat) -> (forall p, best = Some p -> (fst (snd p) < w)%nat) ->
    forall p : R * (nat * R), fold_left (fun best j => match gini_get_value j D' with
      | None => best
      | Some (v, t) => match best with None => Some (v, (j, t)) | Some (v0, _) => if Rltb v v0 then Some (v, (j, t)) else best end end) js best = Some p -> (fst (snd p) < w)%nat).
  { induction js as [|k js IH]; intros best Hk Hb p Hp; [now apply Hb|]; cbn [fold_left] in Hp; revert Hp; apply IH; [intros i Hi; apply Hk; now right|].
    intros q; destruct (gini_get_value k D') as [[v s]|]; [|apply Hb]; destruct best as [[v0 p0]|].
    - destruct (Rltb v v0); [|apply Hb]; intros X; injection X as <-; apply Hk; now left.
    - intros X; injection X as <-; apply Hk; now left. }
  destruct (fold_left _ (seq 0 w) None) as [[v p]|] eqn:E; [|discriminate]; intros X; injection X as ->.
  apply (G (seq 0 w) None) in E; [exact E|intros k Hk; apply in_seq in Hk; lia|discriminate].
Qed.
Fixpoint tl_in (t : tltree) : tltree :=
  match t with TLeaf l => TLeaf l | TNode j p u l => TNode j (unit_of fs j p) (tl_in u) (tl_in l) end.
Lemma leaf_label_in D' : leaf_label (map (sample_in fs) D') = leaf_label D'.
Proof. unfold leaf_label; now rewrite !filter_lab_in, !weight_in. Qed.
Lemma tl_generate_in n D' : incl D' D -> tl_generate n (length fs) (map (sample_in fs) D') = (t <- tl_generate n (length fs) D' ;; Ok (tl_in t)).
Proof.
  revert D'; induction n as [|n IH]; intros D' I; cbn [tl_generate]; [now rewrite leaf_label_in|]; rewrite map_length, leaf_label_in.
  destruct (length D' <=? 2)%nat; [reflexivity|]; rewrite choose_feature_in by exact I.
  destruct (choose_feature (length fs) D') as [[j t]|] eqn:E; cbn [option_map fst snd bind]; [|reflexivity]; apply choose_feature_lt in E.
  rewrite up_in, low_in by assumption; rewrite !IH by (intros s Hs; apply I; unfold up, low in Hs; apply filter_In in Hs; tauto).
  destruct (tl_generate n (length fs) (up j t D')); cbn [bind]; [|reflexivity]; destruct (tl_generate n (length fs) (low j t D')); reflexivity.
Qed.
End TwoLevel.
Fixpoint tl_known (w : nat) (t : tltree) : Prop :=
  match t with TLeaf _ => True | TNode j _ u l => (j < w)%nat /\ tl_known w u /\ tl_known w l end.
Lemma tl_generate_known n w D t : tl_generate n w D = Ok t -> tl_known w t.
Proof.
  revert D t; induction n as [|n IH]; intros D t H; cbn [tl_generate] in H; [injection H as <-; exact I|].
  destruct (length D <=? 2)%nat; [injection H as <-; exact I|]; destruct (choose_feature w D) as [[j p]|] eqn:E; [|discriminate].
  apply choose_feature_lt in E; destruct (tl_generate n w (up j p D)) eqn:Eu; [|discriminate]; cbn [bind] in H.
  destruct (tl_generate n w (low j p D)) eqn:El; [|discriminate]; cbn [bind] in H; injection H as <-; cbn; eauto.
Qed.
Lemma tl_predict_in fs t r : Forall unit_change fs -> length r = length fs -> tl_known (length fs) t -> tl_predict (tl_in fs t) (in_units fs r) = tl_predict t r.
Proof.
  intros F L; induction t as [l|j p u IHu l IHl]; [reflexivity|]; intros (H & Ku & Kl); cbn [tl_in tl_predict].
  rewrite feat_in, unit_leb by (try assumption; now apply unit_of_change); now rewrite IHu, IHl.
Qed.
Lemma tl_units fs D n : Forall unit_change fs -> width (length fs) (map s_row D) ->
  match tl_generate n (length fs) D with
  | Err e => tl_generate n (length fs) (map (sample_in fs) D) = Err e
  | Ok t => exists t', tl_generate n (length fs) (map (sample_in fs) D) = Ok t' /\ forall r, length r = length fs -> tl_predict t' (in_units fs r) = tl_predict t r
  end.
Proof.
  intros F W; rewrite (tl_generate_in fs F D W n D (incl_refl D)); destruct (tl_generate n (length fs) D) as [t|] eqn:E; cbn [bind]; [|reflexivity].
  eexists; split; [reflexivity|]; intros r L; apply tl_predict_in; auto; now apply tl_generate_known in E.
Qed.

(** ** AdaBoost *)
Section Boost.
Variable fs : list (R -> R).
Hypothesis F : Forall unit_change fs.
Notation w := (length fs).
Definition same_answers (h h' : tltree) : Prop := forall r, length r = w -> tl_predict h' (in_units fs r) = tl_predict h r.
Variable D : list (list R * Z).
Hypothesis W : width w (map fst D).
Lemma combine_in dist : combine (labelled_in fs D) dist = map (sample_in fs) (combine D dist).
Proof. unfold labelled_in; rewrite combine_map_l; apply map_ext; intros [[r l] v]; reflexivity. Qed.
Lemma combine_width dist : width w (map s_row (combine D dist)).
Proof.
  unfold width in *; rewrite Forall_forall in *; intros r Hr; apply in_map_iff in Hr; destruct Hr as ([p v] & <- & Hp); apply in_combine_l in Hp.
  apply W; exact (in_map fst D p Hp).
Qed.
Lemma right_in h h' p : same_answers h h' -> In p D -> right tltree tl_predict h' (in_units fs (fst p), snd p) = right tltree tl_predict h p.
Proof.
  intros S Hp; unfold right; cbn [fst snd]; rewrite S; [reflexivity|]; unfold width in W; rewrite Forall_forall in W; apply W; now apply in_map.
Qed.
Lemma weighted_error_in dist h h' : same_answers h h' -> weighted_error tltree tl_predict (labelled_in fs D) dist h' = weighted_error tltree tl_predict D dist h.
Proof.
  intros S; unfold weighted_error, labelled_in; rewrite combine_map_l; erewrite filter_map; [rewrite map_map; reflexivity|].
  intros [p v] Hp; cbn [fst snd]; rewrite (right_in h h' p S); [reflexivity|]; now apply in_combine_l in Hp.
Qed.
Lemma reweight_in dist h h' a : same_answers h h' -> reweight tltree tl_predict (labelled_in fs D) dist h' a = reweight tltree tl_predict D dist h a.
Proof.
  intros S; unfold reweight, labelled_in; rewrite combine_map_l.
  assert (E : map (fun p => snd p * exp ((if right tltree tl_predict h' (fst p) then -1 else 1) * a))
      (map (fun x : list R * Z * R => ((in_units fs (fst (fst x)), snd (fst x)), snd x)) (combine D dist)) =
    map (fun p => snd p * exp ((if right tltree tl_predict h (fst p) then -1 else 1) * a)) (combine D dist)).
  { rewrite map_map; apply map_ext_in; intros [p v] Hp; cbn [fst snd]; rewrite (right_in h h' p S); [reflexivity|]; now apply in_combine_l in Hp. }
  cbv zeta; rewrite E; reflexivity.
Qed.
Definition same_member (m m' : tltree * R) : Prop := same_answers (fst m) (fst m') /\ snd m' = snd m.
Lemma ada_loop_in n dist :
  match ada_loop tltree (tl_learn w) tl_predict n D dist with
  | Err e => ada_loop tltree (tl_learn w) tl_predict n (labelled_in fs D) dist = Err e
  | Ok ms => exists ms', ada_loop tltree (tl_learn w) tl_predict n (labelled_in fs D) dist = Ok ms' /\ Forall2 same_member ms ms'
  end.
Proof.
  revert dist; induction n as [|n IH]; intros dist; [exists []; split; [reflexivity|constructor]|]; cbn [ada_loop]; unfold ada_round, tl_learn, tl_fit.
  rewrite combine_in; pose proof (tl_units fs (combine D dist) 2 F (combine_width dist)) as T.
  destruct (tl_generate 2 w (combine D dist)) as [h|e]; cbn [bind]; [|now rewrite T]; destruct T as (h' & -> & S); cbn [bind].
  rewrite (weighted_error_in dist h h' S); destruct (learner_weight (weighted_error tltree tl_predict D dist h)) as [a|]; cbn [bind]; [|reflexivity].
  rewrite (reweight_in dist h h' a S), (weighted_error_in dist h h' S).
  destruct (Rltb (1 / 2) _ || Rltb _ EPSILON); cbn [bind].
  - exists [(h', a)]; split; [reflexivity|]; constructor; [split; [exact S|reflexivity]|constructor].
  - specialize (IH (reweight tltree tl_predict D dist h a)); unfold tl_learn, tl_fit in IH.
    destruct (ada_loop _ _ _ n D _); cbn [bind]; [|now rewrite IH]; destruct IH as (ms' & -> & Fm); exists ((h', a) :: ms'); split; [reflexivity|]; constructor; [split; [exact S|reflexivity]|exact Fm].
Qed.
Lemma ada_predict_in b b' r : Forall2 same_member (members tltree b) (members tltree b') -> length r = w ->
  ada_predict tltree tl_predict b' (in_units fs r) = ada_predict tltree tl_predict b r.
Proof.
  intros Fm L; unfold ada_predict.
  assert (E1 : map (fun m => snd m * IZR (tl_predict (fst m) (in_units fs r))) (members tltree b') = map (fun m => snd m * IZR (tl_predict (fst m) r)) (members tltree b)).
  { induction Fm as [|m m' ms ms' [S E] _ IH]; [reflexivity|]; cbn [map]; now rewrite IH, E, S. }
  assert (E2 : map snd (members tltree b') = map snd (members tltree b)) by (clear E1; induction Fm as [|m m' ms ms' [_ E] _ IH]; [reflexivity|]; cbn [map]; now rewrite IH, E).
  now rewrite E1, E2.
Qed.
Lemma labelled_length : length (labelled_in fs D) = length D.
Proof. apply map_length. Qed.
End Boost.
