(** Lemmas for C12-C15 and C64. *)
From Coq Require Import List ZArith Reals Lra Lia Bool Arith Permutation.
From Verif.Model Require Import Base Ops.
From Verif.Spec Require Import Common Ops.
From Verif.Proof Require Import BaseLemmas Dataset.
Import ListNotations.
Local Notation length := List.length.

(** ** C12 *)
Section Target.
Context {A : Type} (O : TotalOrder A) (frac : A -> bool).
Notation tt := (type_of_target O frac).

Lemma target_unknown_kinds k y : k = KObject \/ array_ndim y = None -> tt k y = Ok Unknown.
Proof. intros [->|H]; [reflexivity|]. destruct y; try discriminate. destruct k; reflexivity. Qed.

Lemma target_continuous_iff k y : array_ndim y <> None ->
  (tt k y = Ok Continuous <-> k = KFloat /\ exists a, In a (elements y) /\ frac a = true).
Proof.
  intros Hd. split.
  - unfold type_of_target. intros H.
    destruct k; [discriminate| |].
    + split; auto. destruct (existsb frac (elements y)) eqn:E.
      * apply existsb_exists in E. destruct E as (a & Ha & Hf); exists a; auto.
      * exfalso. destruct y; cbn [andb] in H; rewrite ?E in H; try discriminate;
        repeat match type of H with context [if ?b then _ else _] => destruct b end; discriminate.
    + exfalso. destruct y; cbn [andb] in H; try discriminate;
      repeat match type of H with context [if ?b then _ else _] => destruct b end; discriminate.
  - intros [-> (a & Ha & Hf)]. unfold type_of_target.
    assert (E : existsb frac (elements y) = true) by (apply existsb_exists; eauto).
    destruct y; try (now (simpl in Hd; congruence)); cbn [andb]; now rewrite E.
Qed.

Lemma not_frac_elements k y : (k = KFloat -> forall a, In a (elements y) -> frac a = false) ->
  (match k with KFloat => true | _ => false end) && existsb frac (elements y) = false.
Proof.
  intros H. destruct k; auto. cbn [andb]. apply not_true_iff_false. rewrite existsb_exists.
  intros (a & Ha & E). rewrite H in E; auto. discriminate.
Qed.

Lemma target_vector k l n : k <> KObject ->
  (k = KFloat -> forall a, In a l -> frac a = false) -> num_distinct l n ->
  tt k (A1 l) = Ok (if n =? 2 then Binary else if 2 <? n then Multiclass else Unknown).
Proof.
  intros Hk Hf Hn. pose proof (not_frac_elements k (A1 l) Hf) as E. unfold type_of_target. cbn [elements] in *.
  rewrite (length_unique_distinct O _ _ Hn). destruct k; [congruence| |]; rewrite E; reflexivity.
Qed.

Lemma target_matrix k c rows n : k <> KObject ->
  (k = KFloat -> forall a, In a (List.concat rows) -> frac a = false) -> num_distinct (List.concat rows) n ->
  tt k (A2 c rows) = Ok (if n <? 2 then Unknown else if c =? 1 then (if n =? 2 then Binary else Multiclass) else Multilabel).
Proof.
  intros Hk Hf Hn. pose proof (not_frac_elements k (A2 c rows) Hf) as E. unfold type_of_target.
  cbn [elements] in *. rewrite (length_unique_distinct O _ _ Hn).
  assert (G : Ok (if (c =? 1) && (n =? 2) then Binary else if (c =? 1) && (2 <? n) then Multiclass
     else if 2 <=? n then Multilabel else Unknown) =
     Ok (if n <? 2 then Unknown else if c =? 1 then (if n =? 2 then Binary else Multiclass) else Multilabel)).
  { destruct (Nat.eqb_spec c 1), (Nat.eqb_spec n 2), (Nat.ltb_spec 2 n), (Nat.leb_spec 2 n), (Nat.ltb_spec n 2);
      try reflexivity; lia. }
  destruct k; [congruence| |]; rewrite E; exact G.
Qed.

Lemma target_set_only k y y' : same_layout y y' ->
  (forall a, In a (elements y) <-> In a (elements y')) -> tt k y = tt k y'.
Proof.
  intros Hl Hs. unfold type_of_target.
  assert (E1 : existsb frac (elements y) = existsb frac (elements y')).
  { apply eq_true_iff_eq. rewrite !existsb_exists. split; intros (a & Ha & Hf); exists a; split; auto; now apply Hs. }
  rewrite E1, (np_unique_ext O _ _ Hs).
  destruct k, y, y'; simpl in Hl; try contradiction; try reflexivity; subst; reflexivity.
Qed.

Lemma target_total k y : (exists r, tt k y = Ok r) \/ (array_ndim y = Some 0 /\ tt k y = Err IndexError).
Proof.
  unfold type_of_target. destruct k, y; cbn [andb]; try (left; eexists; reflexivity);
  repeat match goal with |- context [if ?b then _ else _] => destruct b end;
  try (left; eexists; reflexivity); right; split; reflexivity.
Qed.
End Target.

(** ** C13 *)
Lemma get_all {A} (xs : list A) idx : Forall (fun i => i < length xs) idx ->
  exists r, mapM (get_at xs) idx = Ok r /\ Forall2 (fun i x => nth_error xs i = Some x) idx r.
Proof.
  induction 1 as [|i idx Hi Hf IH]; [exists []; split; [reflexivity|constructor]|].
  destruct IH as (r & E & H). destruct (nth_error xs i) as [x|] eqn:Ei.
  - exists (x :: r). simpl. unfold get_at at 1. rewrite Ei. cbn [bind]. rewrite E. split; [reflexivity|constructor; auto].
  - apply nth_error_None in Ei. lia.
Qed.

Lemma Forall2_nth {A B} (P : A -> B -> Prop) l r i b :
  Forall2 P l r -> nth_error r i = Some b -> exists a, nth_error l i = Some a /\ P a b.
Proof.
  intros H; revert i; induction H as [|x y l r Hp Hf IH]; intros [|i] E; try discriminate.
  - injection E as <-. exists x; split; auto.
  - apply IH; auto.
Qed.

Lemma bootstrap_pairs {A B} choice (x : array12 A) (y : array12 B) :
  (forall n, length (choice n) = n /\ Forall (fun i => i < n) (choice n)) ->
  length (as_rows x) = length (as_rows y) ->
  exists xs ys, bootstrap_sampling choice x (Some y) = Ok (xs, Some ys) /\
    length xs = length (as_rows x) /\ length ys = length (as_rows x) /\
    forall i r l, nth_error xs i = Some r -> nth_error ys i = Some l ->
      exists j, nth_error (as_rows x) j = Some r /\ nth_error (as_rows y) j = Some l.
Proof.
  intros Hc Hl. unfold bootstrap_sampling. rewrite <- Hl, Nat.eqb_refl. cbn [negb].
  destruct (Hc (length (as_rows x))) as [Hlen Hlt].
  destruct (get_all _ _ Hlt) as (xs & Ex & Fx). rewrite Ex. cbn [bind].
  destruct (get_all (as_rows y) (choice (length (as_rows x)))) as (ys & Ey & Fy); [now rewrite <- Hl|].
  rewrite Ey. cbn [bind]. exists xs, ys. split; [reflexivity|].
  split; [now rewrite <- (Forall2_length _ _ _ Fx)|]. split; [now rewrite <- (Forall2_length _ _ _ Fy)|].
  intros i r l Hr Hl'. destruct (Forall2_nth _ _ _ _ _ Fx Hr) as (j & Hj & Hx).
  destruct (Forall2_nth _ _ _ _ _ Fy Hl') as (j' & Hj' & Hy). rewrite Hj in Hj'. injection Hj' as <-. eauto.
Qed.

Lemma bootstrap_plain {A B} choice (x : array12 A) :
  (forall n, length (choice n) = n /\ Forall (fun i => i < n) (choice n)) ->
  exists xs, bootstrap_sampling (B := B) choice x None = Ok (xs, None) /\ length xs = length (as_rows x) /\
    forall r, In r xs -> In r (as_rows x).
Proof.
  intros Hc. unfold bootstrap_sampling. destruct (Hc (length (as_rows x))) as [Hlen Hlt].
  destruct (get_all _ _ Hlt) as (xs & Ex & Fx). rewrite Ex. cbn [bind]. exists xs. split; [reflexivity|].
  split; [now rewrite <- (Forall2_length _ _ _ Fx)|].
  intros r Hr. apply In_nth_error in Hr. destruct Hr as (i & Hi).
  destruct (Forall2_nth _ _ _ _ _ Fx Hi) as (j & _ & Hj). eapply nth_error_In; eauto.
Qed.

Lemma bootstrap_mismatch {A B} choice (x : array12 A) (y : array12 B) :
  length (as_rows x) <> length (as_rows y) -> bootstrap_sampling choice x (Some y) = Err ValueError.
Proof. intros H. unfold bootstrap_sampling. apply Nat.eqb_neq in H. now rewrite H. Qed.

(** ** C14 *)
Local Open Scope R_scope.
Lemma clip_nearest a low high : low <= high ->
  low <= clip_alpha a low high <= high /\
  (forall z, low <= z <= high -> Rabs (a - clip_alpha a low high) <= Rabs (a - z)) /\
  (low <= a <= high -> clip_alpha a low high = a).
Proof.
  intros H. unfold clip_alpha.
  destruct (Rltb high a) eqn:E1; [apply Rltb_true in E1|apply Rltb_false in E1;
    destruct (Rltb a low) eqn:E2; [apply Rltb_true in E2|apply Rltb_false in E2]];
  (split; [lra|split; [|intros; lra]]); intros z Hz; unfold Rabs;
  repeat match goal with |- context [Rcase_abs ?x] => destruct (Rcase_abs x) end; lra.
Qed.

Lemma nonzero_In flags i : In i (nonzero flags) <-> nth_error flags i = Some true.
Proof.
  unfold nonzero. rewrite in_map_iff. split.
  - intros ([j b] & <- & H). apply filter_In in H. destruct H as [H1 H2]. simpl in *. subst.
    now apply enumerate_In in H1.
  - intros H. exists (i, true). split; auto. apply filter_In. split; auto. now apply enumerate_In.
Qed.

Lemma max_irr (x : R) : (fun a b => Rltb b a) x x = false.
Proof. apply Rltb_false. lra. Qed.
Lemma max_nlt (x y z : R) : (fun a b => Rltb b a) y x = false -> (fun a b => Rltb b a) z y = false -> (fun a b => Rltb b a) z x = false.
Proof. cbv beta. rewrite !Rltb_false. lra. Qed.
Lemma max_ltn (x y z : R) : (fun a b => Rltb b a) x y = true -> (fun a b => Rltb b a) z y = false -> (fun a b => Rltb b a) z x = false.
Proof. cbv beta. rewrite Rltb_true, !Rltb_false. lra. Qed.

Lemma select_spec error cache flags i e :
  select_second_alpha error cache flags = Ok (i, e) ->
  nth_error flags i = Some true /\ nth_error cache i = Some e /\
  forall j ej, nth_error flags j = Some true -> nth_error cache j = Some ej ->
    Rabs (error - ej) <= Rabs (error - e).
Proof.
  intros H. unfold select_second_alpha in H.
  apply bind_Ok in H. destruct H as (es & Hes & H). apply bind_Ok in H. destruct H as (k & Hk & H).
  apply bind_Ok in H. destruct H as (i' & Hi & H). apply bind_Ok in H. destruct H as (e' & He & H).
  injection H as -> ->.
  unfold get_at in Hi. destruct (nth_error (nonzero flags) k) as [i'|] eqn:Ei; [|discriminate]. injection Hi as ->.
  unfold get_at in He. destruct (nth_error cache i) as [e'|] eqn:Ee; [|discriminate]. injection He as ->.
  split; [apply nonzero_In; eapply nth_error_In; eauto|]. split; auto.
  destruct (argmin_spec _ max_irr max_nlt max_ltn _ _ Hk) as (m & Hm & Hmin & _).
  apply mapM_Ok in Hes. intros j ej Hj Hej.
  assert (Em : m = Rabs (error - e)).
  { apply nth_error_map_some in Hm. destruct Hm as (e0 & He0 & <-).
    pose proof (Forall2_nth_error _ _ _ _ _ _ Hes Ei He0) as G. unfold get_at in G. rewrite Ee in G.
    injection G as <-. reflexivity. }
  subst m. apply nonzero_In in Hj. apply In_nth_error in Hj. destruct Hj as (q & Hq).
  assert (Hv : nth_error (map (fun e => Rabs (error - e)) es) q = Some (Rabs (error - ej))).
  { destruct (nth_error es q) as [e0|] eqn:E0.
    - rewrite (map_nth_error _ _ _ E0). pose proof (Forall2_nth_error _ _ _ _ _ _ Hes Hq E0) as G.
      unfold get_at in G. rewrite Hej in G. injection G as <-. reflexivity.
    - apply nth_error_None in E0. rewrite <- (Forall2_length _ _ _ Hes) in E0.
      assert (q < length (nonzero flags))%nat by (apply nth_error_Some; congruence). lia. }
  specialize (Hmin _ _ Hv). cbv beta in Hmin. now apply Rltb_false in Hmin.
Qed.

Lemma select_total error cache flags :
  length cache = length flags ->
  ((exists j, nth_error flags j = Some true) -> exists i e, select_second_alpha error cache flags = Ok (i, e)) /\
  ((forall j, nth_error flags j <> Some true) -> select_second_alpha error cache flags = Err ValueError).
Proof.
  intros Hl. assert (Hall : Forall (fun i => (i < length cache)%nat) (nonzero flags)).
  { rewrite Forall_forall. intros i Hi. apply nonzero_In in Hi. rewrite Hl. apply nth_error_Some. congruence. }
  destruct (get_all _ _ Hall) as (es & Ees & Fes). split.
  - intros (j & Hj). unfold select_second_alpha. rewrite Ees. cbn [bind].
    assert (Hin : In j (nonzero flags)) by now apply nonzero_In.
    destruct (argmin_total (fun a b => Rltb b a) (map (fun e => Rabs (error - e)) es)) as (k & Hk).
    { intros E. apply map_eq_nil in E. subst. destruct (nonzero flags); [contradiction|]. inversion Fes. }
    rewrite Hk. cbn [bind].
    destruct (argmin_spec _ max_irr max_nlt max_ltn _ _ Hk) as (m & Hm & _).
    assert (Hkl : (k < length (nonzero flags))%nat).
    { rewrite (Forall2_length _ _ _ Fes), <- (map_length (fun e => Rabs (error - e)) es).
      apply nth_error_Some. congruence. }
    unfold get_at at 1. destruct (nth_error (nonzero flags) k) as [i|] eqn:Ei; [|apply nth_error_None in Ei; lia].
    cbn [bind]. rewrite Forall_forall in Hall. specialize (Hall i (nth_error_In _ _ Ei)).
    unfold get_at. destruct (nth_error cache i) as [e|] eqn:Ee; [|apply nth_error_None in Ee; lia].
    exists i, e. reflexivity.
  - intros Hno. assert (E : nonzero flags = []).
    { destruct (nonzero flags) as [|i l] eqn:E; auto. exfalso. apply (Hno i). apply nonzero_In. rewrite E. simpl; auto. }
    unfold select_second_alpha. rewrite E. reflexivity.
Qed.

(** ** C15 *)
Section Centroids.
Variable randint : nat -> nat -> list nat.
Variables (d : nat) (x : list (list R)).
Notation init := (init_centroids randint d x).

Lemma init_random n : (forall a b, (0 < a)%nat -> length (randint a b) = b /\ Forall (fun i => (i < a)%nat) (randint a b)) ->
  x <> [] -> exists c, init n InitRandom = Ok c /\ length c = n /\ forall r, In r c -> In r x.
Proof.
  intros Hr Hx. unfold init_centroids. destruct (Nat.eqb_spec (length x) 0) as [E|E]; [destruct x; [congruence|discriminate]|].
  destruct (Hr (length x) n) as [Hl Hf]; [lia|]. destruct (get_all _ _ Hf) as (c & Ec & Fc).
  exists c. split; auto. split; [now rewrite <- (Forall2_length _ _ _ Fc)|].
  intros r Hin. apply In_nth_error in Hin. destruct Hin as (i & Hi).
  destruct (Forall2_nth _ _ _ _ _ Fc Hi) as (j & _ & Hj). eapply nth_error_In; eauto.
Qed.

Lemma squeeze_id l : (forall k, In k l -> k <> 1%nat) -> squeeze_shape l = l.
Proof.
  induction l as [|k l IH]; simpl; auto. intros H. rewrite IH by auto.
  destruct (Nat.eqb_spec k 1); auto. exfalso. apply (H k); auto.
Qed.

Lemma min_max_bounds l mn mx : np_min l = Ok mn -> np_max l = Ok mx ->
  forall z, In z l -> mn <= z <= mx.
Proof.
  destruct l as [|a l]; simpl; intros H1 H2 z Hz; [discriminate|]. injection H1 as <-. injection H2 as <-.
  split; [apply rmin1_le|apply rmax1_ge]; auto.
Qed.

(** A list of valid indices, at least two clusters. *)
Lemma init_indices n idx : (2 <= n)%nat -> length idx = n ->
  Forall (fun i => (i < length x)%nat) idx ->
  exists c, init n (InitArray {| shape := [n]; data := Ints (map Z.of_nat idx) |}) = Ok c /\
    Forall2 (fun i r => nth_error x i = Some r) idx c.
Proof.
  intros Hn Hl Hf. destruct (get_all _ _ Hf) as (c & Ec & Fc). exists c. split; auto.
  unfold init_centroids. cbn [shape data]. rewrite squeeze_id by (intros k [<-|[]]; lia).
  rewrite Nat.eqb_refl. cbn [negb]. cbn [flat_reals]. rewrite map_map.
  set (l := map (fun z => IZR (Z.of_nat z)) idx).
  assert (Hne : l <> []) by (unfold l; destruct idx; [simpl in Hl; lia|discriminate]).
  destruct (np_min l) as [mn|] eqn:E1; [|destruct l; [congruence|discriminate]].
  destruct (np_max l) as [mx|] eqn:E2; [|destruct l; [congruence|discriminate]]. cbn [bind].
  assert (Hmn : In mn l) by (destruct l; [congruence|]; injection E1 as <-; apply rmin1_In).
  assert (Hmx : In mx l) by (destruct l; [congruence|]; injection E2 as <-; apply rmax1_In).
  assert (Hb : forall z, In z l -> 0 <= z < INR (length x)).
  { intros z Hz. unfold l in Hz. apply in_map_iff in Hz. destruct Hz as (i & <- & Hi).
    rewrite Forall_forall in Hf. specialize (Hf i Hi). rewrite <- INR_IZR_INZ. split; [apply pos_INR|now apply lt_INR]. }
  rewrite (proj2 (Rltb_false mn 0)) by (apply Hb; auto).
  rewrite (proj2 (Rleb_false _ _)) by (apply Hb; auto). cbn [orb].
  clear -Ec. revert c Ec. induction idx as [|i idx IH]; intros c Ec; simpl in *; auto.
  rewrite Nat2Z.id. destruct (get_at x i); simpl in *; [|discriminate].
  destruct (mapM (get_at x) idx); simpl in *; [|discriminate]. now rewrite (IH _ eq_refl).
Qed.

(** Bad index lists. *)
Lemma init_indices_rejected n idx :
  (length idx <> 1)%nat ->
  length idx <> n \/ (exists z, In z idx /\ (z < 0 \/ Z.of_nat (length x) <= z)%Z) ->
  init n (InitArray {| shape := [length idx]; data := Ints idx |}) = Err ValueError.
Proof.
  intros H1 H. unfold init_centroids. cbn [shape data]. rewrite squeeze_id by (intros k [<-|[]]; lia).
  destruct (Nat.eqb_spec (length idx) n) as [E|E]; [|reflexivity]. cbn [negb].
  destruct H as [H|(z & Hz & Hb)]; [contradiction|].
  cbn [flat_reals]. assert (Hin : In (IZR z) (map IZR idx)) by now apply in_map.
  destruct (np_min (map IZR idx)) as [mn|e] eqn:E1; [|destruct (map IZR idx); [contradiction|discriminate]].
  destruct (np_max (map IZR idx)) as [mx|e] eqn:E2; [|destruct (map IZR idx); [contradiction|discriminate]].
  cbn [bind]. destruct (min_max_bounds _ _ _ E1 E2 _ Hin) as [B1 B2].
  destruct Hb as [Hb|Hb]; apply IZR_lt in Hb || apply IZR_le in Hb.
  - rewrite (proj2 (Rltb_true mn 0)) by lra. reflexivity.
  - rewrite <- INR_IZR_INZ in Hb. rewrite (proj2 (Rleb_true (INR (length x)) mx)) by lra. now rewrite orb_true_r.
Qed.

Lemma chunk_concat {A} n k (rows : list (list A)) : length rows = n -> (forall r, In r rows -> length r = k) ->
  chunk n k (List.concat rows) = rows.
Proof.
  intros <-. induction rows as [|r rows IH]; intros Hr; simpl; auto.
  assert (E : length r = k) by (apply Hr; simpl; auto). rewrite <- E at 1.
  rewrite firstn_app, Nat.sub_diag, firstn_all. simpl. rewrite app_nil_r. f_equal.
  rewrite <- E at 2. rewrite skipn_app, Nat.sub_diag, skipn_all. simpl. apply IH. intros; apply Hr; simpl; auto.
Qed.

(** Explicit centroids, at least two clusters and two features. *)
Lemma init_explicit n rows : (2 <= n)%nat -> (2 <= d)%nat -> length rows = n ->
  (forall r, In r rows -> length r = d) ->
  init n (InitArray {| shape := [n; d]; data := Floats (List.concat rows) |}) = Ok rows.
Proof.
  intros Hn Hd Hl Hr. unfold init_centroids. cbn [shape data].
  rewrite squeeze_id by (intros k [<-|[<-|[]]]; lia).
  unfold shape_eqb. destruct (list_eq_dec Nat.eq_dec [n; d] [n; d]); [|congruence]. cbn [negb flat_reals].
  now rewrite chunk_concat.
Qed.

Lemma squeeze_no1 l k : In k (squeeze_shape l) -> k <> 1%nat.
Proof. unfold squeeze_shape. rewrite filter_In. intros [_ H] ->. discriminate. Qed.

(** One cluster: every array argument is rejected. *)
Lemma init_one_cluster a : init 1 (InitArray a) = Err ValueError.
Proof.
  unfold init_centroids. pose proof (squeeze_no1 (shape a)) as H.
  destruct (squeeze_shape (shape a)) as [|k [|k2 l]].
  - unfold shape_eqb. destruct (list_eq_dec Nat.eq_dec [] [1%nat; d]); [discriminate|reflexivity].
  - destruct (Nat.eqb_spec k 1); [exfalso; apply (H k); simpl; auto|reflexivity].
  - unfold shape_eqb. destruct (list_eq_dec Nat.eq_dec (k :: k2 :: l) [1%nat; d]) as [E|]; [|reflexivity].
    injection E as -> _ _. exfalso; apply (H 1%nat); simpl; auto.
Qed.
End Centroids.

(** One feature: a column of integer centroids is read as indices. *)
Lemma init_one_feature_int randint x n idx : (2 <= n)%nat -> length idx = n ->
  Forall (fun i => (i < length x)%nat) idx ->
  exists c, init_centroids randint 1 x n (InitArray {| shape := [n; 1%nat]; data := Ints (map Z.of_nat idx) |}) = Ok c /\
    Forall2 (fun i r => nth_error x i = Some r) idx c.
Proof.
  intros Hn Hl Hf. destruct (init_indices randint 1 x n idx Hn Hl Hf) as (c & Hc & Fc). exists c. split; auto.
Qed.

(** One feature: float centroids are never accepted. *)
Lemma init_one_feature_float randint x n a l : data a = Floats l ->
  exists e, init_centroids randint 1 x n (InitArray a) = Err e.
Proof.
  intros Hd. unfold init_centroids. pose proof (squeeze_no1 (shape a)) as H. rewrite Hd.
  destruct (squeeze_shape (shape a)) as [|k [|k2 s]].
  - exists ValueError. unfold shape_eqb. destruct (list_eq_dec Nat.eq_dec [] [n; 1%nat]); [discriminate|reflexivity].
  - destruct (negb (k =? n)%nat); [eexists; reflexivity|].
    destruct (np_min (flat_reals (Floats l))); [|eexists; reflexivity]. cbn [bind].
    destruct (np_max (flat_reals (Floats l))); [|eexists; reflexivity]. cbn [bind].
    destruct (Rltb a0 0 || Rleb (INR (length x)) a1); eexists; reflexivity.
  - exists ValueError. unfold shape_eqb. destruct (list_eq_dec Nat.eq_dec (k :: k2 :: s) [n; 1%nat]) as [E|]; [|reflexivity].
    injection E as -> -> ->. exfalso; apply (H 1%nat); simpl; auto.
Qed.

(** ** C64 *)
Lemma mixture_default n : (0 < n)%nat ->
  exists a, init_mixture_coefficient n CovNone = Ok a /\ length a = n /\ rsum a = 1 /\ forall z, In z a -> 0 < z.
Proof.
  intros Hn. eexists. split; [reflexivity|]. split; [now rewrite map_length, seq_length|].
  assert (Hp : 0 < INR n) by (now apply lt_0_INR). split.
  - rewrite rsum_map_const, seq_length. field. lra.
  - intros z Hz. apply in_map_iff in Hz. destruct Hz as (_ & <- & _). apply Rdiv_lt_0_compat; lra.
Qed.

Lemma mixture_given n a r : init_mixture_coefficient n (CovArray a) = Ok r -> r = flat_reals (data a) /\ rsum r = 1.
Proof.
  unfold init_mixture_coefficient. destruct (squeeze_shape (shape a)) as [|k s]; [discriminate|].
  destruct (negb (k =? n)%nat); [discriminate|].
  destruct (Reqb (rsum (flat_reals (data a))) 1) eqn:E; [|discriminate]. cbn [negb].
  intros H; injection H as <-. apply Reqb_true in E. auto.
Qed.

Lemma mixture_one a : exists e, init_mixture_coefficient 1 (CovArray a) = Err e.
Proof.
  unfold init_mixture_coefficient. pose proof (squeeze_no1 (shape a)) as H.
  destruct (squeeze_shape (shape a)) as [|k s]; [eexists; reflexivity|].
  destruct (Nat.eqb_spec k 1); [exfalso; apply (H k); simpl; auto|]. eexists; reflexivity.
Qed.

Lemma covariance_default d n i j k m :
  (k < n)%nat -> (i < d)%nat -> (j < d)%nat -> init_covariances d n CovNone = Ok m ->
  nth j (nth i (nth k m []) []) 0 = if (i =? j)%nat then 1/10 else 0.
Proof.
  intros Hk Hi Hj H. injection H as <-.
  rewrite (nth_map_seq (fun _ => diag_tenth d)) by auto. unfold diag_tenth.
  rewrite (nth_map_seq (fun i => map (fun j => if (i =? j)%nat then 1/10 else 0) (seq 0 d))) by auto.
  now rewrite (nth_map_seq (fun j => if (i =? j)%nat then 1/10 else 0)) by auto.
Qed.

Lemma covariance_degenerate d n a : n = 1%nat \/ d = 1%nat -> init_covariances d n (CovArray a) = Err ValueError.
Proof.
  intros Hn. unfold init_covariances, shape_eqb. pose proof (squeeze_no1 (shape a)) as H.
  destruct (list_eq_dec Nat.eq_dec (squeeze_shape (shape a)) [n; d; d]) as [E|]; [|reflexivity].
  exfalso. rewrite E in H. destruct Hn as [->| ->]; apply (H 1%nat); simpl; auto.
Qed.
