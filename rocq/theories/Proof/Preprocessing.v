From Coq Require Import List ZArith Reals Bool Arith Lia Lra Sorting.Sorted String.
From Verif.Model Require Import Base Preprocessing.
From Verif.Spec Require Import Common Preprocessing.
From Verif.Proof Require Import BaseLemmas.
Import ListNotations.
Local Notation length := List.length.

Section Enc.
Context {A : Type} (O : TotalOrder A).

Lemma index_pairs_In (cls : list A) (v : A) (k : nat) :
  In (v, k) (index_pairs cls) <-> nth_error cls k = Some v.
Proof.
  unfold index_pairs; rewrite in_map_iff; split.
  - intros ([i x] & H & Hin); simpl in H; injection H as -> ->. now apply enumerate_In.
  - intros H; exists (k, v); split; auto. now apply enumerate_In.
Qed.

Lemma map_fst_index_pairs (cls : list A) : map fst (index_pairs cls) = cls.
Proof.
  unfold index_pairs; rewrite map_map; simpl.
  transitivity (map snd (enumerate cls)); [|apply map_snd_enumerate]. reflexivity.
Qed.

(** Position in a strictly sorted list = rank. *)
Lemma sorted_nth_rank (cls : list A) k v :
  StronglySorted (slt O) cls -> nth_error cls k = Some v -> is_rank O cls v k.
Proof.
  intros Hs Hk. exists (firstn k cls).
  assert (Hlen : k < length cls) by (apply nth_error_Some; congruence).
  split; [|split].
  - apply (StronglySorted_NoDup O) in Hs.
    rewrite <- (firstn_skipn k cls) in Hs. now apply NoDup_app_l in Hs.
  - rewrite firstn_length; lia.
  - revert k Hk Hlen; induction Hs as [|x t Ht IH Hf]; intros k Hk Hlen w; [simpl in Hlen; lia|].
    rewrite Forall_forall in Hf.
    destruct k as [|k]; simpl in *.
    + injection Hk as <-. split; [tauto|]. intros (Hin & Hle & Hne).
      destruct Hin as [<-|Hin]; [congruence|]. specialize (Hf _ Hin). unfold slt in Hf.
      apply ltb_asym in Hf. rewrite <- not_true_iff_false in Hf. apply Hf. now apply ltb_true.
    + assert (Hv : In v t) by (eapply nth_error_In; eauto).
      split.
      * intros [<-|Hin].
        -- specialize (Hf _ Hv). unfold slt in Hf; apply ltb_true in Hf; tauto.
        -- apply (IH k) in Hin; auto; [tauto|lia].
      * intros ([<-|Hin] & Hle & Hne); auto. right; apply (IH k); auto; lia.
Qed.

Lemma is_rank_ext y y' v k :
  (forall x, In x y <-> In x y') -> is_rank O y v k -> is_rank O y' v k.
Proof.
  intros H (s & Hnd & Hl & Hs). exists s; split; [auto|split; auto].
  intros w. rewrite Hs, H. tauto.
Qed.

Lemma rank_exists labels l : In l labels ->
  exists k, nth_error (np_unique O labels) k = Some l /\ is_rank O labels l k
            /\ k < length (np_unique O labels).
Proof.
  intros Hin. apply (np_unique_In O) in Hin. apply In_nth_error in Hin. destruct Hin as [k Hk].
  exists k; split; auto; split.
  - apply (is_rank_ext (np_unique O labels)); [apply np_unique_In|].
    apply sorted_nth_rank; auto. apply np_unique_sorted.
  - apply nth_error_Some; congruence.
Qed.

Lemma lookup_index d labels l k :
  nth_error (np_unique O labels) k = Some l ->
  dict_get O (dict_update O d (index_pairs (np_unique O labels))) l = Some k.
Proof.
  intros H; apply dict_update_in.
  - rewrite map_fst_index_pairs; apply np_unique_NoDup.
  - now apply index_pairs_In.
Qed.

Lemma unit_row_ok n k : k < n -> exists r, unit_row n k = Ok r /\ unit_vector n k r.
Proof.
  intros H. unfold unit_row, set_at. rewrite repeat_length.
  destruct (Nat.ltb_spec k n); [|lia]. eexists; split; [reflexivity|].
  split; [rewrite set_nth_length, repeat_length; auto|]. split; auto.
  intros j Hj. destruct (Nat.eqb_spec j k) as [->|Hne].
  - apply nth_set_nth_eq; rewrite repeat_length; auto.
  - rewrite nth_set_nth_neq by auto. apply nth_repeat.
Qed.

Lemma unit_vector_inj n k k' r : unit_vector n k r -> unit_vector n k' r -> k = k'.
Proof.
  intros (H1 & H2 & H3) (H4 & H5 & H6). specialize (H3 k H2). specialize (H6 k H2).
  rewrite Nat.eqb_refl in H3. rewrite H3 in H6. destruct (Nat.eqb_spec k k'); [auto|discriminate].
Qed.

Lemma unit_vector_eq n k r r' : unit_vector n k r -> unit_vector n k r' -> r = r'.
Proof.
  intros (H1 & H2 & H3) (H4 & H5 & H6). apply (nth_ext _ _ 0%Z 0%Z); [congruence|].
  intros j Hj; rewrite H1 in Hj. rewrite H3, H6; auto.
Qed.

Lemma num_distinct_unique labels : num_distinct labels (length (np_unique O labels)).
Proof.
  exists (np_unique O labels); repeat split; try apply np_unique_NoDup; apply np_unique_In.
Qed.

Lemma is_rank_fun y v k k' : is_rank O y v k -> is_rank O y v k' -> k = k'.
Proof.
  intros (s & Hn & Hl & Hs) (s' & Hn' & Hl' & Hs').
  subst k k'. apply Nat.le_antisymm; apply NoDup_incl_length; auto;
    intros w Hw; [apply Hs', Hs|apply Hs, Hs']; auto.
Qed.

Lemma is_rank_lt y v w k k' :
  is_rank O y v k -> is_rank O y w k' -> In v y -> In w y ->
  leb O v w = true -> v <> w -> k < k'.
Proof.
  intros (s & Hn & Hl & Hs) (s' & Hn' & Hl' & Hs') Hv Hw Hle Hne. subst k k'.
  apply Nat.lt_le_trans with (length (v :: s)); [simpl; lia|].
  apply NoDup_incl_length.
  - constructor; auto. intros Hin. apply Hs in Hin. tauto.
  - intros x [<-|Hx]; apply Hs'; [tauto|]. apply Hs in Hx. destruct Hx as (H1 & H2 & H3).
    repeat split; auto.
    + eapply leb_trans; eauto.
    + intros ->. apply H3. eapply leb_antisym; eauto.
Qed.

(** *** Dummy encoder *)
Lemma dummy_spec ci labels :
  exists rows ci' n, dummy_call O ci labels = Ok (rows, ci') /\
    num_distinct labels n /\
    Forall2 (fun l row => exists k, is_rank O labels l k /\ k < n /\ unit_vector n k row /\
                          dict_get O ci' l = Some k) labels rows.
Proof.
  set (cls := np_unique O labels). set (ci' := dict_update O ci (index_pairs cls)).
  assert (H : exists rows, mapM (fun l => k <- dict_lookup O ci' l ;; unit_row (length cls) k) labels = Ok rows
    /\ Forall2 (fun l row => exists k, is_rank O labels l k /\ k < length cls /\
                             unit_vector (length cls) k row /\ dict_get O ci' l = Some k) labels rows).
  { assert (G : forall ls, incl ls labels -> exists rows,
      mapM (fun l => k <- dict_lookup O ci' l ;; unit_row (length cls) k) ls = Ok rows
      /\ Forall2 (fun l row => exists k, is_rank O labels l k /\ k < length cls /\
                  unit_vector (length cls) k row /\ dict_get O ci' l = Some k) ls rows).
    { induction ls as [|l ls IH]; intros Hincl.
      - exists []; split; auto.
      - destruct IH as (rows & Hm & Hf); [intros x Hx; apply Hincl; simpl; auto|].
        destruct (rank_exists labels l) as (k & Hk & Hr & Hlt); [apply Hincl; simpl; auto|].
        destruct (unit_row_ok (length cls) k Hlt) as (r & Hr1 & Hr2).
        exists (r :: rows). split.
        + simpl. unfold dict_lookup at 1. replace (dict_get O ci' l) with (Some k) by (symmetry; exact (lookup_index ci labels l k Hk)). simpl.
          rewrite Hr1. simpl. rewrite Hm. reflexivity.
        + constructor; auto. exists k; repeat split; try apply Hr2; auto. apply lookup_index; auto. }
    apply G, incl_refl. }
  destruct H as (rows & Hm & Hf).
  exists rows, ci', (length cls). split; [|split; [apply num_distinct_unique|exact Hf]].
  unfold dummy_call. fold cls. fold ci'. rewrite Hm. reflexivity.
Qed.

(** *** One-hot encoder *)
Lemma onehot_spec ci labels :
  exists rows ci' n, onehot_call O ci labels = Ok (rows, ci') /\
    num_distinct labels n /\
    Forall2 (fun l row => exists k, is_rank O labels l k /\ k < n /\ unit_vector n k row /\
                          dict_get O ci' l = Some row) labels rows.
Proof.
  set (cls := np_unique O labels). set (n := length cls).
  set (local := dict_update O [] (index_pairs cls)).
  set (row_of := fun k => set_nth (repeat 0%Z n) k 1%Z).
  assert (Hrow : forall k, k < n -> unit_row n k = Ok (row_of k)).
  { intros k Hk; unfold unit_row, set_at; rewrite repeat_length.
    destruct (Nat.ltb_spec k n); [reflexivity|lia]. }
  assert (Hrowv : forall k, k < n -> unit_vector n k (row_of k)).
  { intros k Hk. destruct (unit_row_ok n k Hk) as (r & H1 & H2). rewrite Hrow in H1 by auto.
    injection H1 as <-; auto. }
  assert (Hkvs : mapM (fun p => r <- unit_row n (snd p) ;; Ok (fst p, r)) (index_pairs cls)
                 = Ok (map (fun p => (fst p, row_of (snd p))) (index_pairs cls))).
  { apply mapM_total. intros [v k] Hin. apply index_pairs_In in Hin. simpl.
    rewrite Hrow; auto. apply nth_error_Some; congruence. }
  set (kvs := map (fun p => (fst p, row_of (snd p))) (index_pairs cls)) in *.
  set (ci' := dict_update O ci kvs).
  assert (Hci : forall l k, nth_error cls k = Some l -> dict_get O ci' l = Some (row_of k)).
  { intros l k Hk. apply dict_update_in.
    - unfold kvs; rewrite map_map; simpl. change (NoDup (map (fun x => fst x) (index_pairs cls))).
      rewrite map_fst_index_pairs. apply np_unique_NoDup.
    - unfold kvs. apply in_map_iff. exists (l, k); split; auto. now apply index_pairs_In. }
  assert (G : forall ls, incl ls labels -> exists rows,
      mapM (fun l => k <- dict_lookup O local l ;; unit_row n k) ls = Ok rows
      /\ Forall2 (fun l row => exists k, is_rank O labels l k /\ k < n /\
                  unit_vector n k row /\ dict_get O ci' l = Some row) ls rows).
  { induction ls as [|l ls IH]; intros Hincl.
    - exists []; split; auto.
    - destruct IH as (rows & Hm & Hf); [intros x Hx; apply Hincl; simpl; auto|].
      destruct (rank_exists labels l) as (k & Hk & Hr & Hlt); [apply Hincl; simpl; auto|].
      exists (row_of k :: rows). split.
      + simpl. unfold dict_lookup at 1. replace (dict_get O local l) with (Some k) by (symmetry; exact (lookup_index [] labels l k Hk)). simpl.
        rewrite Hrow by auto. simpl. rewrite Hm. reflexivity.
      + constructor; auto. exists k; repeat split; auto; apply Hrowv; auto. }
  destruct (G labels (incl_refl _)) as (rows & Hm & Hf).
  exists rows, ci', n. split; [|split; [apply num_distinct_unique|auto]].
  unfold onehot_call. fold cls. fold n. fold local. rewrite Hkvs. cbn [bind].
  fold ci'. rewrite Hm. reflexivity.
Qed.

Lemma Forall2_self {B C} (P : B -> C -> Prop) l r i a b :
  Forall2 P l r -> nth_error l i = Some a -> nth_error r i = Some b -> P a b.
Proof. apply Forall2_nth_error. Qed.

Lemma onehot_rows_eq ci labels rows ci' i j li lj ri rj :
  onehot_call O ci labels = Ok (rows, ci') ->
  nth_error labels i = Some li -> nth_error labels j = Some lj ->
  nth_error rows i = Some ri -> nth_error rows j = Some rj ->
  (ri = rj <-> li = lj).
Proof.
  intros H Hi Hj Hri Hrj. destruct (onehot_spec ci labels) as (rows0 & ci0 & n & H0 & _ & Hf).
  rewrite H0 in H; injection H as -> ->.
  destruct (Forall2_self _ _ _ _ _ _ Hf Hi Hri) as (k & Hk & Hkn & Hu & _).
  destruct (Forall2_self _ _ _ _ _ _ Hf Hj Hrj) as (k' & Hk' & Hkn' & Hu' & _).
  assert (Hin : In li labels) by (eapply nth_error_In; eauto).
  assert (Hjn : In lj labels) by (eapply nth_error_In; eauto).
  split.
  - intros ->. assert (k = k') by (eapply unit_vector_inj; eauto). subst k'.
    destruct (eqb O li lj) eqn:E; [now apply eqb_true in E|].
    apply eqb_false in E. destruct (leb_total O li lj) as [Hle|Hle].
    + pose proof (is_rank_lt _ _ _ _ _ Hk Hk' Hin Hjn Hle E); lia.
    + assert (lj <> li) by congruence.
      pose proof (is_rank_lt _ _ _ _ _ Hk' Hk Hjn Hin Hle H); lia.
  - intros ->. assert (k = k') by (eapply is_rank_fun; eauto). subst k'.
    eapply unit_vector_eq; eauto.
Qed.

(** *** Max-margin encoder *)

Lemma maxmargin_spec ci labels :
  exists codes ci', maxmargin_call O ci labels = Ok (codes, ci') /\
    Forall2 (fun l c => ((forall w, In w labels -> leb O l w = true) -> c = (-1)%Z) /\
                        ((exists w, In w labels /\ leb O l w = false) -> c = 1%Z) /\
                        dict_get O ci' l = Some c) labels codes.
Proof.
  set (cls := np_unique O labels).
  set (kvs := map (fun p : nat * A => (snd p, if fst p =? 0 then (-1)%Z else 1%Z)) (enumerate cls)).
  set (ci' := dict_update O ci kvs).
  set (code := fun k => if k =? 0 then (-1)%Z else 1%Z).
  assert (Hci : forall l k, nth_error cls k = Some l -> dict_get O ci' l = Some (code k)).
  { intros l k Hk. apply dict_update_in.
    - unfold kvs; rewrite map_map; simpl. change (NoDup (map snd (enumerate cls))).
      rewrite map_snd_enumerate. apply np_unique_NoDup.
    - unfold kvs. apply in_map_iff. exists (k, l); split; auto. now apply enumerate_In. }
  assert (G : forall ls, incl ls labels -> exists codes,
      mapM (fun l => dict_lookup O ci' l) ls = Ok codes
      /\ Forall2 (fun l c => ((forall w, In w labels -> leb O l w = true) -> c = (-1)%Z) /\
                        ((exists w, In w labels /\ leb O l w = false) -> c = 1%Z) /\
                        dict_get O ci' l = Some c) ls codes).
  { induction ls as [|l ls IH]; intros Hincl.
    - exists []; split; auto.
    - destruct IH as (codes & Hm & Hf); [intros x Hx; apply Hincl; simpl; auto|].
      destruct (rank_exists labels l) as (k & Hk & Hr & Hlt); [apply Hincl; simpl; auto|].
      exists (code k :: codes). split.
      + simpl. unfold dict_lookup at 1. rewrite (Hci l k Hk). simpl. rewrite Hm. reflexivity.
      + constructor; auto. destruct Hr as (s & Hnd & Hls & Hs). repeat split; auto.
        * intros Hall. unfold code. destruct k; [reflexivity|]. exfalso.
          destruct s as [|w s]; [discriminate|].
          destruct (proj1 (Hs w) (or_introl eq_refl)) as (Hin & Hle & Hne).
          apply Hne. eapply leb_antisym; eauto.
        * intros (w & Hin & Hw). unfold code. destruct k; [|reflexivity]. exfalso.
          destruct s as [|]; [|discriminate]. apply (Hs w). split; auto. split.
          -- destruct (leb_total O l w); congruence.
          -- intros ->. rewrite leb_refl in Hw; discriminate. }
  destruct (G labels (incl_refl _)) as (codes & Hm & Hf).
  exists codes, ci'. split; auto. unfold maxmargin_call. fold cls. fold kvs. fold ci'.
  rewrite Hm. reflexivity.
Qed.
End Enc.

(** *** Imputer *)
Section Imp.
Variable parse : string -> option R.
Variable mode : list cell -> cell.

Lemma fill_spec {B} (v : B) col :
  Forall2 (fun o o' => match o with Some b => o' = Some b | None => o' = Some v end) col (fill v col).
Proof. unfold fill; induction col as [|[b|] t IH]; simpl; constructor; auto. Qed.

Lemma to_floats_spec col rs : to_floats parse col = Some rs ->
  Forall2 (fun o o' => match o with Some c => exists r, to_float parse c = Some r /\ o' = Some r
                                  | None => o' = None end) col rs.
Proof.
  revert rs; induction col as [|[c|] t IH]; simpl; intros rs H.
  - injection H as <-; constructor.
  - destruct (to_float parse c) eqn:E; [|discriminate].
    destruct (to_floats parse t) eqn:E2; [|discriminate]. injection H as <-. constructor; eauto.
  - destruct (to_floats parse t) eqn:E2; [|discriminate]. injection H as <-. constructor; eauto.
Qed.

Lemma to_floats_none col : to_floats parse col = None ->
  exists c, In (Some c) col /\ to_float parse c = None.
Proof.
  induction col as [|[c|] t IH]; simpl; intros H; [discriminate| |].
  - destruct (to_float parse c) eqn:E; [|eauto].
    destruct (to_floats parse t) eqn:E2; [discriminate|].
    destruct (IH eq_refl) as (x & Hx & Hp); eauto.
  - destruct (to_floats parse t) eqn:E2; [discriminate|].
    destruct (IH eq_refl) as (x & Hx & Hp); eauto.
Qed.

Lemma dropna_In {B} (col : list (option B)) b : In b (dropna col) <-> In (Some b) col.
Proof.
  unfold dropna; rewrite in_flat_map; split.
  - intros ([x|] & Hin & Hx); simpl in Hx; [|contradiction]. destruct Hx as [->|[]]; auto.
  - intros H; exists (Some b); simpl; auto.
Qed.
End Imp.

(** *** Scalers *)
Open Scope R_scope.

Lemma np_min_is_min l m : np_min l = Ok m -> is_min m l.
Proof. destruct l as [|x t]; simpl; [discriminate|]; intros H; injection H as <-. split; [apply rmin1_In|apply rmin1_le]. Qed.
Lemma np_max_is_max l m : np_max l = Ok m -> is_max m l.
Proof. destruct l as [|x t]; simpl; [discriminate|]; intros H; injection H as <-. split; [apply rmax1_In|apply rmax1_ge]. Qed.


Lemma nonconstant_lt l mn mx : is_min mn l -> is_max mx l -> nonconstant l -> mn < mx.
Proof.
  intros (H1 & H2) (H3 & H4) (a & b & Ha & Hb & Hne).
  pose proof (H2 a Ha); pose proof (H2 b Hb); pose proof (H4 a Ha); pose proof (H4 b Hb).
  destruct (Rtotal_order a b) as [|[|]]; [lra|contradiction|lra].
Qed.

Lemma npdiv_some x y : y <> 0 -> npdiv x y = Some (x / y).
Proof. intros H; unfold npdiv; destruct (Req_EM_T y 0); [contradiction|reflexivity]. Qed.

Lemma div_range x mn mx : mn < mx -> mn <= x <= mx -> 0 <= (x - mn) / (mx - mn) <= 1.
Proof.
  intros H [H1 H2]. split.
  - apply Rmult_le_pos; [lra|]. apply Rlt_le, Rinv_0_lt_compat; lra.
  - apply Rmult_le_reg_r with (mx - mn); [lra|]. unfold Rdiv. rewrite Rmult_assoc, Rinv_l by lra. lra.
Qed.

Lemma minmax_ok data : data <> [] -> exists out st, minmax_call data = Ok (out, st).
Proof. destruct data as [|x t]; [congruence|]. intros _. eexists _, _. reflexivity. Qed.

Lemma minmax_values data out st :
  minmax_call data = Ok (out, st) -> nonconstant data ->
  is_min (fst st) data /\ is_max (snd st) data /\ fst st < snd st /\
  out = map Some (map (fun x => (x - fst st) / (snd st - fst st)) data).
Proof.
  unfold minmax_call. intros H Hnc. apply bind_Ok in H; destruct H as (mn & Hmn & H).
  apply bind_Ok in H; destruct H as (mx & Hmx & H). injection H as <- <-. simpl.
  pose proof (np_min_is_min _ _ Hmn) as Hm. pose proof (np_max_is_max _ _ Hmx) as HM.
  pose proof (nonconstant_lt _ _ _ Hm HM Hnc) as Hlt. repeat split; try apply Hm; try apply HM; auto.
  rewrite map_map. apply map_ext. intros x. apply npdiv_some. lra.
Qed.

Lemma minmax_props data out st :
  minmax_call data = Ok (out, st) -> nonconstant data ->
  exists zs, out = map Some zs /\ List.length zs = List.length data /\
    (forall z, In z zs -> 0 <= z <= 1) /\
    (forall i x z, nth_error data i = Some x -> nth_error zs i = Some z ->
        (is_min x data -> z = 0) /\ (is_max x data -> z = 1)) /\
    (forall i j x x' z z', nth_error data i = Some x -> nth_error data j = Some x' ->
        nth_error zs i = Some z -> nth_error zs j = Some z' -> (x < x' <-> z < z')).
Proof.
  intros H Hnc. destruct (minmax_values _ _ _ H Hnc) as (Hm & HM & Hlt & ->).
  destruct st as [mn mx]; simpl in *. eexists; split; [reflexivity|].
  split; [now rewrite map_length|]. split; [|split].
  - intros z Hz. apply in_map_iff in Hz. destruct Hz as (x & <- & Hx). apply div_range; auto.
    split; [apply Hm; auto|apply HM; auto].
  - intros i x z Hx Hz. apply nth_error_map_some in Hz. destruct Hz as (a & Ha & <-).
    rewrite Hx in Ha; injection Ha as <-. split; intros [Hin Hall].
    + assert (x = mn) by (apply Rle_antisym; [apply Hall, Hm|apply Hm, Hin]). subst x.
      unfold Rdiv. rewrite Rminus_diag_eq by auto. ring.
    + assert (x = mx) by (apply Rle_antisym; [apply HM, Hin|apply Hall, HM]). subst x.
      field. lra.
  - intros i j x x' z z' Hx Hx' Hz Hz'.
    apply nth_error_map_some in Hz. destruct Hz as (a & Ha & <-).
    apply nth_error_map_some in Hz'. destruct Hz' as (b & Hb & <-).
    rewrite Hx in Ha; injection Ha as <-. rewrite Hx' in Hb; injection Hb as <-.
    assert (Hinv : 0 < / (mx - mn)) by (apply Rinv_0_lt_compat; lra).
    unfold Rdiv. split; intros Hc.
    + apply Rmult_lt_compat_r; lra.
    + apply Rmult_lt_reg_r in Hc; lra.
Qed.

Lemma minmax_constant_nan data out st :
  minmax_call data = Ok (out, st) -> (forall a b, In a data -> In b data -> a = b) ->
  out = map (fun _ => None) data.
Proof.
  unfold minmax_call. intros H Hc. apply bind_Ok in H; destruct H as (mn & Hmn & H).
  apply bind_Ok in H; destruct H as (mx & Hmx & H). injection H as <- <-.
  apply np_min_is_min in Hmn. apply np_max_is_max in Hmx.
  assert (mn = mx) by (apply Hc; [apply Hmn|apply Hmx]). subst mx.
  apply map_ext. intros x. unfold npdiv. destruct (Req_EM_T (mn - mn) 0); [reflexivity|lra].
Qed.

Lemma minmax_roundtrip_any (st : R * R) (xs : list R) :
  fst st < snd st ->
  minmax_inverse st (map (fun x => npdiv (x - fst st) (snd st - fst st)) xs) = map Some xs.
Proof.
  intros H. unfold minmax_inverse. rewrite map_map. apply map_ext. intros x.
  rewrite npdiv_some by lra. f_equal. field. lra.
Qed.

Lemma minmax_inverse_roundtrip data out st :
  minmax_call data = Ok (out, st) -> nonconstant data -> minmax_inverse st out = map Some data.
Proof.
  intros H Hnc. destruct (minmax_values _ _ _ H Hnc) as (Hm & HM & Hlt & ->).
  rewrite <- (minmax_roundtrip_any st data Hlt). f_equal. rewrite map_map. apply map_ext.
  intros x; rewrite npdiv_some by lra. reflexivity.
Qed.

Lemma total_rsum l : total l = rsum l. Proof. reflexivity. Qed.

Lemma mean_of_rmean l : l <> [] -> mean_of l (rmean l).
Proof.
  intros H. unfold mean_of, rmean. change total with rsum. field.
  apply Rgt_not_eq. now apply INR_pos_length.
Qed.

Lemma mean_of_unique l m : l <> [] -> mean_of l m -> m = rmean l.
Proof.
  intros H Hm. unfold mean_of in Hm. change total with rsum in Hm. unfold rmean. rewrite <- Hm.
  field. apply Rgt_not_eq. now apply INR_pos_length.
Qed.

Lemma rvar_spec l : l <> [] -> variance_of l (rvar l).
Proof.
  intros H. exists (rmean l). split; [now apply mean_of_rmean|].
  unfold rvar, rmean at 1. rewrite map_length. change total with rsum.
  rewrite (rsum_ext (fun x => (x - rmean l) * (x - rmean l)) (fun x => (x - rmean l) ^ 2))
    by (intros; ring).
  field. apply Rgt_not_eq. now apply INR_pos_length.
Qed.

Lemma variance_of_unique l v : l <> [] -> variance_of l v -> v = rvar l.
Proof.
  intros H (m & Hm & Hv). apply mean_of_unique in Hm; auto. subst m.
  unfold rvar, rmean at 1. rewrite map_length.
  rewrite (rsum_ext (fun x => (x - rmean l) * (x - rmean l)) (fun x => (x - rmean l) ^ 2))
    by (intros; ring).
  change total with rsum in Hv. rewrite <- Hv. field. apply Rgt_not_eq. now apply INR_pos_length.
Qed.

Lemma standard_values data : rvar data <> 0 ->
  fst (standard_call data) = map Some (map (fun x => (x - rmean data) / rvar data) data).
Proof.
  intros H. unfold standard_call. simpl. rewrite map_map. apply map_ext.
  intros x; now apply npdiv_some.
Qed.

Lemma rsum_dev data : data <> [] -> rsum (map (fun x => x - rmean data) data) = 0.
Proof.
  intros H. rewrite (rsum_map_minus (fun x => x) (fun _ => rmean data)).
  rewrite map_id, rsum_map_const. unfold rmean. field. apply Rgt_not_eq. now apply INR_pos_length.
Qed.

Lemma standard_mean_var data : data <> [] -> rvar data <> 0 ->
  exists zs, fst (standard_call data) = map Some zs /\ List.length zs = List.length data /\
     mean_of zs 0 /\ variance_of zs (/ rvar data).
Proof.
  intros Hn Hv. exists (map (fun x => (x - rmean data) / rvar data) data).
  split; [now apply standard_values|]. split; [now rewrite map_length|].
  assert (Hm0 : mean_of (map (fun x => (x - rmean data) / rvar data) data) 0).
  { unfold mean_of. change total with rsum. unfold Rdiv.
    rewrite (rsum_map_scal_r (/ rvar data) (fun x => x - rmean data)).
    rewrite rsum_dev by auto. ring. }
  split; auto. exists 0. split; auto.
  rewrite map_map, map_length. change total with rsum.
  rewrite (rsum_ext _ (fun x => (x - rmean data) ^ 2 * (/ rvar data * / rvar data)))
    by (intros; field; auto).
  rewrite (rsum_map_scal_r _ (fun x => (x - rmean data) ^ 2)).
  destruct (rvar_spec data Hn) as (m & Hm & Hvar). apply mean_of_unique in Hm; auto. subst m.
  change total with rsum in Hvar. rewrite <- Hvar. field. auto.
Qed.

Lemma standard_roundtrip data : rvar data <> 0 ->
  standard_inverse (snd (standard_call data)) (fst (standard_call data)) = map Some data.
Proof.
  intros H. rewrite standard_values by auto. unfold standard_inverse, standard_call; simpl.
  rewrite !map_map. apply map_ext. intros x. f_equal. field. auto.
Qed.

Lemma standard_constant_nan data : rvar data = 0 -> fst (standard_call data) = map (fun _ => None) data.
Proof.
  intros H. unfold standard_call; simpl. apply map_ext. intros x. unfold npdiv.
  destruct (Req_EM_T (rvar data) 0); [reflexivity|contradiction].
Qed.

Lemma rvar_zero_constant data : data <> [] -> (rvar data = 0 <-> forall a b, In a data -> In b data -> a = b).
Proof.
  intros Hn. assert (Hpos := INR_pos_length data Hn). split.
  - intros H a b Ha Hb.
    assert (Hs : rsum (map (fun x => (x - rmean data) * (x - rmean data)) data) = 0).
    { unfold rvar, rmean at 1 in H. rewrite map_length in H.
      apply (Rmult_eq_compat_r (INR (List.length data))) in H. unfold Rdiv in H.
      rewrite Rmult_assoc, Rinv_l, Rmult_1_r, Rmult_0_l in H by lra. exact H. }
    assert (Hz : forall x, In x data -> x = rmean data).
    { intros x Hx.
      assert (H0 : (x - rmean data) * (x - rmean data) = 0).
      { apply (rsum_nonneg_zero _) with (2 := Hs).
        - intros y Hy. apply in_map_iff in Hy. destruct Hy as (w & <- & _). apply Rle_0_sqr.
        - apply in_map_iff; eauto. }
      apply Rmult_integral in H0. lra. }
    rewrite (Hz a Ha), (Hz b Hb); reflexivity.
  - intros H. destruct data as [|a t]; [congruence|].
    assert (Hm : rmean (a :: t) = a).
    { symmetry; apply mean_of_unique; auto. unfold mean_of. change total with rsum.
      rewrite <- (map_id (a :: t)) at 2.
      rewrite (rsum_ext (fun x => x) (fun _ => a)) by (intros x Hx; apply H; simpl; auto).
      now rewrite rsum_map_const. }
    unfold rvar. rewrite Hm. unfold rmean. rewrite (rsum_ext _ (fun _ => 0)).
    + rewrite rsum_map_const. unfold Rdiv. ring.
    + intros x Hx. rewrite (H x a); [ring|auto|simpl; auto].
Qed.

(** Two-dimensional scaling. *)
Lemma bidx_same n j : (j < n)%nat -> bidx n j = j.
Proof. intros H. unfold bidx. destruct (Nat.eqb_spec n 1); lia. Qed.

Lemma bcast_map_same {B C} (d : B) (f : B -> R * R -> C) n data stats :
  List.length stats = n ->
  bcast_map d f n data stats =
  Ok (map (fun row => map (fun j => f (nth j row d) (nth j stats (0, 0))) (seq 0 n)) data).
Proof.
  intros H. unfold bcast_map, bcast_cols. rewrite H, Nat.eqb_refl. cbn [bind]. f_equal.
  apply map_ext. intros row. apply map_ext_in. intros j Hj. apply in_seq in Hj.
  rewrite !bidx_same by lia. reflexivity.
Qed.

Definition mstat (v : list R) : R * R := match v with [] => (0, 0) | x :: t => (rmin1 x t, rmax1 x t) end.

Lemma minmax2_unfold n data : data <> [] ->
  minmax_call2 Axis0 n data =
  Ok (map (fun row => map (fun j => let st := mstat (column 0 data j) in
            npdiv (nth j row 0 - fst st) (snd st - fst st)) (seq 0 n)) data,
      map (fun j => mstat (column 0 data j)) (seq 0 n)).
Proof.
  intros Hd. unfold minmax_call2, slices.
  rewrite (mapM_total _ mstat).
  - cbn [bind]. rewrite map_map. rewrite bcast_map_same by (rewrite map_length, seq_length; auto).
    cbn [bind]. f_equal. f_equal. apply map_ext. intros row. apply map_ext_in.
    intros j Hj; apply in_seq in Hj. rewrite nth_map_seq by lia. reflexivity.
  - intros v Hv. apply in_map_iff in Hv. destruct Hv as (j & <- & _).
    destruct data as [|r rs]; [congruence|]. reflexivity.
Qed.

(** Column-wise ([axis=0]) scaling of a matrix is the one-dimensional scaling
    of each of its columns. *)
Lemma minmax2_axis0 n data :
  data <> [] ->
  exists out stats, minmax_call2 Axis0 n data = Ok (out, stats) /\
    List.length out = List.length data /\ List.length stats = n /\
    (forall row, In row out -> List.length row = n) /\
    forall j, (j < n)%nat -> exists o st, minmax_call (column 0 data j) = Ok (o, st) /\
       column None out j = o /\ nth_error stats j = Some st.
Proof.
  intros Hd. rewrite minmax2_unfold by auto.
  eexists _, _; split; [reflexivity|]. split; [now rewrite map_length|].
  split; [now rewrite map_length, seq_length|]. split.
  { intros row Hr. apply in_map_iff in Hr. destruct Hr as (r & <- & _). now rewrite map_length, seq_length. }
  intros j Hj.
  assert (Hc : minmax_call (column 0 data j) =
    Ok (map (fun x => npdiv (x - fst (mstat (column 0 data j)))
         (snd (mstat (column 0 data j)) - fst (mstat (column 0 data j)))) (column 0 data j), mstat (column 0 data j))).
  { unfold minmax_call. destruct data as [|r rs]; [congruence|]. reflexivity. }
  rewrite Hc. eexists _, _; split; [reflexivity|]. split.
  - unfold column at 1. rewrite map_map.
    rewrite (map_ext _ (fun row => npdiv (nth j row 0 - fst (mstat (column 0 data j)))
         (snd (mstat (column 0 data j)) - fst (mstat (column 0 data j)))))
      by (intros row; rewrite nth_map_seq by auto; reflexivity).
    generalize (mstat (column 0 data j)); intros st. unfold column. now rewrite map_map.
  - rewrite nth_error_map_some. exists j. split; auto.
    rewrite (nth_error_nth' _ 0%nat) by (rewrite seq_length; auto). now rewrite seq_nth.
Qed.

Lemma rect_rebuild {B} (d : B) n (row : list B) : List.length row = n ->
  map (fun j => nth j row d) (seq 0 n) = row.
Proof.
  intros <-. apply (nth_ext _ _ d d); [now rewrite map_length, seq_length|].
  intros j Hj. rewrite map_length, seq_length in Hj. now rewrite nth_map_seq.
Qed.

Lemma minmax2_roundtrip n data out stats :
  data <> [] -> (forall row, In row data -> List.length row = n) ->
  (forall j, (j < n)%nat -> nonconstant (column 0 data j)) ->
  minmax_call2 Axis0 n data = Ok (out, stats) ->
  minmax_inverse2 n stats out = Ok (map (map Some) data).
Proof.
  intros Hd Hw Hnc H. rewrite minmax2_unfold in H by auto. injection H as <- <-.
  unfold minmax_inverse2. rewrite bcast_map_same by (now rewrite map_length, seq_length).
  f_equal. rewrite map_map. apply map_ext_in. intros row Hrow.
  transitivity (map Some (map (fun j => nth j row 0) (seq 0 n)));
    [|now rewrite (rect_rebuild 0 n row (Hw _ Hrow))]. rewrite map_map.
  apply map_ext_in. intros j Hj. apply in_seq in Hj.
  rewrite !nth_map_seq by lia. cbv zeta.
  destruct (minmax_ok (column 0 data j)) as (o & st & Ho); [destruct data; [congruence|discriminate]|].
  destruct (minmax_values _ _ _ Ho (Hnc j ltac:(lia))) as (_ & _ & Hlt & _).
  assert (st = mstat (column 0 data j)).
  { unfold minmax_call in Ho. destruct data as [|r rs]; [congruence|].
    simpl in Ho. injection Ho as _ <-. reflexivity. }
  subst st. rewrite npdiv_some by lra. f_equal. field. lra.
Qed.

Lemma minmax2_axis_last_rejects n data :
  (forall row, In row data -> List.length row = n) -> (2 <= n)%nat ->
  (2 <= List.length data)%nat -> List.length data <> n ->
  minmax_call2 AxisLast n data = Err ValueError.
Proof.
  intros Hr Hn Hd Hne. unfold minmax_call2, slices.
  rewrite (mapM_total _ mstat).
  - cbn [bind]. unfold bcast_map. rewrite map_length. unfold bcast_cols.
    destruct (Nat.eqb_spec n (List.length data)); [lia|].
    destruct (Nat.eqb_spec (List.length data) 1); [lia|].
    destruct (Nat.eqb_spec n 1); [lia|]. reflexivity.
  - intros v Hv. apply Hr in Hv. destruct v as [|x t]; [simpl in Hv; lia|]. reflexivity.
Qed.

(** On a square matrix the default axis is accepted, but entry (i, j) is scaled
    by the extremes of row [j], not of row [i] or column [j]. *)
Lemma minmax2_axis_last_square n data :
  (forall row, In row data -> List.length row = n) -> (1 <= n)%nat -> List.length data = n ->
  exists stats, minmax_call2 AxisLast n data =
    @Ok _ (map (fun row => map (fun j => let st := nth j stats (0,0) in
            npdiv (nth j row 0 - fst st) (snd st - fst st)) (seq 0 n)) data, stats) /\
    forall j row, nth_error data j = Some row ->
      is_min (fst (nth j stats (0,0))) row /\ is_max (snd (nth j stats (0,0))) row.
Proof.
  intros Hr Hn Hd. exists (map mstat data). split.
  - unfold minmax_call2, slices. rewrite (mapM_total _ mstat).
    + cbn [bind]. rewrite bcast_map_same by (now rewrite map_length). reflexivity.
    + intros v Hv. apply Hr in Hv. destruct v as [|x t]; [simpl in Hv; lia|]. reflexivity.
  - intros j row Hj. rewrite (nth_map_in mstat data j (0,0) []) by (apply nth_error_Some; congruence).
    rewrite (nth_error_nth _ _ _ Hj).
    assert (Hl : List.length row = n) by (apply Hr; eapply nth_error_In; eauto).
    destruct row as [|x t]; [simpl in Hl; lia|]. simpl.
    split; split; [apply rmin1_In|apply rmin1_le|apply rmax1_In|apply rmax1_ge].
Qed.

(** The default axis on a table with a single column or a single row. *)
Lemma minmax2_one_column data : data <> [] -> Forall (fun row => List.length row = 1%nat) data ->
  exists stats, minmax_call2 AxisLast 1 data = @Ok _ (map (fun _ => map (fun _ => None) data) data, stats).
Proof.
  intros Hd F. rewrite Forall_forall in F. exists (map mstat data). unfold minmax_call2, slices. rewrite (mapM_total _ mstat).
  - cbn [bind]. unfold bcast_map. rewrite map_length.
    assert (W : bcast_cols 1 (List.length data) = Ok (List.length data)).
    { unfold bcast_cols. destruct (Nat.eqb_spec 1 (List.length data)) as [<-|]; [reflexivity|]. destruct (Nat.eqb_spec (List.length data) 1); [lia|reflexivity]. }
    rewrite W. cbn [bind]. f_equal. f_equal. apply map_ext. intros row. rewrite <- (map_map (fun _ => 0%nat) (fun _ => None) data).
    apply nth_ext with (d := None) (d' := None); rewrite !map_length, seq_length; [reflexivity|]. intros j Hj.
    rewrite nth_map_seq by exact Hj. rewrite map_map. rewrite (nth_map_in (fun _ => None) data j None []) by exact Hj.
    assert (B : bidx (List.length data) j = j) by (unfold bidx; destruct (Nat.eqb_spec (List.length data) 1); lia).
    rewrite B. rewrite (nth_map_in mstat data j (0,0) []) by exact Hj.
    assert (L : List.length (nth j data []) = 1%nat) by (apply F, nth_In, Hj). destruct (nth j data []) as [|a [|b t]]; try discriminate.
    cbn. unfold npdiv. destruct (Req_EM_T (a - a) 0); [reflexivity|lra].
  - intros v Hv. apply F in Hv. destruct v as [|x t]; [simpl in Hv; lia|]. reflexivity.
Qed.
Lemma standard2_one_column data : Forall (fun row => List.length row = 1%nat) data ->
  exists stats, standard_call2 AxisLast 1 data = @Ok _ (map (fun _ => map (fun _ => None) data) data, stats).
Proof.
  intros F. rewrite Forall_forall in F. exists (map (fun v => (rmean v, rvar v)) data). unfold standard_call2, slices.
  unfold bcast_map. rewrite map_length.
  destruct data as [|r0 t0]; [reflexivity|]. set (data := r0 :: t0) in *.
  assert (W : bcast_cols 1 (List.length data) = Ok (List.length data)).
  { unfold bcast_cols. destruct (Nat.eqb_spec 1 (List.length data)) as [<-|]; [reflexivity|]. destruct (Nat.eqb_spec (List.length data) 1); [lia|reflexivity]. }
  rewrite W. cbn [bind]. f_equal. f_equal. apply map_ext. intros row.
  apply nth_ext with (d := None) (d' := None); rewrite !map_length, seq_length; [reflexivity|]. intros j Hj.
  rewrite nth_map_seq by exact Hj. rewrite (nth_map_in (fun _ => None) data j None []) by exact Hj.
  assert (B : bidx (List.length data) j = j) by (unfold bidx; destruct (Nat.eqb_spec (List.length data) 1); lia).
  rewrite B. rewrite (nth_map_in (fun v => (rmean v, rvar v)) data j (0,0) []) by exact Hj.
  assert (L : List.length (nth j data []) = 1%nat) by (apply F, nth_In, Hj). destruct (nth j data []) as [|a [|b t]]; try discriminate.
  cbn. unfold npdiv. destruct (Req_EM_T (rvar [a]) 0) as [|N]; [reflexivity|]. destruct N. unfold rvar, rmean, rsum. cbn. field.
Qed.
Lemma minmax2_one_row r : r <> [] ->
  exists o st, minmax_call r = Ok (o, st) /\ minmax_call2 AxisLast (List.length r) [r] = Ok ([o], [st]).
Proof.
  intros Hr. destruct r as [|a t]; [easy|]. set (r := a :: t) in *. do 2 eexists. split; [reflexivity|].
  unfold minmax_call2, slices. rewrite (mapM_total _ mstat) by (intros v [<-|[]]; reflexivity). cbn [bind map]. unfold bcast_map. cbn [List.length].
  assert (W : bcast_cols (List.length r) 1 = Ok (List.length r)) by (unfold bcast_cols; destruct (Nat.eqb_spec (List.length r) 1); reflexivity).
  rewrite W. cbn [bind map]. do 3 f_equal.
  apply nth_ext with (d := None) (d' := npdiv (0 - rmin1 a t) (rmax1 a t - rmin1 a t)); rewrite !map_length, seq_length; [reflexivity|]. intros j Hj.
  rewrite nth_map_seq by exact Hj. rewrite (map_nth (fun x => npdiv (x - rmin1 a t) (rmax1 a t - rmin1 a t))).
  assert (B : bidx (List.length r) j = j) by (unfold bidx; destruct (Nat.eqb_spec (List.length r) 1); lia). rewrite B. reflexivity.
Qed.
Lemma standard2_one_row r : standard_call2 AxisLast (List.length r) [r] = Ok ([fst (standard_call r)], [snd (standard_call r)]).
Proof.
  unfold standard_call2, slices, bcast_map. cbn [map List.length].
  assert (W : bcast_cols (List.length r) 1 = Ok (List.length r)) by (unfold bcast_cols; destruct (Nat.eqb_spec (List.length r) 1); reflexivity).
  rewrite W. cbn [bind map]. do 3 f_equal. unfold standard_call. cbn [fst].
  apply nth_ext with (d := None) (d' := npdiv (0 - rmean r) (rvar r)); rewrite !map_length, seq_length; [reflexivity|]. intros j Hj.
  rewrite nth_map_seq by exact Hj. rewrite (map_nth (fun x => npdiv (x - rmean r) (rvar r))).
  assert (B : bidx (List.length r) j = j) by (unfold bidx; destruct (Nat.eqb_spec (List.length r) 1); lia). rewrite B. reflexivity.
Qed.
Lemma standard2_rejects n data : (2 <= n)%nat -> (2 <= List.length data)%nat -> List.length data <> n ->
  standard_call2 AxisLast n data = Err ValueError.
Proof.
  intros Hn Hd Hne. unfold standard_call2, slices, bcast_map. rewrite map_length. unfold bcast_cols.
  destruct (Nat.eqb_spec n (List.length data)); [lia|]. destruct (Nat.eqb_spec (List.length data) 1); [lia|]. destruct (Nat.eqb_spec n 1); [lia|]. reflexivity.
Qed.

Lemma standard2_unfold n data :
  standard_call2 Axis0 n data =
  Ok (map (fun row => map (fun j => npdiv (nth j row 0 - rmean (column 0 data j))
                                          (rvar (column 0 data j))) (seq 0 n)) data,
      map (fun j => (rmean (column 0 data j), rvar (column 0 data j))) (seq 0 n)).
Proof.
  unfold standard_call2, slices. rewrite map_map.
  rewrite bcast_map_same by (now rewrite map_length, seq_length). cbn [bind]. f_equal. f_equal.
  apply map_ext. intros row. apply map_ext_in. intros j Hj. apply in_seq in Hj.
  rewrite nth_map_seq by lia. reflexivity.
Qed.

Lemma standard2_axis0 n data :
  exists out stats, standard_call2 Axis0 n data = Ok (out, stats) /\
    List.length out = List.length data /\ List.length stats = n /\
    forall j, (j < n)%nat ->
       column None out j = fst (standard_call (column 0 data j)) /\
       nth_error stats j = Some (snd (standard_call (column 0 data j))).
Proof.
  rewrite standard2_unfold. eexists _, _; split; [reflexivity|].
  split; [now rewrite map_length|]. split; [now rewrite map_length, seq_length|].
  intros j Hj. split.
  - unfold standard_call; cbn [fst]. unfold column at 1. rewrite map_map.
    rewrite (map_ext _ (fun row => npdiv (nth j row 0 - rmean (column 0 data j)) (rvar (column 0 data j))))
      by (intros row; rewrite nth_map_seq by auto; reflexivity).
    generalize (rmean (column 0 data j)) (rvar (column 0 data j)); intros m v.
    unfold column. now rewrite map_map.
  - rewrite nth_error_map_some. exists j. split; auto.
    rewrite (nth_error_nth' _ 0%nat) by (rewrite seq_length; auto). now rewrite seq_nth.
Qed.

Lemma standard2_roundtrip n data out stats :
  data <> [] -> (forall row, In row data -> List.length row = n) ->
  (forall j, (j < n)%nat -> nonconstant (column 0 data j)) ->
  standard_call2 Axis0 n data = Ok (out, stats) ->
  standard_inverse2 n stats out = Ok (map (map Some) data).
Proof.
  intros Hd Hw Hnc H. rewrite standard2_unfold in H by auto. injection H as <- <-.
  unfold standard_inverse2. rewrite bcast_map_same by (now rewrite map_length, seq_length).
  f_equal. rewrite map_map. apply map_ext_in. intros row Hrow.
  transitivity (map Some (map (fun j => nth j row 0) (seq 0 n)));
    [|now rewrite (rect_rebuild 0 n row (Hw _ Hrow))]. rewrite map_map.
  apply map_ext_in. intros j Hj. apply in_seq in Hj.
  rewrite !nth_map_seq by lia. cbn [fst snd].
  assert (rvar (column 0 data j) <> 0).
  { intros Hz. destruct (Hnc j ltac:(lia)) as (a & b & Ha & Hb & Hne). apply Hne.
    apply (proj1 (rvar_zero_constant (column 0 data j)
             ltac:(destruct data; [congruence|discriminate])) Hz); auto. }
  rewrite npdiv_some by auto. f_equal. field. auto.
Qed.
Close Scope R_scope.

(** *** Imputer, whole column *)
Lemma to_floats_missing parse col rs : to_floats parse col = Some rs ->
  dropna rs = [] -> col = map (fun _ => None) col.
Proof.
  revert rs; induction col as [|[c|] t IH]; simpl; intros rs H Hd; auto.
  - destruct (to_float parse c); [|discriminate]. destruct (to_floats parse t); [|discriminate].
    injection H as <-. discriminate.
  - destruct (to_floats parse t) eqn:E; [|discriminate]. injection H as <-.
    f_equal. eapply IH; eauto.
Qed.

Lemma Forall2_map_same {B C} (P : B -> C -> Prop) (f : B -> C) l :
  (forall x, In x l -> P x (f x)) -> Forall2 P l (map f l).
Proof. induction l; simpl; constructor; auto. Qed.

Lemma to_floats_observed parse col rs : to_floats parse col = Some rs ->
  observed_numbers parse col (dropna rs).
Proof.
  revert rs; induction col as [|[c|] t IH]; simpl; intros rs H.
  - injection H as <-. constructor.
  - destruct (to_float parse c) eqn:E; [|discriminate]. destruct (to_floats parse t) eqn:E2; [|discriminate].
    injection H as <-. simpl. constructor; auto.
  - destruct (to_floats parse t) eqn:E; [|discriminate]. injection H as <-. simpl. constructor; auto.
Qed.
Lemma observed_fun parse col rs rs' : observed_numbers parse col rs -> observed_numbers parse col rs' -> rs = rs'.
Proof.
  intros H; revert rs'; induction H; intros rs' H'; inversion H'; subst; auto.
  f_equal; [congruence|auto].
Qed.
Lemma observed_to_floats parse col rs : observed_numbers parse col rs -> to_floats parse col <> None.
Proof.
  induction 1; simpl; try discriminate.
  - destruct (to_floats parse t); congruence.
  - rewrite H. destruct (to_floats parse t); congruence.
Qed.

Section ImpCol.
Variable parse : string -> option R.
Variable mode : list cell -> cell.

Lemma fillna_numeric col rs : observed_numbers parse col rs -> rs <> [] ->
  Forall2 (fun o o' => match o with
     | Some c => exists r, to_float parse c = Some r /\ o' = Some (CNum r)
     | None => exists m, mean_of rs m /\ o' = Some (CNum m) end) col (fillna_col parse mode col).
Proof.
  intros Ho Hn. unfold fillna_col. destruct (to_floats parse col) as [fs|] eqn:E.
  - assert (Hd : dropna fs = rs) by (eapply observed_fun; eauto; now apply to_floats_observed).
    rewrite Hd. destruct rs as [|r0 rs0] eqn:Hrs; [congruence|]. rewrite <- Hrs in *.
    assert (G : forall c f, to_floats parse c = Some f -> Forall2 (fun o o' => match o with
     | Some c => exists r, to_float parse c = Some r /\ o' = Some (CNum r)
     | None => exists m, mean_of rs m /\ o' = Some (CNum m) end) c
       (map (fun o => match o with Some r => Some (CNum r) | None => None end) (fill (rmean rs) f))).
    { clear E Hd Ho. intros c; induction c as [|[c0|] t IH]; simpl; intros f H.
      - injection H as <-. constructor.
      - destruct (to_float parse c0) eqn:E; [|discriminate]. destruct (to_floats parse t) eqn:E2; [|discriminate].
        injection H as <-. simpl. constructor; eauto.
      - destruct (to_floats parse t) eqn:E2; [|discriminate]. injection H as <-. simpl. constructor; eauto.
        eexists; split; [apply mean_of_rmean; congruence|reflexivity]. }
    exact (G _ _ E).
  - exfalso. eapply observed_to_floats; eauto.
Qed.

Lemma fillna_text col : (exists c, In (Some c) col /\ to_float parse c = None) ->
  Forall2 (fun o o' => match o with Some c => o' = Some c
     | None => o' = Some (mode (dropna col)) end) col (fillna_col parse mode col).
Proof.
  intros (c & Hin & Hc). unfold fillna_col. destruct (to_floats parse col) as [fs|] eqn:E.
  - exfalso. apply to_floats_spec in E. clear -E Hin Hc. induction E; simpl in *; [tauto|].
    destruct Hin as [->|Hin]; auto. destruct H as (r & Hr & _). congruence.
  - apply fill_spec.
Qed.

Lemma fillna_all_missing col : (forall c, ~ In (Some c) col) -> fillna_col parse mode col = col.
Proof.
  intros H. unfold fillna_col.
  assert (E : to_floats parse col = Some (map (fun _ => None) col) /\ col = map (fun _ => None) col).
  { induction col as [|[c|] t IH]; simpl; auto.
    - exfalso; eapply H; simpl; eauto.
    - destruct IH as [E1 E2]; [intros c Hc; eapply H; simpl; eauto|]. rewrite E1.
      split; [reflexivity|]. now rewrite <- E2. }
  destruct E as [E1 E2]. rewrite E1.
  assert (Hd : dropna (map (fun _ : option cell => @None R) col) = []).
  { clear. induction col; simpl; auto. }
  rewrite Hd. rewrite map_map. symmetry; exact E2.
Qed.

Lemma numeric_or_text col : (exists rs, observed_numbers parse col rs) \/
  (exists c, In (Some c) col /\ to_float parse c = None).
Proof.
  destruct (to_floats parse col) eqn:E; [left|right; now apply to_floats_none].
  eexists; apply to_floats_observed; eauto.
Qed.

(** A column without gaps whose cells are all numbers is left alone. *)
Lemma fillna_idem col : (exists c, In (Some c) col) ->
  fillna_col parse mode (fillna_col parse mode col) = fillna_col parse mode col.
Proof.
  intros (c & Hin). destruct (numeric_or_text col) as [(rs & Hrs)|Ht].
  - assert (Hn : rs <> []).
    { intros ->. clear -Hin Hrs. remember [] as e. revert Heqe.
      induction Hrs; intros; try discriminate; simpl in Hin; [tauto|]. destruct Hin; [discriminate|auto]. }
    pose proof (fillna_numeric col rs Hrs Hn) as F. set (out := fillna_col parse mode col) in *. clearbody out.
    assert (Hout : exists vs, out = map (fun v => Some (CNum v)) vs).
    { clear -F. induction F as [|o o' t t' H HF IH]; [exists []; reflexivity|].
      destruct IH as (vs & ->). destruct o; [destruct H as (r & _ & ->)|destruct H as (r & _ & ->)];
        exists (r :: vs); reflexivity. }
    destruct Hout as (vs & ->).
    assert (Hob : observed_numbers parse (map (fun v => Some (CNum v)) vs) vs).
    { clear. induction vs; simpl; constructor; auto. }
    destruct vs as [|v0 vs0] eqn:Hv; [apply fillna_all_missing; simpl; tauto|]. rewrite <- Hv in *.
    pose proof (fillna_numeric _ vs Hob ltac:(congruence)) as F2.
    clear -F2. revert F2. generalize (fillna_col parse mode (map (fun v => Some (CNum v)) vs)).
    intros out2. generalize (mean_of vs). intros P. revert out2.
    induction vs as [|v vs IH]; simpl; intros out2 F2; inversion F2 as [|? ? ? ? Hh Ht]; subst; auto.
    destruct Hh as (r & Hr & ->). simpl in Hr. injection Hr as <-. f_equal. apply IH; auto.
  - pose proof (fillna_text col Ht) as F. revert F. generalize (mode (dropna col)). intros md0 F. set (out := fillna_col parse mode col) in *.
    assert (Hfull : forall o, In o out -> o <> None).
    { clearbody out. clear -F. induction F as [|o o' t t' H HF IH]; simpl; [tauto|].
      intros x [<-|Hx]; auto. destruct o; congruence. }
    assert (Ht2 : exists c, In (Some c) out /\ to_float parse c = None).
    { destruct Ht as (c1 & H1 & H2). exists c1. split; auto. clearbody out. clear -F H1.
      induction F as [|o o' t t' H HF IH]; simpl in *; [tauto|]. destruct H1 as [->|H1]; auto. }
    pose proof (fillna_text out Ht2) as F2. clearbody out.
    clear -F2 Hfull. revert F2. generalize (fillna_col parse mode out). generalize (mode (dropna out)).
    intros md out2 F2. induction F2 as [|o o' t t' H HF IH]; auto.
    destruct o as [x|]; [|exfalso; eapply Hfull; simpl; eauto]. subst o'. f_equal. apply IH.
    intros y Hy; apply Hfull; simpl; auto.
Qed.
End ImpCol.

Lemma dropna_observed col : observed_cells col (dropna col).
Proof.
  unfold observed_cells. induction col as [|[c|] t IH]; simpl; auto. now rewrite IH.
Qed.

Lemma fillna_imputed parse mode col :
  (forall l, l <> [] -> most_frequent (mode l) l) ->
  (exists c, In (Some c) col) ->
  imputed parse col (fillna_col parse mode col) /\
  (forall o, In o (fillna_col parse mode col) -> o <> None) /\
  fillna_col parse mode (fillna_col parse mode col) = fillna_col parse mode col.
Proof.
  intros Hmode Hobs. split; [|split; [|now apply fillna_idem]].
  - destruct (numeric_or_text parse col) as [(rs & Hrs)|Ht].
    + left. assert (Hn : rs <> []).
      { intros ->. destruct Hobs as (c & Hin). clear -Hin Hrs. remember [] as e. revert Heqe.
        induction Hrs; intros; try discriminate; simpl in Hin; [tauto|]. destruct Hin; [discriminate|auto]. }
      exists rs, (rmean rs). split; auto. split; [now apply mean_of_rmean|].
      pose proof (fillna_numeric parse mode col rs Hrs Hn) as F.
      eapply Forall2_impl; [|exact F]. intros [c|] o' Ho; auto.
      destruct Ho as (m & Hm & ->). now rewrite (mean_of_unique rs m Hn Hm).
    + right. destruct Ht as (c & Hin & Hc). exists c, (dropna col), (mode (dropna col)).
      split; auto. split; auto. split; [apply dropna_observed|]. split.
      * apply Hmode. intros He. apply dropna_In in Hin. rewrite He in Hin; contradiction.
      * apply fillna_text. eauto.
  - destruct (numeric_or_text parse col) as [(rs & Hrs)|Ht].
    + assert (Hn : rs <> []).
      { intros ->. destruct Hobs as (c & Hin). clear -Hin Hrs. remember [] as e. revert Heqe.
        induction Hrs; intros; try discriminate; simpl in Hin; [tauto|]. destruct Hin; [discriminate|auto]. }
      pose proof (fillna_numeric parse mode col rs Hrs Hn) as F. revert F.
      generalize (mean_of rs) (fillna_col parse mode col). intros P out F. clear -F.
      induction F as [|o o' t t' H HF IH]; simpl; [tauto|].
      intros x [<-|Hx]; auto. destruct o; [destruct H as (r & _ & ->)|destruct H as (r & _ & ->)]; discriminate.
    + pose proof (fillna_text parse mode col Ht) as F. revert F.
      generalize (mode (dropna col)) (fillna_col parse mode col). intros P out F. clear -F.
      induction F as [|o o' t t' H HF IH]; simpl; [tauto|].
      intros x [<-|Hx]; auto. destruct o; subst; discriminate.
Qed.

Lemma imputer_spec parse mode cols :
  (forall l, l <> [] -> most_frequent (mode l) l) ->
  (forall col, In col cols -> exists c, In (Some c) col) ->
  Forall2 (fun col out => imputed parse col out /\ forall o, In o out -> o <> None)
    cols (imputer_call parse mode cols) /\
  imputer_call parse mode (imputer_call parse mode cols) = imputer_call parse mode cols.
Proof.
  intros Hm Ho. unfold imputer_call. split.
  - apply Forall2_map_same. intros col Hin. destruct (fillna_imputed parse mode col Hm (Ho _ Hin)) as (H1 & H2 & _).
    split; auto.
  - rewrite map_map. apply map_ext_in. intros col Hin. apply (fillna_imputed parse mode col Hm (Ho _ Hin)).
Qed.

(** Max-margin coding merges classes exactly when there are three or more. *)
Lemma maxmargin_codes {A} (O : TotalOrder A) ci labels codes ci' i j li lj ri rj :
  maxmargin_call O ci labels = Ok (codes, ci') ->
  nth_error labels i = Some li -> nth_error labels j = Some lj ->
  nth_error codes i = Some ri -> nth_error codes j = Some rj ->
  (ri = rj <-> (is_rank O labels li 0 <-> is_rank O labels lj 0)).
Proof.
  intros H Hi Hj Hri Hrj. destruct (maxmargin_spec O ci labels) as (c0 & ci0 & H0 & Hf).
  rewrite H0 in H. injection H as -> ->.
  assert (G : forall p lp rp, nth_error labels p = Some lp -> nth_error codes p = Some rp ->
     (is_rank O labels lp 0 -> rp = (-1)%Z) /\ (~ is_rank O labels lp 0 -> rp = 1%Z)).
  { intros p lp rp H1 H2. destruct (Forall2_nth_error _ _ _ _ _ _ Hf H1 H2) as (Ha & Hb & _).
    split; intros Hr.
    - apply Ha. destruct Hr as (s & _ & Hl & Hs). destruct s; [|discriminate].
      intros w Hw. destruct (leb O lp w) eqn:E; auto. exfalso. apply (Hs w). split; auto.
      apply leb_false_ltb in E. now apply ltb_true in E.
    - apply Hb. destruct (rank_exists O labels lp) as (k & _ & Hk & _); [eapply nth_error_In; eauto|].
      destruct k as [|k]; [contradiction|]. destruct Hk as (s & _ & Hl & Hs).
      destruct s as [|w s]; [discriminate|]. exists w. destruct (proj1 (Hs w) (or_introl eq_refl)) as (Hw & Hle & Hne).
      split; auto. apply leb_false_ltb, ltb_true; auto. }
  destruct (G _ _ _ Hi Hri) as (Ga & Gb). destruct (G _ _ _ Hj Hrj) as (Gc & Gd).
  assert (D : forall p, In p labels -> is_rank O labels p 0 \/ ~ is_rank O labels p 0).
  { intros p Hp. destruct (rank_exists O labels p Hp) as (k & _ & Hk & _).
    destruct k; [auto|]. right; intros Hr. pose proof (is_rank_fun O _ _ _ _ Hr Hk); discriminate. }
  destruct (D li ltac:(eapply nth_error_In; eauto)) as [Di|Di];
  destruct (D lj ltac:(eapply nth_error_In; eauto)) as [Dj|Dj].
  - rewrite (Ga Di), (Gc Dj). tauto.
  - rewrite (Ga Di), (Gd Dj). split; [discriminate|tauto].
  - rewrite (Gb Di), (Gc Dj). split; [discriminate|tauto].
  - rewrite (Gb Di), (Gd Dj). tauto.
Qed.

Lemma maxmargin_two_classes {A} (O : TotalOrder A) ci labels codes ci' :
  num_distinct labels 2 -> maxmargin_call O ci labels = Ok (codes, ci') ->
  forall i j li lj ri rj,
  nth_error labels i = Some li -> nth_error labels j = Some lj ->
  nth_error codes i = Some ri -> nth_error codes j = Some rj ->
  (ri = rj <-> li = lj).
Proof.
  intros (d & Hnd & Hl & Hd) H i j li lj ri rj Hi Hj Hri Hrj.
  rewrite (maxmargin_codes O ci labels codes ci' i j li lj ri rj H Hi Hj Hri Hrj).
  assert (Li : In li labels) by (eapply nth_error_In; eauto).
  assert (Lj : In lj labels) by (eapply nth_error_In; eauto).
  destruct (rank_exists O labels li Li) as (ki & _ & Hki & Hki').
  destruct (rank_exists O labels lj Lj) as (kj & _ & Hkj & Hkj').
  assert (N2 : length (np_unique O labels) <= 2).
  { rewrite <- Hl. apply NoDup_incl_length; [apply np_unique_NoDup|].
    intros w Hw. apply Hd. now apply np_unique_In in Hw. }
  split; [|intros ->; tauto]. intros Hiff.
  assert (E : ki = kj).
  { destruct (Nat.eq_dec ki 0) as [->|Hi0].
    - pose proof (is_rank_fun O _ _ _ _ (proj1 Hiff Hki) Hkj). auto.
    - destruct (Nat.eq_dec kj 0) as [->|Hj0]; [|lia].
      pose proof (is_rank_fun O _ _ _ _ (proj2 Hiff Hkj) Hki). auto. }
  subst kj. destruct (eqb O li lj) eqn:E; [now apply eqb_true in E|]. apply eqb_false in E.
  destruct (leb_total O li lj) as [Hle|Hle].
  - pose proof (is_rank_lt O _ _ _ _ _ Hki Hkj Li Lj Hle E). lia.
  - pose proof (is_rank_lt O _ _ _ _ _ Hkj Hki Lj Li Hle ltac:(congruence)). lia.
Qed.

Lemma standard_fitted data : data <> [] ->
  mean_of data (fst (snd (standard_call data))) /\ variance_of data (snd (snd (standard_call data))).
Proof. intros H. split; [now apply mean_of_rmean|now apply rvar_spec]. Qed.

Lemma standard_unit_variance_refuted : exists data zs,
  fst (standard_call data) = map Some zs /\ nonconstant data /\ ~ variance_of zs 1.
Proof.
  assert (Hv : rvar [0; 4]%R = 4%R) by (unfold rvar, rmean; simpl; field).
  destruct (standard_mean_var [0; 4]%R) as (zs & Hz & Hl & _ & Hvar); [discriminate|rewrite Hv; lra|].
  exists [0; 4]%R, zs. split; auto. split; [exists 0%R, 4%R; simpl; repeat split; auto; lra|].
  intros H1. assert (Hne : zs <> []) by (destruct zs; [discriminate|congruence]).
  apply (variance_of_unique zs _ Hne) in H1. apply (variance_of_unique zs _ Hne) in Hvar.
  rewrite Hv in Hvar. lra.
Qed.

Section Fresh.
Context {A : Type} (O : TotalOrder A).

Lemma dict_update_fresh {B} (kvs : list (A * B)) l v :
  NoDup (map fst kvs) -> (dict_get O (dict_update O [] kvs) l = Some v <-> In (l, v) kvs).
Proof.
  intros Hnd. split.
  - intros H. destruct (in_dec (eq_dec_of_order O) l (map fst kvs)) as [Hin|Hn].
    + apply in_map_iff in Hin. destruct Hin as ([l' v'] & E & Hin). simpl in E; subst l'.
      rewrite (dict_update_in O [] kvs l v' Hnd Hin) in H. now injection H as <-.
    + rewrite dict_update_notin in H by auto. discriminate.
  - now apply dict_update_in.
Qed.

Lemma dummy_order_iso labels rows ci' :
  dummy_call O [] labels = Ok (rows, ci') ->
  exists n, num_distinct labels n /\
  (forall l k, dict_get O ci' l = Some k -> In l labels /\ k < n) /\
  (forall l, In l labels -> exists k, dict_get O ci' l = Some k) /\
  (forall k, k < n -> exists l, dict_get O ci' l = Some k) /\
  (forall l l' k k', dict_get O ci' l = Some k -> dict_get O ci' l' = Some k' ->
      (k <= k' <-> leb O l l' = true)).
Proof.
  unfold dummy_call. intros H. apply bind_Ok in H. destruct H as (r & _ & H). injection H as _ <-.
  set (cls := np_unique O labels). exists (length cls). split; [apply num_distinct_unique|].
  assert (Hg : forall l k, dict_get O (dict_update O [] (index_pairs cls)) l = Some k <-> nth_error cls k = Some l).
  { intros l k. rewrite dict_update_fresh, index_pairs_In; [tauto|].
    rewrite map_fst_index_pairs. apply np_unique_NoDup. }
  split; [|split; [|split]].
  - intros l k Hk. apply Hg in Hk. split; [|apply nth_error_Some; congruence].
    apply nth_error_In in Hk. now apply np_unique_In in Hk.
  - intros l Hl. apply (np_unique_In O), In_nth_error in Hl. destruct Hl as (k & Hk). exists k. now apply Hg.
  - intros k Hk. destruct (nth_error cls k) as [l|] eqn:E; [exists l; now apply Hg|].
    apply nth_error_None in E; lia.
  - intros l l' k k' Hk Hk'. apply Hg in Hk, Hk'.
    assert (Hs := np_unique_sorted O labels). fold cls in Hs.
    pose proof (sorted_nth_rank O cls k l Hs Hk) as Hr.
    pose proof (sorted_nth_rank O cls k' l' Hs Hk') as Hr'.
    pose proof (nth_error_In _ _ Hk) as Hi. pose proof (nth_error_In _ _ Hk') as Hi'.
    split.
    + intros Hle. destruct (leb O l l') eqn:E; auto.
      apply leb_false_ltb, ltb_true in E. destruct E as [E1 E2].
      pose proof (is_rank_lt O _ _ _ _ _ Hr' Hr Hi' Hi E1 E2). lia.
    + intros Hle. destruct (eqb O l l') eqn:E.
      * apply eqb_true in E; subst l'. pose proof (is_rank_fun O _ _ _ _ Hr Hr'). lia.
      * apply eqb_false in E. pose proof (is_rank_lt O _ _ _ _ _ Hr Hr' Hi Hi' Hle E). lia.
Qed.

Lemma onehot_decodable labels rows ci' :
  onehot_call O [] labels = Ok (rows, ci') ->
  (forall l, In l labels <-> exists row, dict_get O ci' l = Some row) /\
  (forall l l' row, dict_get O ci' l = Some row -> dict_get O ci' l' = Some row -> l = l').
Proof.
  unfold onehot_call. intros H. apply bind_Ok in H. destruct H as (kvs & Hk & H).
  apply bind_Ok in H. destruct H as (r & _ & H). injection H as _ <-.
  set (cls := np_unique O labels) in *. apply mapM_Ok in Hk.
  assert (Hkv : forall l row, In (l, row) kvs <-> exists k, nth_error cls k = Some l /\ unit_row (length cls) k = Ok row).
  { intros l row. split.
    - intros Hin. apply In_nth_error in Hin. destruct Hin as (i & Hi).
      assert (Hlen := Forall2_length _ _ _ Hk).
      destruct (nth_error (index_pairs cls) i) as [[v k]|] eqn:E;
        [|apply nth_error_None in E; assert (i < length kvs) by (apply nth_error_Some; congruence); lia].
      pose proof (Forall2_nth_error _ _ _ _ _ _ Hk E Hi) as Hu. simpl in Hu.
      apply bind_Ok in Hu. destruct Hu as (r' & Hr' & Hu). injection Hu as -> ->.
      exists k. split; auto. apply nth_error_In in E. now apply index_pairs_In.
    - intros (k & Hn & Hu). assert (Hin := proj2 (index_pairs_In cls l k) Hn).
      apply In_nth_error in Hin. destruct Hin as (i & Hi).
      assert (Hlen := Forall2_length _ _ _ Hk).
      destruct (nth_error kvs i) as [[l' row']|] eqn:E;
        [|apply nth_error_None in E; assert (i < length (index_pairs cls)) by (apply nth_error_Some; congruence); lia].
      pose proof (Forall2_nth_error _ _ _ _ _ _ Hk Hi E) as Hu'. simpl in Hu'.
      rewrite Hu in Hu'. simpl in Hu'. injection Hu' as <- <-. eapply nth_error_In; eauto. }
  assert (Hnd : NoDup (map fst kvs)).
  { assert (E : map fst kvs = cls).
    { transitivity (map fst (index_pairs cls)); [|apply map_fst_index_pairs].
      clear Hkv. induction Hk as [|[a b] [c d] t t' Hh Ht IH]; simpl; auto.
      rewrite IH. simpl in Hh. apply bind_Ok in Hh. destruct Hh as (x & _ & Hh). congruence. }
    rewrite E. apply np_unique_NoDup. }
  split.
  - intros l. split.
    + intros Hl. destruct (rank_exists O labels l Hl) as (k & Hk1 & _ & Hlt).
      destruct (unit_row_ok (length cls) k Hlt) as (row & Hrow & _).
      exists row. apply dict_update_fresh; auto. apply Hkv; eauto.
    + intros (row & Hr). apply dict_update_fresh in Hr; auto. apply Hkv in Hr.
      destruct Hr as (k & Hn & _). apply nth_error_In in Hn. now apply np_unique_In in Hn.
  - intros l l' row H1 H2. apply dict_update_fresh in H1; auto. apply dict_update_fresh in H2; auto.
    apply Hkv in H1, H2. destruct H1 as (k & Hn & Hu), H2 as (k' & Hn' & Hu').
    assert (Hlt : k < length cls) by (apply nth_error_Some; congruence).
    assert (Hlt' : k' < length cls) by (apply nth_error_Some; congruence).
    destruct (unit_row_ok _ _ Hlt) as (r1 & Hr1 & V1). destruct (unit_row_ok _ _ Hlt') as (r2 & Hr2 & V2).
    rewrite Hr1 in Hu; injection Hu as ->. rewrite Hr2 in Hu'; injection Hu' as ->.
    rewrite (unit_vector_inj _ _ _ _ V1 V2) in Hn. congruence.
Qed.
End Fresh.

(** A mode oracle exists. *)
Lemma cell_eq_dec (a b : cell) : {a = b} + {a <> b}.
Proof. decide equality; [apply Req_EM_T|apply string_dec]. Defined.

Lemma occurs_count (c : cell) n l : occurs c n l -> n = count_occ cell_eq_dec l c.
Proof.
  induction 1; simpl; auto.
  - destruct (cell_eq_dec c c); congruence.
  - destruct (cell_eq_dec d c); congruence.
Qed.

Lemma most_frequent_exists (l : list cell) : l <> [] -> exists c, most_frequent c l.
Proof.
  intros Hne.
  assert (G : forall s, s <> [] -> exists c, In c s /\ forall c', In c' s -> count_occ cell_eq_dec l c' <= count_occ cell_eq_dec l c).
  { induction s as [|a s IH]; [congruence|]. intros _. destruct s as [|b s].
    - exists a. split; [simpl; auto|]. intros c' [<-|[]]; auto.
    - destruct IH as (c & Hc & Hmax); [discriminate|].
      destruct (le_lt_dec (count_occ cell_eq_dec l a) (count_occ cell_eq_dec l c)).
      + exists c. split; [simpl in *; tauto|]. intros c' [<-|Hc']; auto.
      + exists a. split; [simpl; auto|]. intros c' [<-|Hc']; auto. specialize (Hmax _ Hc'). lia. }
  destruct (G l Hne) as (c & Hc & Hmax). exists c. split; auto.
  intros c' n n' H1 H2. apply occurs_count in H1, H2. subst.
  destruct (in_dec cell_eq_dec c' l) as [Hi|Hi]; [auto|].
  rewrite (proj1 (count_occ_not_In cell_eq_dec l c') Hi). lia.
Qed.

Fixpoint best_cell (l s : list cell) (b : cell) : cell :=
  match s with
  | [] => b
  | a :: t => best_cell l t (if count_occ cell_eq_dec l b <? count_occ cell_eq_dec l a then a else b)
  end.
Lemma best_cell_spec l s b : In b l -> incl s l ->
  In (best_cell l s b) l /\ count_occ cell_eq_dec l b <= count_occ cell_eq_dec l (best_cell l s b) /\
  forall c, In c s -> count_occ cell_eq_dec l c <= count_occ cell_eq_dec l (best_cell l s b).
Proof.
  revert b; induction s as [|a t IH]; simpl; intros b Hb Hs; [repeat split; auto; contradiction|].
  destruct (Nat.ltb_spec (count_occ cell_eq_dec l b) (count_occ cell_eq_dec l a)) as [Hlt|Hge].
  - destruct (IH a) as (H1 & H2 & H3); [apply Hs; simpl; auto|intros x Hx; apply Hs; simpl; auto|].
    split; auto. split; [lia|]. intros c [<-|Hc]; auto.
  - destruct (IH b) as (H1 & H2 & H3); [auto|intros x Hx; apply Hs; simpl; auto|].
    split; auto. split; auto. intros c [<-|Hc]; auto. lia.
Qed.
Lemma mode_exists : exists mode, forall l : list cell, l <> [] -> most_frequent (mode l) l.
Proof.
  exists (fun l => match l with [] => CNum 0 | b :: _ => best_cell l l b end).
  intros [|b t] H; [congruence|].
  destruct (best_cell_spec (b :: t) (b :: t) b) as (H1 & H2 & H3); [simpl; auto|apply incl_refl|].
  split; auto. intros c' n n' Hn Hn'. apply occurs_count in Hn, Hn'. subst.
  destruct (in_dec cell_eq_dec c' (b :: t)) as [Hi|Hi]; [auto|].
  rewrite (proj1 (count_occ_not_In cell_eq_dec (b :: t) c') Hi). lia.
Qed.
