(** Proofs about the parameter dictionaries of the networks and about prefixes of
    saves. *)
From Coq Require Import List String Reals ZArith Bool Arith Lia DecimalString DecimalNat.
From Verif.Model Require Import Base Network Rbf Training Store Life.
From Verif.Spec Require Import Store.
From Verif.Proof Require Import BaseLemmas Store.
Import ListNotations.
Local Open Scope string_scope.

(** ** Keys *)
Lemma decimal_nonnil : forall k, Nat.to_uint k <> Decimal.Nil.
Proof.
  intros k H; assert (k = 0)%nat as -> by (rewrite <- (Unsigned.of_to k), H; reflexivity); discriminate.
Qed.
Lemma decimal_inj : forall k j, NilZero.string_of_uint (Nat.to_uint k) = NilZero.string_of_uint (Nat.to_uint j) -> k = j.
Proof.
  intros k j H; apply (f_equal NilZero.uint_of_string) in H.
  rewrite !NilZero.usu in H by apply decimal_nonnil.
  inversion H as [E]; now apply Unsigned.to_uint_inj in E.
Qed.
Lemma key_inj : forall c k j, layer_key (String c "") k = layer_key (String c "") j -> k = j.
Proof. unfold layer_key; cbn [append]; intros c k j H; inversion H as [E]; now apply decimal_inj in E. Qed.
Lemma key_ww : forall k j, k <> j -> (layer_key "w" k =? layer_key "w" j) = false.
Proof. intros k j H; apply String.eqb_neq; intros E; now apply key_inj in E. Qed.
Lemma key_bb : forall k j, k <> j -> (layer_key "b" k =? layer_key "b" j) = false.
Proof. intros k j H; apply String.eqb_neq; intros E; now apply key_inj in E. Qed.
Lemma key_wb : forall k j, (layer_key "w" k =? layer_key "b" j) = false.
Proof. intros; apply String.eqb_neq; unfold layer_key; cbn [append]; intros E; inversion E. Qed.
Lemma key_bw : forall k j, (layer_key "b" k =? layer_key "w" j) = false.
Proof. intros; apply String.eqb_neq; unfold layer_key; cbn [append]; intros E; inversion E. Qed.

Lemma skip_skip : forall {B} n m (l : list B), skipn n (skipn m l) = skipn (m + n) l.
Proof. intros B n m; induction m as [| m IH]; intros [| x l]; cbn; try reflexivity; [ now destruct n | apply IH ]. Qed.

Section Dicts.
Context {A : Type}.
Notation attrs := (@attrs A).
Notation obj := (@obj A).
Notation cls := (@cls A).

Lemma put_fresh : forall (d : attrs) k v, ~ In k (map fst d) -> put d k v = (d ++ [(k, v)])%list.
Proof.
  induction d as [| [k' v'] d IH]; intros k v H; cbn; [ reflexivity |].
  destruct (k =? k') eqn:E; [ apply String.eqb_eq in E; subst; exfalso; apply H; now left |].
  rewrite IH; [ reflexivity |]; intros Hi; apply H; now right.
Qed.
Lemma put_all_fresh : forall (a d : attrs), NoDup (map fst (d ++ a)) ->
  fold_left (fun d kv => put d (fst kv) (snd kv)) a d = (d ++ a)%list.
Proof.
  induction a as [| [k v] a IH]; intros d H; cbn [fold_left fst snd]; [ now rewrite app_nil_r |].
  rewrite put_fresh.
  - rewrite IH; rewrite <- app_assoc; [ reflexivity | exact H ].
  - rewrite map_app in H; cbn in H; intros Hi; apply NoDup_remove_2 in H; apply H; apply in_or_app; now left.
Qed.
Lemma lookup_put : forall (d : attrs) k v q, lookup (put d k v) q = if q =? k then Some v else lookup d q.
Proof.
  induction d as [| [k' v'] d IH]; intros k v q; cbn.
  - destruct (q =? k); reflexivity.
  - destruct (k =? k') eqn:E; cbn.
    + apply String.eqb_eq in E; subst k'; destruct (q =? k) eqn:E2; reflexivity.
    + rewrite IH; destruct (q =? k') eqn:E2; [| reflexivity ].
      apply String.eqb_eq in E2; subst k'; destruct (q =? k) eqn:E3; [| reflexivity ].
      apply String.eqb_eq in E3; subst; now rewrite String.eqb_refl in E.
Qed.
Lemma lookup_merge : forall (a d : attrs) q, NoDup (map fst a) ->
  lookup (fold_left (fun d kv => put d (fst kv) (snd kv)) a d) q =
  match lookup a q with Some v => Some v | None => lookup d q end.
Proof.
  induction a as [| [k v] a IH]; intros d q H; cbn [fold_left fst snd lookup]; [ reflexivity |].
  inversion H as [| ? ? Hk Ha]; subst; rewrite IH by exact Ha; rewrite lookup_put.
  destruct (q =? k) eqn:E; [| reflexivity ].
  apply String.eqb_eq in E; subst q.
  assert (Hn : lookup a k = None).
  { clear - Hk; induction a as [| [k' v'] a IH]; [ reflexivity |]; cbn in *.
    destruct (k =? k') eqn:E; [ apply String.eqb_eq in E; subst; exfalso; apply Hk; now left |].
    apply IH; intros Hi; apply Hk; now right. }
  now rewrite Hn.
Qed.

(** ** The dictionary of a layered network *)
Lemma network_length : forall ls k, List.length (@network_from A k ls) = (2 * List.length ls)%nat.
Proof. induction ls as [| l ls IH]; intros k; cbn; [ reflexivity | rewrite IH; lia ]. Qed.
Lemma network_keys : forall ls k q, In q (map fst (@network_from A k ls)) ->
  exists j, (k <= j)%nat /\ (q = layer_key "w" j \/ q = layer_key "b" j).
Proof.
  induction ls as [| l ls IH]; intros k q H; cbn in H; [ contradiction |].
  destruct H as [<- | [<- | H]]; [ exists k; split; [ lia | now left ] | exists k; split; [ lia | now right ] |].
  destruct (IH _ _ H) as (j & Hj & Hq); exists j; split; [ lia | exact Hq ].
Qed.
Lemma network_nodup : forall ls k, NoDup (map fst (@network_from A k ls)).
Proof.
  induction ls as [| l ls IH]; intros k; cbn [network_from map fst]; [ constructor |].
  assert (Hw : ~ In (layer_key "w" k) (map fst (@network_from A (S k) ls))).
  { intros H; apply network_keys in H as (j & Hj & [H | H]); [ apply key_inj in H; lia |].
    pose proof (key_wb k j) as E; rewrite H, String.eqb_refl in E; discriminate. }
  assert (Hb : ~ In (layer_key "b" k) (map fst (@network_from A (S k) ls))).
  { intros H; apply network_keys in H as (j & Hj & [H | H]); [| apply key_inj in H; lia ].
    pose proof (key_bw k j) as E; rewrite H, String.eqb_refl in E; discriminate. }
  constructor; [| now constructor ].
  intros [H | H]; [| exact (Hw H) ].
  pose proof (key_wb k k) as E; apply String.eqb_neq in E; exact (E (eq_sym H)).
Qed.
Lemma network_lookup : forall ls k j, (j < List.length ls)%nat ->
  lookup (@network_from A k ls) (layer_key "w" (k + j)) = Some (VMat (fst (nth j ls ([], [])))) /\
  lookup (@network_from A k ls) (layer_key "b" (k + j)) = Some (VVec (snd (nth j ls ([], [])))).
Proof.
  induction ls as [| l ls IH]; intros k j Hj; cbn in Hj; [ lia |].
  cbn [network_from lookup]; destruct j as [| j].
  - rewrite Nat.add_0_r, String.eqb_refl, key_bw, String.eqb_refl; now split.
  - rewrite key_ww by lia; rewrite key_wb, key_bw, key_bb by lia.
    replace (k + S j)%nat with (S k + j)%nat by lia; cbn [nth]; apply IH; lia.
Qed.
Lemma network_beyond : forall ls k j c, (List.length ls <= j)%nat -> c = "w" \/ c = "b" ->
  lookup (@network_from A k ls) (layer_key c (k + j)) = None.
Proof.
  induction ls as [| l ls IH]; intros k j c Hj Hc; cbn in Hj; [ reflexivity |].
  cbn [network_from lookup]; destruct j as [| j]; [ lia |].
  replace (k + S j)%nat with (S k + j)%nat by lia.
  destruct Hc as [-> | ->];
    [ rewrite key_ww by lia; rewrite key_wb; apply IH; [ lia | now left ]
    | rewrite key_bb by lia; rewrite key_bw; apply IH; [ lia | now right ] ].
Qed.
(** A dictionary in which the first entries are those of a network, perhaps with
    one entry more: half the number of entries is the number of layers. *)
Lemma layers_of_lookup : forall (d : attrs) ls, (List.length d / 2 = List.length ls)%nat ->
  (forall j, (j < List.length ls)%nat ->
     lookup d (layer_key "w" (1 + j)) = Some (VMat (fst (nth j ls ([], [])))) /\
     lookup d (layer_key "b" (1 + j)) = Some (VVec (snd (nth j ls ([], []))))) ->
  layers_of d = Ok ls.
Proof.
  intros d ls Hl H; unfold layers_of; rewrite Hl.
  assert (G : forall n k, (n + k = List.length ls)%nat ->
    mapM (fun k => match lookup d (layer_key "w" k), lookup d (layer_key "b" k) with
                   | Some (VMat w), Some (VVec b) => Ok (w, b)
                   | Some _, Some _ => Err TypeError
                   | _, _ => Err KeyError
                   end) (seq (1 + k) n) = Ok (skipn k ls)).
  { induction n as [| n IH]; intros k E.
    - cbn in E; subst k; now rewrite skipn_all.
    - cbn [seq mapM]; destruct (H k ltac:(lia)) as [-> ->]; cbn [bind].
      change (S (1 + k)) with (1 + S k)%nat; rewrite IH by lia; cbn [bind].
      f_equal; rewrite <- surjective_pairing.
      clear - E; revert ls E; induction k as [| k IHk]; intros [| l ls] E; cbn in E; try lia; [ reflexivity |].
      cbn [nth skipn]; rewrite IHk by (cbn in E; lia); reflexivity. }
  rewrite G by lia; reflexivity.
Qed.
Lemma half_double : forall n, (2 * n / 2 = n)%nat.
Proof. intros n; rewrite Nat.mul_comm; apply Nat.div_mul; lia. Qed.
Lemma layers_of_network : forall ls, layers_of (@network_dict A ls) = Ok ls.
Proof.
  intros ls; apply layers_of_lookup; unfold network_dict.
  - rewrite network_length; apply half_double.
  - intros j Hj; now apply network_lookup.
Qed.

(** Writing one layer into a network. *)
Lemma put_layer : forall m xs k w b, (m <= List.length xs)%nat ->
  put (put (@network_from A k xs) (layer_key "w" (k + m)) (VMat w)) (layer_key "b" (k + m)) (VVec b) =
  network_from k (firstn m xs ++ (w, b) :: skipn (S m) xs)%list.
Proof.
  induction m as [| m IH]; intros xs k w b Hm.
  - rewrite Nat.add_0_r; destruct xs as [| x xs]; cbn [network_from put firstn app skipn fst snd].
    + rewrite key_bw; reflexivity.
    + rewrite String.eqb_refl; cbn [put]; rewrite key_bw, String.eqb_refl; reflexivity.
  - destruct xs as [| x xs]; cbn in Hm; [ lia |].
    cbn [network_from put]; rewrite key_ww by lia; rewrite key_wb.
    cbn [put]; rewrite key_bw, key_bb by lia.
    replace (k + S m)%nat with (S k + m)%nat by lia.
    rewrite IH by lia; reflexivity.
Qed.
Lemma merge_network_from : forall ls m xs k, (m <= List.length xs)%nat ->
  fold_left (fun d kv => put d (fst kv) (snd kv)) (@network_from A (k + m) ls) (network_from k xs) =
  network_from k (firstn m xs ++ ls ++ skipn (m + List.length ls) xs)%list.
Proof.
  induction ls as [| l ls IH]; intros m xs k Hm.
  - cbn [network_from fold_left List.length app]; rewrite Nat.add_0_r, firstn_skipn; reflexivity.
  - cbn [network_from fold_left fst snd]; rewrite put_layer by exact Hm.
    replace (S (k + m)) with (k + S m)%nat by lia.
    assert (Hf : List.length (firstn m xs) = m) by (apply firstn_length_le; exact Hm).
    rewrite IH by (rewrite app_length, Hf; cbn; lia).
    f_equal.
    replace (firstn (S m) (firstn m xs ++ (fst l, snd l) :: skipn (S m) xs)%list) with (firstn m xs ++ [l])%list.
    2:{ replace (S m) with (List.length (firstn m xs) + 1)%nat at 1 by (rewrite Hf; lia).
        rewrite firstn_app_2; cbn; now rewrite <- surjective_pairing. }
    rewrite <- app_assoc; cbn [app]; f_equal; f_equal; f_equal; cbn [List.length].
    replace (S m + List.length ls)%nat with (List.length (firstn m xs) + (1 + List.length ls))%nat by (rewrite Hf; lia).
    rewrite skipn_app, Hf, skipn_all2 by (rewrite Hf; lia).
    cbn [app]; replace (m + (1 + List.length ls) - m)%nat with (1 + List.length ls)%nat by lia.
    change (1 + List.length ls)%nat with (S (List.length ls)).
    change (skipn (S (List.length ls)) ((fst l, snd l) :: skipn (S m) xs)) with (skipn (List.length ls) (skipn (S m) xs)).
    rewrite skip_skip; f_equal; lia.
Qed.
Lemma merge_network : forall ls xs,
  fold_left (fun d kv => put d (fst kv) (snd kv)) (@network_dict A ls) (network_dict xs) =
  network_dict (ls ++ skipn (List.length ls) xs)%list.
Proof. intros ls xs; exact (merge_network_from ls 0 xs 1 ltac:(lia)). Qed.
End Dicts.
