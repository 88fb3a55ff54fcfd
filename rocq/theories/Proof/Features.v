From Coq Require Import List ZArith Reals Bool Arith Lia Lra String.
From Verif.Model Require Import Base Preprocessing Dataset.
From Verif.Spec Require Import Common Preprocessing Dataset.
From Verif.Proof Require Import BaseLemmas Preprocessing.
Import ListNotations.
Local Notation length := List.length.

(** ** Min-max scaling is invariant under positive affine maps *)
Open Scope R_scope.
Lemma rmin1_affine a b x l : 0 < a ->
  rmin1 (a * x + b) (map (fun t => a * t + b) l) = a * rmin1 x l + b.
Proof.
  intros Ha. unfold rmin1. revert x; induction l as [|y l IH]; intros x; simpl; auto.
  rewrite <- IH. f_equal. unfold Rmin. destruct (Rle_dec (a * x + b) (a * y + b)), (Rle_dec x y); auto; exfalso.
  - apply n. apply Rmult_le_reg_l with a; lra.
  - apply n. assert (a * x <= a * y) by (apply Rmult_le_compat_l; lra). lra.
Qed.
Lemma rmax1_affine a b x l : 0 < a ->
  rmax1 (a * x + b) (map (fun t => a * t + b) l) = a * rmax1 x l + b.
Proof.
  intros Ha. unfold rmax1. revert x; induction l as [|y l IH]; intros x; simpl; auto.
  rewrite <- IH. f_equal. unfold Rmax. destruct (Rle_dec (a * x + b) (a * y + b)), (Rle_dec x y); auto; exfalso.
  - apply n. apply Rmult_le_reg_l with a; lra.
  - apply n. assert (a * x <= a * y) by (apply Rmult_le_compat_l; lra). lra.
Qed.

Lemma minmax_affine a b l : 0 < a ->
  match minmax_call (map (fun t => a * t + b) l) with Ok r => Ok (fst r) | Err e => Err e end =
  match minmax_call l with Ok r => Ok (fst r) | Err e => Err e end.
Proof.
  intros Ha. destruct l as [|x l]; [reflexivity|].
  unfold minmax_call. cbn [map np_min np_max bind fst]. rewrite rmin1_affine, rmax1_affine by auto.
  set (mn := rmin1 x l). set (mx := rmax1 x l). f_equal.
  assert (E : forall t, npdiv (a * t + b - (a * mn + b)) (a * mx + b - (a * mn + b)) = npdiv (t - mn) (mx - mn)).
  { intros t. unfold npdiv. destruct (Req_EM_T (mx - mn) 0) as [H|H].
    - destruct (Req_EM_T (a * mx + b - (a * mn + b)) 0) as [|H']; auto. exfalso; apply H'.
      replace (a * mx + b - (a * mn + b)) with (a * (mx - mn)) by ring. rewrite H; ring.
    - destruct (Req_EM_T (a * mx + b - (a * mn + b)) 0) as [H'|H'].
      + exfalso. replace (a * mx + b - (a * mn + b)) with (a * (mx - mn)) in H' by ring.
        apply Rmult_integral in H'. lra.
      + f_equal. field. lra. }
  rewrite E. f_equal. rewrite map_map. apply map_ext. intros t. apply E.
Qed.
Close Scope R_scope.

Lemma all_some_map {B} (l : list B) : all_some (map Some l) = Some l.
Proof. induction l as [|b l IH]; simpl; auto. now rewrite IH. Qed.
Lemma all_some_spec {B} (l : list (option B)) xs : all_some l = Some xs -> l = map Some xs.
Proof.
  revert xs; induction l as [|[b|] l IH]; simpl; intros xs H; try discriminate.
  - now injection H as <-.
  - destruct (all_some l); [|discriminate]. injection H as <-. simpl. f_equal. auto.
Qed.
Lemma all_some_none {A B} (a : A) (l : list A) : all_some (map (fun _ => @None B) (a :: l)) = None.
Proof. reflexivity. Qed.

Lemma rvar_nonneg l : l <> [] -> (0 <= rvar l)%R.
Proof.
  intros H. unfold rvar, rmean at 1. rewrite map_length. apply Rmult_le_pos.
  - apply rsum_nonneg. intros x Hx. apply in_map_iff in Hx. destruct Hx as (y & <- & _). apply Rle_0_sqr.
  - apply Rlt_le, Rinv_0_lt_compat. now apply INR_pos_length.
Qed.

(** Min-max after standardisation = min-max. *)
Lemma minmax_after_standard v : nan_minmax (nan_standard v) = nan_minmax v.
Proof.
  unfold nan_standard. destruct (all_some v) as [xs|] eqn:E.
  - pose proof (all_some_spec _ _ E) as ->. destruct xs as [|x xs]; [reflexivity|].
    set (l := x :: xs) in *. assert (Hl : l <> []) by (unfold l; discriminate).
    destruct (Req_EM_T (rvar l) 0) as [Hz|Hz].
    + rewrite standard_constant_nan by auto. unfold nan_minmax at 2. rewrite all_some_map.
      destruct (minmax_ok l Hl) as (o & st & Ho). rewrite Ho. cbn [bind fst].
      rewrite (minmax_constant_nan l o st Ho (proj1 (rvar_zero_constant l Hl) Hz)).
      unfold nan_minmax, l. simpl. rewrite map_map. reflexivity.
    + rewrite standard_values by auto. unfold nan_minmax. rewrite !all_some_map.
      assert (Hp : (0 < rvar l)%R) by (pose proof (rvar_nonneg l Hl); lra).
      pose proof (minmax_affine (/ rvar l) (- rmean l / rvar l) l (Rinv_0_lt_compat _ Hp)) as HA.
      rewrite (map_ext (fun x => (x - rmean l) / rvar l)%R (fun t => / rvar l * t + - rmean l / rvar l)%R)
        by (intros; field; auto).
      destruct (minmax_call (map (fun t : R => (/ rvar l * t + - rmean l / rvar l)%R) l)), (minmax_call l);
        simpl in *; congruence.
  - destruct v as [|[r|] v]; [discriminate| |]; unfold nan_minmax; rewrite E; cbn [map all_some];
      rewrite map_map; reflexivity.
Qed.

Section Feat.
Variable parse : string -> option R.
Variable OS : TotalOrder string.
Notation scale := (scale_col parse).
Notation prep := (preprocess_features parse OS).

Definition with_std (b : bool) (fl : flags) : flags :=
  {| standardization := b; normalization := normalization fl; digitization := digitization fl |}.

Lemma reread_store dt alias v w : (alias = true -> dt = DFloat) ->
  reread alias v (store dt w) = if alias then w else v.
Proof.
  intros H. unfold reread. destruct alias; auto. rewrite H by auto. unfold store. rewrite map_map.
  rewrite <- (map_id w) at 2. apply map_ext. intros [r|]; reflexivity.
Qed.

Lemma scale_norm_wins fl dt alias c :
  (alias = true -> dt = DFloat) -> normalization fl = true ->
  scale (with_std true fl) dt alias c = scale (with_std false fl) dt alias c \/ c = [].
Proof.
  intros Ha Hn. unfold scale_col. destruct (col_floats parse c) as [v|] eqn:E; [|auto].
  unfold with_std. cbn [standardization normalization]. rewrite Hn.
  rewrite reread_store by auto.
  assert (H : nan_minmax (if alias then nan_standard v else v) = nan_minmax v)
    by (destruct alias; [apply minmax_after_standard|reflexivity]).
  rewrite H. destruct (nan_minmax v) as [z|e] eqn:Ez; [auto|].
  right. unfold nan_minmax in Ez. destruct (all_some v) as [xs|] eqn:Ex; [|discriminate].
  destruct xs as [|x xs].
  - apply all_some_spec in Ex. subst v. destruct c; auto. simpl in E.
    destruct (fcell_float parse f); [|discriminate]. destruct (col_floats parse c); discriminate.
  - simpl in Ez. discriminate.
Qed.

Lemma scale_norm_wins_all fl dt alias c :
  (alias = true -> dt = DFloat) -> normalization fl = true ->
  scale (with_std true fl) dt alias c = scale (with_std false fl) dt alias c.
Proof.
  intros Ha Hn. destruct (scale_norm_wins fl dt alias c Ha Hn) as [H| ->]; auto.
  unfold scale_col, with_std. cbn [col_floats standardization normalization]. rewrite Hn.
  destruct alias; destruct dt; reflexivity.
Qed.

Lemma foldM_ext {A S} (f g : S -> A -> result S) l s : (forall s a, f s a = g s a) -> foldM f l s = foldM g l s.
Proof. intros H; revert s; induction l as [|a l IH]; intros s; simpl; auto. rewrite H. destruct (g s a); simpl; auto. Qed.

Lemma norm_wins fl dt alias cols :
  (alias = true -> dt = DFloat) -> normalization fl = true ->
  prep (with_std true fl) dt alias cols = prep (with_std false fl) dt alias cols.
Proof.
  intros Ha Hn. unfold preprocess_features.
  rewrite (foldM_ext _ (feature_step parse OS (with_std false fl) dt alias)); [reflexivity|].
  intros [fs dels] j. unfold feature_step. destruct (get_at fs j) as [c|]; [|reflexivity]. cbn [bind].
  rewrite scale_norm_wins_all by auto. reflexivity.
Qed.

(** *** The loop works column by column *)
(** Result of one column: what stays in place and the appended dummy columns. *)
Definition col_result fl dt alias (c : list fcell) : result (list fcell * option (list (list fcell))) :=
  let '(c', r) := scale fl dt alias c in
  match r with
  | Ok _ => Ok (c', None)
  | Err ValueError => if digitization fl then extra <- dummy_cols OS c' ;; Ok (c', Some extra) else Ok (c', None)
  | Err e => Err e
  end.

Definition extras (rs : list (list fcell * option (list (list fcell)))) : list (list fcell) :=
  flat_map (fun r => match snd r with Some e => e | None => [] end) rs.
Definition dels_from (s : nat) (rs : list (list fcell * option (list (list fcell)))) : list nat :=
  map fst (filter (fun p => match snd (snd p) with Some _ => true | None => false end) (combine (seq s (length rs)) rs)).

Lemma set_nth_app {A} (a : list A) x b v : set_nth (a ++ x :: b) (length a) v = a ++ v :: b.
Proof. induction a; simpl; auto. now rewrite IHa. Qed.
Lemma nth_error_mid {A} (a : list A) x b : nth_error (a ++ x :: b) (length a) = Some x.
Proof. induction a; simpl; auto. Qed.

Lemma loop_spec fl dt alias todo : forall done xs dels,
  foldM (feature_step parse OS fl dt alias) (seq (length done) (length todo)) (done ++ todo ++ xs, dels) =
  (rs <- mapM (col_result fl dt alias) todo ;;
   Ok (done ++ map fst rs ++ xs ++ extras rs, dels ++ dels_from (length done) rs)).
Proof.
  induction todo as [|c todo IH]; intros done xs dels.
  - simpl. unfold extras, dels_from. simpl. now rewrite !app_nil_r.
  - cbn [length seq foldM mapM]. unfold feature_step at 1.
    unfold get_at at 1. change ((c :: todo) ++ xs) with (c :: (todo ++ xs)). rewrite nth_error_mid. cbn [bind].
    unfold col_result at 1. destruct (scale fl dt alias c) as [c' r] eqn:Es.
    unfold set_at. rewrite app_length. cbn [length].
    destruct (Nat.ltb_spec (length done) (length done + S (length (todo ++ xs)))) as [_|]; [|lia].
    cbn [bind]. rewrite set_nth_app.
    assert (Hstep : forall e d, 
      foldM (feature_step parse OS fl dt alias) (seq (S (length done)) (length todo))
        (done ++ c' :: todo ++ (xs ++ e), d) =
      (rs <- mapM (col_result fl dt alias) todo ;;
       Ok (done ++ c' :: map fst rs ++ (xs ++ e) ++ extras rs, d ++ dels_from (S (length done)) rs))).
    { intros e d. specialize (IH (done ++ [c']) (xs ++ e) d).
      rewrite app_length in IH. simpl in IH. rewrite Nat.add_1_r in IH.
      rewrite <- app_assoc in IH. simpl in IH. rewrite IH.
      destruct (mapM (col_result fl dt alias) todo); simpl; auto. now rewrite <- app_assoc. }
    destruct r as [u|e].
    + cbn [bind]. specialize (Hstep [] dels). rewrite app_nil_r in Hstep. rewrite Hstep.
      destruct (mapM (col_result fl dt alias) todo) as [rs|]; simpl; auto.
    + destruct e; try reflexivity.
      destruct (digitization fl).
      * unfold get_at. rewrite nth_error_mid. cbn [bind].
        destruct (dummy_cols OS c') as [ex|]; [|reflexivity]. cbn [bind].
        specialize (Hstep ex (dels ++ [length done])).
        replace ((done ++ c' :: todo ++ xs) ++ ex) with (done ++ c' :: todo ++ xs ++ ex)
          by (now rewrite <- app_assoc; simpl; rewrite <- app_assoc).
        rewrite Hstep.
        destruct (mapM (col_result fl dt alias) todo) as [rs|]; simpl; auto.
        f_equal. f_equal.
        -- unfold extras. simpl. now rewrite <- app_assoc.
        -- unfold dels_from. simpl. now rewrite <- app_assoc.
      * specialize (Hstep [] dels). rewrite app_nil_r in Hstep. cbn [bind]. rewrite Hstep.
        destruct (mapM (col_result fl dt alias) todo) as [rs|]; simpl; auto.
Qed.

Lemma prep_unfold fl dt alias cols :
  prep fl dt alias cols =
  (rs <- mapM (col_result fl dt alias) cols ;;
   match dels_from 0 rs with
   | [] => Ok (map fst rs)
   | _ => mapM (fun c => match col_floats parse c with Some v => Ok (map FNum v) | None => Err ValueError end)
            (delete_cols (dels_from 0 rs) (map fst rs ++ extras rs))
   end).
Proof.
  unfold preprocess_features.
  pose proof (loop_spec fl dt alias cols [] [] []) as H. simpl in H. rewrite app_nil_r in H.
  rewrite H. destruct (mapM (col_result fl dt alias) cols) as [rs|]; [|reflexivity]. cbn [bind].
  destruct (dels_from 0 rs) eqn:E; [|reflexivity].
  assert (Hx : extras rs = []).
  { clear -E. unfold dels_from in E. revert E. generalize 0. induction rs as [|[c [e|]] rs IH]; intros s E; auto.
    - discriminate.
    - simpl in E. unfold extras; simpl. apply (IH (S s)). exact E. }
  now rewrite Hx, app_nil_r.
Qed.

(** Without dummy columns: column [j] of the result is what a data set with
    this column alone would give. *)
Lemma prep_local fl dt alias cols fs :
  digitization fl = false -> prep fl dt alias cols = Ok fs ->
  Forall2 (fun c c' => prep fl dt alias [c] = Ok [c']) cols fs.
Proof.
  intros Hd H. rewrite prep_unfold in H. apply bind_Ok in H. destruct H as (rs & Hrs & H).
  assert (Hno : forall c r, col_result fl dt alias c = Ok r -> snd r = None).
  { intros c r Hr. unfold col_result in Hr. destruct (scale fl dt alias c) as [c' [u|e]].
    - injection Hr as <-; auto.
    - rewrite Hd in Hr. destruct e; try discriminate. injection Hr as <-; auto. }
  apply mapM_Ok in Hrs.
  assert (Hdel : dels_from 0 rs = []).
  { clear H. unfold dels_from. generalize 0. induction Hrs as [|c r cs rs Hc Hcs IH]; intros s; auto.
    simpl. rewrite (Hno _ _ Hc). apply IH. }
  rewrite Hdel in H. injection H as <-.
  clear Hdel. induction Hrs as [|c r cs rs Hc Hcs IH]; simpl; constructor; auto.
  rewrite prep_unfold. cbn [mapM]. rewrite Hc. cbn [bind]. unfold dels_from. simpl.
  rewrite (Hno _ _ Hc). reflexivity.
Qed.

Lemma prep_total_numeric fl dt alias cols :
  (forall c, In c cols -> c <> [] /\ forall x, In x c -> exists o, x = FNum o) ->
  exists fs, prep fl dt alias cols = Ok fs /\ length fs = length cols.
Proof.
  intros H.
  assert (G : exists rs, mapM (col_result fl dt alias) cols = Ok rs /\ forall r, In r rs -> snd r = None).
  { induction cols as [|c cols IH]; [exists []; split; [reflexivity|intros ? []]|].
    destruct IH as (rs & Hrs & Hn); [intros; apply H; simpl; auto|].
    destruct (H c (or_introl eq_refl)) as [Hne Hnum].
    assert (Hv : exists v, col_floats parse c = Some v /\ length v = length c).
    { clear -Hnum. induction c as [|x c IH]; [exists []; auto|].
      destruct IH as (v & Hv & Hl); [intros; apply Hnum; simpl; auto|].
      destruct (Hnum x (or_introl eq_refl)) as (o & ->). exists (o :: v). simpl. rewrite Hv. simpl; auto. }
    destruct Hv as (v & Hv & Hlv).
    assert (Hr : exists c', col_result fl dt alias c = Ok (c', None)).
    { unfold col_result, scale_col. rewrite Hv.
      destruct (normalization fl) eqn:En; [|eauto].
      set (v1 := if standardization fl then _ else v).
      assert (Hl1 : length v1 = length v).
      { unfold v1. destruct (standardization fl); auto. unfold reread. destruct alias; auto.
        rewrite map_length. unfold store. rewrite map_length. unfold nan_standard.
        destruct (all_some v) as [xs|] eqn:Ex; [|now rewrite map_length].
        apply all_some_spec in Ex. subst v. unfold standard_call. simpl. now rewrite !map_length. }
      unfold nan_minmax. destruct (all_some v1) as [xs|] eqn:Ex; [|eauto].
      apply all_some_spec in Ex. destruct xs as [|x xs].
      - rewrite Ex in Hl1. simpl in Hl1. destruct c; [congruence|]. simpl in Hlv. lia.
      - simpl. eauto. }
    destruct Hr as (c' & Hr). exists ((c', None) :: rs). split.
    - cbn [mapM]. rewrite Hr. cbn [bind]. rewrite Hrs. reflexivity.
    - intros r [<-|Hin]; auto. }
  destruct G as (rs & Hrs & Hn). rewrite prep_unfold, Hrs. cbn [bind].
  assert (Hdel : dels_from 0 rs = []).
  { clear Hrs. unfold dels_from. generalize 0. induction rs as [|r rs IH]; intros s; auto.
    simpl. rewrite (Hn r (or_introl eq_refl)). apply IH. intros; apply Hn; simpl; auto. }
  rewrite Hdel. eexists; split; [reflexivity|]. rewrite map_length.
  apply mapM_Ok in Hrs. symmetry. eapply Forall2_length; eauto.
Qed.

(** What normalisation stores for one numeric column. *)
Definition norm_only : flags := {| standardization := false; normalization := true; digitization := false |}.
Lemma col_floats_nums xs : col_floats parse (map (fun x => FNum (Some x)) xs) = Some (map Some xs).
Proof. induction xs as [|x xs IH]; simpl; auto. now rewrite IH. Qed.

Lemma normalised_column dt alias xs out st : dt <> DInt -> minmax_call xs = Ok (out, st) ->
  prep norm_only dt alias [map (fun x => FNum (Some x)) xs] = Ok [map FNum out].
Proof.
  intros Hdt H. rewrite prep_unfold. cbn [mapM]. unfold col_result, scale_col. rewrite col_floats_nums.
  cbn [norm_only standardization normalization]. unfold nan_minmax. rewrite all_some_map, H. cbn [bind fst].
  unfold dels_from. simpl. f_equal. f_equal. unfold store. apply map_ext. intros o. destruct dt; congruence.
Qed.

(** In an integer array the scaled values are truncated: everything but the
    maximum becomes 0. *)
Lemma trunc_unit z : (0 <= z <= 1)%R -> trunc z = if Req_EM_T z 1 then 1%R else 0%R.
Proof.
  intros [H0 H1]. unfold trunc. destruct (Rle_dec 0 z) as [_|]; [|contradiction].
  destruct (Req_EM_T z 1) as [->|Hne].
  - replace 1%R with (INR 1) at 1 by reflexivity. rewrite Int_part_INR. reflexivity.
  - assert (E : Int_part z = 0%Z); [|now rewrite E].
    unfold Int_part. assert (Hu : up z = 1%Z); [|rewrite Hu; reflexivity].
    symmetry. apply tech_up; simpl; lra.
Qed.

Lemma normalised_int_column alias xs : nonconstant xs ->
  exists ys, prep norm_only DInt alias [map (fun x => FNum (Some x)) xs] = Ok [map (fun y => FNum (Some y)) ys] /\
    Forall2 (fun x y => (is_max x xs -> y = 1%R) /\ (~ is_max x xs -> y = 0%R)) xs ys.
Proof.
  intros Hnc. assert (Hne : xs <> []) by (destruct Hnc as (a & _ & Ha & _); intros ->; contradiction).
  destruct (minmax_ok xs Hne) as (out & st & H).
  destruct (minmax_values _ _ _ H Hnc) as (Hm & HM & Hlt & Hout).
  exists (map (fun x => trunc ((x - fst st) / (snd st - fst st))) xs). split.
  - rewrite prep_unfold. cbn [mapM]. unfold col_result, scale_col. rewrite col_floats_nums.
    cbn [norm_only standardization normalization]. unfold nan_minmax. rewrite all_some_map, H. cbn [bind fst].
    unfold dels_from. simpl. f_equal. f_equal. unfold store. rewrite Hout, !map_map. reflexivity.
  - apply Forall2_map_same. intros x Hx.
    assert (Hr : (0 <= (x - fst st) / (snd st - fst st) <= 1)%R)
      by (apply div_range; auto; split; [now apply Hm|now apply HM]).
    rewrite trunc_unit by auto. split.
    + intros [_ Hmax]. assert (x = snd st) by (apply Rle_antisym; [apply HM; auto|apply Hmax, HM]). subst x.
      destruct (Req_EM_T ((snd st - fst st) / (snd st - fst st)) 1) as [|n]; auto. exfalso; apply n. field. lra.
    + intros Hnm. destruct (Req_EM_T ((x - fst st) / (snd st - fst st)) 1) as [E|]; auto. exfalso. apply Hnm.
      assert (x = snd st).
      { apply (Rmult_eq_compat_r (snd st - fst st)) in E. unfold Rdiv in E.
        rewrite Rmult_assoc, Rinv_l in E by lra. lra. }
      subst x. exact HM.
Qed.
End Feat.

(** ** Dummy columns *)
Section Digit.
Variable parse : string -> option R.
Variable OS : TotalOrder string.
Notation scale := (scale_col parse).
Notation prep := (preprocess_features parse OS).
Notation cres := (list fcell * option (list (list fcell)))%type.

Lemma dels_from_range s rs q : In q (dels_from s rs) -> s <= q < s + length rs.
Proof.
  unfold dels_from. intros Hz. apply in_map_iff in Hz. destruct Hz as ([z y] & E & Hin). simpl in E; subst.
  apply filter_In in Hin. destruct Hin as [Hin _]. apply in_combine_l in Hin. apply in_seq in Hin. lia.
Qed.
Lemma existsb_out q (d : list nat) : ~ In q d -> existsb (Nat.eqb q) d = false.
Proof.
  intros H. apply not_true_iff_false. rewrite existsb_exists. intros (z & Hz & E). apply Nat.eqb_eq in E.
  subst; auto.
Qed.
Lemma dels_from_cons s (r : cres) rs :
  dels_from s (r :: rs) = (match snd r with Some _ => [s] | None => [] end) ++ dels_from (S s) rs.
Proof. unfold dels_from. cbn [length seq combine filter snd]. destruct (snd r); reflexivity. Qed.

Lemma delete_split s rs d :
  (forall q, s <= q < s + length rs -> (In q d <-> In q (dels_from s rs))) ->
  map snd (filter (fun p => negb (existsb (Nat.eqb (fst p)) d)) (combine (seq s (length rs)) (map fst rs))) =
  map fst (filter (fun r : cres => match snd r with Some _ => false | None => true end) rs).
Proof.
  revert s; induction rs as [|r rs IH]; intros s Hd; auto.
  cbn [length seq combine map filter fst].
  assert (IHs : map snd (filter (fun p => negb (existsb (Nat.eqb (fst p)) d)) (combine (seq (S s) (length rs)) (map fst rs))) =
     map fst (filter (fun r : cres => match snd r with Some _ => false | None => true end) rs)).
  { apply IH. intros q Hq. rewrite Hd by (simpl; lia). rewrite dels_from_cons, in_app_iff.
    split; [|auto]. intros [H|H]; auto. destruct (snd r); simpl in H; [lia|contradiction]. }
  assert (Hs : In s d <-> snd r <> None).
  { rewrite Hd by (simpl; lia). rewrite dels_from_cons, in_app_iff. split.
    - intros [H|H]; [destruct (snd r); [discriminate|contradiction]|]. apply dels_from_range in H. lia.
    - intros H. left. destruct (snd r); [simpl; auto|congruence]. }
  destruct (snd r) eqn:E.
  - destruct (existsb (Nat.eqb s) d) eqn:Ee; [simpl; exact IHs|].
    exfalso. apply not_true_iff_false in Ee. apply Ee. apply existsb_exists. exists s. split; [apply Hs; discriminate|apply Nat.eqb_refl].
  - rewrite existsb_out by (rewrite Hs; auto). cbn [negb map snd fst]. now rewrite IHs.
Qed.

Lemma combine_app_len {A B} (a : list A) (b b' : list B) c : length a = length b ->
  combine (a ++ c) (b ++ b') = combine a b ++ combine c b'.
Proof. revert b; induction a as [|x a IH]; intros [|y b] H; try discriminate; simpl; auto. f_equal; auto. Qed.

Lemma delete_dels rs e :
  delete_cols (dels_from 0 rs) (map fst rs ++ e) =
  map fst (filter (fun r : cres => match snd r with Some _ => false | None => true end) rs) ++ e.
Proof.
  unfold delete_cols, enumerate. rewrite app_length, seq_app, combine_app_len by (now rewrite seq_length).
  rewrite filter_app, map_app. f_equal.
  - rewrite map_length. apply delete_split. tauto.
  - rewrite Nat.add_0_l.
    assert (G : forall s, length rs <= s -> map snd (filter (fun p : nat * list fcell => negb (existsb (Nat.eqb (fst p)) (dels_from 0 rs)))
       (combine (seq s (length e)) e)) = e).
    { induction e as [|x e IH]; intros s Hs; auto. cbn [length seq combine filter fst].
      rewrite existsb_out by (intros H; apply dels_from_range in H; lia).
      cbn [negb map snd]. f_equal. apply IH. lia. }
    apply G. now rewrite map_length.
Qed.

Definition to_num (c : list fcell) : result (list fcell) :=
  match col_floats parse c with Some v => Ok (map FNum v) | None => Err ValueError end.

Lemma to_num_as_number c c' : to_num c = Ok c' -> c' = map (as_number parse) c /\ map (as_number parse) c' = c'.
Proof.
  unfold to_num. destruct (col_floats parse c) as [v|] eqn:E; [|discriminate]. intros H; injection H as <-.
  split; [|rewrite map_map; now apply map_ext].
  revert v E; induction c as [|x c IH]; intros v E; simpl in E; [injection E as <-; auto|].
  destruct (fcell_float parse x) as [o|] eqn:Ex; [|discriminate].
  destruct (col_floats parse c) as [os|]; [|discriminate]. injection E as <-. cbn [map]. f_equal; auto.
  destruct x; simpl in *; [congruence|]. destruct (parse s); congruence.
Qed.

Lemma dummy_cols_num c e : dummy_cols OS c = Ok e -> mapM to_num e = Ok e.
Proof.
  unfold dummy_cols. intros H. apply bind_Ok in H. destruct H as (ls & _ & H).
  apply bind_Ok in H. destruct H as (r & _ & H). injection H as <-.
  rewrite (mapM_total _ (fun c => c)); [now rewrite map_id|].
  intros x Hx. apply in_map_iff in Hx. destruct Hx as (j & <- & _). unfold to_num.
  assert (E : col_floats parse (map (fun row => FNum (Some (IZR (nth j row 0%Z)))) (fst r)) =
     Some (map (fun row => Some (IZR (nth j row 0%Z))) (fst r))).
  { induction (fst r) as [|a l IH]; simpl; auto. now rewrite IH. }
  rewrite E, map_map. reflexivity.
Qed.

Lemma mapM_app {A B} (f : A -> result B) a b :
  mapM f (a ++ b) = (x <- mapM f a ;; y <- mapM f b ;; Ok (x ++ y)).
Proof.
  induction a as [|x a IH]; simpl.
  - destruct (mapM f b); auto.
  - destruct (f x); simpl; auto. rewrite IH. destruct (mapM f a); simpl; auto. destruct (mapM f b); simpl; auto.
Qed.

(** Result of a single column seen alone. *)
Lemma prep_single fl dt alias c r : col_result parse OS fl dt alias c = Ok r ->
  prep fl dt alias [c] = Ok (match snd r with Some e => e | None => [fst r] end).
Proof.
  intros H. rewrite prep_unfold. cbn [mapM]. rewrite H. cbn [bind]. rewrite delete_dels.
  rewrite dels_from_cons. destruct r as [c' [e|]]; cbn [snd fst]; [|reflexivity].
  cbn [dels_from app filter map]. unfold dels_from. simpl. rewrite app_nil_r.
  unfold col_result in H. destruct (scale fl dt alias c) as [c1 [u|er]]; [discriminate|].
  destruct er; try discriminate. destruct (digitization fl); [|discriminate].
  apply bind_Ok in H. destruct H as (e' & He & H). injection H as <- <-. apply (dummy_cols_num _ _ He).
Qed.

Lemma col_result_text fl dt alias c r : digitization fl = true -> c <> [] ->
  col_result parse OS fl dt alias c = Ok r ->
  (snd r = None <-> col_floats parse c <> None).
Proof.
  intros Hd Hc H. unfold col_result, scale_col in H. rewrite Hd in H.
  destruct (col_floats parse c) as [v|] eqn:E.
  - split; [discriminate|]. intros _.
    destruct (normalization fl).
    + set (v1 := if standardization fl then _ else v) in H.
      destruct (nan_minmax v1) as [z|er] eqn:Ez; [injection H as <-; reflexivity|]. exfalso.
      unfold nan_minmax in Ez. destruct (all_some v1) as [xs|] eqn:Ex; [|discriminate].
      apply all_some_spec in Ex. destruct xs; [|discriminate].
      assert (Hlv : length v1 = length v).
      { unfold v1. destruct (standardization fl); auto. unfold reread. destruct alias; auto.
        rewrite map_length. unfold store. rewrite map_length. unfold nan_standard.
        destruct (all_some v) as [ys|] eqn:Ey; [|now rewrite map_length].
        apply all_some_spec in Ey. subst v. unfold standard_call. simpl. now rewrite !map_length. }
      rewrite Ex in Hlv. destruct v; [|discriminate]. destruct c; [congruence|]. simpl in E.
      destruct (fcell_float parse f); [|discriminate]. destruct (col_floats parse c); discriminate.
    + injection H as <-; reflexivity.
  - apply bind_Ok in H. destruct H as (e & _ & H). injection H as <-. simpl. split; [discriminate|congruence].
Qed.

Lemma prep_digitised fl dt alias cols fs :
  digitization fl = true -> (forall c, In c cols -> c <> []) ->
  prep fl dt alias cols = Ok fs ->
  exists parts, Forall2 (fun c p => prep fl dt alias [c] = Ok p) cols parts /\
    map (map (as_number parse)) fs =
    map (map (as_number parse))
      (List.concat (map snd (filter (fun cp => match col_floats parse (fst cp) with Some _ => true | None => false end) (combine cols parts)))
       ++ List.concat (map snd (filter (fun cp => match col_floats parse (fst cp) with Some _ => false | None => true end) (combine cols parts)))).
Proof.
  intros Hd Hne H. rewrite prep_unfold in H. apply bind_Ok in H. destruct H as (rs & Hrs & H).
  rewrite delete_dels in H. apply mapM_Ok in Hrs.
  set (part := fun r : cres => match snd r with Some e => e | None => [fst r] end).
  exists (map part rs). split.
  { clear H. induction Hrs as [|c r cs rs Hc Hcs IH]; simpl; constructor.
    - apply prep_single; auto.
    - apply IH. intros; apply Hne; simpl; auto. }
  assert (Hsplit :
    List.concat (map snd (filter (fun cp => match col_floats parse (fst cp) with Some _ => true | None => false end) (combine cols (map part rs))))
      = map fst (filter (fun r : cres => match snd r with Some _ => false | None => true end) rs) /\
    List.concat (map snd (filter (fun cp => match col_floats parse (fst cp) with Some _ => false | None => true end) (combine cols (map part rs))))
      = extras rs).
  { clear H. induction Hrs as [|c r cs rs Hc Hcs IH]; simpl; auto.
    destruct IH as [I1 I2]; [intros; apply Hne; simpl; auto|].
    pose proof (col_result_text fl dt alias c r Hd (Hne c (or_introl eq_refl)) Hc) as Ht.
    destruct r as [c' [e|]]; cbn [snd fst] in *.
    - destruct (col_floats parse c) eqn:E; [exfalso; destruct Ht as [_ Ht]; discriminate Ht; discriminate|].
      cbn [map snd List.concat]. split; auto. unfold extras. simpl. rewrite I2. reflexivity.
    - destruct (col_floats parse c) eqn:E; [|exfalso; apply (proj1 Ht eq_refl); reflexivity].
      cbn [map snd List.concat]. unfold part at 1. cbn [snd fst]. split; [simpl; now rewrite I1|]. exact I2. }
  destruct Hsplit as [-> ->].
  destruct (dels_from 0 rs) eqn:E.
  - injection H as <-.
    assert (G : forall s, dels_from s rs = [] -> extras rs = [] /\
       map fst (filter (fun r : cres => match snd r with Some _ => false | None => true end) rs) = map fst rs).
    { clear. induction rs as [|[c [e|]] rs IH]; intros s H; auto; rewrite dels_from_cons in H.
      - discriminate.
      - simpl in H. destruct (IH _ H) as [I1 I2]. unfold extras in *. simpl. rewrite I1, I2. auto. }
    destruct (G 0 E) as [-> ->]. now rewrite app_nil_r.
  - apply mapM_Ok in H. clear -H.
    induction H as [|c c' cs cs' Hc Hcs IH]; simpl; auto. f_equal; auto.
    destruct (to_num_as_number c c' Hc) as [H1 H2]. rewrite H2. exact H1.
Qed.
End Digit.

Lemma col_floats_numeric parse c :
  match col_floats parse c with Some _ => true | None => false end = numeric_column parse c.
Proof.
  induction c as [|x c IH]; auto. simpl. rewrite <- IH.
  destruct x as [o|s]; simpl; [|destruct (parse s)]; destruct (col_floats parse c); auto.
Qed.

Lemma prep_digitised_numeric parse OS fl dt alias cols fs :
  digitization fl = true -> (forall c, In c cols -> c <> []) ->
  preprocess_features parse OS fl dt alias cols = Ok fs ->
  exists parts, Forall2 (fun c p => preprocess_features parse OS fl dt alias [c] = Ok p) cols parts /\
    map (map (as_number parse)) fs =
    map (map (as_number parse))
      (List.concat (map snd (filter (fun cp => numeric_column parse (fst cp)) (combine cols parts)))
       ++ List.concat (map snd (filter (fun cp => negb (numeric_column parse (fst cp))) (combine cols parts)))).
Proof.
  intros Hd Hne H. destruct (prep_digitised parse OS fl dt alias cols fs Hd Hne H) as (parts & Hp & E).
  exists parts. split; auto. rewrite E.
  assert (F1 : forall l : list (list fcell * list (list fcell)),
    filter (fun cp => match col_floats parse (fst cp) with Some _ => true | None => false end) l =
    filter (fun cp => numeric_column parse (fst cp)) l)
    by (intros l; apply filter_ext; intros a; apply col_floats_numeric).
  assert (F2 : forall l : list (list fcell * list (list fcell)),
    filter (fun cp => match col_floats parse (fst cp) with Some _ => false | None => true end) l =
    filter (fun cp => negb (numeric_column parse (fst cp))) l).
  { intros l; apply filter_ext; intros a. rewrite <- col_floats_numeric. destruct (col_floats parse (fst a)); auto. }
  now rewrite F1, F2.
Qed.
