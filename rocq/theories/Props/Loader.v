(** Property theorems C76: loading data sets
    (classicML/backend/python/data/dataset.py 80-158). *)
From Coq Require Import List ZArith Reals Lra Lia Bool Arith String.
From Verif.Model Require Import Base Preprocessing Dataset Loader.
From Verif.Model Require Tree.
From Verif.Spec Require Import Common Preprocessing Dataset Loader.
From Verif.Proof Require Import BaseLemmas Preprocessing Dataset Features Loader.
From Verif.Props Require Import Dataset.
Import ListNotations.
Local Notation length := List.length.

(** ** DataFrames *)

(** The last column never reaches the features: they are those of the frame
    without it, loaded without labels; a failure there is the failure of the whole
    call, and otherwise only the labels can fail. *)
Theorem C76_last_column_split : forall parse frequent OS OR put int_of c m alias cols l, the_mode c = Labels m ->
  let d := from_dataframe parse frequent OS ZOrder OR put int_of c alias (cols ++ [l]) in
  let u := from_dataframe parse frequent OS ZOrder OR put int_of (unlabelled c) alias cols in
  ds_x (fst d) = ds_x (fst u) /\ (snd u <> None -> d = u) /\
  (snd u = None -> snd d = if is_test c then None else match frame_labels OS ZOrder OR put int_of m l with Ok _ => None | Err e => Some e end).
Proof. intros. now apply frame_split. Qed.
Print Assumptions C76_last_column_split.

(** Nothing asked for: the features are the given cells, all of them without
    labels, all but the last column with them. *)
Theorem C76_plain : forall parse frequent OS OR put int_of c alias frame, fill_missing c = false -> the_flags c = no_flags ->
  let cols := match the_mode c with Unsupervised => frame | Labels _ => removelast frame end in
  ds_x (fst (from_dataframe parse frequent OS ZOrder OR put int_of c alias frame)) = Some (map (map fcell_of) (map cells_of cols)).
Proof.
  intros parse frequent OS OR put int_of c alias frame Hf Hg cols. unfold from_dataframe, features. fold cols. rewrite Hf, Hg, plain_features.
  destruct (the_mode c); [reflexivity|]. destruct (is_test c); [reflexivity|]. destruct (rev frame); [reflexivity|].
  destruct (frame_labels OS ZOrder OR put int_of m f) as [[y ci]|]; reflexivity.
Qed.
Print Assumptions C76_plain.

(** Missing values filled, nothing else asked for: every column is imputed on its
    own. *)
Theorem C76_filled : forall parse frequent OS OR put int_of c alias frame, fill_missing c = true -> the_flags c = no_flags -> the_mode c = Unsupervised ->
  (forall l, l <> [] -> most_frequent (frequent l) l) -> (forall col, In col frame -> exists v, In (Some v) (cells_of col)) ->
  exists outs, from_dataframe parse frequent OS ZOrder OR put int_of c alias frame =
      ({| ds_x := Some (map (map fcell_of) outs); ds_y := None; ds_indices := [] |}, None) /\
    Forall2 (fun col out => imputed parse (cells_of col) out /\ forall o, In o out -> o <> None) frame outs.
Proof.
  intros parse frequent OS OR put int_of c alias frame Hf Hg Hm Hq Ho. unfold from_dataframe, features. rewrite Hm, Hf, Hg, plain_features.
  exists (imputer_call parse frequent (map cells_of frame)). split; [reflexivity|].
  destruct (imputer_spec parse frequent (map cells_of frame) Hq) as [H _].
  - intros col Hc. apply in_map_iff in Hc. destruct Hc as (f & <- & Hi). now apply Ho.
  - clear -H. remember (imputer_call parse frequent (map cells_of frame)) as outs eqn:E. clear E. revert outs H.
    induction frame as [|f t IH]; intros outs H; inversion H; subst; constructor; auto.
Qed.
Print Assumptions C76_filled.

(** Test frames and frames without labels have no labels. *)
Theorem C76_no_labels : forall parse frequent OS OR put int_of c alias frame, is_test c = true \/ the_mode c = Unsupervised ->
  let d := from_dataframe parse frequent OS ZOrder OR put int_of c alias frame in
  ds_y (fst d) = None /\ ds_indices (fst d) = [].
Proof.
  intros parse frequent OS OR put int_of c alias frame H d. subst d. unfold from_dataframe. destruct H as [H|H]; rewrite H.
  - destruct (features _ _ _ _ _ _ _); [|split; reflexivity]. destruct (the_mode c); split; reflexivity.
  - destruct (features _ _ _ _ _ _ _); split; reflexivity.
Qed.
Print Assumptions C76_no_labels.

(** A test frame is cut like a training frame: a frame of features only loses its
    last feature. *)
Theorem C76_test_frame_loses_column : forall parse frequent OS OR put int_of c m alias cols l,
  the_mode c = Labels m -> is_test c = true -> fill_missing c = false -> the_flags c = no_flags ->
  from_dataframe parse frequent OS ZOrder OR put int_of c alias (cols ++ [l]) =
  ({| ds_x := Some (map (map fcell_of) (map cells_of cols)); ds_y := None; ds_indices := [] |}, None).
Proof.
  intros parse frequent OS OR put int_of c m alias cols l Hm Ht Hf Hg. unfold from_dataframe, features.
  now rewrite Hm, Hf, Hg, removelast_last, plain_features, Ht.
Qed.
Print Assumptions C76_test_frame_loses_column.

(** Three classes or more, or one: the published table describes the stored labels
    for whole non-negative numbers, integer or float, and for texts that are not the
    numerals of class numbers. *)
Theorem C76_frame_described : forall parse frequent OS put int_of c m alias cols l ks n,
  the_mode c = Labels m -> is_test c = false -> raw_labels l ks -> num_distinct ks n -> n <> 0 -> n <> 2 ->
  (forall i, int_of (put i) = Some (Z.of_nat i)) ->
  (forall k, In k ks -> match k with KInt z => (0 <= z)%Z | KFloat r => exists n, r = INR n | KText s => forall i, put i <> s end) ->
  snd (from_dataframe parse frequent OS ZOrder Tree.ROrder put int_of (unlabelled c) alias cols) = None ->
  let d := from_dataframe parse frequent OS ZOrder Tree.ROrder put int_of c alias (cols ++ [l]) in
  snd d = None /\ describes (fst d) ks.
Proof.
  intros parse frequent OS put int_of c m alias cols l ks n Hm Ht Hl Hn N0 N2 Hint Hok Hu d. subst d.
  destruct (from_dataframe _ _ _ _ _ _ _ (unlabelled c) alias cols) as [u e] eqn:Eu. cbn in Hu. subst e.
  destruct (frame_ok_shape _ _ _ _ _ _ _ _ _ _ Eu) as (x & ->).
  assert (Dist : forall A (f : A -> key) la, (forall a b, f a = f b -> a = b) -> ks = map f la -> num_distinct la n).
  { intros A f la Inj ->. destruct Hn as (dk & Nd & Ld & Hd).
    assert (exists da, dk = map f da) as (da & ->).
    { clear -Hd. assert (H : forall k, In k dk -> exists a, k = f a).
      { intros k Hk. apply Hd in Hk. apply in_map_iff in Hk. destruct Hk as (a & <- & _). eauto. }
      clear Hd. induction dk as [|k dk IH]; [exists []; reflexivity|]. destruct IH as (da & ->); [intros; apply H; simpl; auto|].
      destruct (H k (or_introl eq_refl)) as (a & ->). now exists (a :: da). }
    exists da. split; [now apply NoDup_map_inv in Nd|]. split; [now rewrite map_length in Ld|]. intros w. split; intros Hw.
    - apply (in_map f) in Hw. apply Hd in Hw. apply in_map_iff in Hw. destruct Hw as (a & E & Ha). apply Inj in E. now subst.
    - apply (in_map f) in Hw. apply Hd in Hw. apply in_map_iff in Hw. destruct Hw as (a & E & Ha). apply Inj in E. now subst. }
  destruct l as [z|r|s]; cbn [raw_labels] in Hl.
  - subst ks. destruct (dataframe_ints_agree m z n) as (y & ci & E & Ag); auto.
    { apply (Dist Z KInt); [apply KInt_inj|reflexivity]. }
    { intros v Hv. exact (Hok (KInt v) (in_map KInt _ _ Hv)). }
    erewrite frame_labelled; [|exact Hm|exact Ht|exact Eu|cbn [frame_labels]; rewrite E; reflexivity]. split; [reflexivity|].
    apply (agree_describes ZOrder KInt); [apply KInt_inj|exact Ag].
  - destruct Hl as (rs & -> & ->). destruct (float_labels_agree Tree.ROrder m rs n) as (y & ci & E & Ag); auto.
    { intros a b. cbn [leb Tree.ROrder]. unfold Rleb. destruct (Rle_dec a b); split; auto; discriminate. }
    { apply (Dist R KFloat); [apply KFloat_inj|reflexivity]. }
    { intros v Hv. exact (Hok (KFloat v) (in_map KFloat _ _ Hv)). }
    erewrite frame_labelled; [|exact Hm|exact Ht|exact Eu|cbn [frame_labels]; rewrite all_some_map, E; reflexivity]. split; [reflexivity|].
    apply (agree_describes Tree.ROrder KFloat); [apply KFloat_inj|exact Ag].
  - destruct Hl as (ss & -> & ->). destruct (dataframe_texts_agree OS ZOrder put int_of m ss n) as (y & ci & E & Ag); auto.
    { apply (Dist string KText); [apply KText_inj|reflexivity]. }
    { intros i v Hv. exact (Hok (KText v) (in_map KText _ _ Hv) i). }
    erewrite frame_labelled; [|exact Hm|exact Ht|exact Eu|cbn [frame_labels]; rewrite all_some_map, E; reflexivity]. split; [reflexivity|].
    apply (agree_describes OS KText); [apply KText_inj|exact Ag].
Qed.
Print Assumptions C76_frame_described.

(** Float labels that are not whole numbers can be merged: 1/2, 3/4 and 1 are stored
    as two classes. *)
Theorem C76_float_labels_merged_refuted : exists y ci,
  frame_labels stringOrder ZOrder Tree.ROrder py_str py_int Sparse (FloatCol [Some (1/2); Some (3/4); Some 1]%R) = Ok (YSparse y, ci) /\
  y = [0; 2; 2]%Z /\ ci = [(KFloat (1/2), CodeInt 0); (KFloat (3/4), CodeInt 1); (KFloat 1, CodeInt 2)].
Proof.
  assert (U : np_unique Tree.ROrder [1/2; 3/4; 1]%R = [1/2; 3/4; 1]%R).
  { apply (sorted_ext Tree.ROrder); [apply np_unique_sorted| |intros; apply np_unique_In].
    assert (L : forall a b, (a < b)%R -> slt Tree.ROrder a b).
    { intros a b H. apply (ltb_true Tree.ROrder). cbn [leb Tree.ROrder]. unfold Rleb. destruct (Rle_dec a b); split; auto; lra. }
    repeat constructor; apply L; lra. }
  assert (T : forall a b, a = b -> eqb Tree.ROrder a b = true) by (intros a b H; now apply (eqb_true Tree.ROrder)).
  assert (F : forall a b, (a < b \/ b < a)%R -> eqb Tree.ROrder a b = false) by (intros a b H; apply (eqb_false Tree.ROrder); lra).
  cbn [frame_labels all_some]. unfold dataframe_float_labels, categorical. rewrite U. cbn [List.length Nat.eqb].
  change (enumerate [1/2; 3/4; 1]%R) with [(0, (1/2)%R); (1, (3/4)%R); (2, 1%R)]. cbn [get_at nth_error bind fold_left fst snd replace_all map dict_set].
  rewrite (T (1/2) (1/2))%R, (F (3/4) (1/2))%R, (F 1 (1/2))%R, (F (INR 0) (3/4))%R, (T (3/4) (3/4))%R, (F 1 (3/4))%R by (simpl; lra).
  cbn [dict_set]. rewrite ?(F (3/4) (1/2))%R, ?(F 1 (1/2))%R, ?(F 1 (3/4))%R by (simpl; lra). cbn [dict_set]. rewrite ?(F 1 (1/2))%R, ?(F 1 (3/4))%R by (simpl; lra).
  rewrite (F (INR 0) 1)%R, (T (INR 1) 1)%R, (T 1 1)%R by (simpl; lra). cbn [mapM bind]. rewrite !ztrunc_INR.
  eexists _, _. split; [reflexivity|]. split; reflexivity.
Qed.
Print Assumptions C76_float_labels_merged_refuted.

(** A frame has one element type: next to a column of floats a column of integers is
    treated as floats ... *)
Theorem C76_float_column_makes_floats : forall parse frequent OS OR put int_of c alias frame,
  the_mode c = Unsupervised -> (exists l, In (FloatCol l) frame) ->
  from_dataframe parse frequent OS ZOrder OR put int_of c alias frame =
  from_dataframe parse frequent OS ZOrder OR put int_of c alias (map as_floats frame).
Proof. intros. now apply frame_as_floats. Qed.
Print Assumptions C76_float_column_makes_floats.

(** ... and without one the scaled values are cut: a normalised frame of integers
    holds 1 where a column has its largest value and 0 everywhere else. *)
Theorem C76_integer_frame_is_cut : forall parse frequent OS OR put int_of c alias frame,
  the_mode c = Unsupervised -> fill_missing c = false -> the_flags c = norm_only ->
  (forall col, In col frame -> exists zs, col = IntCol zs /\ nonconstant (map IZR zs)) ->
  exists x, from_dataframe parse frequent OS ZOrder OR put int_of c alias frame = ({| ds_x := Some x; ds_y := None; ds_indices := [] |}, None) /\
    Forall2 (fun col out => exists zs ys, col = IntCol zs /\ out = map (fun y => FNum (Some y)) ys /\
      Forall2 (fun z y => (is_max (IZR z) (map IZR zs) -> y = 1%R) /\ (~ is_max (IZR z) (map IZR zs) -> y = 0%R)) zs ys) frame x.
Proof. intros. now apply int_frame_cut. Qed.
Print Assumptions C76_integer_frame_is_cut.

(** A missing label, next to one that is not missing, makes the call fail after the
    features were stored: a TypeError for texts. *)
Theorem C76_missing_text_label_fails : forall parse frequent OS OR put int_of c m alias cols l s,
  the_mode c = Labels m -> is_test c = false -> In None l -> In (Some s) l ->
  snd (from_dataframe parse frequent OS ZOrder OR put int_of (unlabelled c) alias cols) = None ->
  let d := from_dataframe parse frequent OS ZOrder OR put int_of c alias (cols ++ [TextCol l]) in
  snd d = Some TypeError /\ ds_y (fst d) = None /\ ds_x (fst d) = ds_x (fst (from_dataframe parse frequent OS ZOrder OR put int_of (unlabelled c) alias cols)).
Proof.
  intros parse frequent OS OR put int_of c m alias cols l s Hm Ht Hn _ Hu d.
  destruct (frame_split parse frequent OS OR put int_of c m alias cols (TextCol l) Hm) as (Hx & _ & Hl). specialize (Hl Hu).
  assert (E : frame_labels OS ZOrder OR put int_of m (TextCol l) = Err TypeError).
  { cbn [frame_labels]. assert (all_some l = None) as ->; [|reflexivity]. clear -Hn. induction l as [|[a|] l IH]; cbn; [destruct Hn| |reflexivity].
    destruct Hn as [Hn|Hn]; [discriminate|]. now rewrite IH. }
  rewrite E, Ht in Hl. split; [exact Hl|]. split; [|exact Hx]. unfold d, from_dataframe. rewrite Hm, Ht, rev_unit, E.
  now destruct (features _ _ _ _ _ _ _).
Qed.
Print Assumptions C76_missing_text_label_fails.

(** ** Tensors *)

(** Sparse labels given as a vector: at least two values are needed; the labels are
    stored as they are, as a column; only the two smallest values are published, with
    the numbers 0 and 1.  So the table describes the labels only if they are 0 and 1. *)
Theorem C76_vector_labels : forall parse frequent OS c x y n, is_test c = false -> the_mode c = Unsupervised \/ the_mode c = Labels Sparse ->
  (forall col, In col x -> col <> []) -> num_distinct y n ->
  exists fs, length fs = length x /\
  let d := from_tensor_slices parse frequent OS ZOrder c x (Some (TVector y)) in
  ds_x (fst d) = Some fs /\
  (n < 2 -> snd d = Some IndexError) /\
  (2 <= n -> snd d = None /\ ds_y (fst d) = Some (Table (map (fun z => [z]) y)) /\
    (exists a b, (a < b)%Z /\ In a y /\ In b y /\ (forall z, In z y -> z = a \/ (b <= z)%Z) /\
       ds_indices (fst d) = [(KInt a, CodeInt 0); (KInt b, CodeInt 1)]) /\
    (describes (fst d) (map KInt y) <-> forall z, In z y -> z = 0%Z \/ z = 1%Z)).
Proof.
  intros parse frequent OS c x y n Ht Hm Hx Hn. destruct (tensor_features_total parse frequent OS c x Hx) as (fs & Ef & Lf).
  exists fs. split; [exact Lf|]. unfold from_tensor_slices. rewrite Ef, Ht. cbn [tensor_rows Nat.ltb Nat.leb].
  assert (Em : match the_mode c with Unsupervised => Sparse | Labels m => m end = Sparse) by (destruct Hm as [-> | ->]; reflexivity).
  rewrite Em. destruct (binary_rows_vector y n Hn) as [Few Many]. destruct (Nat.lt_ge_cases n 2) as [H|H].
  - rewrite (Few H). cbn. split; [reflexivity|]. split; [reflexivity|lia].
  - destruct (Many H) as (a & b & Hab & Ha & Hb & Hall & ->). cbn [bind fst snd encode_rows map ds_x ds_y ds_indices].
    split; [reflexivity|]. split; [lia|]. intros _. split; [reflexivity|]. split; [reflexivity|].
    split; [exists a, b; auto|]. now apply vector_described.
Qed.
Print Assumptions C76_vector_labels.

(** With more than two classes the two loaders publish different things about the
    same labels. *)
Theorem C76_loaders_differ : forall parse frequent OS put int_of c m alias cols x y n,
  the_mode c = Labels m -> m = Sparse -> is_test c = false -> num_distinct y n -> 3 <= n -> (forall z, In z y -> (0 <= z)%Z) ->
  (forall i, int_of (put i) = Some (Z.of_nat i)) -> (forall col, In col x -> col <> []) ->
  snd (from_dataframe parse frequent OS ZOrder Tree.ROrder put int_of (unlabelled c) alias cols) = None ->
  describes (fst (from_dataframe parse frequent OS ZOrder Tree.ROrder put int_of c alias (cols ++ [IntCol y]))) (map KInt y) /\
  ~ describes (fst (from_tensor_slices parse frequent OS ZOrder c x (Some (TVector y)))) (map KInt y).
Proof.
  intros parse frequent OS put int_of c m alias cols x y n Hm -> Ht Hn H3 Hp Hint Hx Hu. split.
  - apply (C76_frame_described parse frequent OS put int_of c Sparse alias cols (IntCol y) (map KInt y) n); auto; try reflexivity; try lia.
    + destruct Hn as (d & Nd & Ld & Hd). exists (map KInt d). split; [apply FinFun.Injective_map_NoDup; [exact KInt_inj|exact Nd]|].
      split; [now rewrite map_length|]. intros w. rewrite !in_map_iff. split; intros (v & <- & Hv); exists v; split; auto; now apply Hd.
    + intros k Hk. apply in_map_iff in Hk. destruct Hk as (z & <- & Hz). auto.
  - destruct (C76_vector_labels parse frequent OS c x y n Ht (or_intror Hm) Hx Hn) as (fs & _ & _ & _ & Hd). destruct Hd as (_ & _ & _ & Hd); [lia|].
    rewrite Hd. intros Hb. destruct Hn as (d & Nd & Ld & Hdd). assert (I : incl d [0; 1]%Z) by (intros z Hz; apply Hdd in Hz; destruct (Hb z Hz); subst; simpl; auto).
    apply NoDup_incl_length in I; [simpl in I; lia|exact Nd].
Qed.
Print Assumptions C76_loaders_differ.

(** The label encodings cannot be used with tensors: whatever the labels, the call
    raises, after the features were stored. *)
Theorem C76_encoded_tensors_fail : forall parse frequent OS c m x t, is_test c = false -> the_mode c = Labels m -> m <> Sparse ->
  (forall col, In col x -> col <> []) ->
  let d := from_tensor_slices parse frequent OS ZOrder c x (Some t) in
  ds_x (fst d) <> None /\ (snd d = Some TypeError \/ snd d = Some IndexError).
Proof.
  intros parse frequent OS c m x t Ht Hm Nm Hx. destruct (tensor_features_total parse frequent OS c x Hx) as (fs & Ef & _).
  cbv zeta. unfold from_tensor_slices. rewrite Ef, Ht, Hm. destruct (tensor_rows t) as [w rows].
  assert (Enc : forall r (rest : list (list Z)), encode_rows m (r :: rest) = Err TypeError) by (intros; destruct m; [congruence|reflexivity|reflexivity]).
  destruct rows as [|r rows].
  - destruct (2 <? w); cbn; split; try discriminate; auto.
  - destruct (2 <? w).
    + unfold categorical_rows. cbn [get_at nth_error bind].
      rewrite (fold_pair (fun l p => map (replace_all ZOrder (snd p) (Z.of_nat (fst p))) l) (fun d p => dict_set ZOrder d (snd p) (Z.of_nat (fst p)))).
      cbn [bind fst].
      assert (G : forall ps l, exists r' rest', fold_left (fun l p => map (replace_all ZOrder (snd p) (Z.of_nat (fst p))) l) ps (r :: l) = r' :: rest').
      { intros ps. revert r. induction ps as [|p ps IH]; intros r' l; [simpl; eauto|]. cbn [fold_left map]. apply IH. }
      destruct (G (enumerate (np_unique ZOrder (List.concat (r :: rows)))) rows) as (r' & rest & ->). rewrite Enc. cbn. split; [discriminate|auto].
    + unfold binary_rows. cbn [get_at nth_error bind]. unfold two_indices.
      destruct (np_unique ZOrder (List.concat (r :: rows))) as [|a [|b u]]; cbn [get_at nth_error bind fst]; rewrite ?Enc; cbn; split; try discriminate; auto.
Qed.
Print Assumptions C76_encoded_tensors_fail.

(** A training set without labels raises, even when it is declared unsupervised. *)
Theorem C76_no_labels_raises : forall parse frequent OS c x, is_test c = false -> (forall col, In col x -> col <> []) ->
  exists fs, from_tensor_slices parse frequent OS ZOrder c x None = ({| ds_x := Some fs; ds_y := None; ds_indices := [] |}, Some AttributeError) /\
    from_tensor_slices parse frequent OS ZOrder {| is_test := true; the_mode := the_mode c; fill_missing := fill_missing c; the_flags := the_flags c |} x None =
      ({| ds_x := Some fs; ds_y := None; ds_indices := [] |}, None).
Proof.
  intros parse frequent OS c x Ht Hx. destruct (tensor_features_total parse frequent OS c x Hx) as (fs & Ef & _). exists fs.
  unfold from_tensor_slices. split; [now rewrite Ef, Ht|]. unfold features in *. cbn [fill_missing the_flags] in *. now rewrite Ef.
Qed.
Print Assumptions C76_no_labels_raises.

(** Labels that are already one-hot, with three columns or more, are stored
    unchanged, but the published table is about the entries 0 and 1, not about the
    classes. *)
Theorem C76_one_hot_table : forall parse frequent OS c x w rows, is_test c = false -> the_mode c = Unsupervised \/ the_mode c = Labels Sparse ->
  (forall col, In col x -> col <> []) -> 3 <= w -> (forall r z, In r rows -> In z r -> z = 0%Z \/ z = 1%Z) ->
  (exists r, In r rows /\ In 0%Z r) -> (exists r, In r rows /\ In 1%Z r) ->
  exists fs, from_tensor_slices parse frequent OS ZOrder c x (Some (TTable w rows)) =
    ({| ds_x := Some fs; ds_y := Some (Table rows); ds_indices := [(KInt 0, CodeInt 0); (KInt 1, CodeInt 1)] |}, None).
Proof.
  intros parse frequent OS c x w rows Ht Hm Hx Hw Hb (r0 & I0 & J0) (r1 & I1 & J1). destruct (tensor_features_total parse frequent OS c x Hx) as (fs & Ef & _).
  exists fs. unfold from_tensor_slices. rewrite Ef, Ht. cbn [tensor_rows].
  assert (Em : match the_mode c with Unsupervised => Sparse | Labels m => m end = Sparse) by (destruct Hm as [-> | ->]; reflexivity).
  rewrite Em. destruct (Nat.ltb_spec 2 w); [|lia].
  rewrite categorical_rows_bits; [reflexivity|exact Hb|apply in_concat; eauto|apply in_concat; eauto].
Qed.
Print Assumptions C76_one_hot_table.

(** A frame with one text and one number feature and three classes; a tensor with
    three classes. *)
Definition c76 : config := {| is_test := false; the_mode := Labels Sparse; fill_missing := false; the_flags := no_flags |}.
Example C76_ex :
  from_dataframe (fun _ => None) (fun _ => CNum 0) stringOrder ZOrder Tree.ROrder py_str py_int c76 false
    [TextCol [Some "a"; Some "b"; None]; IntCol [5; 6; 7]; IntCol [4; 2; 9]]%Z%string =
  ({| ds_x := Some [[FTxt "a"; FTxt "b"; FNum None]; [FNum (Some 5%R); FNum (Some 6%R); FNum (Some 7%R)]];
      ds_y := Some (Encoded (YSparse [1; 0; 2]%Z));
      ds_indices := [(KInt 2, CodeInt 0); (KInt 4, CodeInt 1); (KInt 9, CodeInt 2)] |}%string, None) /\
  from_tensor_slices (fun _ => None) (fun _ => CNum 0) stringOrder ZOrder c76 [[Some 5; Some 6; Some 7]]%R (Some (TVector [4; 2; 9]%Z)) =
  ({| ds_x := Some [[FNum (Some 5%R); FNum (Some 6%R); FNum (Some 7%R)]]; ds_y := Some (Table [[4]; [2]; [9]]%Z);
      ds_indices := [(KInt 2, CodeInt 0); (KInt 4, CodeInt 1)] |}, None).
Proof. split; reflexivity. Qed.
(** The same integer column alone and next to a column of floats. *)
Example C76_types_ex :
  (exists l, In (FloatCol l) [IntCol [0; 1; 2]%Z; FloatCol [Some (1/2)%R; None; Some 1%R]]) /\
  nonconstant (map IZR [0; 1; 2]%Z) /\ In None [Some "a"%string; None] /\ In (Some "a"%string) [Some "a"%string; None].
Proof.
  split; [eexists; simpl; eauto|]. split; [|simpl; auto]. exists 0%R, 1%R. simpl. repeat split; auto.
Qed.
