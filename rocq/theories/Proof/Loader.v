(** Lemmas for the loading methods (C76). *)
From Coq Require Import List ZArith Reals Lra Lia Bool Arith String.
From Verif.Model Require Import Base Preprocessing Dataset Loader.
From Verif.Spec Require Import Common Preprocessing Dataset Loader.
From Verif.Proof Require Import BaseLemmas Preprocessing Dataset Features.
Import ListNotations.
Local Notation length := List.length.

Lemma dict_get_says {A} (O : TotalOrder A) (f : A -> key) (d : dict A code) k c :
  (forall x y, f x = f y -> x = y) ->
  dict_get O d k = Some c -> says (map (fun kv => (f (fst kv), snd kv)) d) (f k) c.
Proof.
  intros Inj. induction d as [|[k' c'] t IH]; simpl; intros H; [discriminate|].
  destruct (eqb O k k') eqn:E.
  - apply (eqb_true O) in E. subst k'. injection H as ->. constructor.
  - constructor; [|now apply IH]. intros X. apply Inj in X. subst k'.
    assert (eqb O k k = true) by now apply (eqb_true O). congruence.
Qed.

Lemma says_fun t k c c' : says t k c -> says t k c' -> c = c'.
Proof.
  intros H. revert c'. induction H; intros x Hx; inversion Hx; subst; try congruence. now apply IHsays.
Qed.

Lemma agree_describes {A} (O : TotalOrder A) (f : A -> key) labels y ci x :
  (forall a b, f a = f b -> a = b) -> indices_agree O labels y ci ->
  describes {| ds_x := x; ds_y := Some (Encoded y); ds_indices := map (fun kv => (f (fst kv), snd kv)) ci |} (map f labels).
Proof.
  intros Inj Ag. exists (Encoded y). split; [reflexivity|]. intros i k Hi. rewrite nth_error_map in Hi.
  destruct (nth_error labels i) as [l|] eqn:El; [|discriminate]. injection Hi as <-. destruct (Ag i l El) as [G Nn].
  destruct (stored_code y i) as [c|] eqn:Ec; [|congruence]. exists c. split.
  - destruct y as [l0|l0|l0]; simpl in Ec |- *; destruct (nth_error l0 i) eqn:En; try discriminate; injection Ec as <-; eauto.
  - cbn [ds_indices]. now apply (dict_get_says O).
Qed.

Lemma KInt_inj a b : KInt a = KInt b -> a = b. Proof. congruence. Qed.
Lemma KText_inj a b : KText a = KText b -> a = b. Proof. congruence. Qed.
Lemma KFloat_inj a b : KFloat a = KFloat b -> a = b. Proof. congruence. Qed.

(** Columns that nothing is asked for stay as they are. *)
Lemma plain_features parse OS dt alias cols : preprocess_features parse OS no_flags dt alias cols = Ok cols.
Proof.
  rewrite prep_unfold.
  assert (E : mapM (col_result parse OS no_flags dt alias) cols = Ok (map (fun c => (c, None)) cols)).
  { induction cols as [|c t IH]; [reflexivity|]. cbn [mapM map]. rewrite IH.
    assert (Ec : col_result parse OS no_flags dt alias c = Ok (c, None)).
    { unfold col_result, scale_col. destruct (col_floats parse c); reflexivity. }
    rewrite Ec. reflexivity. }
  rewrite E. cbn [bind].
  assert (D : forall n, dels_from n (map (fun c => (c, @None (list (list fcell)))) cols) = []).
  { clear. induction cols as [|c t IH]; intros n; [reflexivity|]. apply (IH (S n)). }
  rewrite D, map_map. cbn [fst]. now rewrite map_id.
Qed.

Section Load.
Variable parse : string -> option R.
Variable frequent : list cell -> cell.
Variable OS : TotalOrder string.
Variable OR : TotalOrder R.
Variable put : nat -> string.
Variable int_of : string -> option Z.
Local Notation frame c alias f := (from_dataframe parse frequent OS ZOrder OR put int_of c alias f).
Local Notation slices c x y := (from_tensor_slices parse frequent OS ZOrder c x y).

(** One element type for the whole frame. *)
Lemma as_floats_cells cols : map cells_of (map as_floats cols) = map cells_of cols.
Proof.
  rewrite map_map. apply map_ext. intros [l|l|l]; [|reflexivity..]. cbn [as_floats cells_of]. rewrite map_map. reflexivity.
Qed.
Lemma as_floats_dtype cols : (exists l, In (FloatCol l) cols) -> values_dtype (map as_floats cols) = values_dtype cols.
Proof.
  intros (l & Hl). unfold values_dtype.
  assert (T : existsb (fun c => match c with TextCol _ => true | _ => false end) (map as_floats cols) =
              existsb (fun c => match c with TextCol _ => true | _ => false end) cols).
  { clear Hl. induction cols as [|c t IH]; [reflexivity|]. cbn [map existsb]. rewrite IH. now destruct c. }
  rewrite T. clear T. destruct (existsb _ cols); [reflexivity|].
  assert (F : forall cs, In (FloatCol l) cs -> existsb (fun c => match c with FloatCol _ => true | _ => false end) cs = true).
  { intros cs H. apply existsb_exists. exists (FloatCol l). auto. }
  rewrite !F; [reflexivity|exact Hl|]. apply (in_map as_floats) in Hl. exact Hl.
Qed.
Lemma frame_as_floats c alias cols : the_mode c = Unsupervised -> (exists l, In (FloatCol l) cols) ->
  frame c alias cols = frame c alias (map as_floats cols).
Proof. intros Hm Hf. unfold from_dataframe. rewrite Hm, as_floats_cells, as_floats_dtype by exact Hf. reflexivity. Qed.
Lemma int_frame_cut c alias cols : the_mode c = Unsupervised -> fill_missing c = false -> the_flags c = norm_only ->
  (forall col, In col cols -> exists zs, col = IntCol zs /\ nonconstant (map IZR zs)) ->
  exists x, frame c alias cols = ({| ds_x := Some x; ds_y := None; ds_indices := [] |}, None) /\
    Forall2 (fun col out => exists zs ys, col = IntCol zs /\ out = map (fun y => FNum (Some y)) ys /\
      Forall2 (fun z y => (is_max (IZR z) (map IZR zs) -> y = 1%R) /\ (~ is_max (IZR z) (map IZR zs) -> y = 0%R)) zs ys) cols x.
Proof.
  intros Hm Hf Hg Hi.
  assert (D : values_dtype cols = DInt).
  { unfold values_dtype. assert (E : forall p : fcolumn -> bool, (forall zs, p (IntCol zs) = false) -> existsb p cols = false).
    { intros p Hp. destruct (existsb p cols) eqn:E; [|reflexivity]. apply existsb_exists in E. destruct E as (f & If & Pf).
      destruct (Hi f If) as (zs & -> & _). congruence. }
    rewrite !E by reflexivity. reflexivity. }
  assert (C : map (map fcell_of) (map cells_of cols) = map (fun col => map (fun x => FNum (Some x)) (match col with IntCol zs => map IZR zs | _ => [] end)) cols).
  { rewrite map_map. apply map_ext_in. intros col Hc. destruct (Hi col Hc) as (zs & -> & _). cbn [cells_of]. rewrite !map_map. reflexivity. }
  unfold from_dataframe, features. rewrite Hm, Hf, Hg, D, C.
  destruct (prep_total_numeric parse OS norm_only DInt alias
    (map (fun col => map (fun x => FNum (Some x)) (match col with IntCol zs => map IZR zs | _ => [] end)) cols)) as (fs & Ef & _).
  { intros c0 Hc. apply in_map_iff in Hc. destruct Hc as (col & <- & Hc). destruct (Hi col Hc) as (zs & -> & (a & b & Ha & _)).
    split; [destruct zs; [destruct Ha|discriminate]|]. intros x Hx. apply in_map_iff in Hx. destruct Hx as (r & <- & _). eauto. }
  rewrite Ef. exists fs. split; [reflexivity|]. apply prep_local in Ef; [|reflexivity]. clear Hm Hf Hg D C.
  remember (map _ cols) as cs eqn:Ec. revert cols Hi Ec. induction Ef as [|c0 c' cs fs Hc Hcs IH]; intros cols Hi Ec.
  - destruct cols; [constructor|discriminate].
  - destruct cols as [|col cols]; [discriminate|]. cbn [map] in Ec. injection Ec as -> Et. constructor; [|apply IH; [intros; apply Hi; simpl; auto|exact Et]].
    destruct (Hi col (or_introl eq_refl)) as (zs & -> & Hn). destruct (normalised_int_column parse OS alias _ Hn) as (ys & Ey & Hy).
    rewrite Ey in Hc. injection Hc as <-. exists zs, ys. split; [reflexivity|]. split; [reflexivity|].
    assert (G : forall all l ys, Forall2 (fun x y => (is_max x all -> y = 1%R) /\ (~ is_max x all -> y = 0%R)) (map IZR l) ys ->
      Forall2 (fun z y => (is_max (IZR z) all -> y = 1%R) /\ (~ is_max (IZR z) all -> y = 0%R)) l ys).
    { clear. intros all. induction l as [|z l IH]; intros ys Hy; inversion Hy; subst; constructor; auto. }
    apply G, Hy.
Qed.

(** The features of a labelled frame. *)
Lemma frame_split c m alias cols l : the_mode c = Labels m ->
  ds_x (fst (frame c alias (cols ++ [l]))) = ds_x (fst (frame (unlabelled c) alias cols)) /\
  (snd (frame (unlabelled c) alias cols) <> None -> frame c alias (cols ++ [l]) = frame (unlabelled c) alias cols) /\
  (snd (frame (unlabelled c) alias cols) = None ->
   snd (frame c alias (cols ++ [l])) = if is_test c then None else match frame_labels OS ZOrder OR put int_of m l with Ok _ => None | Err e => Some e end).
Proof.
  intros Em. unfold from_dataframe. rewrite Em. cbn [unlabelled the_mode]. rewrite removelast_last, rev_app_distr.
  change (features parse frequent OS (unlabelled c)) with (features parse frequent OS c).
  destruct (features parse frequent OS c (values_dtype cols) alias (map cells_of cols)) as [x|e]; cbn [fst snd ds_x rev app].
  - destruct (is_test c); [split; [reflexivity|split; [congruence|reflexivity]]|].
    destruct (frame_labels OS ZOrder OR put int_of m l) as [[y ci]|e]; cbn; split; try reflexivity; split; congruence.
  - split; [reflexivity|split; [reflexivity|discriminate]].
Qed.

Lemma frame_labelled c m alias cols l x y ci : the_mode c = Labels m -> is_test c = false ->
  frame (unlabelled c) alias cols = ({| ds_x := Some x; ds_y := None; ds_indices := [] |}, None) ->
  frame_labels OS ZOrder OR put int_of m l = Ok (y, ci) ->
  frame c alias (cols ++ [l]) = ({| ds_x := Some x; ds_y := Some (Encoded y); ds_indices := ci |}, None).
Proof.
  intros Em Et Hu Hl. unfold from_dataframe in *. rewrite Em. cbn [unlabelled the_mode] in Hu. rewrite removelast_last, rev_app_distr.
  change (features parse frequent OS (unlabelled c)) with (features parse frequent OS c) in Hu.
  destruct (features parse frequent OS c (values_dtype cols) alias (map cells_of cols)) as [x'|e]; [|discriminate].
  injection Hu as ->. cbn [rev app]. rewrite Et, Hl. reflexivity.
Qed.

Lemma frame_ok_shape c alias cols d : frame (unlabelled c) alias cols = (d, None) ->
  exists x, d = {| ds_x := Some x; ds_y := None; ds_indices := [] |}.
Proof.
  unfold from_dataframe. cbn [unlabelled the_mode].
  destruct (features _ _ _ _ _ _ _) as [x|e]; intros H; [|discriminate]. injection H as <-. eauto.
Qed.

End Load.

(** Float labels that are non-negative whole numbers. *)
Lemma float_put_ok (O : TotalOrder R) labels : (forall a b, leb O a b = true <-> (a <= b)%R) ->
  (forall r, In r labels -> exists n, r = INR n) ->
  forall i j l, i < j -> is_rank O labels l j -> In l labels -> INR i <> l.
Proof.
  intros Ord Whole i j l Hij (sm & Nd & Ls & Hs) Hl E. subst l.
  (* the j smaller labels are among 0, ..., i-1 *)
  assert (Inc : incl sm (map INR (seq 0 i))).
  { intros r Hr. apply Hs in Hr. destruct Hr as (Hin & Hle & Hne). destruct (Whole r Hin) as (n & ->).
    apply Ord in Hle. apply INR_le in Hle. apply in_map. apply in_seq. assert (n <> i) by (intros ->; now apply Hne). lia. }
  apply NoDup_incl_length in Inc; [|exact Nd]. rewrite map_length, seq_length in Inc. lia.
Qed.

Lemma ztrunc_INR n : ztrunc (INR n) = Z.of_nat n.
Proof.
  unfold ztrunc. destruct (Rle_dec 0 (INR n)) as [_|H]; [|elim H; apply pos_INR].
  rewrite INR_IZR_INZ. unfold Int_part. rewrite <- (tech_up (IZR (Z.of_nat n)) (Z.of_nat n + 1)); [lia| |]; rewrite plus_IZR; lra.
Qed.

Lemma float_labels_agree (O : TotalOrder R) mode labels n : (forall a b, leb O a b = true <-> (a <= b)%R) ->
  num_distinct labels n -> n <> 0 -> n <> 2 -> (forall r, In r labels -> exists n, r = INR n) ->
  exists y ci, dataframe_float_labels ZOrder O mode labels = Ok (y, ci) /\ indices_agree O labels y ci.
Proof.
  intros Ord Hd H0 H2 Hw. unfold dataframe_float_labels. rewrite (length_unique_distinct O _ _ Hd).
  destruct (Nat.eqb_spec n 2); [contradiction|].
  assert (Hne : labels <> []).
  { intros ->. destruct Hd as (d & _ & Hl & Hd). destruct d as [|r d]; [simpl in Hl; congruence|]. apply (Hd r); simpl; auto. }
  destruct (categorical_spec O INR (fun r => Some (ztrunc r)) labels Hne (fun i => f_equal Some (ztrunc_INR i)) (float_put_ok O labels Ord Hw))
    as (y & ci & H & Hf & Hk & Hnd). rewrite H. cbn [bind fst snd].
  apply encoder_agree; auto. eapply Forall2_impl; [|exact Hf]. intros l c (k & _ & _ & Hc). exact Hc.
Qed.

(** ** Tensors *)
Lemma concat_singletons {A} (y : list A) : List.concat (map (fun z => [z]) y) = y.
Proof. induction y; simpl; congruence. Qed.

Lemma numbers_of_fill parse frequent (l : list (option R)) :
  forall c, In c (map fcell_of (fillna_col parse frequent (map (option_map CNum) l))) -> exists o, c = FNum o.
Proof.
  intros c Hc. apply in_map_iff in Hc. destruct Hc as (o & <- & Ho). unfold fillna_col in Ho.
  assert (E : exists rs, to_floats parse (map (option_map CNum) l) = Some rs).
  { clear. induction l as [|[q|] t [rs IH]]; simpl; eauto; rewrite IH; eauto. }
  destruct E as (rs & Ers). rewrite Ers in Ho.
  destruct (dropna rs); apply in_map_iff in Ho; destruct Ho as ([q|] & <- & _); simpl; eauto.
Qed.

Lemma fillna_length parse frequent col : length (fillna_col parse frequent col) = length col.
Proof.
  unfold fillna_col. destruct (to_floats parse col) as [rs|] eqn:E.
  - assert (L : length rs = length col).
    { revert rs E. induction col as [|[c|] t IH]; simpl; intros rs E; [now injection E as <-| |].
      - destruct (to_float parse c); [|discriminate]. destruct (to_floats parse t); [|discriminate]. injection E as <-. simpl. now rewrite IH.
      - destruct (to_floats parse t); [|discriminate]. injection E as <-. simpl. now rewrite IH. }
    destruct (dropna rs); unfold fill; now rewrite ?map_length.
  - unfold fill. now rewrite map_length.
Qed.

Lemma tensor_features_total parse frequent OS c x : (forall col, In col x -> col <> []) ->
  exists fs, features parse frequent OS c DFloat true (map (map (option_map CNum)) x) = Ok fs /\ length fs = length x.
Proof.
  intros Ne. unfold features.
  destruct (prep_total_numeric parse OS (the_flags c) DFloat true
    (map (map fcell_of) (if fill_missing c then imputer_call parse frequent (map (map (option_map CNum)) x) else map (map (option_map CNum)) x))) as (fs & E & L).
  - intros col Hc. destruct (fill_missing c).
    + unfold imputer_call in Hc. rewrite !map_map in Hc. apply in_map_iff in Hc. destruct Hc as (l & <- & Hl). split.
      * intros E. apply (f_equal (@List.length fcell)) in E. rewrite map_length, fillna_length, map_length in E.
        apply (Ne l Hl). destruct l; [reflexivity|discriminate].
      * apply numbers_of_fill.
    + rewrite map_map in Hc. apply in_map_iff in Hc. destruct Hc as (l & <- & Hl). split.
      * intros E. apply (Ne l Hl). destruct l; [reflexivity|discriminate].
      * intros v Hv. rewrite map_map in Hv. apply in_map_iff in Hv. destruct Hv as ([r|] & <- & _); simpl; eauto.
  - exists fs. split; [exact E|]. rewrite L, map_length. destruct (fill_missing c); unfold imputer_call; now rewrite ?map_length.
Qed.

Lemma unique_many y n : num_distinct y n -> 2 <= n ->
  exists a b t, np_unique ZOrder y = a :: b :: t /\ (a < b)%Z /\ In a y /\ In b y /\ forall z, In z y -> z = a \/ (b <= z)%Z.
Proof.
  intros Hd Hn. pose proof (length_unique_distinct ZOrder _ _ Hd) as Hl. pose proof (np_unique_sorted ZOrder y) as Hs.
  destruct (np_unique ZOrder y) as [|a [|b t]] eqn:E; simpl in Hl; try lia. exists a, b, t. split; [reflexivity|].
  assert (HI : forall x, In x y <-> In x (a :: b :: t)) by (intros; rewrite <- E; symmetry; apply np_unique_In).
  inversion Hs as [|? ? Hs' Hf]; subst. inversion Hs' as [|? ? _ Hf']; subst. inversion Hf as [|? ? Hab _]; subst.
  apply (ltb_true ZOrder) in Hab. simpl in Hab. destruct Hab as [H1 H2]. apply Z.leb_le in H1.
  split; [lia|]. split; [apply HI; simpl; auto|]. split; [apply HI; simpl; auto|].
  intros z Hz. apply HI in Hz. destruct Hz as [<-|[<-|Hz]]; [auto|right; lia|]. right.
  rewrite Forall_forall in Hf'. specialize (Hf' z Hz). apply (ltb_true ZOrder) in Hf'. simpl in Hf'. apply Z.leb_le. tauto.
Qed.

Lemma unique_few y n : num_distinct y n -> n < 2 -> np_unique ZOrder y = [] \/ exists a, np_unique ZOrder y = [a].
Proof.
  intros Hd Hn. pose proof (length_unique_distinct ZOrder _ _ Hd) as Hl. destruct (np_unique ZOrder y) as [|a [|b t]]; simpl in Hl; eauto; lia.
Qed.

Lemma binary_rows_vector y n : num_distinct y n ->
  (n < 2 -> binary_rows ZOrder (map (fun z => [z]) y) = Err IndexError) /\
  (2 <= n -> exists a b, (a < b)%Z /\ In a y /\ In b y /\ (forall z, In z y -> z = a \/ (b <= z)%Z) /\
     binary_rows ZOrder (map (fun z => [z]) y) = Ok (map (fun z => [z]) y, [(a, 0%Z); (b, 1%Z)])).
Proof.
  intros Hd. unfold binary_rows. rewrite concat_singletons. split; intros Hn.
  - destruct y as [|z y]; [reflexivity|]. cbn [get_at map nth_error bind].
    destruct (unique_few _ _ Hd Hn) as [->|(a & ->)]; reflexivity.
  - destruct (unique_many _ _ Hd Hn) as (a & b & t & E & Hab & Ha & Hb & Hall). exists a, b.
    repeat (split; [assumption|]). rewrite E. destruct y as [|z y]; [destruct Ha|]. reflexivity.
Qed.

(** A vector is described by the two smallest labels only if it holds 0 and 1. *)
Lemma vector_described x y a b : (a < b)%Z -> In a y -> In b y ->
  describes {| ds_x := x; ds_y := Some (Table (map (fun z => [z]) y));
               ds_indices := [(KInt a, CodeInt 0); (KInt b, CodeInt 1)] |} (map KInt y) <->
  (forall z, In z y -> z = 0%Z \/ z = 1%Z).
Proof.
  intros Hab Ha Hb. split.
  - intros (yv & E & D). cbn in E. injection E as <-.
    assert (G : forall z, In z y -> (z = a /\ z = 0%Z) \/ (z = b /\ z = 1%Z)).
    { intros z Hz. destruct (In_nth_error _ _ Hz) as (i & Hi). destruct (D i (KInt z)) as (c & Hc & Hs); [now rewrite nth_error_map, Hi|].
      destruct Hc as (z' & Hz' & ->). rewrite nth_error_map, Hi in Hz'. injection Hz' as <-. cbn in Hs.
      inversion Hs as [k c t E1 E2|k c k' c' t N Hs' E1 E2]; subst; [left; split; [reflexivity|congruence]|].
      inversion Hs' as [k c t E1 E2|k c k' c' t N' Hs'' E1 E2]; subst; [right; split; [reflexivity|congruence]|]. inversion Hs''. }
    intros z Hz. destruct (G z Hz) as [[_ H]|[_ H]]; auto.
  - intros H. assert (a = 0 /\ b = 1)%Z as [-> ->] by (destruct (H a Ha), (H b Hb); lia).
    exists (Table (map (fun z => [z]) y)). split; [reflexivity|]. intros i k Hi. rewrite nth_error_map in Hi.
    destruct (nth_error y i) as [z|] eqn:Ez; [|discriminate]. injection Hi as <-. exists (CodeInt z). split.
    + exists z. now rewrite nth_error_map, Ez.
    + destruct (H z (nth_error_In _ _ Ez)) as [->| ->]; cbn; [constructor|]. constructor; [discriminate|constructor].
Qed.

Lemma categorical_rows_bits rows : (forall r z, In r rows -> In z r -> z = 0%Z \/ z = 1%Z) ->
  In 0%Z (List.concat rows) -> In 1%Z (List.concat rows) ->
  categorical_rows ZOrder rows = Ok (rows, [(0, 0); (1, 1)]%Z).
Proof.
  intros Hb H0 H1. unfold categorical_rows.
  assert (U : np_unique ZOrder (List.concat rows) = [0; 1]%Z).
  { apply (sorted_ext ZOrder).
    - apply np_unique_sorted.
    - repeat constructor.
    - intros z. rewrite np_unique_In. split.
      + intros Hz. apply in_concat in Hz. destruct Hz as (r & Hr & Hz). destruct (Hb r z Hr Hz) as [->| ->]; simpl; auto.
      + intros [<-|[<-|[]]]; auto. }
  rewrite U. destruct rows as [|r rows]; [destruct H0|]. cbn [get_at nth_error bind]. change (enumerate [0; 1]%Z) with [(0, 0%Z); (1, 1%Z)].
  cbn [fold_left fst snd].
  assert (E : forall k (l : list Z), replace_all ZOrder k k l = l).
  { intros k l. unfold replace_all. rewrite <- (map_id l) at 2. apply map_ext. intros z. destruct (eqb ZOrder z k) eqn:Ez; [|reflexivity].
    now apply (eqb_true ZOrder) in Ez. }
  change (Z.of_nat 0) with 0%Z. change (Z.of_nat 1) with 1%Z.
  rewrite !(map_ext _ (fun l => l) (E 0%Z)), !map_id, !(map_ext _ (fun l => l) (E 1%Z)), !map_id. reflexivity.
Qed.
