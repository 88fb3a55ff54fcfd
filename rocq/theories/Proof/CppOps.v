(** Lemmas for C62: probabilities, projection, multipliers, initial centroids,
    target types. *)
From Coq Require Import List ZArith Reals Bool Arith Lia Lra Permutation Sorted.
From Verif.Spec Require Import Gmm Matrix.
From Verif.Model Require Import Base.
From Verif.Model Require Ops KMeans Gmm Bayes Lda Smo Matrix.
From Verif.Model Require Import Cpp.
From Verif.Spec Require Import KMeans Cpp.

From Verif.Proof Require Import BaseLemmas Cpp.
From Verif.Proof Require Ops Determinant.
Import ListNotations.
Local Open Scope R_scope.

(** ** Probabilities *)
Lemma conditional a b c s : conditional_probability a b c s = Bayes.get_conditional_probability a b c s.
Proof.
  unfold conditional_probability, Bayes.get_conditional_probability. destruct s; [|reflexivity].
  destruct (b + c =? 0)%nat; [reflexivity|]. rewrite (plus_INR a 1). reflexivity.
Qed.
Lemma dependent a n k s : (0 < n)%nat ->
  Bayes.get_dependent_prior_probability a n k s = match dependent_prior_probability a n k s with Some p => Ok p | None => Err NotANumber end.
Proof.
  intros Hn. unfold dependent_prior_probability, Bayes.get_dependent_prior_probability. destruct s.
  - destruct (Nat.eqb_spec (n + 2 * k) 0); [lia|reflexivity].
  - destruct (Nat.eqb_spec n 0); [lia|reflexivity].
Qed.
Lemma density rnd x m v : probability_density rnd x m v = Bayes.get_probability_density rnd x m v.
Proof.
  unfold probability_density, Bayes.get_probability_density. destruct (Reqb v 0); [reflexivity|].
  replace (- (x - m) ^ 2 / (2 * v ^ 2)) with (- ((x - m) ^ 2 / (2 * v ^ 2))) by (unfold Rdiv; ring).
  destruct (Reqb _ 0); reflexivity.
Qed.
Lemma non_zero_filter n f : non_zero n f = filter (fun i => negb (Reqb (f i) 0)) (seq 0 n).
Proof.
  unfold non_zero. induction n as [|n IH]; [reflexivity|]. rewrite loop_S, IH, seq_S, filter_app. cbn.
  destruct (Reqb (f n) 0); cbn; [now rewrite app_nil_r|reflexivity].
Qed.
Lemma filter_length_split {A} (p : A -> bool) l : (length l = length (filter p l) + length (filter (fun a => negb (p a)) l))%nat.
Proof. induction l as [|a l IH]; cbn; [reflexivity|]. destruct (p a); cbn; lia. Qed.
Lemma filter_seq_length {A} (l : list A) a (p : A -> bool) : length (filter (fun i => p (nth i l a)) (seq 0 (length l))) = length (filter p l).
Proof.
  assert (E : forall B (f : B -> A) (h : list B), length (filter (fun b => p (f b)) h) = length (filter p (map f h))).
  { clear. intros B f h. induction h as [|b h IH]; cbn; [reflexivity|]. destruct (p (f b)); cbn; congruence. }
  rewrite (E _ (fun i => nth i l a)), map_nth_seq. reflexivity.
Qed.
Lemma negatives y : (length y - length (non_zero (length y) (fun i => IZR (nth i y 0%Z))))%nat = count (fun c => (c =? 0)%Z) y.
Proof.
  rewrite non_zero_filter. rewrite (filter_seq_length y 0%Z (fun z => negb (Reqb (IZR z) 0))). unfold count.
  rewrite (filter_length_split (fun z => (z =? 0)%Z) y) at 1.
  assert (E : filter (fun z => negb (Reqb (IZR z) 0)) y = filter (fun z => negb (z =? 0)%Z) y).
  { apply filter_ext. intros z. f_equal. apply eq_true_iff_eq. rewrite Reqb_true, Z.eqb_eq. split; [apply eq_IZR|now intros ->]. }
  rewrite E. lia.
Qed.
Lemma prior_plain n y : (0 < n)%nat ->
  exists p, prior_probability n y false = Some p /\ Bayes.get_prior_probability n y false = Ok p.
Proof.
  intros Hn. unfold prior_probability, Bayes.get_prior_probability. destruct (Nat.eqb_spec n 0); [lia|].
  rewrite negatives. eexists. split; reflexivity.
Qed.
Lemma prior_smoothed_iff n y :
  (exists p, prior_probability n y true = Some p /\ Bayes.get_prior_probability n y true = Ok p) <->
  length (nodup Z.eq_dec y) = 2%nat.
Proof.
  unfold prior_probability, Bayes.get_prior_probability. rewrite negatives. set (z := count _ y). set (c := length (nodup Z.eq_dec y)).
  split.
  - intros (p & H1 & H2). destruct (Nat.eqb_spec (n + c) 0) as [E|E]; [discriminate|].
    injection H1 as <-. injection H2 as H2 _. rewrite plus_INR in H2. cbn [INR] in H2.
    assert (P : 0 < INR z + 1) by (pose proof (pos_INR z); lra).
    assert (P1 : 0 < INR (n + c)) by (apply lt_0_INR; lia).
    assert (P2 : 0 < INR (n + 2)) by (apply lt_0_INR; lia).
    assert (Q : INR (n + c) = INR (n + 2)).
    { apply (Rmult_eq_reg_l (INR z + 1)); [|lra].
      apply (f_equal (fun v => v * INR (n + c) * INR (n + 2))) in H2.
      replace ((INR z + 1) / INR (n + c) * INR (n + c) * INR (n + 2)) with ((INR z + 1) * INR (n + 2)) in H2 by (field; lra).
      replace ((INR z + 1) / INR (n + 2) * INR (n + c) * INR (n + 2)) with ((INR z + 1) * INR (n + c)) in H2 by (field; lra).
      lra. }
    apply INR_eq in Q. lia.
  - intros E. rewrite E. destruct (Nat.eqb_spec (n + 2) 0); [lia|]. rewrite (plus_INR z 1). eexists. split; reflexivity.
Qed.

(** ** Projection *)
Lemma get_w_eq inv d s mu0 mu1 w : length mu0 = d -> length mu1 = d ->
  nrow (inv (to_mat d s)) = d -> ncol (inv (to_mat d s)) = d ->
  product_is_one d (rows (inv (to_mat d s))) s ->
  Lda.get_w d s mu0 mu1 = Ok w ->
  exists r, get_w inv (to_mat d s) (to_row mu0) (to_row mu1) = Value r /\ rows r = [w].
Proof.
  intros L0 L1 R1 C1 HI HW. unfold Lda.get_w in HW. apply bind_Ok in HW. destruct HW as (M & HM & HW). injection HW as <-.
  pose proof (@Determinant.left_inverse_unique _ _ _ _ HM HI) as U.
  pose proof (@Determinant.inverse_ok _ _ _ HM) as (SQ & _ & _).
  unfold get_w, cwise2. cbn [nrow ncol to_row]. rewrite L0, L1, !Nat.eqb_refl. cbn [andb andthen].
  unfold product. cbn [nrow ncol transpose]. rewrite C1, Nat.eqb_refl. cbn [andthen]. eexists. split; [reflexivity|].
  unfold rows, reshape_row. cbn [nrow ncol coef seq map]. f_equal. rewrite R1, Nat.mul_1_r.
  destruct SQ as [SL SR]. rewrite <- (map_seq_list M [] (fun r => dot r (vsub mu0 mu1))). rewrite SL.
  apply map_ext_in. intros k Hk. apply in_seq in Hk. rewrite Nat.mod_small, Nat.div_small by lia.
  assert (LM : length (nth k M []) = d) by (rewrite Forall_forall in SR; apply SR; apply nth_In; lia).
  rewrite <- dot_sum by (rewrite vsub_length by congruence; congruence). rewrite LM. apply sum_ext.
  intros j Hj. rewrite vsub_nth by congruence. f_equal.
  specialize (U k j ltac:(lia) Hj). unfold entry in U. rewrite <- U.
  unfold rows. rewrite R1, C1, nth_map_seq by lia. rewrite nth_map_seq by lia. reflexivity.
Qed.

(** One feature: the singular value decomposition of a number. *)
Lemma get_w_v2_one (svd : list (list R) -> list (list R) * list R * list (list R)) csvd s m0 m1 u sg v : s <> 0 ->
  svd [[s]] = ([[u]], [sg], [[v]]) -> csvd (to_mat 1 [[s]]) = (to_mat 1 [[u]], fun _ => sg, to_mat 1 [[v]]) ->
  u * u = 1 -> v * v = 1 -> u * sg * v = s ->
  Lda.get_w_v2 svd 1 [[s]] [m0] [m1] = Ok [(m0 - m1) / s] /\
  (exists r, get_w_v2 csvd (to_mat 1 [[s]]) (to_row [m0]) (to_row [m1]) = Value r /\ rows r = [[(m0 - m1) * s]]).
Proof.
  intros Hs E1 E2 Hu Hv Hsg.
  assert (Hg : sg <> 0) by (intros ->; apply Hs; rewrite <- Hsg; ring).
  split.
  - unfold Lda.get_w_v2. rewrite E1. unfold Matrix.inverse, Matrix.det, Lda.diag, Matrix.minor, Matrix.drop_nth, Matrix.sign.
    cbn. rewrite !Rmult_1_r, Rmult_1_l, Rplus_0_r. destruct (Reqb sg 0) eqn:E; [apply Reqb_true in E; contradiction|].
    cbn. unfold vsub, dot. cbn. f_equal. f_equal. rewrite Rplus_0_r.
    assert (Hu0 : u <> 0) by (intros ->; lra). assert (Hv0 : v <> 0) by (intros ->; lra).
    rewrite <- Hsg. apply (Rmult_eq_reg_r (u * sg * v)); [|repeat apply Rmult_integral_contrapositive_currified; auto].
    field_simplify; [|auto..]. replace (v ^ 2) with 1 by (cbn; lra). replace (u ^ 2) with 1 by (cbn; lra). lra.
  - unfold get_w_v2. rewrite E2. cbn. eexists. split; [reflexivity|]. cbn. unfold sum, loop. cbn.
    f_equal. f_equal. rewrite <- Hsg. ring.
Qed.

(** Any number of features: V^T times the singular values times U^T. *)
Lemma pick_sum n k (f : nat -> R) s : (k < n)%nat -> sum n (fun l => f l * (if (l =? k)%nat then s l else 0)) = f k * s k.
Proof.
  induction n as [|n IH]; intros H; [lia|]. rewrite sum_S. destruct (Nat.eqb_spec n k) as [->|N].
  - enough (Z : sum k (fun l => f l * (if (l =? k)%nat then s l else 0)) = 0) by lra.
    clear. assert (forall m, (m <= k)%nat -> sum m (fun l => f l * (if (l =? k)%nat then s l else 0)) = 0) as Z; [|now apply Z].
    induction m as [|m IH]; intros H; [reflexivity|]. rewrite sum_S, IH by lia. destruct (Nat.eqb_spec m k); [lia|lra].
  - rewrite IH by lia. lra.
Qed.
Lemma get_w_v2_value csvd d s mu0 mu1 u sg v : length mu0 = d -> length mu1 = d -> length s = d -> length u = d -> length v = d ->
  csvd (to_mat d s) = (to_mat d u, sg, to_mat d v) ->
  exists r, get_w_v2 csvd (to_mat d s) (to_row mu0) (to_row mu1) = Value r /\
    rows r = [map (fun i => sum d (fun j => sum d (fun k => nth i (nth k v []) 0 * sg k * nth k (nth j u []) 0) * (nth j mu0 0 - nth j mu1 0))) (seq 0 d)].
Proof.
  intros L0 L1 Ls Lu Lv E. unfold get_w_v2. rewrite E. unfold product at 1. cbn [nrow ncol transpose diagonal to_mat]. rewrite Ls, Lv, Nat.eqb_refl. cbn [andthen].
  unfold product at 1. cbn [nrow ncol transpose to_mat]. rewrite Nat.eqb_refl. cbn [andthen].
  unfold cwise2. cbn [nrow ncol to_row]. rewrite L0, L1, !Nat.eqb_refl. cbn [andb andthen].
  unfold product. cbn [nrow ncol transpose]. rewrite Lu, Nat.eqb_refl. cbn [andthen]. eexists. split; [reflexivity|].
  unfold rows, reshape_row. cbn [nrow ncol coef seq map transpose to_mat to_row diagonal]. rewrite Nat.mul_1_r. f_equal.
  apply map_ext_in. intros i Hi. apply in_seq in Hi. rewrite Nat.mod_small by lia.
  apply sum_ext. intros j Hj. f_equal. apply sum_ext. intros k Hk. f_equal. now apply pick_sum.
Qed.

(** ** Scatter matrices *)
Lemma scatter_eq d x mu : rect d x -> x <> [] -> length mu = d ->
  exists m, scatter (to_mat d x) (to_row mu) = Value m /\ nrow m = d /\ ncol m = d /\
            forall i j, (i < d)%nat -> (j < d)%nat -> coef m i j = rsum (map (fun r => (nth i r 0 - nth i mu 0) * (nth j r 0 - nth j mu 0)) x).
Proof.
  intros Hx Hne Hmu.
  assert (B : exists c, broadcast_sub (to_mat d x) (to_row mu) = Value c /\ nrow c = length x /\ ncol c = d /\
     forall i j, (i < length x)%nat -> coef c i j = nth j (nth i x []) 0 - nth j mu 0).
  { unfold broadcast_sub. cbn [nrow ncol coef to_mat to_row]. rewrite Hmu, Nat.eqb_refl, andb_true_r.
    destruct (Nat.eqb_spec (length x) 1) as [E1|E1].
    - eexists. split; [reflexivity|]. cbn. auto.
    - cbn [negb andb]. assert (length x <> 0)%nat by (destruct x; [congruence|cbn; lia]).
      destruct (Nat.ltb_spec 1 (length x)); [|lia]. cbn. eexists. split; [reflexivity|]. cbn. auto. }
  destruct B as (c & Ec & Er & Ecol & Eco). unfold scatter. rewrite Ec. cbn [andthen]. unfold product.
  cbn [nrow ncol transpose]. rewrite Nat.eqb_refl. eexists. split; [reflexivity|]. cbn [nrow ncol coef]. split; [auto|]. split; [auto|].
  intros i j Hi Hj. rewrite Er. cbn [transpose coef].
  rewrite sum_rsum. f_equal. rewrite <- (map_seq_list x [] (fun r => (nth i r 0 - nth i mu 0) * (nth j r 0 - nth j mu 0))).
  apply map_ext_in. intros k Hk. apply in_seq in Hk. rewrite !Eco by lia. reflexivity.
Qed.
Lemma within_eq d x0 x1 mu0 mu1 : rect d x0 -> rect d x1 -> x0 <> [] -> x1 <> [] -> length mu0 = d -> length mu1 = d ->
  exists m, within_class_scatter (to_mat d x0) (to_mat d x1) (to_row mu0) (to_row mu1) = Value m /\
            rows m = Lda.within_class_scatter d x0 x1 mu0 mu1.
Proof.
  intros H0 H1 N0 N1 L0 L1. destruct (scatter_eq d x0 mu0 H0 N0 L0) as (a & Ea & Ra & Ca & Va).
  destruct (scatter_eq d x1 mu1 H1 N1 L1) as (b & Eb & Rb & Cb & Vb).
  unfold within_class_scatter. rewrite Ea, Eb. cbn [andthen]. unfold cwise2. rewrite Ra, Rb, Ca, Cb, !Nat.eqb_refl. cbn [andb].
  eexists. split; [reflexivity|]. unfold rows. cbn [nrow ncol coef]. unfold Lda.within_class_scatter, Lda.scatter_of.
  assert (Z : forall (f g : nat -> list R) l, combine (map f l) (map g l) = map (fun i => (f i, g i)) l).
  { clear. intros f g l. induction l; cbn; congruence. }
  rewrite Z, map_map. apply map_ext_in. intros i Hi. apply in_seq in Hi. cbn [fst snd].
  unfold vadd. assert (Z' : forall (f g : nat -> R) l, combine (map f l) (map g l) = map (fun i => (f i, g i)) l).
  { clear. intros f g l. induction l; cbn; congruence. }
  rewrite Z', map_map. apply map_ext_in. intros j Hj. apply in_seq in Hj. cbn [fst snd]. rewrite Va, Vb by lia. reflexivity.
Qed.

Lemma flag_eqb_1 b : Reqb (flag b) 1 = b.
Proof. destruct b; cbn; [apply Reqb_true; reflexivity|apply Reqb_false; lra]. Qed.
Lemma flag_eqb_0 b : Reqb (flag b) 0 = negb b.
Proof. destruct b; cbn; [apply Reqb_false; lra|apply Reqb_true; reflexivity]. Qed.
Lemma nonzero_filter flags : Ops.nonzero flags = filter (fun i => nth i flags false) (seq 0 (length flags)).
Proof.
  unfold Ops.nonzero, enumerate.
  assert (H : forall (l : list bool) (g : nat -> bool) k, (forall j, (j < length l)%nat -> g (k + j)%nat = nth j l false) ->
     map fst (filter snd (combine (seq k (length l)) l)) = filter g (seq k (length l))).
  { clear. induction l as [|b l IH]; intros g k H; [reflexivity|]. cbn [length seq combine filter snd].
    pose proof (H 0%nat ltac:(cbn; lia)) as E. rewrite Nat.add_0_r in E. cbn [nth] in E. rewrite E.
    rewrite <- (IH g (S k)).
    - destruct b; reflexivity.
    - intros j Hj. replace (S k + j)%nat with (k + S j)%nat by lia. rewrite H by (cbn; lia). reflexivity. }
  apply H. reflexivity.
Qed.
Lemma sub_rows_nonzero {A} (a : A) values flags :
  sub_rows a values (map flag flags) = map (fun i => nth i values a) (Ops.nonzero flags).
Proof.
  rewrite nonzero_filter. unfold sub_rows. rewrite map_length.
  assert (E : forall m, (m <= length flags)%nat ->
    loop m (fun i acc => if Reqb (nth i (map flag flags) 0) 1 then acc ++ [nth i values a] else acc) [] =
    map (fun i => nth i values a) (filter (fun i => nth i flags false) (seq 0 m))).
  { induction m as [|m IH]; intros Hm; [reflexivity|]. rewrite loop_S, IH, seq_S, filter_app, map_app by lia. cbn.
    replace (nth m (map flag flags) 0) with (flag (nth m flags false)) by (symmetry; apply (nth_map_in flag); lia).
    rewrite flag_eqb_1. destruct (nth m flags false); cbn; [reflexivity|now rewrite app_nil_r]. }
  apply E. lia.
Qed.
Lemma error_eq kernel K x y i al flags b :
  (forall rows r, kernel rows r = map (fun q => K q r) rows) ->
  calculate_error kernel x y i al (map flag flags) b = Smo.calculate_error K x y i al flags b.
Proof.
  intros HK. unfold calculate_error, Smo.calculate_error. f_equal.
  rewrite existsb_map. rewrite (existsb_ext_in _ (fun f => f)) by (intros f _; rewrite flag_eqb_0; apply negb_involutive).
  destruct (existsb _ flags); [|reflexivity]. f_equal. rewrite !sub_rows_nonzero, HK, !map_map, map_length.
  set (idx := Ops.nonzero flags). rewrite sum_rsum. f_equal.
  rewrite <- (map_seq_list idx 0%nat (fun m => nth m al 0 * nth m y 0 * K (nth m x []) (nth i x []))).
  apply map_ext_in. intros k Hk. apply in_seq in Hk.
  rewrite (nth_map_in (fun i => nth i al 0) idx k 0 0%nat), (nth_map_in (fun i => nth i y 0) idx k 0 0%nat),
    (nth_map_in (fun m => K (nth m x []) (nth i x [])) idx k 0 0%nat) by lia. reflexivity.
Qed.

(** ** The second multiplier *)
Lemma select_fold (g : nat -> R) (e : nat -> R) l : forall i b ib ix,
  let r := fold_left (fun s i => let '(delta, index, v) := s in if Rltb delta (g i) then (g i, i, e i) else s) l (b, ix, e ix) in
  let k := argmin_from (fun a b => Rltb b a) b ib i (map g l) in
  (k = ib /\ r = (b, ix, e ix) /\ forall j, In j l -> g j <= b) \/
  (exists j, (i <= k)%nat /\ nth_error l (k - i) = Some j /\ snd (fst r) = j /\ snd r = e j /\ b < g j).
Proof.
  induction l as [|x l IH]; intros i b ib ix; cbn [fold_left map argmin_from].
  - left. split; [reflexivity|]. split; [reflexivity|]. intros j [].
  - destruct (Rltb b (g x)) eqn:E.
    + apply Rltb_true in E. specialize (IH (S i) (g x) i x). cbn zeta in IH. right. destruct IH as [(Ek & Er & _)|(j & Hk & Hn & H1 & H2 & H3)].
      * exists x. rewrite Ek, Er. split; [lia|]. rewrite Nat.sub_diag. cbn. auto.
      * exists j. split; [lia|].
        split; [replace (argmin_from (fun a b => Rltb b a) (g x) i (S i) (map g l) - i)%nat with
                  (S (argmin_from (fun a b => Rltb b a) (g x) i (S i) (map g l) - S i)) by lia; exact Hn|].
        split; [exact H1|]. split; [exact H2|lra].
    + apply Rltb_false in E. specialize (IH (S i) b ib ix). cbn zeta in IH. destruct IH as [(Ek & Er & Hl)|(j & Hk & Hn & H1 & H2 & H3)].
      * left. split; [exact Ek|]. split; [exact Er|]. intros j [<-|Hj]; auto.
      * right. exists j. split; [lia|].
        split; [replace (argmin_from (fun a b => Rltb b a) b ib (S i) (map g l) - i)%nat with
                  (S (argmin_from (fun a b => Rltb b a) b ib (S i) (map g l) - S i)) by lia; exact Hn|]. auto.
Qed.
Lemma non_zero_flags flags : non_zero (length (map flag flags)) (fun i => nth i (map flag flags) 0) = Ops.nonzero flags.
Proof.
  rewrite non_zero_filter, nonzero_filter, map_length. apply filter_ext_in. intros i Hi. apply in_seq in Hi.
  rewrite (nth_map_in flag flags i 0 false) by lia. rewrite flag_eqb_0. apply negb_involutive.
Qed.
Lemma mapM_get_nth {A} (l : list A) a idx : Forall (fun i => (i < length l)%nat) idx ->
  mapM (get_at l) idx = Ok (map (fun i => nth i l a) idx).
Proof.
  intros H. apply mapM_total. intros i Hi. rewrite Forall_forall in H. specialize (H i Hi).
  unfold get_at. rewrite (nth_error_nth' l a H). reflexivity.
Qed.
Lemma get_at_nth {A} (l : list A) a i : (i < length l)%nat -> get_at l i = Ok (nth i l a).
Proof. intros H. unfold get_at. rewrite (nth_error_nth' l a H). reflexivity. Qed.
Lemma nonzero_lt flags : Forall (fun i => (i < length flags)%nat) (Ops.nonzero flags).
Proof. rewrite nonzero_filter. apply Forall_forall. intros i Hi. apply filter_In in Hi. destruct Hi as [Hi _]. apply in_seq in Hi. lia. Qed.

Lemma select_both error cache flags first tail : length cache = length flags -> Ops.nonzero flags = first :: tail ->
  ((exists j, In j (Ops.nonzero flags) /\ Rabs (error - nth first cache 0) < Rabs (error - nth j cache 0)) /\
   exists r, select_second_alpha error cache (map flag flags) = Value r /\ Ops.select_second_alpha error cache flags = Ok r) \/
  ((forall j, In j (Ops.nonzero flags) -> Rabs (error - nth j cache 0) <= Rabs (error - nth first cache 0)) /\
   select_second_alpha error cache (map flag flags) = Value (0%nat, nth 0 cache 0) /\
   Ops.select_second_alpha error cache flags = Ok (first, nth first cache 0)).
Proof.
  intros Hl E. pose proof (nonzero_lt flags) as HF. rewrite E, <- Hl in HF.
  pose proof (Forall_inv HF) as Hfirst. cbn beta in Hfirst. pose proof (Forall_inv_tail HF) as Ht.
  set (g := fun i => Rabs (error - nth i cache 0)). set (e := fun i => nth i cache 0).
  pose proof (select_fold g e tail 1 (g first) 0 0) as S. cbn zeta in S.
  assert (C : select_second_alpha error cache (map flag flags) =
              let r := fold_left (fun s i => let '(delta, index, v) := s in if Rltb delta (g i) then (g i, i, e i) else s) tail (g first, 0%nat, e 0%nat) in
              Value (snd (fst r), snd r)).
  { unfold select_second_alpha. rewrite non_zero_flags, E. destruct cache as [|c0 cache']; [cbn in Hfirst; lia|].
    cbn [fold_left]. fold (g first). rewrite Rltb_irr. fold g. fold e. cbn zeta.
    change (fun (s : R * nat * R) (i : nat) => let '(delta, _, _) := s in if Rltb delta (g i) then (g i, i, e i) else s)
      with (fun (s : R * nat * R) (i : nat) => let '(delta, index, v) := s in if Rltb delta (g i) then (g i, i, e i) else s).
    unfold g, e.
    match goal with |- context [fold_left ?f tail ?s] => destruct (fold_left f tail s) as [[q1 q2] q3] end. reflexivity. }
  assert (P : Ops.select_second_alpha error cache flags =
              let k := argmin_from (fun a b => Rltb b a) (g first) 0 1 (map g tail) in
              i <- get_at (first :: tail) k ;; v <- get_at cache i ;; Ok (i, v)).
  { unfold Ops.select_second_alpha. rewrite E, (mapM_get_nth cache 0 _ HF). cbn [bind map]. rewrite map_map.
    unfold argmin. cbn [bind]. reflexivity. }
  cbn zeta in C, P. destruct S as [(Ek & Er & Hle)|(j & Hk & Hn & H1 & H2 & H3)].
  - right. split.
    + intros j Hj. rewrite E in Hj. destruct Hj as [<-|Hj]; [apply Rle_refl|]. apply (Hle j Hj).
    + rewrite C, P, Er, Ek. cbn [fst snd]. split; [reflexivity|].
      rewrite (get_at_nth (first :: tail) 0%nat 0) by (cbn; lia). cbn [bind nth]. rewrite (get_at_nth cache 0 first Hfirst). reflexivity.
  - left. pose proof (nth_error_In _ _ Hn) as Hj. split.
    + exists j. rewrite E. split; [now right|exact H3].
    + exists (j, e j). rewrite C, P, H1, H2. split; [reflexivity|].
      unfold get_at at 1. destruct (argmin_from _ _ _ _ _) as [|k'] eqn:Ek; [lia|].
      cbn [nth_error]. replace (S k' - 1)%nat with k' in Hn by lia. rewrite Hn. cbn [bind].
      rewrite (get_at_nth cache 0 j); [reflexivity|]. rewrite Forall_forall in Ht. now apply Ht.
Qed.
Lemma select_agree_iff error cache flags first tail : length cache = length flags -> Ops.nonzero flags = first :: tail ->
  ends_like (fun r => r) (select_second_alpha error cache (map flag flags)) (Ops.select_second_alpha error cache flags) <->
  first = 0%nat \/ exists j, In j (Ops.nonzero flags) /\ Rabs (error - nth first cache 0) < Rabs (error - nth j cache 0).
Proof.
  intros Hl E. destruct (select_both error cache flags first tail Hl E) as [(Hex & r & -> & ->)|(Hall & -> & ->)].
  - cbn. tauto.
  - cbn. split.
    + intros H. left. congruence.
    + intros [->|(j & Hj & Hlt)]; [reflexivity|]. specialize (Hall j Hj). lra.
Qed.
Lemma select_empty error cache flags : (forall f, In f flags -> f = false) ->
  select_second_alpha error cache (map flag flags) = Undefined /\ Ops.select_second_alpha error cache flags = Err ValueError.
Proof.
  intros H. assert (E : Ops.nonzero flags = []).
  { rewrite nonzero_filter.
    destruct (filter _ _) as [|i l] eqn:F; [reflexivity|]. assert (Hi : In i (i :: l)) by (now left).
    rewrite <- F in Hi. apply filter_In in Hi. destruct Hi as [Hi Hb]. apply in_seq in Hi.
    rewrite (H (nth i flags false)) in Hb; [discriminate|]. apply nth_In. lia. }
  unfold select_second_alpha, Ops.select_second_alpha. rewrite non_zero_flags, E. split; reflexivity.
Qed.

(** ** Sampling *)
Lemma bootstrap_eq {A B} draw (x : list (list A)) (y : list (list B)) :
  (forall n, Forall (fun i => (i < n)%nat) (draw n)) ->
  ends_like (fun p => (fst p, Some (snd p))) (bootstrap1 draw x y [] []) (Ops.bootstrap_sampling draw (Ops.Mat x) (Some (Ops.Mat y))).
Proof.
  intros H. unfold bootstrap1, Ops.bootstrap_sampling. cbn [Ops.as_rows].
  destruct (Nat.eqb_spec (length x) (length y)) as [E|E]; cbn [negb]; [|reflexivity].
  rewrite (mapM_get_nth x []) by apply H. cbn [bind]. rewrite (mapM_get_nth y []) by (rewrite E; apply H). reflexivity.
Qed.
Lemma bootstrap_eq2 {A B} draw (x : list (list A)) : (forall n, Forall (fun i => (i < n)%nat) (draw n)) ->
  Ops.bootstrap_sampling (B := B) draw (Ops.Mat x) None = Ok (bootstrap2 draw x [], None).
Proof. intros H. unfold Ops.bootstrap_sampling. cbn [Ops.as_rows]. rewrite (mapM_get_nth x []) by apply H. reflexivity. Qed.

(** ** Initial centroids *)
Lemma init_random_eq draw d x n : x <> [] -> (forall a b, Forall (fun i => (i < a)%nat) (draw a b)) ->
  ends_like (fun c => c) (init_centroids draw d x n Ops.InitRandom) (Ops.init_centroids draw d x n Ops.InitRandom).
Proof.
  intros Hx H. unfold init_centroids, Ops.init_centroids. destruct (Nat.eqb_spec (length x) 0) as [E|E]; [destruct x; [congruence|discriminate]|].
  rewrite (mapM_get_nth x []) by apply H. reflexivity.
Qed.
Lemma firstn_nth_seq (l : list R) d : (d <= length l)%nat -> firstn d l = map (fun j => nth j l 0) (seq 0 d).
Proof.
  intros H. rewrite <- (map_nth_seq (firstn d l) 0), firstn_length, Nat.min_l by lia.
  apply map_ext_in. intros j Hj. apply in_seq in Hj. rewrite <- (firstn_skipn d l) at 2. rewrite app_nth1; [reflexivity|].
  rewrite firstn_length. lia.
Qed.
Lemma nth_skipn (l : list R) k j : nth j (skipn k l) 0 = nth (k + j) l 0.
Proof. revert k. induction l as [|x l IH]; intros [|k]; cbn; auto; destruct j; auto. Qed.
Lemma chunk_rows d l : forall n, length l = (n * d)%nat ->
  Ops.chunk n d l = map (fun i => map (fun j => nth (i * d + j) l 0) (seq 0 d)) (seq 0 n).
Proof.
  intros n. revert l. induction n as [|n IH]; intros l H; [reflexivity|]. cbn [Ops.chunk seq map]. f_equal.
  - rewrite firstn_nth_seq by (cbn in H; lia). reflexivity.
  - rewrite IH by (rewrite skipn_length; cbn in H; lia). rewrite <- seq_shift, map_map. apply map_ext. intros i.
    apply map_ext. intros j. rewrite nth_skipn. f_equal. lia.
Qed.
Lemma init_explicit_eq draw d x n r c data : (2 <= r)%nat -> (2 <= c)%nat -> (r * c <> n)%nat ->
  length (Ops.flat_reals data) = (r * c)%nat ->
  let a := Ops.InitArray {| Ops.shape := [r; c]; Ops.data := data |} in
  ends_like (fun c => c) (init_centroids draw d x n a) (Ops.init_centroids draw d x n a).
Proof.
  intros Hr Hc Hn Hl a. unfold init_centroids, Ops.init_centroids, a, array_mat. cbn [Ops.shape Ops.data nrow ncol].
  rewrite Ops.squeeze_id by (intros k [<-|[<-|[]]]; lia). unfold Ops.shape_eqb.
  destruct (list_eq_dec Nat.eq_dec [r; c] [n; d]) as [E|E].
  - injection E as -> ->. rewrite !Nat.eqb_refl. cbn [negb andb ends_like]. unfold rows. cbn [nrow ncol coef].
    symmetry. apply chunk_rows. exact Hl.
  - cbn [negb]. destruct (Nat.eqb_spec r n) as [->|]; destruct (Nat.eqb_spec c d) as [->|]; try congruence; cbn [andb];
      (destruct (Nat.eqb_spec (r * c) n) || destruct (Nat.eqb_spec (n * c) n) || destruct (Nat.eqb_spec (r * d) n)); try lia; reflexivity.
Qed.
Lemma reshape_column k l : map (coef (reshape_row {| nrow := k; ncol := 1; coef := fun i _ => nth i l 0 |}) 0) (seq 0 k) = map (fun i => nth i l 0) (seq 0 k).
Proof. apply map_ext_in. intros i Hi. apply in_seq in Hi. cbn. rewrite Nat.mod_small by lia. reflexivity. Qed.
Lemma Int_part_IZR z : Int_part (IZR z) = z.
Proof.
  unfold Int_part. pose proof (archimed (IZR z)) as [H1 H2]. apply lt_IZR in H1.
  assert (up (IZR z) <= z + 1)%Z; [|lia]. apply le_IZR. rewrite plus_IZR. lra.
Qed.
Lemma min_max_existsb l mn mx b : np_min l = Ok mn -> np_max l = Ok mx ->
  existsb (fun v => Rleb b v) l = Rleb b mx /\ existsb (fun v => Rltb v 0) l = Rltb mn 0.
Proof.
  intros H1 H2. pose proof (Ops.min_max_bounds _ _ _ H1 H2) as B.
  assert (Hmn : In mn l) by (destruct l; [discriminate|]; injection H1 as <-; apply rmin1_In).
  assert (Hmx : In mx l) by (destruct l; [discriminate|]; injection H2 as <-; apply rmax1_In).
  split; apply eq_true_iff_eq; rewrite existsb_exists.
  - split.
    + intros (v & Hv & Hb). apply Rleb_true in Hb. apply Rleb_true. specialize (B v Hv). lra.
    + intros H. exists mx. auto.
  - split.
    + intros (v & Hv & Hb). apply Rltb_true in Hb. apply Rltb_true. specialize (B v Hv). lra.
    + intros H. exists mn. auto.
Qed.
Lemma init_index_eq draw d x n l : (2 <= length l)%nat -> (2 <= d)%nat ->
  let a := Ops.InitArray {| Ops.shape := [length l]; Ops.data := Ops.Ints l |} in
  ends_like (fun c => c) (init_centroids draw d x n a) (Ops.init_centroids draw d x n a).
Proof.
  intros Hl Hd a. unfold init_centroids, Ops.init_centroids, a, array_mat. cbn [Ops.shape Ops.data nrow ncol Ops.flat_reals].
  rewrite Ops.squeeze_id by (intros k [<-|[]]; lia).
  destruct (Nat.eqb_spec 1 d); [lia|]. rewrite andb_false_r, Nat.mul_1_r.
  destruct (Nat.eqb_spec (length l) n) as [E|E]; cbn [negb]; [|reflexivity]. subst n.
  destruct (Nat.eqb_spec (length l) 0); [lia|].
  rewrite reshape_column. replace (map (fun i => nth i (map IZR l) 0) (seq 0 (length l))) with (map IZR l)
    by (rewrite <- (map_length IZR l); symmetry; apply map_nth_seq).
  destruct (np_min (map IZR l)) as [mn|] eqn:E1; [|destruct l; [cbn in Hl; lia|discriminate]].
  destruct (np_max (map IZR l)) as [mx|] eqn:E2; [|destruct l; [cbn in Hl; lia|discriminate]]. cbn [bind].
  destruct (min_max_existsb _ _ _ (INR (length x)) E1 E2) as [-> ->].
  rewrite (orb_comm (Rltb mn 0)). destruct (Rleb _ mx || Rltb mn 0) eqn:EB; [reflexivity|].
  apply orb_false_iff in EB. destruct EB as [B1 B2]. apply Rleb_false in B1. apply Rltb_false in B2.
  rewrite (mapM_total _ (fun z => nth (Z.to_nat z) x [])).
  - cbn [ends_like]. rewrite map_map. apply map_ext. intros z. rewrite Int_part_IZR. reflexivity.
  - intros z Hz. apply get_at_nth. destruct (Ops.min_max_bounds _ _ _ E1 E2 (IZR z)) as [C1 C2]; [now apply in_map|].
    apply INR_lt. assert (0 <= z)%Z by (apply le_IZR; lra). rewrite INR_IZR_INZ, Z2Nat.id by lia. lra.
Qed.
(** Where they differ. *)
Lemma init_one_cluster draw d x data : length (Ops.flat_reals data) = d ->
  let a := Ops.InitArray {| Ops.shape := [1%nat; d]; Ops.data := data |} in
  init_centroids draw d x 1 a = Value [Ops.flat_reals data] /\ Ops.init_centroids draw d x 1 a = Err ValueError.
Proof.
  intros Hl a. split; [|apply Ops.init_one_cluster].
  unfold init_centroids, a, array_mat. cbn [Ops.shape Ops.data nrow ncol]. rewrite !Nat.eqb_refl. cbn [andb]. f_equal.
  unfold rows. cbn [nrow ncol coef seq map]. f_equal. rewrite <- Hl. apply map_nth_seq.
Qed.
Lemma init_one_feature draw x idx : (2 <= length idx)%nat -> Forall (fun i => (i < length x)%nat) idx ->
  let a := Ops.InitArray {| Ops.shape := [length idx]; Ops.data := Ops.Ints (map Z.of_nat idx) |} in
  init_centroids draw 1 x (length idx) a = Value (map (fun i => [INR i]) idx) /\
  Ops.init_centroids draw 1 x (length idx) a = Ok (map (fun i => nth i x []) idx).
Proof.
  intros Hl Hf a. split.
  - unfold init_centroids, a, array_mat. cbn [Ops.shape Ops.data nrow ncol Ops.flat_reals]. rewrite !Nat.eqb_refl. cbn [andb]. f_equal.
    unfold rows. cbn [nrow ncol coef seq map].
    rewrite <- (map_seq_list idx 0%nat (fun i => [INR i])). apply map_ext_in. intros i Hi. apply in_seq in Hi.
    rewrite map_map, (nth_map_in (fun z => IZR (Z.of_nat z)) idx i 0 0%nat) by lia. rewrite <- INR_IZR_INZ. reflexivity.
  - destruct (Ops.init_indices draw 1 x (length idx) idx Hl eq_refl Hf) as (c & Ec & Fc). unfold a. rewrite Ec. f_equal.
    clear -Fc. induction Fc as [|i r idx c H F IH]; [reflexivity|]. cbn. f_equal; auto. now rewrite (nth_error_nth _ _ _ H).
Qed.

(** ** Types of targets *)
Section Target.
Context {A B : Type} (O : TotalOrder A) (same : B -> B -> bool) (kept : A -> B) (frac whole : A -> bool).
Hypothesis same_spec : forall a b, same a b = true <-> a = b.
Lemma kept_length l : (forall a b, In a l -> In b l -> kept a = kept b -> a = b) ->
  length (unique_set same (map kept l)) = length (np_unique O l).
Proof.
  intros Hinj. rewrite <- (map_length kept (np_unique O l)). apply unique_set_length; auto.
  - pose proof (np_unique_NoDup O l) as N.
    assert (Hi : forall a, In a (np_unique O l) -> In a l) by (intros a; apply np_unique_In).
    induction N as [|a u Ha Hu IH]; cbn; constructor.
    + intros Hin. apply in_map_iff in Hin. destruct Hin as (b & E & Hb). apply Ha.
      rewrite (Hinj a b); auto; apply Hi; cbn; auto.
    + apply IH. intros; apply Hi; cbn; auto.
  - intros b. rewrite !in_map_iff. split; intros (a & E & Ha); exists a; split; auto; now apply (np_unique_In O l a).
Qed.
Lemma target_eq k y : (forall a b, In a (Ops.elements y) -> In b (Ops.elements y) -> kept a = kept b -> a = b) ->
  (forall a, In a (Ops.elements y) -> whole a = negb (frac a)) -> (forall a, y <> Ops.A0 a) ->
  ends_like (fun t => t) (type_of_target same kept whole true k y) (Ops.type_of_target O frac k y).
Proof.
  intros Hinj Hw H0. pose proof (kept_length _ Hinj) as L.
  assert (F : negb (forallb whole (Ops.elements y)) = existsb frac (Ops.elements y)).
  { revert Hw. generalize (Ops.elements y). induction l as [|a l IH]; intros Hw; [reflexivity|]. cbn.
    rewrite negb_andb, IH by (intros; apply Hw; cbn; auto). rewrite Hw by (cbn; auto). now rewrite negb_involutive. }
  unfold type_of_target, Ops.type_of_target.
  destruct k; [reflexivity| |]; (destruct y as [a|l|c r|l]; [exfalso; apply (H0 a); reflexivity| | |reflexivity]); rewrite F, L; cbn [andb];
    try (destruct (existsb frac _); [reflexivity|]); cbn [negb andb ends_like];
    try (destruct (c =? 1)%nat); cbn [andb]; repeat (destruct (_ =? 2)%nat; [reflexivity|]); repeat (destruct (2 <? _)%nat; [reflexivity|]); reflexivity.
Qed.
(** Two different elements of which the same part is kept. *)
Lemma target_confused a b : a <> b -> kept a = kept b -> 
  type_of_target same kept whole true Ops.KOther (Ops.A1 [a; b]) = Value Ops.Unknown /\
  Ops.type_of_target O frac Ops.KOther (Ops.A1 [a; b]) = Ok Ops.Binary.
Proof.
  intros Hne Hk. split.
  - unfold type_of_target. cbn [Ops.elements map andb negb]. unfold unique_set, set_insert. cbn [fold_left existsb].
    rewrite Hk. rewrite (proj2 (same_spec (kept b) (kept b)) eq_refl). reflexivity.
  - unfold Ops.type_of_target. cbn [Ops.elements andb]. 
    assert (E : length (np_unique O [a; b]) = 2%nat).
    { apply (Permutation_length (l' := [a; b])). apply NoDup_Permutation.
      - apply np_unique_NoDup.
      - repeat constructor; cbn; intuition congruence.
      - intros z. apply np_unique_In. }
    rewrite E. reflexivity.
Qed.
End Target.
