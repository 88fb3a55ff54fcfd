(** Lemmas for C62: loops, sums and conversions. *)
From Coq Require Import List ZArith Reals Bool Arith Lia Lra Permutation Sorted.
From Verif.Model Require Import Base.
From Verif.Model Require Ops KMeans Gmm Bayes Lda Smo.
From Verif.Model Require Import Cpp.
From Verif.Spec Require Import KMeans Cpp.
From Verif.Proof Require Import BaseLemmas.
Import ListNotations.
Local Open Scope R_scope.

(** ** Loops *)
Lemma loop_S {S} n (body : nat -> S -> S) s : loop (Datatypes.S n) body s = body n (loop n body s).
Proof. unfold loop. rewrite seq_S, fold_left_app. reflexivity. Qed.
Lemma loop_0 {S} (body : nat -> S -> S) s : loop 0 body s = s.
Proof. reflexivity. Qed.
Lemma sum_S n f : sum (S n) f = sum n f + f n.
Proof. unfold sum. rewrite loop_S. reflexivity. Qed.
Lemma sum_0 f : sum 0 f = 0.
Proof. reflexivity. Qed.
Lemma sum_rsum n f : sum n f = rsum (map f (seq 0 n)).
Proof.
  induction n as [|n IH]; [reflexivity|]. rewrite sum_S, IH, seq_S, map_app, rsum_app. cbn. lra.
Qed.
Lemma sum_ext n f g : (forall i, (i < n)%nat -> f i = g i) -> sum n f = sum n g.
Proof. intros H. rewrite !sum_rsum. apply rsum_ext. intros i Hi. apply in_seq in Hi. apply H. lia. Qed.
Lemma sum_shift n f : sum (S n) f = f 0%nat + sum n (fun i => f (S i)).
Proof. rewrite !sum_rsum. cbn [seq map]. rewrite <- seq_shift, map_map. reflexivity. Qed.

Lemma map_nth_seq {A} (l : list A) a : map (fun i => nth i l a) (seq 0 (length l)) = l.
Proof.
  induction l as [|x l IH]; [reflexivity|]. cbn [length seq map nth]. f_equal.
  rewrite <- seq_shift, map_map. exact IH.
Qed.
Lemma map_seq_combine {A B C} (l : list A) (m : list B) a b (f : A -> B -> C) : length l = length m ->
  map (fun i => f (nth i l a) (nth i m b)) (seq 0 (length l)) = map (fun p => f (fst p) (snd p)) (combine l m).
Proof.
  revert m. induction l as [|x l IH]; intros [|y m] H; try discriminate; [reflexivity|].
  cbn [length seq map nth combine fst snd]. f_equal. rewrite <- seq_shift, map_map. apply IH. now injection H.
Qed.
Lemma map_seq_list {A B} (l : list A) a (f : A -> B) : map (fun i => f (nth i l a)) (seq 0 (length l)) = map f l.
Proof. rewrite <- (map_map (fun i => nth i l a) f), map_nth_seq. reflexivity. Qed.

Lemma sum_list l : sum (length l) (fun i => nth i l 0) = rsum l.
Proof. now rewrite sum_rsum, map_nth_seq. Qed.
Lemma sum_combine {A B} (l : list A) (m : list B) a b f : length l = length m ->
  sum (length l) (fun i => f (nth i l a) (nth i m b)) = rsum (map (fun p => f (fst p) (snd p)) (combine l m)).
Proof. intros H. rewrite sum_rsum. f_equal. now apply map_seq_combine. Qed.
Lemma dot_sum a b : length a = length b -> sum (length a) (fun k => nth k a 0 * nth k b 0) = dot a b.
Proof.
  revert b. induction a as [|x a IH]; intros [|y b] H; try discriminate; [reflexivity|].
  cbn [length]. rewrite sum_shift. cbn [nth dot]. rewrite IH; auto.
Qed.
Lemma vsub_nth a b k : length a = length b -> (k < length a)%nat -> nth k (vsub a b) 0 = nth k a 0 - nth k b 0.
Proof.
  revert b k. induction a as [|x a IH]; intros [|y b] k H Hk; try discriminate; [cbn in Hk; lia|].
  destruct k; cbn; [reflexivity|]. apply IH; [now injection H|cbn in Hk; lia].
Qed.
Lemma vsub_length a b : length a = length b -> length (vsub a b) = length a.
Proof. intros H. unfold vsub. rewrite map_length, combine_length. lia. Qed.
Lemma sqnorm_sum a b : length a = length b -> sum (length a) (fun k => (nth k a 0 - nth k b 0) ^ 2) = sqnorm (vsub a b).
Proof.
  intros H. unfold sqnorm. rewrite <- dot_sum by reflexivity. rewrite vsub_length by auto. apply sum_ext.
  intros k Hk. rewrite vsub_nth by auto. cbn. lra.
Qed.

(** ** Conversions *)
Lemma rect_nth d x i : rect d x -> (i < length x)%nat -> length (nth i x []) = d.
Proof. intros H Hi. unfold rect in H. rewrite Forall_forall in H. apply H. now apply nth_In. Qed.
Lemma rows_to_mat d x : rect d x -> rows (to_mat d x) = x.
Proof.
  intros H. unfold rows. cbn [nrow ncol coef to_mat].
  rewrite <- (map_nth_seq x []) at 2. apply map_ext_in. intros i Hi. apply in_seq in Hi.
  rewrite <- (rect_nth d x i H) by lia. apply map_nth_seq.
Qed.
Lemma rows_ext a b : nrow a = nrow b -> ncol a = ncol b ->
  (forall i j, (i < nrow a)%nat -> (j < ncol a)%nat -> coef a i j = coef b i j) -> rows a = rows b.
Proof.
  intros H1 H2 H. unfold rows. rewrite <- H1, <- H2. apply map_ext_in. intros i Hi. apply in_seq in Hi.
  apply map_ext_in. intros j Hj. apply in_seq in Hj. apply H; lia.
Qed.
Lemma rows_map2 d x f : rect d x -> rows (cwise f (to_mat d x)) = map (map f) x.
Proof.
  intros H. unfold rows. cbn [nrow ncol coef to_mat cwise].
  rewrite <- (map_seq_list x [] (map f)). apply map_ext_in. intros i Hi. apply in_seq in Hi.
  rewrite <- (rect_nth d x i H) at 1 by lia. apply map_seq_list.
Qed.
Lemma rows_of {A} (l : list A) a m (f : A -> nat -> R) : nrow m = length l ->
  (forall i j, (i < length l)%nat -> (j < ncol m)%nat -> coef m i j = f (nth i l a) j) ->
  rows m = map (fun r => map (f r) (seq 0 (ncol m))) l.
Proof.
  intros H1 H. unfold rows. rewrite H1. rewrite <- (map_seq_list l a (fun r => map (f r) (seq 0 (ncol m)))).
  apply map_ext_in. intros i Hi. apply in_seq in Hi. apply map_ext_in. intros j Hj. apply in_seq in Hj. apply H; lia.
Qed.

(** ** Distances and clusters *)
Lemma distances d x c : rect d x -> rect d c ->
  map (map Some) (rows (euclidean_distance (to_mat d x) (to_mat d c))) = KMeans.calculate_euclidean_distance x (map Some c).
Proof.
  intros Hx Hc. unfold KMeans.calculate_euclidean_distance.
  rewrite (rows_of x [] _ (fun r j => sqrt (sqnorm (vsub r (nth j c []))))).
  - rewrite map_map. apply map_ext. intros r. cbn [ncol euclidean_distance to_mat nrow].
    rewrite !map_map. rewrite <- (map_seq_list c [] (fun v => KMeans.distance r (Some v))). reflexivity.
  - reflexivity.
  - intros i j Hi Hj. cbn [ncol euclidean_distance to_mat nrow coef] in *.
    f_equal. pose proof (rect_nth d x i Hx Hi) as L. pose proof (rect_nth d c j Hc Hj) as L'.
    rewrite <- L at 1. rewrite sqnorm_sum by congruence. reflexivity.
Qed.

Lemma skipn_nth_cons {A} (L : list A) a i : (i < length L)%nat -> skipn i L = nth i L a :: skipn (S i) L.
Proof.
  revert L. induction i as [|i IH]; intros [|x L] Hn; cbn in Hn; try lia; [reflexivity|].
  cbn [skipn nth]. rewrite (IH L) by lia. reflexivity.
Qed.
Lemma argmin_fold {A} (lt : A -> A -> bool) (L : list A) a : forall n i ib, (length L - i = n)%nat ->
  argmin_from lt (nth ib L a) ib i (skipn i L) =
  fold_left (fun b j => if lt (nth j L a) (nth b L a) then j else b) (seq i n) ib.
Proof.
  induction n as [|n IH]; intros i ib Hn.
  - rewrite skipn_all2 by lia. reflexivity.
  - assert (E : skipn i L = nth i L a :: skipn (S i) L).
    { apply skipn_nth_cons. lia. }
    rewrite E. cbn [argmin_from seq fold_left]. destruct (lt (nth i L a) (nth ib L a)); apply IH; lia.
Qed.
Lemma arg_extreme_argmin (before : R -> R -> bool) l : (forall v, before v v = false) -> l <> [] ->
  argmin before l = Ok (arg_extreme before (length l) (fun j => nth j l 0)).
Proof.
  intros Hirr Hl. destruct l as [|x l]; [congruence|]. unfold argmin, arg_extreme, loop. f_equal.
  pose proof (argmin_fold before (x :: l) 0 (length l) 1 0 ltac:(cbn; lia)) as E. cbn [nth skipn] in E. rewrite E.
  cbn [length seq fold_left nth]. rewrite Hirr. reflexivity.
Qed.
Lemma argmin_some (l : list R) : argmin KMeans.nan_lt (map Some l) = argmin Rltb l.
Proof.
  assert (H : forall l b ib i, argmin_from KMeans.nan_lt (Some b) ib i (map Some l) = argmin_from Rltb b ib i l).
  { clear. induction l as [|v l IH]; intros b ib i; [reflexivity|]. cbn. destruct (Rltb v b); apply IH. }
  destruct l as [|v l]; [reflexivity|]. cbn. f_equal. apply H.
Qed.
Lemma Rltb_irr v : Rltb v v = false.
Proof. apply Rltb_false. lra. Qed.
Lemma arg_extreme_ext before n f g : (0 < n)%nat -> (forall j, (j < n)%nat -> f j = g j) -> arg_extreme before n f = arg_extreme before n g.
Proof.
  intros Hn H. unfold arg_extreme.
  assert (Q : forall m, (m <= n)%nat -> loop m (fun j b => if before (f j) (f b) then j else b) 0%nat =
              loop m (fun j b => if before (g j) (g b) then j else b) 0%nat /\
              (loop m (fun j b => if before (g j) (g b) then j else b) 0%nat < n)%nat).
  { induction m as [|m IH]; intros Hm; [split; [reflexivity|cbn; lia]|]. rewrite !loop_S.
    destruct IH as [E L]; [lia|]. rewrite E. rewrite (H m), (H _ L) by lia. split; [reflexivity|].
    destruct (before _ _); lia. }
  apply Q. lia.
Qed.
Lemma clusters n m : (0 < n)%nat -> rect n m ->
  KMeans.get_cluster (map (map Some) m) = Ok (arg_min_rows (to_mat n m)).
Proof.
  intros Hn Hm. unfold KMeans.get_cluster, arg_min_rows. cbn [nrow ncol coef to_mat].
  rewrite (mapM_total _ (fun r => match argmin KMeans.nan_lt r with Ok k => k | _ => 0%nat end)).
  - f_equal. rewrite map_map. rewrite <- (map_seq_list m [] (fun r => match argmin KMeans.nan_lt (map Some r) with Ok k => k | _ => 0%nat end)).
    apply map_ext_in. intros i Hi. apply in_seq in Hi. pose proof (rect_nth n m i Hm ltac:(lia)) as L.
    rewrite argmin_some, (arg_extreme_argmin Rltb); [|apply Rltb_irr|intros E; rewrite E in L; cbn in L; lia].
    rewrite L. reflexivity.
  - intros r Hr. apply in_map_iff in Hr. destruct Hr as (r0 & <- & Hr). unfold rect in Hm. rewrite Forall_forall in Hm.
    rewrite argmin_some, (arg_extreme_argmin Rltb); [reflexivity|apply Rltb_irr|].
    intros ->. specialize (Hm [] Hr). cbn in Hm. lia.
Qed.

(** ** Sets *)
Section Unique.
Context {A : Type} (same : A -> A -> bool).
Hypothesis same_spec : forall a b, same a b = true <-> a = b.
Lemma unique_set_spec l : NoDup (unique_set same l) /\ forall a, In a (unique_set same l) <-> In a l.
Proof.
  unfold unique_set.
  assert (H : forall l s, NoDup s -> NoDup (fold_left (fun s a => set_insert same a s) l s) /\
              forall a, In a (fold_left (fun s a => set_insert same a s) l s) <-> In a l \/ In a s).
  { clear l. induction l as [|x l IH]; intros s Hs; [cbn; tauto|]. cbn [fold_left].
    unfold set_insert at 2 4. destruct (existsb (same x) s) eqn:E.
    - destruct (IH s Hs) as [N I]. split; [exact N|]. intros a. rewrite I. cbn.
      apply existsb_exists in E. destruct E as (z & Hz & Ez). apply same_spec in Ez. subst z.
      split; [tauto|]. intros [[->|]|]; tauto.
    - assert (Hx : ~ In x s).
      { intros Hx. assert (existsb (same x) s = true); [|congruence]. apply existsb_exists. exists x. split; auto. now apply same_spec. }
      destruct (IH (x :: s)) as [N I]; [constructor; auto|]. split; [exact N|]. intros a. rewrite I. cbn. tauto. }
  destruct (H l []) as [N I]; [constructor|]. split; [exact N|]. intros a. rewrite I. cbn. tauto.
Qed.
Lemma unique_set_length l l' : NoDup l' -> (forall a, In a l' <-> In a l) -> length (unique_set same l) = length l'.
Proof.
  intros N I. destruct (unique_set_spec l) as [N' I']. apply Permutation_length. apply NoDup_Permutation; auto.
  intros a. rewrite I', I. reflexivity.
Qed.
End Unique.

(** ** Centroids *)
Lemma firstn_S_nth {A} (l : list A) m a : (m < length l)%nat -> firstn (S m) l = firstn m l ++ [nth m l a].
Proof.
  revert m. induction l as [|x l IH]; intros m Hm; cbn in Hm; [lia|]. destruct m; [reflexivity|].
  cbn [firstn nth app]. f_equal. apply IH. lia.
Qed.
Lemma combine_app {A B} (a a' : list A) (b b' : list B) : length a = length b -> combine (a ++ a') (b ++ b') = combine a b ++ combine a' b'.
Proof.
  revert b. induction a as [|x a IH]; intros [|y b] H; try discriminate; [reflexivity|]. cbn. f_equal. apply IH. now injection H.
Qed.
Lemma members_S x cl k m : (m < length x)%nat -> length cl = length x ->
  KMeans.members (firstn (S m) x) (firstn (S m) cl) k =
  KMeans.members (firstn m x) (firstn m cl) k ++ (if (nth m cl 0 =? k)%nat then [nth m x []] else []).
Proof.
  intros Hm Hl. unfold KMeans.members. rewrite (firstn_S_nth x m []), (firstn_S_nth cl m 0%nat) by lia.
  rewrite combine_app by (rewrite !firstn_length; lia). rewrite filter_app, map_app. f_equal. cbn.
  destruct (nth m cl 0 =? k)%nat; reflexivity.
Qed.
Lemma centroids_eq d x cl : rect d x -> length cl = length x -> centroids (to_mat d x) cl = KMeans.calculate_centroids d x cl.
Proof.
  intros Hx Hl. unfold centroids, KMeans.calculate_centroids.
  rewrite (unique_set_length Nat.eqb Nat.eqb_eq cl (nodup Nat.eq_dec cl)) by (try apply NoDup_nodup; intros; apply nodup_In).
  apply map_ext. intros k. cbn [nrow ncol coef to_mat].
  match goal with |- context [loop _ ?b ?s] => set (body := b); set (s0 := s) end.
  assert (Q : forall m, (m <= length x)%nat -> loop m body s0 =
     (map (fun j => rsum (column 0 (KMeans.members (firstn m x) (firstn m cl) k) j)) (seq 0 d),
      length (KMeans.members (firstn m x) (firstn m cl) k))).
  { induction m as [|m IH]; intros Hm.
    - cbn. reflexivity.
    - rewrite loop_S, IH by lia. unfold body. rewrite members_S by lia. destruct (nth m cl 0 =? k)%nat.
      + cbn [fst snd]. f_equal.
        * apply map_ext_in. intros j Hj. apply in_seq in Hj. rewrite nth_map_seq by lia.
          unfold column. rewrite map_app, rsum_app. cbn. lra.
        * rewrite app_length. cbn. lia.
      + rewrite app_nil_r. reflexivity. }
  rewrite Q by lia. rewrite !firstn_all2 by lia.
  unfold KMeans.mean_rows. destruct (KMeans.members x cl k) as [|r rs]; [reflexivity|].
  cbn [length Nat.eqb]. f_equal. rewrite map_map. apply map_ext. intros j. unfold rmean, column. rewrite map_length. reflexivity.
Qed.

(** ** Means *)
Lemma numbers_mapM {A B} (f : A -> result B) (g : A -> option B) l :
  (forall a, In a l -> match g a with Some b => f a = Ok b | None => f a = Err NotANumber end) ->
  numbers_like (map g l) (mapM f l).
Proof.
  induction l as [|a l IH]; intros H; [reflexivity|]. cbn [map mapM].
  pose proof (H a (or_introl eq_refl)) as Ha. specialize (IH (fun b Hb => H b (or_intror Hb))).
  destruct (g a) as [b|]; rewrite Ha; cbn [bind].
  - destruct (mapM f l) as [m|e]; cbn in *; [now f_equal|]. destruct e; auto.
  - cbn. now left.
Qed.
Lemma means_eq d n x gamma : rect d x -> rect n gamma -> length gamma = length x ->
  numbers_like (means (to_mat d x) (to_mat n gamma)) (Gmm.calculate_means d n x gamma).
Proof.
  intros Hx Hg Hl. unfold means, Gmm.calculate_means. cbn [nrow ncol coef to_mat]. apply numbers_mapM.
  intros i Hi. apply in_seq in Hi. unfold Gmm.weighted_mean.
  assert (Es : sum (length gamma) (fun j => nth i (nth j gamma []) 0) = rsum (column 0 gamma i)).
  { rewrite sum_rsum. unfold column. f_equal. apply (map_seq_list gamma [] (fun r => nth i r 0)). }
  rewrite Es. destruct (Reqb _ 0); [reflexivity|]. f_equal.
  match goal with |- context [loop _ ?b ?s] => set (body := b); set (s0 := s) end.
  assert (Q : forall m, loop m body s0 = map (fun k => sum m (fun j => nth i (nth j gamma []) 0 * nth k (nth j x []) 0)) (seq 0 d)).
  { induction m as [|m IH]; [reflexivity|]. rewrite loop_S, IH. unfold body. apply map_ext_in. intros k Hk. apply in_seq in Hk.
    rewrite nth_map_seq by lia. rewrite sum_S. reflexivity. }
  rewrite Q, map_map. apply map_ext. intros k. f_equal.
  rewrite sum_rsum. f_equal. symmetry. apply (map_seq_combine x gamma [] [] (fun r g => nth i g 0 * nth k r 0)). congruence.
Qed.

(** ** Differences *)
Lemma max_loop_spec tol n f a : tol < loop n (fun j s => if Rltb s (f j) then f j else s) a <-> tol < a \/ exists j, (j < n)%nat /\ tol < f j.
Proof.
  induction n as [|n IH].
  - rewrite loop_0. split; [tauto|]. intros [|(j & Hj & _)]; [auto|lia].
  - rewrite loop_S. destruct (Rltb _ (f n)) eqn:E.
    + apply Rltb_true in E. split.
      * intros H. right. exists n. split; [lia|auto].
      * intros [H|(j & Hj & H)].
        -- apply Rlt_trans with (2 := E). apply IH. now left.
        -- destruct (Nat.eq_dec j n) as [->|]; auto. apply Rlt_trans with (2 := E). apply IH. right. exists j. split; [lia|auto].
    + apply Rltb_false in E. rewrite IH. split.
      * intros [H|(j & Hj & H)]; [auto|]. right. exists j. split; [lia|auto].
      * intros [H|(j & Hj & H)]; [auto|]. destruct (Nat.eq_dec j n) as [->|]; [|right; exists j; split; [lia|auto]].
        apply IH. lra.
Qed.
Lemma existsb_seq {A B} (l : list A) (m : list B) a b (f : A -> B -> bool) : length l = length m ->
  existsb (fun i => f (nth i l a) (nth i m b)) (seq 0 (length l)) = existsb (fun p => f (fst p) (snd p)) (combine l m).
Proof.
  intros H.
  assert (E : forall C (g : C -> bool) (h : list C), existsb g h = existsb (fun b => b) (map g h)).
  { clear. intros C g h. induction h; cbn; congruence. }
  rewrite (E _ _ (seq _ _)), (E _ _ (combine _ _)). f_equal. now apply map_seq_combine.
Qed.
Lemma existsb_map {A B} (f : A -> B) (g : B -> bool) l : existsb g (map f l) = existsb (fun a => g (f a)) l.
Proof. induction l; cbn; congruence. Qed.
Lemma existsb_ext_in {A} (f g : A -> bool) l : (forall a, In a l -> f a = g a) -> existsb f l = existsb g l.
Proof. induction l as [|a l IH]; intros H; cbn; [reflexivity|]. rewrite H, IH; cbn; auto. intros; apply H; cbn; auto. Qed.

Lemma max_loop_existsb tol n f : (0 < n)%nat ->
  Rltb tol (loop n (fun j s => if Rltb s (f j) then f j else s) (f 0%nat)) = existsb (fun j => Rltb tol (f j)) (seq 0 n).
Proof.
  intros Hn. apply eq_true_iff_eq. rewrite Rltb_true, max_loop_spec, existsb_exists. split.
  - intros [H|(j & Hj & H)]; [exists 0%nat|exists j]; rewrite in_seq, Rltb_true; split; auto; lia.
  - intros (j & Hj & H). apply in_seq in Hj. apply Rltb_true in H. right. exists j. split; [lia|auto].
Qed.
Lemma compare1 d c0 c1 tol : (0 < d)%nat -> rect d c0 -> rect d c1 -> length c0 = length c1 ->
  KMeans.compare_differences_any (map Some c0) (map Some c1) tol =
  Ok (existsb (fun b => b) (compare_differences1 (to_mat d c0) (to_mat d c1) tol)).
Proof.
  intros Hd H0 H1 Hl. unfold KMeans.compare_differences_any. rewrite !map_length, Hl, Nat.eqb_refl. f_equal.
  unfold compare_differences1. cbn [nrow ncol coef to_mat]. rewrite existsb_map.
  transitivity (existsb (fun p => KMeans.differ tol (Some (fst p)) (Some (snd p))) (combine c0 c1)).
  { clear. revert c1. induction c0 as [|a c0 IH]; intros [|b c1]; cbn; auto. f_equal. apply IH. }
  rewrite <- (existsb_seq c0 c1 [] [] (fun u v => KMeans.differ tol (Some u) (Some v)) Hl).
  apply existsb_ext_in. intros i Hi. apply in_seq in Hi.
  pose proof (rect_nth d c0 i H0 ltac:(lia)) as L0. pose proof (rect_nth d c1 i H1 ltac:(lia)) as L1.
  rewrite (max_loop_existsb tol d (fun j => Rabs (nth j (nth i c0 []) 0 - nth j (nth i c1 []) 0))) by auto.
  cbn [KMeans.differ]. rewrite <- L0 at 1. symmetry.
  apply (existsb_seq (nth i c0 []) (nth i c1 []) 0 0 (fun u v => Rltb tol (Rabs (u - v)))). congruence.
Qed.

Lemma found_loop d f : loop d (fun k found => if found : bool then found else f k) false = existsb f (seq 0 d).
Proof.
  induction d as [|d IH]; [reflexivity|]. rewrite loop_S, IH, seq_S, existsb_app. cbn.
  rewrite orb_false_r. destruct (existsb f (seq 0 d)); reflexivity.
Qed.
Lemma compare2 n d (s0 s1 : list (list (list R))) tol : length s0 = n -> length s1 = n ->
  Forall (fun m => length m = d /\ rect d m) s0 -> Forall (fun m => length m = d /\ rect d m) s1 ->
  existsb (existsb (fun b => b)) (compare_differences2 n d (fun i j k => nth k (nth j (nth i s0 []) []) 0)
                                                           (fun i j k => nth k (nth j (nth i s1 []) []) 0) tol) =
  existsb (fun p => existsb (fun q => Gmm.far tol (fst q) (snd q)) (combine (fst p) (snd p))) (combine s0 s1).
Proof.
  intros L0 L1 H0 H1. unfold compare_differences2. rewrite existsb_map.
  rewrite <- (existsb_seq s0 s1 [] [] (fun a b => existsb (fun q => Gmm.far tol (fst q) (snd q)) (combine a b))) by congruence.
  rewrite L0. apply existsb_ext_in. intros i Hi. apply in_seq in Hi.
  rewrite Forall_forall in H0, H1. destruct (H0 (nth i s0 [])) as [A0 B0]; [apply nth_In; lia|].
  destruct (H1 (nth i s1 [])) as [A1 B1]; [apply nth_In; lia|].
  rewrite existsb_map. rewrite <- (existsb_seq (nth i s0 []) (nth i s1 []) [] [] (fun a b => Gmm.far tol a b)) by congruence.
  rewrite A0. apply existsb_ext_in. intros j Hj. apply in_seq in Hj. rewrite found_loop.
  unfold Gmm.far. rewrite <- (existsb_seq (nth j (nth i s0 []) []) (nth j (nth i s1 []) []) 0 0 (fun a b => Rltb tol (Rabs (a - b)))).
  - rewrite (rect_nth d _ j B0) by lia. reflexivity.
  - rewrite (rect_nth d _ j B0), (rect_nth d _ j B1) by lia. reflexivity.
Qed.
