(** Lemmas for C62: convex hull, metrics, losses, activations, kernels. *)
From Coq Require Import List ZArith Reals Bool Arith Lia Lra Permutation Sorted.
From Verif.Model Require Import Base.
From Verif.Model Require Hull Metrics Activations Kernels.
From Verif.Model Require Import Cpp.
From Verif.Spec Require Import KMeans Cpp.
From Verif.Proof Require Import BaseLemmas Cpp CppOps.
From Verif.Proof Require Hull.
From Verif.Model Require Hull.
Import ListNotations.
Local Open Scope R_scope.

(** ** Convex hull *)
Lemma slope_same s p : slope s p = Model.Hull.get_slope s p.
Proof.
  unfold slope, Model.Hull.get_slope. destruct (Reqb (fst s) (fst p)) eqn:E; [reflexivity|].
  apply Reqb_false in E. f_equal. field. split; lra.
Qed.
Lemma erase_pop st : forall fuel p, (length st <= fuel)%nat -> erase fuel (rev st ++ [p]) = rev (p :: Model.Hull.pop_loop p st).
Proof.
  induction st as [|b st IH]; intros fuel p Hf.
  - destruct fuel; reflexivity.
  - destruct fuel as [|fuel]; [cbn in Hf; lia|]. destruct st as [|a rest].
    + reflexivity.
    + cbn [erase]. set (h := rev (b :: a :: rest) ++ [p]).
      assert (Eh : h = rev rest ++ [a; b; p]) by (unfold h; cbn; rewrite <- !app_assoc; reflexivity).
      assert (Ln : length h = (length (rev rest) + 3)%nat) by (rewrite Eh, app_length; reflexivity).
      rewrite Ln. replace (length (rev rest) + 3 - 3)%nat with (length (rev rest)) by lia.
      replace (length (rev rest) + 3 - 2)%nat with (length (rev rest) + 1)%nat by lia.
      replace (length (rev rest) + 3 - 1)%nat with (length (rev rest) + 2)%nat by lia.
      rewrite Eh.
      rewrite (app_nth2 (rev rest) [a; b; p] (0, 0)) by lia.
      rewrite (app_nth2 (rev rest) [a; b; p] (n := length (rev rest) + 1) (0, 0)) by lia.
      rewrite (app_nth2 (rev rest) [a; b; p] (n := length (rev rest) + 2) (0, 0)) by lia.
      replace (length (rev rest) - length (rev rest))%nat with 0%nat by lia.
      replace (length (rev rest) + 1 - length (rev rest))%nat with 1%nat by lia.
      replace (length (rev rest) + 2 - length (rev rest))%nat with 2%nat by lia. cbn [nth].
      destruct (Nat.ltb_spec 2 (length (rev rest) + 3)); [|lia]. cbn [andb].
      change (cross a b p) with (Model.Hull.get_cross_product a b p). cbn [Model.Hull.pop_loop].
      destruct (Rltb (Model.Hull.get_cross_product a b p) 0).
      * rewrite firstn_app_2, skipn_app. cbn [firstn]. rewrite skipn_all2 by lia.
        replace (length (rev rest) + 2 - length (rev rest))%nat with 2%nat by lia. cbn [skipn app].
        change (rev rest ++ [a]) with (rev (a :: rest)). rewrite (IH fuel p) by (cbn in *; lia). reflexivity.
      * cbn [rev]. rewrite <- !app_assoc. reflexivity.
Qed.
Lemma hull_scan start pts : fold_left (fun hull p => erase (length hull) (hull ++ [p])) pts [start] = rev (Model.Hull.scan start pts).
Proof.
  unfold Model.Hull.scan.
  assert (H : forall l st, fold_left (fun hull p => erase (length hull) (hull ++ [p])) l (rev st) =
                           rev (fold_left (fun st p => p :: Model.Hull.pop_loop p st) l st)).
  { induction l as [|p l IH]; intros st; [reflexivity|]. cbn [fold_left]. rewrite erase_pop by (rewrite rev_length; lia). apply IH. }
  apply (H pts [start]).
Qed.
Lemma sorted_perm_unique {A} (le : A -> A -> Prop) l1 : forall l2, Permutation l1 l2 ->
  StronglySorted le l1 -> StronglySorted le l2 -> (forall x y, In x l1 -> In y l1 -> le x y -> le y x -> x = y) -> l1 = l2.
Proof.
  induction l1 as [|x l1 IH]; intros l2 P S1 S2 Anti.
  - apply Permutation_nil in P. now subst.
  - destruct l2 as [|y l2]; [symmetry in P; apply Permutation_nil in P; discriminate|].
    inversion S1 as [|? ? S1' F1]; subst. inversion S2 as [|? ? S2' F2]; subst. rewrite Forall_forall in F1, F2.
    assert (E : x = y).
    { assert (Hx : In x (y :: l2)) by (eapply Permutation_in; [exact P|now left]).
      assert (Hy : In y (x :: l1)) by (eapply Permutation_in; [apply Permutation_sym; exact P|now left]).
      destruct Hx as [|Hx]; [auto|]. destruct Hy as [|Hy]; [auto|].
      apply Anti; [now left|now right|now apply F1|now apply F2]. }
    subst y. f_equal. apply IH; auto; [eapply Permutation_cons_inv; eauto|]. intros; apply Anti; cbn; auto.
Qed.
Lemma slope_lt_leb a b : slope_lt b a = false <-> Model.Hull.slope_leb a b = true.
Proof.
  destruct a as [a|], b as [b|]; cbn; try (split; congruence).
  rewrite Rltb_false, Rleb_true. reflexivity.
Qed.
Lemma hull_eq by_x by_slope points s rest p0 : sorts_by_slope by_slope ->
  by_x points = s :: p0 :: rest -> distinct_slopes s (p0 :: rest) ->
  ends_like (fun h => h) (convex_hull by_x by_slope points) (Model.Hull.compute_convex_hull by_x points).
Proof.
  intros HS HE HD. unfold convex_hull, Model.Hull.compute_convex_hull. rewrite HE. cbn zeta. cbn [ends_like].
  rewrite hull_scan.
  assert (E : by_slope s (p0 :: rest) = Model.Hull.stable_sort (fun p q => Model.Hull.slope_leb (Model.Hull.get_slope s p) (Model.Hull.get_slope s q)) (p0 :: rest)).
  { destruct (HS s (p0 :: rest)) as [P S].
    apply (sorted_perm_unique (fun p q => slope_lt (slope s q) (slope s p) = false)).
    - rewrite <- P. apply Hull.stable_sort_perm.
    - exact S.
    - pose proof (Hull.stable_sort_sorted (fun p q => Model.Hull.slope_leb (Model.Hull.get_slope s p) (Model.Hull.get_slope s q))
        (fun p q => Hull.slope_leb_total _ _) (fun p q r => Hull.slope_leb_trans _ _ _) (fun _ _ => True) (p0 :: rest)) as Q.
      assert (T : StronglySorted (fun _ _ : R * R => True) (p0 :: rest)).
      { clear. generalize (p0 :: rest). induction l; constructor; auto. apply Forall_forall. auto. }
      specialize (Q T).
      clear -Q. induction Q as [|a l Q IH F]; constructor; auto. rewrite Forall_forall in *. intros z Hz.
      destruct (F z Hz) as [L _]. apply slope_lt_leb. rewrite !slope_same. exact L.
    - intros p q Hp Hq H1 H2. apply slope_lt_leb in H1. apply slope_lt_leb in H2.
      assert (Es : slope s p = slope s q).
      { revert H1 H2. destruct (slope s p) as [u|], (slope s q) as [v|]; cbn; try congruence.
        rewrite !Rleb_true. intros. f_equal. lra. }
      assert (Hp' : In p (p0 :: rest)) by (eapply Permutation_in; [apply Permutation_sym; exact P|auto]).
      assert (Hq' : In q (p0 :: rest)) by (eapply Permutation_in; [apply Permutation_sym; exact P|auto]).
      clear -HD Hp' Hq' Es. unfold distinct_slopes in HD. revert HD Hp' Hq'. generalize (p0 :: rest). clear p0 rest.
      induction l as [|a l IH]; intros N Hp Hq; [destruct Hp|]. cbn in N. inversion N as [|? ? N1 N2]; subst.
      destruct Hp as [<-|Hp], Hq as [<-|Hq]; auto.
      + exfalso. apply N1. rewrite Es. now apply in_map.
      + exfalso. apply N1. rewrite <- Es. now apply in_map. }
  rewrite E. f_equal. f_equal.
  unfold Model.Hull.scan.
  match goal with |- nth 0 (rev ?l) _ = _ => assert (Hl : exists l', l = l' ++ [s]) end.
  { match goal with |- context [fold_left _ ?l [s]] => generalize l end. intros l.
    assert (H : forall l st, (exists l', st = l' ++ [s]) -> exists l', fold_left (fun st p => p :: Model.Hull.pop_loop p st) l st = l' ++ [s]).
    { clear. induction l as [|p l IH]; intros st H; [exact H|]. cbn. apply IH.
      assert (Q : forall st, (exists l', st = l' ++ [s]) -> exists l', Model.Hull.pop_loop p st = l' ++ [s]).
      { clear. induction st as [|b st IH]; intros (l' & E); [destruct l'; discriminate|].
        destruct st as [|a st]; [exists l'; exact E|]. cbn [Model.Hull.pop_loop].
        destruct (Rltb _ 0); [|exists l'; exact E]. apply IH. destruct l' as [|z l']; [discriminate|]. injection E as _ E. exists l'. exact E. }
      destruct (Q st H) as (l' & ->). exists (p :: l'). reflexivity. }
    apply H. exists []. reflexivity. }
  destruct Hl as (l' & ->). rewrite rev_app_distr. reflexivity.
Qed.
Lemma hull_single by_x by_slope points p : sorts_by_slope by_slope -> by_x points = [p] ->
  convex_hull by_x by_slope points = Value [p; p] /\ Model.Hull.compute_convex_hull by_x points = Err IndexError.
Proof.
  intros HS HE. unfold convex_hull, Model.Hull.compute_convex_hull. rewrite HE. destruct (HS p []) as [P _].
  apply Permutation_nil in P. rewrite P. split; reflexivity.
Qed.

(** ** Metrics *)
Lemma wrong_loop n (w : nat -> bool) a : loop n (fun i s => if w i then s - 1 else s) a = a - INR (length (filter w (seq 0 n))).
Proof.
  induction n as [|n IH]; [rewrite loop_0; cbn [seq filter length INR]; lra|]. rewrite loop_S, IH, seq_S, filter_app, app_length, plus_INR.
  rewrite Nat.add_0_l. cbn [filter]. destruct (w n); cbn [length INR]; lra.
Qed.
Lemma filter_seq_combine {A B} (l : list A) (m : list B) a b (f : A -> B -> bool) : length l = length m ->
  length (filter (fun i => f (nth i l a) (nth i m b)) (seq 0 (length l))) = length (filter (fun p => f (fst p) (snd p)) (combine l m)).
Proof.
  intros H.
  assert (E : forall C (g : C -> bool) (h : list C), length (filter g h) = length (filter (fun b => b) (map g h))).
  { clear. intros C g h. induction h as [|x h IH]; cbn; [reflexivity|]. destruct (g x); cbn; congruence. }
  rewrite (E _ _ (seq _ _)), (E _ _ (combine _ _)). do 2 f_equal. now apply map_seq_combine.
Qed.
Lemma wrong_same p z : (Rltb p (/ 2) && Reqb (IZR z) 1) || (Rleb (/ 2) p && Reqb (IZR z) 0) || (Rleb (/ 2) p && Reqb (IZR z) (-1)) =
  Metrics.counted_wrong p z.
Proof.
  unfold Metrics.counted_wrong.
  assert (E : forall k, Reqb (IZR z) (IZR k) = (z =? k)%Z).
  { intros k. apply eq_true_iff_eq. rewrite Reqb_true, Z.eqb_eq. split; [apply eq_IZR|now intros ->]. }
  rewrite (E 1%Z), (E 0%Z), (E (-1)%Z). reflexivity.
Qed.
Lemma quotient_nat a n : n <> 0%nat -> quotient a (INR n) = Some (a / INR n).
Proof. intros H. unfold quotient. destruct (Reqb (INR n) 0) eqn:E; [apply Reqb_true in E; now apply not_0_INR in H|reflexivity]. Qed.
Lemma binary_accuracy_eq p t : length p = length t -> p <> [] ->
  exists v, binary_accuracy (to_column p) (to_column (map IZR t)) = Value (Some v) /\ Metrics.binary_accuracy p t = Ok v.
Proof.
  intros Hl Hp. unfold binary_accuracy, same_shape. cbn [nrow ncol to_column coef]. rewrite map_length, Hl, !Nat.eqb_refl. cbn [negb andb].
  change (1 <? 1)%nat with false. cbn [andb]. rewrite Nat.mul_1_r, wrong_loop.
  assert (N : length t <> 0%nat) by (destruct p; [congruence|cbn in Hl; lia]).
  rewrite quotient_nat by auto. eexists. split; [reflexivity|]. unfold Metrics.binary_accuracy.
  destruct p as [|p0 p]; [congruence|]. rewrite Hl. f_equal. f_equal. f_equal. f_equal. unfold count.
  rewrite <- (filter_seq_combine (p0 :: p) t 0 0%Z Metrics.counted_wrong Hl). rewrite Hl. f_equal. apply filter_ext_in.
  intros i Hi. apply in_seq in Hi. rewrite <- wrong_same. rewrite (nth_map_in IZR t i 0 0%Z) by lia. reflexivity.
Qed.
Lemma binary_accuracy_empty : binary_accuracy (to_column []) (to_column []) = Value None /\ Metrics.binary_accuracy [] [] = Err ZeroDivisionError.
Proof. split; [|reflexivity]. unfold binary_accuracy. cbn. unfold quotient. rewrite (proj2 (Reqb_true 0 0)) by reflexivity. reflexivity. Qed.
Lemma binary_accuracy_lengths p t : length p <> length t -> p <> [] ->
  binary_accuracy (to_column p) (to_column (map IZR t)) = Throws ValueError /\ exists v, Metrics.binary_accuracy p t = Ok v.
Proof.
  intros Hl Hp. split.
  - unfold binary_accuracy, same_shape. cbn [nrow ncol to_column]. rewrite map_length. destruct (Nat.eqb_spec (length p) (length t)); [contradiction|reflexivity].
  - destruct p; [congruence|]. eexists. reflexivity.
Qed.
Lemma argmax_eq c m i : (0 < c)%nat -> rect c m -> (i < length m)%nat ->
  Metrics.argmax (nth i m []) = Ok (arg_extreme (fun a b => Rltb b a) c (coef (to_mat c m) i)).
Proof.
  intros Hc Hm Hi. pose proof (rect_nth c m i Hm Hi) as L. unfold Metrics.argmax. rewrite arg_extreme_argmin.
  - rewrite L. reflexivity.
  - intros v. apply Rltb_irr.
  - intros E. rewrite E in L. cbn in L. lia.
Qed.
Lemma mapM_argmax c m : (0 < c)%nat -> rect c m ->
  mapM Metrics.argmax m = Ok (map (fun i => arg_extreme (fun a b => Rltb b a) c (coef (to_mat c m) i)) (seq 0 (length m))).
Proof.
  intros Hc Hm.
  rewrite (mapM_total _ (fun r => match Metrics.argmax r with Ok k => k | _ => 0%nat end)).
  - f_equal. rewrite <- (map_seq_list m [] (fun r => match Metrics.argmax r with Ok k => k | _ => 0%nat end)).
    apply map_ext_in. intros i Hi. apply in_seq in Hi. rewrite (argmax_eq c m i) by (auto; lia). reflexivity.
  - intros r Hr. apply (In_nth _ _ []) in Hr. destruct Hr as (i & Hi & <-). rewrite (argmax_eq c m i) by auto. reflexivity.
Qed.
Lemma categorical_accuracy_eq c p t : (0 < c)%nat -> rect c p -> rect c t -> length p = length t -> p <> [] ->
  exists v, categorical_accuracy (to_mat c p) (to_mat c t) = Value (Some v) /\ Metrics.categorical_accuracy p t = Ok v.
Proof.
  intros Hc Hp Ht Hl Hne. unfold categorical_accuracy, same_shape. cbn [nrow ncol to_mat]. rewrite Hl, !Nat.eqb_refl. cbn [negb andb].
  destruct (Nat.eqb_spec c 0); [lia|]. cbn [andb].
  assert (N : length t <> 0%nat) by (destruct p; [congruence|cbn in Hl; lia]).
  rewrite quotient_nat by auto. eexists. split; [reflexivity|].
  unfold Metrics.categorical_accuracy. rewrite (mapM_argmax c p Hc Hp), (mapM_argmax c t Hc Ht). cbn [bind].
  rewrite !map_length, !seq_length, Hl, Nat.eqb_refl.
  destruct (map _ (seq 0 (length t))) as [|q qs] eqn:E0.
  { apply (f_equal (@length nat)) in E0. rewrite map_length, seq_length in E0. cbn in E0. lia. }
  rewrite <- E0. clear E0 q qs. f_equal. f_equal. rewrite wrong_loop.
  set (f := fun i => arg_extreme (fun a b => Rltb b a) c (coef (to_mat c t) i)).
  set (g := fun i => arg_extreme (fun a b => Rltb b a) c (coef (to_mat c p) i)).
  unfold count.
  assert (Z : forall (l : list nat), length (filter (fun q => (fst q =? snd q)%nat) (combine (map g l) (map f l))) = length (filter (fun i => (g i =? f i)%nat) l)).
  { clear. induction l as [|a l IH]; [reflexivity|]. cbn. destruct (g a =? f a)%nat; cbn; congruence. }
  rewrite Z. pose proof (filter_length_split (fun i => (g i =? f i)%nat) (seq 0 (length t))) as S. rewrite seq_length in S.
  rewrite (filter_ext (fun i => negb (g i =? f i)%nat) (fun i => negb (f i =? g i)%nat)) in S by (intros; now rewrite Nat.eqb_sym).
  rewrite S at 2. rewrite plus_INR. unfold f, g. lra.
Qed.
(** Class numbers instead of one-hot rows. *)
Lemma accuracy_class_numbers c p l : (2 <= c)%nat -> rect c p -> length p = length l -> p <> [] ->
  accuracy (to_mat c p) (to_column (map IZR l)) = Throws ValueError /\ exists v, Metrics.accuracy c p (Metrics.Labels l) = Ok v.
Proof.
  intros Hc Hp Hl Hne. split.
  - unfold accuracy, categorical_accuracy, same_shape. cbn [nrow ncol to_mat to_column].
    destruct (Nat.eqb_spec c 1); [lia|]. reflexivity.
  - unfold Metrics.accuracy. destruct (Nat.eqb_spec c 1); [lia|]. unfold Metrics.categorical_accuracy.
    rewrite (mapM_argmax c p) by (auto; lia). cbn [bind].
    rewrite (mapM_argmax 1 (map (fun z => [IZR z]) l)) by (try lia; apply Forall_forall; intros r Hr; apply in_map_iff in Hr; destruct Hr as (z & <- & _); reflexivity).
    cbn [bind]. rewrite ?map_length, ?seq_length, ?map_length, ?Hl, Nat.eqb_refl.
    destruct (map _ (seq 0 (length l))) eqn:E0; [|eexists; reflexivity].
    apply (f_equal (@length nat)) in E0. rewrite map_length, seq_length in E0. destruct p; [congruence|cbn in Hl, E0; lia].
Qed.

(** ** Losses *)
Lemma total_column f n : total {| nrow := n; ncol := 1; coef := fun i _ => f i |} = sum n f.
Proof. unfold total. cbn [nrow ncol coef]. rewrite sum_S, sum_0. apply Rplus_0_l. Qed.
Lemma sum_plus n f g : sum n (fun i => f i + g i) = sum n f + sum n g.
Proof. rewrite !sum_rsum. apply rsum_map_plus. Qed.
Lemma sum_zero n : sum n (fun _ => 0) = 0.
Proof. induction n; [reflexivity|]. rewrite sum_S, IHn. lra. Qed.
Lemma sum_swap n m f : sum n (fun i => sum m (fun j => f i j)) = sum m (fun j => sum n (fun i => f i j)).
Proof.
  induction n as [|n IH].
  - rewrite sum_0. rewrite (sum_ext m _ (fun _ => 0)) by (intros; apply sum_0). now rewrite sum_zero.
  - rewrite sum_S, IH. rewrite <- sum_plus. apply sum_ext. intros j _. now rewrite sum_S.
Qed.
Lemma rsum_concat l : rsum (List.concat l) = rsum (map rsum l).
Proof. induction l as [|a l IH]; [reflexivity|]. cbn [List.concat map]. rewrite rsum_app, IH. reflexivity. Qed.
Lemma total_rows m : total m = rsum (List.concat (rows m)).
Proof.
  unfold total. rewrite sum_swap, rsum_concat, sum_rsum. unfold rows. rewrite map_map. f_equal. apply map_ext. intros i. apply sum_rsum.
Qed.
Lemma cwise2_rows c f a b : rect c a -> rect c b -> length a = length b ->
  exists m, cwise2 f (to_mat c a) (to_mat c b) = Value m /\ nrow m = length a /\ ncol m = c /\ rows m = Activations.mzip f a b.
Proof.
  intros Ha Hb Hl. unfold cwise2. cbn [nrow ncol to_mat]. rewrite <- Hl, !Nat.eqb_refl. cbn [andb]. eexists. split; [reflexivity|].
  split; [reflexivity|]. split; [reflexivity|]. unfold rows, Activations.mzip. cbn [nrow ncol coef].
  rewrite <- (map_seq_combine a b [] [] (fun u v => Activations.zip2 f u v) Hl). apply map_ext_in. intros i Hi. apply in_seq in Hi.
  pose proof (rect_nth c a i Ha ltac:(lia)) as La. pose proof (rect_nth c b i Hb ltac:(lia)) as Lb.
  unfold Activations.zip2. rewrite <- (map_seq_combine (nth i a []) (nth i b []) 0 0 f) by congruence. rewrite La. reflexivity.
Qed.
Lemma log_ok_false c m : rect c m -> log_ok false (to_mat c m) = negb (existsb (existsb (fun p => Rleb p 0)) m).
Proof.
  intros Hm. unfold log_ok. cbn [nrow ncol coef to_mat].
  assert (N : forall A (f : A -> bool) l, negb (existsb f l) = forallb (fun a => negb (f a)) l).
  { clear. intros A f l. induction l as [|a l IH]; [reflexivity|]. cbn. now rewrite negb_orb, IH. }
  assert (F : forall A B (l : list A) a (g : A -> B) (h : B -> bool), forallb (fun i => h (g (nth i l a))) (seq 0 (length l)) = forallb (fun x => h (g x)) l).
  { clear. intros A B l a g h.
    assert (E : forall C (f : C -> bool) k, forallb f k = forallb (fun b => b) (map f k)) by (intros C f k; induction k; cbn; congruence).
    rewrite E, (E _ _ l). f_equal. apply (map_seq_list l a (fun x => h (g x))). }
  rewrite N. rewrite <- (F _ _ m [] (fun r => r) (fun r => negb (existsb (fun p => Rleb p 0) r))).
  assert (G : forall l f g, (forall i, In i l -> f i = g i) -> @forallb nat f l = forallb g l).
  { clear. induction l as [|a l IH]; intros f g H; [reflexivity|]. cbn. rewrite H, (IH f g); cbn; auto. intros; apply H; cbn; auto. }
  apply G. intros i Hi. apply in_seq in Hi. rewrite N. rewrite <- (rect_nth c m i Hm) at 1 by lia.
  rewrite <- (F _ _ (nth i m []) 0 (fun r => r) (fun r => negb (Rleb r 0))). apply G. intros j Hj.
  cbn [orb negb]. rewrite andb_true_r. apply eq_true_iff_eq. rewrite Rltb_true, negb_true_iff, Rleb_false. reflexivity.
Qed.
Lemma categorical_crossentropy_eq c p t : rect c p -> rect c t -> length p = length t ->
  number_like (categorical_crossentropy (to_mat c p) (to_mat c t)) (Activations.categorical_crossentropy p t).
Proof.
  intros Hp Ht Hl. unfold categorical_crossentropy, Activations.categorical_crossentropy.
  destruct (cwise2_rows c (fun y p => y * ln p) t p Ht Hp (eq_sym Hl)) as (m & -> & _ & _ & Em). cbn [andthen].
  rewrite (log_ok_false c p Hp). destruct (existsb _ p); [reflexivity|]. cbn [negb]. cbn [nrow to_mat].
  rewrite total_rows, Em. destruct t as [|t0 t].
  - unfold quotient. cbn. rewrite (proj2 (Reqb_true 0 0)) by reflexivity. reflexivity.
  - rewrite quotient_nat by (cbn; lia). reflexivity.
Qed.
Lemma binary_crossentropy_eq p t : length p = length t ->
  number_like (binary_crossentropy (to_column p) (to_column t)) (Activations.binary_crossentropy p t).
Proof.
  intros Hl. unfold binary_crossentropy, Activations.binary_crossentropy, cwise2. cbn [nrow ncol to_column coef].
  rewrite Hl, !Nat.eqb_refl. cbn [andb andthen negb].
  rewrite (total_column (fun i => nth i t 0 * ln (nth i p 0))), (total_column (fun i => (1 - nth i t 0) * ln (1 - nth i p 0))).
  assert (L : log_ok true (to_column p) = negb (existsb (fun p => Rleb p 0 || Rleb 1 p) p)).
  { unfold log_ok. cbn [nrow ncol coef to_column seq].
    assert (N : forall A (f : A -> bool) l, negb (existsb f l) = forallb (fun a => negb (f a)) l).
    { clear. intros A f l. induction l as [|a l IH]; [reflexivity|]. cbn. now rewrite negb_orb, IH. }
    rewrite N.
    assert (E : forall C (f : C -> bool) k, forallb f k = forallb (fun b => b) (map f k)) by (clear; intros C f k; induction k; cbn; congruence).
    rewrite E, (E _ _ p). f_equal. rewrite <- (map_seq_list p 0 (fun a => negb (Rleb a 0 || Rleb 1 a))). apply map_ext. intros i. cbn.
    rewrite andb_true_r. apply eq_true_iff_eq. rewrite andb_true_iff, !Rltb_true, negb_true_iff, orb_false_iff, !Rleb_false. reflexivity. }
  rewrite L. destruct (existsb _ p); [reflexivity|]. cbn [negb]. destruct t as [|t0 t].
  - unfold quotient. cbn. rewrite (proj2 (Reqb_true 0 0)) by reflexivity. reflexivity.
  - rewrite quotient_nat by (cbn; lia). cbn [number_like]. do 2 f_equal. f_equal. f_equal.
    + rewrite <- dot_sum by (rewrite map_length; auto). apply sum_ext. intros i Hi. rewrite (nth_map_in ln p i 0 0) by lia. reflexivity.
    + rewrite <- dot_sum by (rewrite !map_length; auto). rewrite map_length. apply sum_ext. intros i Hi.
      rewrite (nth_map_in (fun y => 1 - y) (t0 :: t) i 0 0) by lia. rewrite (nth_map_in (fun p => ln (1 - p)) p i 0 0) by lia. reflexivity.
Qed.
Lemma log_likelihood_eq y beta x : rect (length beta) x -> length y = length x ->
  log_likelihood (to_column y) (to_column beta) (to_mat (length beta) x) = Value (Activations.log_likelihood y beta x).
Proof.
  intros Hx Hl. unfold log_likelihood, product. cbn [nrow ncol to_mat to_column]. rewrite Nat.eqb_refl. cbn [andthen].
  unfold cwise2. cbn [nrow ncol to_column]. rewrite Hl, !Nat.eqb_refl. cbn [andb andthen]. f_equal. cbn [coef].
  rewrite (total_column (fun i => - nth i y 0 * sum (length beta) (fun k => nth k (nth i x []) 0 * nth k beta 0) +
     ln (1 + exp (sum (length beta) (fun k => nth k (nth i x []) 0 * nth k beta 0))))).
  unfold Activations.log_likelihood. rewrite sum_rsum. rewrite <- Hl.
  rewrite <- (map_seq_combine y x 0 [] (fun u r => - u * dot r beta + ln (1 + exp (dot r beta))) Hl). f_equal.
  apply map_ext_in. intros i Hi. apply in_seq in Hi. pose proof (rect_nth _ x i Hx ltac:(lia)) as L.
  assert (E : sum (length beta) (fun k => nth k (nth i x []) 0 * nth k beta 0) = dot (nth i x []) beta) by (rewrite <- L at 1; now apply dot_sum).
  rewrite E. reflexivity.
Qed.
Lemma zip2_concat f c a b : rect c a -> rect c b -> length a = length b ->
  Activations.zip2 f (List.concat a) (List.concat b) = List.concat (Activations.mzip f a b).
Proof.
  revert b. induction a as [|r a IH]; intros [|s b] Ha Hb Hl; try discriminate; [reflexivity|].
  apply Forall_cons_iff in Ha. destruct Ha as [Hr Ha]. apply Forall_cons_iff in Hb. destruct Hb as [Hs Hb].
  unfold Activations.mzip. cbn [List.concat combine map fst snd]. unfold Activations.zip2 at 1.
  rewrite combine_app by congruence. rewrite map_app. f_equal. apply IH; auto.
Qed.
Lemma mean_squared_error_eq c p t : rect c p -> rect c t -> length p = length t ->
  number_like (mean_squared_error (to_mat c p) (to_mat c t)) (Activations.mean_squared_error (length t) (List.concat p) (List.concat t)).
Proof.
  intros Hp Ht Hl. unfold mean_squared_error, Activations.mean_squared_error.
  destruct (cwise2_rows c Rminus p t Hp Ht Hl) as (m & -> & _ & _ & Em). cbn [andthen nrow to_mat].
  rewrite total_rows, Em, (zip2_concat Rminus c p t Hp Ht Hl). destruct (Nat.eqb_spec (length t) 0) as [E|E].
  - rewrite E. unfold quotient. cbn [INR]. rewrite Rmult_0_r, (proj2 (Reqb_true 0 0)) by reflexivity. reflexivity.
  - unfold quotient. destruct (Reqb (2 * INR (length t)) 0) eqn:Q; [|reflexivity].
    apply Reqb_true in Q. exfalso. apply not_0_INR in E. lra.
Qed.

(** ** Activations *)
Lemma relu_eq c z : rect c z -> rows (relu (to_mat c z)) = Activations.mmap Activations.relu z.
Proof.
  intros Hz. unfold relu. rewrite rows_map2 by auto. unfold Activations.mmap. apply map_ext. intros r. apply map_ext. intros v.
  unfold Activations.relu. destruct (Rleb v 0) eqn:E; [apply Rleb_true in E; now rewrite Rmax_left|apply Rleb_false in E; rewrite Rmax_right; lra].
Qed.
Lemma sigmoid_eq c z : rect c z -> rows (sigmoid (to_mat c z)) = Activations.mmap Activations.sigmoid z.
Proof. intros Hz. unfold sigmoid. rewrite rows_map2 by auto. reflexivity. Qed.
Lemma relu_diff_eq c o a : rect c o -> rect c a -> length o = length a ->
  exists m, relu_diff (to_mat c o) (to_mat c a) = Value m /\ rows m = Activations.mzip Activations.relu_diff o a.
Proof.
  intros Ho Ha Hl. destruct (cwise2_rows c Activations.relu_diff o a Ho Ha Hl) as (m' & E' & _ & _ & Em').
  unfold relu_diff. cbn [nrow ncol to_mat]. rewrite Hl, !Nat.leb_refl. cbn [andb]. eexists. split; [reflexivity|].
  rewrite <- Em'. unfold cwise2 in E'. cbn [nrow ncol to_mat] in E'. rewrite Hl, !Nat.eqb_refl in E'. cbn [andb] in E'. injection E' as <-.
  apply rows_ext; cbn [nrow ncol coef to_mat]; [auto..|]. intros i j Hi Hj.
  destruct (Nat.ltb_spec i (length a)); [|lia]. destruct (Nat.ltb_spec j c); [|lia]. reflexivity.
Qed.
Lemma softmax_diff_eq c o a : rect c o -> rect c a -> length o = length a ->
  exists m, softmax_diff (to_mat c o) (to_mat c a) = Value m /\ rows m = Activations.mzip Activations.softmax_diff o a.
Proof.
  intros Ho Ha Hl. destruct (cwise2_rows c Rminus a o Ha Ho (eq_sym Hl)) as (m & E & _ & _ & Em).
  exists m. split; [exact E|]. rewrite Em. unfold Activations.mzip, Activations.zip2, Activations.softmax_diff.
  clear -Hl. revert o Hl. induction a as [|r a IH]; intros [|s o] Hl; try discriminate; [reflexivity|]. cbn. f_equal; [|apply IH; now injection Hl].
  clear. revert s. induction r as [|u r IH]; intros [|v s]; cbn; auto. f_equal. apply IH.
Qed.
Lemma sigmoid_diff_eq c o a y : rect c o -> rect c a -> rect c y -> length o = length a -> length y = length a ->
  exists m, sigmoid_diff (to_mat c o) (to_mat c a) (to_mat c y) = Value m /\ nrow m = length a /\ ncol m = c /\
    forall i j, coef m i j = Activations.sigmoid_diff (nth j (nth i y []) 0) (nth j (nth i o []) 0) (nth j (nth i a []) 0).
Proof.
  intros Ho Ha Hy H1 H2. unfold sigmoid_diff, cwise2. cbn [nrow ncol to_mat]. rewrite H1, H2, !Nat.eqb_refl. cbn [andb andthen nrow ncol].
  rewrite ?H1, ?H2, !Nat.eqb_refl. cbn [andb]. eexists. split; [reflexivity|]. cbn. auto.
Qed.
(** The greatest coefficient. *)
Lemma max_coeff_spec m c : max_coeff m = Some c ->
  (forall i j, (i < nrow m)%nat -> (j < ncol m)%nat -> coef m i j <= c) /\ exists i j, (i < nrow m)%nat /\ (j < ncol m)%nat /\ c = coef m i j.
Proof.
  unfold max_coeff. destruct (Nat.eqb_spec (nrow m * ncol m) 0) as [E|E]; [discriminate|]. intros H. injection H as <-.
  assert (N : (0 < nrow m)%nat /\ (0 < ncol m)%nat) by (destruct (nrow m), (ncol m); cbn in *; lia).
  assert (I : forall j s n, (n <= nrow m)%nat -> (j < ncol m)%nat -> (exists i' j', (i' < nrow m)%nat /\ (j' < ncol m)%nat /\ s = coef m i' j') ->
     let r := loop n (fun i s => if Rltb s (coef m i j) then coef m i j else s) s in
     s <= r /\ (forall i, (i < n)%nat -> coef m i j <= r) /\ exists i' j', (i' < nrow m)%nat /\ (j' < ncol m)%nat /\ r = coef m i' j').
  { intros j s n Hn Hj Hs. induction n as [|n IH]; cbn zeta.
    - rewrite loop_0. split; [lra|]. split; [intros; lia|auto].
    - rewrite loop_S. destruct IH as (A1 & A2 & A3); [lia|]. cbn zeta in *.
      destruct (Rltb _ (coef m n j)) eqn:L.
      + apply Rltb_true in L. split; [lra|]. split; [|exists n, j; repeat split; auto; lia].
        intros i Hi. destruct (Nat.eq_dec i n) as [->|]; [lra|]. specialize (A2 i ltac:(lia)). lra.
      + apply Rltb_false in L. split; [auto|]. split; [|auto]. intros i Hi. destruct (Nat.eq_dec i n) as [->|]; [auto|]. apply A2. lia. }
  assert (J : forall n, (n <= ncol m)%nat ->
     let r := loop n (fun j s => loop (nrow m) (fun i s => if Rltb s (coef m i j) then coef m i j else s) s) (coef m 0 0) in
     (forall i j, (i < nrow m)%nat -> (j < n)%nat -> coef m i j <= r) /\ exists i' j', (i' < nrow m)%nat /\ (j' < ncol m)%nat /\ r = coef m i' j').
  { induction n as [|n IH]; intros Hn; cbn zeta.
    - rewrite loop_0. split; [intros; lia|]. exists 0%nat, 0%nat. repeat split; lia.
    - rewrite loop_S. destruct IH as (A1 & A2); [lia|]. cbn zeta in *.
      destruct (I n _ (nrow m) (le_n _) ltac:(lia) A2) as (B1 & B2 & B3). cbn zeta in *. split; [|exact B3].
      intros i j Hi Hj. destruct (Nat.eq_dec j n) as [->|]; [now apply B2|]. specialize (A1 i j Hi ltac:(lia)). lra. }
  destruct (J (ncol m) (le_n _)) as (A1 & A2). cbn zeta in *. auto.
Qed.
Lemma concat_nth_in c z v : rect c z -> In v (List.concat z) <-> exists i j, (i < length z)%nat /\ (j < c)%nat /\ v = nth j (nth i z []) 0.
Proof.
  intros Hz. rewrite in_concat. split.
  - intros (r & Hr & Hv). apply (In_nth _ _ []) in Hr. destruct Hr as (i & Hi & <-). apply (In_nth _ _ 0) in Hv. destruct Hv as (j & Hj & <-).
    exists i, j. rewrite (rect_nth c z i Hz Hi) in Hj. auto.
  - intros (i & j & Hi & Hj & ->). exists (nth i z []). split; [now apply nth_In|]. apply nth_In. now rewrite (rect_nth c z i Hz Hi).
Qed.
Lemma softmax_eq c z : rect c z -> z <> [] -> (0 < c)%nat ->
  exists m, softmax (to_mat c z) = Value m /\ Activations.softmax z = Ok (rows m).
Proof.
  intros Hz Hne Hc. unfold softmax, Activations.softmax, Activations.matrix_max.
  assert (L : (0 < length z)%nat) by (destruct z; [congruence|cbn; lia]).
  destruct (max_coeff (to_mat c z)) as [mx|] eqn:E.
  2:{ exfalso. unfold max_coeff in E. cbn [nrow ncol to_mat] in E. destruct (Nat.eqb_spec (length z * c) 0); [nia|discriminate]. }
  apply max_coeff_spec in E. destruct E as [Hup (i0 & j0 & Hi0 & Hj0 & Hmx)]. cbn [nrow ncol coef to_mat] in *.
  assert (Hin : In mx (List.concat z)) by (apply (concat_nth_in c z mx Hz); exists i0, j0; auto).
  destruct (List.concat z) as [|v vs] eqn:EC; [destruct Hin|].
  assert (EM : fold_left Rmax vs v = mx).
  { apply Rle_antisym.
    - pose proof (rmax1_In v vs) as M. unfold rmax1 in M. rewrite <- EC in M. apply (concat_nth_in c z _ Hz) in M.
      destruct M as (i & j & Hi & Hj & ->). apply Hup; auto.
    - apply (rmax1_ge v vs). exact Hin. }
  rewrite EM. cbn [bind]. eexists. split; [reflexivity|]. f_equal.
  unfold rows. cbn [nrow ncol coef to_mat cwise].
  rewrite <- (map_seq_list z [] (fun row => map (fun v => exp (v - mx) / rsum (map (fun v => exp (v - mx)) row)) row)).
  apply map_ext_in. intros i Hi. apply in_seq in Hi. pose proof (rect_nth c z i Hz ltac:(lia)) as Lr.
  rewrite <- Lr at 1.
  rewrite <- (map_seq_list (nth i z []) 0 (fun v => exp (v - mx) / rsum (map (fun v => exp (v - mx)) (nth i z [])))).
  apply map_ext. intros j. f_equal. rewrite sum_rsum. f_equal. rewrite <- Lr.
  symmetry. apply (map_seq_list (nth i z []) 0 (fun v => exp (v - mx))).
Qed.

(** ** Kernels *)
Lemma kernel_product d x v : (2 <= d)%nat -> rect d x -> length v = d ->
  exists k, product (to_row v) (transpose (kernel_rows (to_mat d x))) = Value k /\ nrow k = 1%nat /\ ncol k = length x /\
    forall i j, (j < length x)%nat -> coef k i j = dot v (nth j x []).
Proof.
  intros Hd Hx Hv. unfold kernel_rows. cbn [ncol to_mat]. destruct (Nat.eqb_spec d 1); [lia|]. unfold product. cbn [nrow ncol transpose to_row to_mat].
  rewrite Hv, Nat.eqb_refl. eexists. split; [reflexivity|]. cbn [nrow ncol coef transpose to_row to_mat]. split; [reflexivity|]. split; [reflexivity|].
  intros i j Hj. rewrite <- Hv at 1. apply dot_sum. now rewrite (rect_nth d x j Hx Hj).
Qed.
Lemma reshape_one_row m : nrow m = 1%nat -> rows (reshape_row m) = [map (coef m 0) (seq 0 (ncol m))].
Proof.
  intros H. unfold rows, reshape_row. cbn [nrow ncol coef seq map]. rewrite H, Nat.mul_1_l. f_equal. apply map_ext. intros k.
  rewrite Nat.mod_1_r, Nat.div_1_r. reflexivity.
Qed.
Lemma dot_kernel d x v f (k : list R -> list R -> R) : (2 <= d)%nat -> rect d x -> length v = d -> (forall r, k r v = f (dot v r)) ->
  exists m, andthen (product (to_row v) (transpose (kernel_rows (to_mat d x)))) (fun kappa => Value (reshape_row (cwise f kappa))) = Value m /\
    rows m = [map (fun r => k r v) x].
Proof.
  intros Hd Hx Hv Hk. destruct (kernel_product d x v Hd Hx Hv) as (p & -> & R & C & E). cbn [andthen]. eexists. split; [reflexivity|].
  rewrite reshape_one_row by exact R. cbn [ncol cwise coef]. rewrite C. f_equal. rewrite <- (map_seq_list x [] (fun r => k r v)).
  apply map_ext_in. intros j Hj. apply in_seq in Hj. rewrite E by lia. now rewrite Hk.
Qed.
Lemma linear_eq d x v : (2 <= d)%nat -> rect d x -> length v = d ->
  exists m, linear (to_mat d x) (to_row v) = Value m /\ rows m = [map (fun r => Kernels.linear r v) x].
Proof.
  intros Hd Hx Hv. destruct (dot_kernel d x v (fun u => u) Kernels.linear Hd Hx Hv (fun r => eq_refl)) as (m & E & Em).
  unfold linear. destruct (product _ _) as [p| |]; try discriminate. cbn [andthen] in *. eexists. split; [reflexivity|].
  rewrite <- Em. injection E as <-. reflexivity.
Qed.
Lemma polynomial_eq gamma degree d x v : (2 <= d)%nat -> rect d x -> length v = d ->
  exists m, polynomial gamma degree (to_mat d x) (to_row v) = Value m /\ rows m = [map (fun r => Kernels.polynomial gamma degree r v) x].
Proof. intros Hd Hx Hv. apply (dot_kernel d x v (fun u => gamma * u ^ degree)); auto. Qed.
Lemma sigmoid_kernel_eq gamma beta theta d x v : (2 <= d)%nat -> rect d x -> length v = d ->
  exists m, sigmoid_kernel gamma beta theta (to_mat d x) (to_row v) = Value m /\ rows m = [map (fun r => Kernels.sigmoid_kernel gamma beta theta r v) x].
Proof. intros Hd Hx Hv. apply (dot_kernel d x v); auto. Qed.
Lemma rbf_eq gamma d x v : (2 <= d)%nat -> rect d x -> x <> [] -> length v = d ->
  exists m, rbf gamma (to_mat d x) (to_row v) = Value m /\ rows m = [map (fun r => Kernels.rbf gamma r v) x].
Proof.
  intros Hd Hx Hne Hv. unfold rbf, kernel_rows. cbn [ncol to_mat]. destruct (Nat.eqb_spec d 1); [lia|].
  assert (B : exists c, broadcast_sub (to_row v) (to_mat d x) = Value c /\ nrow c = length x /\ ncol c = d /\
     forall i j, (i < length x)%nat -> coef c i j = nth j v 0 - nth j (nth i x []) 0).
  { unfold broadcast_sub. cbn [nrow ncol coef to_mat to_row]. rewrite Hv, Nat.eqb_refl, andb_true_r.
    destruct (Nat.eqb_spec 1 (length x)) as [E1|E1].
    - eexists. split; [reflexivity|]. cbn. split; [auto|]. split; [auto|]. auto.
    - cbn [negb andb]. assert (length x <> 0)%nat by (destruct x; [congruence|cbn; lia]).
      destruct (Nat.ltb_spec (length x) 1); [lia|]. cbn. eexists. split; [reflexivity|]. cbn. split; [auto|]. split; [auto|]. intros. lra. }
  destruct B as (c & -> & R & C & E). cbn [andthen]. eexists. split; [reflexivity|].
  unfold rows, reshape_row. cbn [nrow ncol coef seq map]. f_equal. rewrite R, Nat.mul_1_r.
  rewrite <- (map_seq_list x [] (fun r => Kernels.rbf gamma r v)). apply map_ext_in. intros i Hi. apply in_seq in Hi.
  rewrite Nat.mod_small by lia. unfold Kernels.rbf. do 3 f_equal. rewrite C. rewrite <- Hv.
  rewrite <- sqnorm_sum by (rewrite (rect_nth d x i Hx) by lia; auto). apply sum_ext. intros k Hk. rewrite E by lia. reflexivity.
Qed.
(** One feature, several rows. *)
Lemma kernels_one_feature x v gamma beta theta degree : (2 <= length x)%nat ->
  linear (to_mat 1 x) (to_row [v]) = Undefined /\ polynomial gamma degree (to_mat 1 x) (to_row [v]) = Undefined /\
  sigmoid_kernel gamma beta theta (to_mat 1 x) (to_row [v]) = Undefined /\ rbf gamma (to_mat 1 x) (to_row [v]) = Throws ValueError.
Proof.
  intros Hx. unfold linear, polynomial, sigmoid_kernel, rbf, kernel_rows, product, broadcast_sub, reshape_row, transpose.
  cbn [nrow ncol to_mat to_row length Nat.eqb]. rewrite Nat.mul_1_r.
  destruct (length x) as [|[|n]]; [lia|lia|]. repeat split; reflexivity.
Qed.

(** ** The loss that chooses by the number of columns *)
Lemma total_ext m m' : nrow m = nrow m' -> ncol m = ncol m' ->
  (forall i j, (j < ncol m)%nat -> coef m i j = coef m' i j) -> total m = total m'.
Proof.
  intros Er Ec H. unfold total. rewrite <- Ec, <- Er. apply sum_ext. intros j Hj. apply sum_ext. intros i _. now apply H.
Qed.
Lemma one_column_loss p t : length p = length t ->
  binary_crossentropy (to_mat 1 p) (to_mat 1 t) =
  binary_crossentropy (to_column (map (fun r => nth 0 r 0) p)) (to_column (map (fun r => nth 0 r 0) t)).
Proof.
  intros Hl. assert (N : forall l i, nth i (map (fun r => nth 0 r 0) l) 0 = nth 0 (nth i l []) 0).
  { intros l i. exact (map_nth (fun r => nth 0 r 0) l [] i). }
  unfold binary_crossentropy, cwise2. cbn [nrow ncol to_mat to_column coef]. rewrite !map_length, Hl, !Nat.eqb_refl. cbn [andb andthen].
  assert (L : log_ok true (to_mat 1 p) = log_ok true (to_column (map (fun r => nth 0 r 0) p))).
  { unfold log_ok. cbn [nrow ncol coef to_mat to_column seq forallb]. rewrite map_length. induction (seq 0 (length p)) as [|a l IH]; cbn [forallb]; auto. now rewrite IH, N. }
  rewrite L. f_equal. destruct (log_ok true (to_column _)); [|reflexivity]. f_equal. f_equal.
  f_equal; apply total_ext; cbn [nrow ncol coef]; auto; intros i j Hj; (replace j with 0%nat by lia); now rewrite !N.
Qed.
Lemma crossentropy_eq c p t : rect c p -> rect c t -> length p = length t ->
  number_like (crossentropy (to_mat c p) (to_mat c t)) (Activations.crossentropy c p t).
Proof.
  intros Hp Ht Hl. unfold crossentropy, Activations.crossentropy. cbn [ncol to_mat].
  destruct (c =? 1)%nat eqn:E; [apply Nat.eqb_eq in E; subst c|now apply categorical_crossentropy_eq].
  rewrite one_column_loss by exact Hl. apply binary_crossentropy_eq. now rewrite !map_length.
Qed.
