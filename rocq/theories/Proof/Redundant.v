(** Proofs about features that depend on each other and about too few samples
    (C111). *)
From Coq Require Import List ZArith Reals Lra Lia Bool Arith.
From Verif.Model Require Import Base Ops Matrix Logistic Gmm Lda.
From Verif.Spec Require Import Common Smo Gmm Matrix Lda Redundant.
From Verif.Proof Require Import BaseLemmas Determinant Smo Kernels KMeans Gmm Lda Activations.
Import ListNotations.
Local Open Scope R_scope.
Local Notation length := List.length.

(** * Singular matrices *)
Lemma singular n m v : some_weight n v -> (forall i, (i < n)%nat -> sum_below n (fun k => entry m i k * v k) = 0) ->
  inverse n m = Err LinAlgError.
Proof.
  intros (i & Hi & Hv) Z. destruct (inverse n m) as [M|e] eqn:E; [|now destruct (inverse_err E) as (-> & _)].
  exfalso. destruct (inverse_ok E) as (_ & _ & P). apply Hv.
  transitivity (sum_below n (fun j => sum_below n (fun k => entry M i k * entry m k j) * v j)).
  - rewrite (sum_below_one n i); [rewrite P, Nat.eqb_refl by auto; ring|auto|].
    intros j Hj N. rewrite P by auto. destruct (Nat.eqb_spec i j) as [Q|Q]; [now destruct N|ring].
  - rewrite (sum_below_ext n _ (fun j => sum_below n (fun k => entry M i k * (entry m k j * v j))));
      [|intros j Hj; rewrite Rmult_comm, <- sum_below_scal; apply sum_below_ext; intros k Hk; ring].
    rewrite (sum_below_swap n n (fun j k => entry M i k * (entry m k j * v j))). apply sum_below_zero. intros k Hk.
    rewrite sum_below_scal, Z by auto. ring.
Qed.
(** Fewer equations than unknowns. *)
Lemma few_equations n rows : (length rows < n)%nat -> exists v, some_weight n v /\ forall r, In r rows -> sum_below n (fun k => nth k r 0 * v k) = 0.
Proof.
  intros L. destruct (inverse n rows) as [M|e] eqn:E.
  - exfalso. destruct (inverse_ok E) as (_ & P & _). specialize (P (n - 1)%nat (n - 1)%nat ltac:(lia) ltac:(lia)).
    rewrite Nat.eqb_refl, sum_below_zero in P; [lra|]. intros k Hk. unfold entry. rewrite (nth_overflow rows) by lia. destruct k; cbn; ring.
  - destruct (inverse_err_kernel E) as (v & S & Z). exists v. split; [exact S|]. intros r I.
    destruct (In_nth rows r [] I) as (i & Hi & <-). exact (Z i ltac:(lia)).
Qed.
Lemma combination_app d v r s : length r = d -> combination (d + length s) v (r ++ s) =
  combination d v r + combination (length s) (fun j => v (d + j)%nat) s.
Proof.
  intros L. unfold combination. induction s as [|a s IH] using rev_ind.
  - cbn [length]. rewrite Nat.add_0_r, app_nil_r. unfold sum_below at 3. cbn. lra.
  - rewrite app_length. cbn [length]. rewrite Nat.add_1_r, Nat.add_succ_r, !sum_below_S.
    replace (nth (d + length s) (r ++ s ++ [a]) 0) with a by (rewrite app_assoc, app_nth2, app_length by (rewrite app_length; lia);
      replace (d + length s - (length r + length s))%nat with 0%nat by lia; reflexivity).
    replace (nth (length s) (s ++ [a]) 0) with a by (rewrite app_nth2, Nat.sub_diag by lia; reflexivity).
    rewrite (sum_below_ext (d + length s) _ (fun j => v j * nth j (r ++ s) 0)), IH.
    + rewrite (sum_below_ext (length s) (fun j => v (d + j)%nat * nth j (s ++ [a]) 0) (fun j => v (d + j)%nat * nth j s 0)); [ring|].
      intros j Hj. now rewrite app_nth1.
    + intros j Hj. rewrite app_assoc, app_nth1 by (rewrite app_length; lia). reflexivity.
Qed.
Lemma combination_eq d v r : sum_below d (fun k => nth k r 0 * v k) = combination d v r.
Proof. apply sum_below_ext. intros. ring. Qed.
Lemma combination_one v a : combination 1 v [a] = v 0%nat * a.
Proof. unfold combination. rewrite sum_below_S. unfold sum_below. cbn. lra. Qed.
Lemma combination_two v a b : combination 2 v [a; b] = v 0%nat * a + v 1%nat * b.
Proof. unfold combination. rewrite !sum_below_S. unfold sum_below. cbn. lra. Qed.
(** Few samples lie in a plane. *)
Lemma few_dependent d x : x <> [] -> Forall (fun r => length r = d) x -> (length x <= d)%nat -> dependent d x.
Proof.
  intros Hx F L. destruct (few_equations (S d) (map (fun r => r ++ [1]) x)) as (v & (i & Hi & Hv) & Z); [rewrite map_length; lia|].
  assert (C : forall r, In r x -> combination d v r = - v d).
  { intros r I. specialize (Z (r ++ [1]) (in_map (fun r => r ++ [1]) _ _ I)). rewrite combination_eq in Z. rewrite Forall_forall in F.
    replace (S d) with (d + length [1%R])%nat in Z by (cbn; lia). rewrite (combination_app _ _ _ _ (F r I)) in Z.
    cbn [length] in Z. rewrite combination_one, Nat.add_0_r in Z. lra. }
  exists v, (- v d). split; [|exact C]. destruct (Nat.eq_dec i d) as [->|N]; [|exists i; split; [lia|exact Hv]].
  destruct x as [|r x]; [easy|]. specialize (C r (or_introl eq_refl)).
  destruct (Exists_dec (fun j => v j <> 0) (seq 0 d)) as [E|E]; [intros j; destruct (Req_EM_T (v j) 0); auto| |].
  - apply Exists_exists in E. destruct E as (j & J & Hj). apply in_seq in J. exists j. split; [lia|exact Hj].
  - exfalso. apply Hv. unfold combination in C. rewrite sum_below_zero in C; [lra|]. intros j Hj.
    destruct (Req_EM_T (v j) 0) as [->|Nj]; [ring|]. exfalso. apply E. apply Exists_exists. exists j. split; [apply in_seq; lia|exact Nj].
Qed.

(** * Newton's method *)
Lemma hessian_entry d p x j k : (j < d)%nat -> (k < d)%nat ->
  entry (hessian d p x) j k = rsum (map (fun q => nth j (snd q) 0 * (fst q * (1 - fst q)) * nth k (snd q) 0) (combine p x)).
Proof. intros Hj Hk. unfold entry, hessian. now rewrite !nth_map_seq. Qed.
Lemma newton_singular d x y beta v : some_weight (S d) v -> (forall r, In r x -> combination (S d) v (with_one r) = 0) ->
  newton_step d x y beta = Err LinAlgError.
Proof.
  intros S Z. unfold newton_step. rewrite (singular (Datatypes.S d) _ v); [reflexivity|exact S|]. intros j Hj. unfold hessian_at.
  rewrite (sum_below_ext _ _ (fun k => rsum (map (fun q => nth j (snd q) 0 * (fst q * (1 - fst q)) * (nth k (snd q) 0 * v k)) (combine (forward x beta) (map with_one x))))).
  - rewrite <- (rsum_sum_below (Datatypes.S d) (fun q k => nth j (snd q) 0 * (fst q * (1 - fst q)) * (nth k (snd q) 0 * v k))).
    rewrite (rsum_ext _ (fun _ => 0)); [rewrite rsum_map_const; ring|]. intros q I. rewrite sum_below_scal, combination_eq.
    destruct q as [a b]. apply in_combine_r in I. cbn [snd] in *. destruct (proj1 (in_map_iff _ _ _) I) as (r & <- & Ir). rewrite Z by auto. ring.
  - intros k Hk. rewrite hessian_entry by auto. rewrite <- rsum_map_scal_r. apply rsum_ext. intros. ring.
Qed.
Lemma dependent_newton d x y beta : Forall (fun r => length r = d) x -> dependent d x -> newton_step d x y beta = Err LinAlgError.
Proof.
  intros F (v & c & (i & Hi & Hv) & C). rewrite Forall_forall in F.
  apply (newton_singular d x y beta (fun j => if (j =? d)%nat then - c else v j)).
  - exists i. split; [lia|]. now destruct (Nat.eqb_spec i d); [lia|].
  - intros r I. unfold with_one. replace (S d) with (d + length [1%R])%nat by (cbn; lia). rewrite combination_app by auto.
    replace (combination d _ r) with c.
    + cbn [length]. rewrite combination_one, Nat.add_0_r, Nat.eqb_refl. lra.
    + rewrite <- (C r I). apply sum_below_ext. intros j Hj. now destruct (Nat.eqb_spec j d); [lia|].
Qed.
Lemma few_newton d x y beta : (length x <= d)%nat -> newton_step d x y beta = Err LinAlgError.
Proof.
  intros L. destruct (few_equations (S d) (map with_one x)) as (v & Hv & Z); [rewrite map_length; lia|].
  apply (newton_singular d x y beta v Hv). intros r I. rewrite <- combination_eq. apply Z. now apply in_map.
Qed.
Lemma newton_fit_fails init epochs d x y m : (forall beta, newton_step d x y beta = Err LinAlgError) ->
  (lr_loaded m = true -> lr_beta m <> None) -> (0 < epochs)%nat -> lr_fit NewtonMethod init epochs d x y m = Err LinAlgError.
Proof.
  intros N L He. unfold lr_fit. destruct epochs as [|e]; [lia|].
  destruct (lr_loaded m); [|cbn [bind opt_run opt_step]; now rewrite N].
  destruct (lr_beta m) as [b|]; [cbn [bind opt_run opt_step]; now rewrite N|]. now destruct (L eq_refl).
Qed.

(** * Discriminant analysis *)
Lemma no_kernel n m M v : inverse n m = Ok M -> (forall i, (i < n)%nat -> sum_below n (fun k => entry m i k * v k) = 0) -> forall i, (i < n)%nat -> v i = 0.
Proof.
  intros E Z i Hi. destruct (Req_EM_T (v i) 0) as [|N]; auto. rewrite (singular n m v) in E by (auto; exists i; auto). discriminate.
Qed.
Lemma orthonormal_rows n m v : square n m ->
  (forall i j, (i < n)%nat -> (j < n)%nat -> sum_below n (fun k => entry m i k * entry m j k) = if (i =? j)%nat then 1 else 0) ->
  (forall i, (i < n)%nat -> sum_below n (fun k => entry m i k * v k) = 0) -> forall i, (i < n)%nat -> v i = 0.
Proof.
  intros Q O Z. destruct (inverse n m) as [M|e] eqn:E; [exact (no_kernel n m M v E Z)|].
  exfalso. destruct (inverse_err E) as (_ & N). destruct (N (transposed n m)) as [N' _]. apply N'. intros i j Hi Hj. rewrite <- O by auto.
  apply sum_below_ext. intros k Hk. now rewrite transposed_entry.
Qed.
Lemma svd_kernel n s U Sg Vt v : singular_value_decomposition n s U Sg Vt -> (forall i, (i < n)%nat -> nth i Sg 0 <> 0) ->
  (forall i, (i < n)%nat -> sum_below n (fun k => entry s i k * v k) = 0) -> forall i, (i < n)%nat -> v i = 0.
Proof.
  intros (HU & HV & _ & OU & OV & _ & _ & P) NZ Z.
  set (w := fun k => sum_below n (fun j => entry Vt k j * v j)).
  assert (W : forall i, (i < n)%nat -> sum_below n (fun k => entry U i k * (nth k Sg 0 * w k)) = 0).
  { intros i Hi. transitivity (sum_below n (fun j => entry s i j * v j)); [symmetry|exact (Z i Hi)]. rewrite (sum_below_ext n _ (fun j => sum_below n (fun k => entry U i k * nth k Sg 0 * (entry Vt k j * v j)))).
    - rewrite (sum_below_swap n n (fun j k => entry U i k * nth k Sg 0 * (entry Vt k j * v j))). apply sum_below_ext. intros k Hk. rewrite sum_below_scal. unfold w. ring.
    - intros j Hj. rewrite <- (P i j Hi Hj). rewrite (Rmult_comm (sum_below n _)), <- sum_below_scal. apply sum_below_ext. intros k Hk. ring. }
  apply (orthonormal_rows n Vt v HV OV). intros k Hk. fold (w k).
  assert (K : nth k Sg 0 * w k = 0).
  { transitivity (sum_below n (fun i => entry U i k * sum_below n (fun l => entry U i l * (nth l Sg 0 * w l)))).
    - rewrite (sum_below_ext n _ (fun i => sum_below n (fun l => entry U i k * entry U i l * (nth l Sg 0 * w l)))); [|intros i Hi; rewrite <- sum_below_scal; apply sum_below_ext; intros l Hl; ring].
      rewrite (sum_below_swap n n (fun i l => entry U i k * entry U i l * (nth l Sg 0 * w l))).
      rewrite (sum_below_ext n _ (fun l => (if (k =? l)%nat then 1 else 0) * (nth l Sg 0 * w l))).
      + rewrite (sum_below_one n k); [rewrite Nat.eqb_refl; ring|auto|]. intros l Hl N. destruct (Nat.eqb_spec k l) as [Q|Q]; [now destruct N|ring].
      + intros l Hl. rewrite <- OU by auto. rewrite (Rmult_comm (sum_below n _)), <- sum_below_scal. apply sum_below_ext. intros i Hi. ring.
    - apply sum_below_zero. intros i Hi. rewrite W by auto. ring. }
  destruct (Rmult_integral _ _ K) as [K'|]; auto. now destruct (NZ k Hk).
Qed.
(** The scatter matrix maps the weights to zero. *)
Lemma class_deviation d v c rows r : rows <> [] -> In r rows -> (forall r, In r rows -> combination d v r = c) ->
  sum_below d (fun k => (nth k r 0 - class_mean k rows) * v k) = 0.
Proof.
  intros Hr I C.
  assert (M : sum_below d (fun k => class_mean k rows * v k) = c).
  { assert (N : INR (length rows) <> 0) by (apply not_0_INR; destruct rows; [easy|discriminate]).
    rewrite (sum_below_ext d _ (fun k => / INR (length rows) * rsum (map (fun r => nth k r 0 * v k) rows))).
    - rewrite sum_below_scal, <- (rsum_sum_below d (fun r k => nth k r 0 * v k)).
      rewrite (rsum_ext _ (fun _ => c)); [rewrite rsum_map_const; field; exact N|]. intros a Ia. rewrite combination_eq. auto.
    - intros k Hk. unfold class_mean. change total with rsum. rewrite rsum_map_scal_r. field. exact N. }
  rewrite (sum_below_ext d _ (fun k => nth k r 0 * v k - class_mean k rows * v k)) by (intros; ring).
  rewrite sum_below_minus, M, combination_eq, C by auto. ring.
Qed.
Lemma scatter_kernel d v c rows j : (forall r, In r rows -> combination d v r = c) ->
  sum_below d (fun k => class_scatter rows j k * v k) = 0.
Proof.
  intros C. unfold class_scatter. change total with rsum.
  rewrite (sum_below_ext d _ (fun k => rsum (map (fun r => (nth j r 0 - class_mean j rows) * ((nth k r 0 - class_mean k rows) * v k)) rows)));
    [|intros k Hk; rewrite <- rsum_map_scal_r; apply rsum_ext; intros; ring].
  rewrite <- (rsum_sum_below d (fun r k => (nth j r 0 - class_mean j rows) * ((nth k r 0 - class_mean k rows) * v k))).
  rewrite (rsum_ext _ (fun _ => 0)); [rewrite rsum_map_const; ring|]. intros r I. rewrite sum_below_scal, (class_deviation d v c); auto; [ring|].
  intros ->. easy.
Qed.
Lemma lda_errors svd d x y e : lda_fit svd d x y = Err e -> length x = length y -> class_rows 0 x y <> [] -> class_rows 1 x y <> [] -> e = LinAlgError.
Proof.
  unfold lda_fit. intros E L. rewrite L, Nat.eqb_refl in E. cbn [negb] in E.
  change (with_label 0 x y) with (class_rows 0 x y) in E. change (with_label 1 x y) with (class_rows 1 x y) in E.
  intros H0 H1. unfold mean_row in E. destruct (class_rows 0 x y) as [|r0 l0]; [easy|]. destruct (class_rows 1 x y) as [|r1 l1]; [easy|]. cbn [bind] in E.
  unfold get_w_v2 in E. destruct (svd _) as [[U Sg] Vt]. destruct (inverse d (diag d Sg)) as [M|e'] eqn:EM; cbn [bind] in E; [discriminate|].
  injection E as <-. now destruct (inverse_err EM).
Qed.
Lemma lda_dependent svd d x y : decomposes svd d x y -> length x = length y -> class_rows 0 x y <> [] -> class_rows 1 x y <> [] ->
  dependent_in_classes d x y -> lda_fit svd d x y = Err LinAlgError.
Proof.
  intros D L H0 H1 (v & (i & Hi & Hv) & C). destruct (lda_fit svd d x y) as [m|e] eqn:E; [|now rewrite (lda_errors _ _ _ _ _ E L H0 H1)].
  exfalso. destruct (lda_fit_spec _ _ _ _ _ D E) as (_ & _ & _ & _ & s & U & Sg & Vt & (Sq & Es) & _ & V & W).
  apply Hv. apply (svd_kernel d s U Sg Vt v V); [intros j Hj; now apply W| |exact Hi]. intros j Hj.
  destruct (C 0%Z (or_introl eq_refl)) as (c0 & C0). destruct (C 1%Z (or_intror eq_refl)) as (c1 & C1).
  rewrite (sum_below_ext d _ (fun k => class_scatter (class_rows 0 x y) j k * v k + class_scatter (class_rows 1 x y) j k * v k)).
  - rewrite sum_below_plus, (scatter_kernel d v c0), (scatter_kernel d v c1) by auto. ring.
  - intros k Hk. rewrite Es by auto. ring.
Qed.
Lemma class_rows_In l x y r : In r (class_rows l x y) -> In r x.
Proof. unfold class_rows. intros I. apply in_map_iff in I. destruct I as ((a & b) & <- & I). apply filter_In in I. destruct I as [I _]. now apply in_combine_l in I. Qed.
Lemma class_rows_pair l x y r : In r (class_rows l x y) <-> In (r, l) (combine x y).
Proof.
  unfold class_rows. rewrite in_map_iff. split.
  - intros ((a & b) & <- & I). apply filter_In in I. destruct I as [I E]. apply Z.eqb_eq in E. cbn in *. now subst.
  - intros I. exists (r, l). split; auto. apply filter_In. split; auto. apply Z.eqb_refl.
Qed.
Lemma few_lda d x y : Forall (fun r => length r = d) x -> length x = length y -> class_rows 0 x y <> [] -> class_rows 1 x y <> [] ->
  (length x <= S d)%nat -> dependent_in_classes d x y.
Proof.
  intros F L H0 H1 Few. rewrite Forall_forall in F.
  set (mark := fun p : list R * Z => fst p ++ (if (snd p =? 1)%Z then [0; 1] else [1; 0])).
  destruct (few_equations (S (S d)) (map mark (combine x y))) as (v & (i & Hi & Hv) & Z); [rewrite map_length, combine_length; lia|].
  assert (C : forall l r, l = 0%Z \/ l = 1%Z -> In r (class_rows l x y) -> combination d v r = - v (if (l =? 1)%Z then S d else d)).
  { intros l r Hl I. pose proof (F r (class_rows_In _ _ _ _ I)) as Lr. apply class_rows_pair in I.
    specialize (Z _ (in_map mark _ _ I)). rewrite combination_eq in Z. unfold mark in Z. cbn [fst snd] in Z.
    destruct Hl as [-> | ->]; cbn [Z.eqb Pos.eqb] in Z |- *.
    - replace (S (S d)) with (d + length [1%R; 0%R])%nat in Z by (cbn; lia). rewrite (combination_app _ _ _ _ Lr) in Z.
      cbn [length] in Z. rewrite combination_two, Nat.add_0_r in Z. lra.
    - replace (S (S d)) with (d + length [0%R; 1%R])%nat in Z by (cbn; lia). rewrite (combination_app _ _ _ _ Lr) in Z.
      cbn [length] in Z. rewrite combination_two, Nat.add_1_r in Z. lra. }
  exists v. split.
  - destruct (Exists_dec (fun j => v j <> 0) (seq 0 d)) as [E|E]; [intros j; destruct (Req_EM_T (v j) 0); auto| |].
    + apply Exists_exists in E. destruct E as (j & J & Hj). apply in_seq in J. exists j. split; [lia|exact Hj].
    + exfalso. apply Hv. assert (V : forall j, (j < d)%nat -> v j = 0).
      { intros j Hj. destruct (Req_EM_T (v j) 0) as [|Nj]; auto. exfalso. apply E. apply Exists_exists. exists j. split; [apply in_seq; lia|exact Nj]. }
      destruct (class_rows 0 x y) as [|r0 l0] eqn:E0; [easy|]. destruct (class_rows 1 x y) as [|r1 l1] eqn:E1; [easy|].
      pose proof (C 0%Z r0 (or_introl eq_refl) ltac:(rewrite E0; now left)) as K0. pose proof (C 1%Z r1 (or_intror eq_refl) ltac:(rewrite E1; now left)) as K1.
      unfold combination in K0, K1. rewrite sum_below_zero in K0, K1 by (intros; rewrite V by auto; ring). cbn [Z.eqb Pos.eqb] in K0, K1.
      destruct (Nat.eq_dec i d) as [->|]; [lra|]. destruct (Nat.eq_dec i (S d)) as [->|]; [lra|]. apply V. lia.
  - intros l Hl. exists (- v (if (l =? 1)%Z then S d else d)). intros r I. now apply C.
Qed.

(** * The converse: nothing else makes these trainings fail *)
Lemma square_sum_zero {A} (f g : A -> R) l : (forall a, In a l -> 0 < f a) -> rsum (map (fun a => f a * (g a) ^ 2) l) = 0 -> forall a, In a l -> g a = 0.
Proof.
  intros P Z a I. assert (Q : f a * (g a) ^ 2 = 0).
  { apply (rsum_nonneg_zero (map (fun a => f a * (g a) ^ 2) l)); [|exact Z|now apply (in_map (fun a => f a * (g a) ^ 2))].
    intros z Iz. apply in_map_iff in Iz. destruct Iz as (b & <- & Ib). apply Rmult_le_pos; [left; auto|apply pow2_ge_0]. }
  destruct (Rmult_integral _ _ Q) as [K|K]; [specialize (P a I); lra|]. destruct (Rmult_integral _ _ K) as [|K']; auto. lra.
Qed.
Lemma combine_both {A B C} (f : A -> B) (g : A -> C) l : combine (map f l) (map g l) = map (fun a => (f a, g a)) l.
Proof. induction l as [|a l IH]; cbn; [reflexivity|now rewrite IH]. Qed.
Lemma weight_pos beta r : 0 < forward_row beta r * (1 - forward_row beta r).
Proof. unfold forward_row. pose proof (sigmoid_range (dot (with_one r) beta)). apply Rmult_lt_0_compat; lra. Qed.
Lemma newton_kernel d x y beta e : Forall (fun r => length r = d) x -> x <> [] -> newton_step d x y beta = Err e -> e = LinAlgError /\ dependent d x.
Proof.
  intros F Hx E. unfold newton_step in E. destruct (inverse (S d) (hessian_at d x beta)) as [M|e'] eqn:Ei; [discriminate|].
  cbn [bind] in E. injection E as <-. destruct (inverse_err Ei) as (-> & _). split; [reflexivity|].
  destruct (inverse_err_kernel Ei) as (v & (i & Hi & Hv) & Z).
  assert (Q : rsum (map (fun r => (forward_row beta r * (1 - forward_row beta r)) * (combination (S d) v (with_one r)) ^ 2) x) = 0).
  { transitivity (sum_below (S d) (fun j => v j * sum_below (S d) (fun k => entry (hessian_at d x beta) j k * v k))).
    - rewrite (sum_below_ext (S d) _ (fun j => rsum (map (fun r => v j * (nth j (with_one r) 0 * (forward_row beta r * (1 - forward_row beta r)) * combination (S d) v (with_one r))) x))).
      + rewrite <- (rsum_sum_below (S d) (fun r j => v j * (nth j (with_one r) 0 * (forward_row beta r * (1 - forward_row beta r)) * combination (S d) v (with_one r)))).
        apply rsum_ext. intros r I. set (w := forward_row beta r * (1 - forward_row beta r)). set (c := combination (S d) v (with_one r)).
        rewrite (sum_below_ext (S d) _ (fun j => (w * c) * (v j * nth j (with_one r) 0))) by (intros; ring).
        rewrite sum_below_scal. fold (combination (S d) v (with_one r)). fold c. ring.
      + intros j Hj. rewrite rsum_map_scal. f_equal. unfold hessian_at.
        rewrite (sum_below_ext (S d) _ (fun k => rsum (map (fun r => (nth j (with_one r) 0 * (forward_row beta r * (1 - forward_row beta r))) * (nth k (with_one r) 0 * v k)) x))).
        * rewrite <- (rsum_sum_below (S d) (fun r k => (nth j (with_one r) 0 * (forward_row beta r * (1 - forward_row beta r))) * (nth k (with_one r) 0 * v k))).
          apply rsum_ext. intros r I. rewrite sum_below_scal, combination_eq. reflexivity.
        * intros k Hk. rewrite hessian_entry by auto. unfold forward. rewrite combine_both, map_map. cbn [fst snd]. rewrite <- rsum_map_scal_r. apply rsum_ext. intros. ring.
    - apply sum_below_zero. intros j Hj. rewrite Z by auto. ring. }
  pose proof (square_sum_zero (fun r => forward_row beta r * (1 - forward_row beta r)) (fun r => combination (S d) v (with_one r)) x) as K. cbv beta in K.
  specialize (K ltac:(intros r I; apply weight_pos) Q). rewrite Forall_forall in F.
  assert (C : forall r, In r x -> combination d v r = - v d).
  { intros r I. specialize (K r I). unfold with_one in K. replace (S d) with (d + length [1%R])%nat in K by (cbn; lia).
    rewrite combination_app in K by auto. cbn [length] in K. rewrite combination_one, Nat.add_0_r in K. lra. }
  exists v, (- v d). split; [|exact C]. destruct (Nat.eq_dec i d) as [->|N]; [|exists i; split; [lia|exact Hv]].
  destruct x as [|r x]; [easy|]. specialize (C r (or_introl eq_refl)).
  destruct (Exists_dec (fun j => v j <> 0) (seq 0 d)) as [E'|E']; [intros j; destruct (Req_EM_T (v j) 0); auto| |].
  - apply Exists_exists in E'. destruct E' as (j & J & Hj). apply in_seq in J. exists j. split; [lia|exact Hj].
  - exfalso. apply Hv. unfold combination in C. rewrite sum_below_zero in C; [lra|]. intros j Hj.
    destruct (Req_EM_T (v j) 0) as [->|Nj]; [ring|]. exfalso. apply E'. apply Exists_exists. exists j. split; [apply in_seq; lia|exact Nj].
Qed.
Lemma newton_run_kernel d x y : Forall (fun r => length r = d) x -> x <> [] -> forall epochs beta e, opt_run NewtonMethod epochs d x y beta = Err e -> e = LinAlgError /\ dependent d x.
Proof.
  intros F Hx. induction epochs as [|n IH]; intros beta e E; [discriminate|]. cbn [opt_run opt_step] in E.
  destruct (newton_step d x y beta) as [b|e'] eqn:Es; cbn [bind] in E; [now apply IH in E|]. injection E as <-. exact (newton_kernel d x y beta e' F Hx Es).
Qed.
Lemma class_square d rows v : rows <> [] ->
  sum_below d (fun j => v j * sum_below d (fun k => class_scatter rows j k * v k)) =
  rsum (map (fun r => 1 * (sum_below d (fun j => (nth j r 0 - class_mean j rows) * v j)) ^ 2) rows).
Proof.
  intros Hr. set (z := fun r => sum_below d (fun j => (nth j r 0 - class_mean j rows) * v j)).
  rewrite (sum_below_ext d _ (fun j => rsum (map (fun r => z r * ((nth j r 0 - class_mean j rows) * v j)) rows))).
  - rewrite <- (rsum_sum_below d (fun r j => z r * ((nth j r 0 - class_mean j rows) * v j))). apply rsum_ext. intros r I. rewrite sum_below_scal. unfold z. ring.
  - intros j Hj. unfold class_scatter. change total with rsum.
    rewrite (sum_below_ext d _ (fun k => rsum (map (fun r => (nth j r 0 - class_mean j rows) * ((nth k r 0 - class_mean k rows) * v k)) rows)));
      [|intros k Hk; rewrite <- rsum_map_scal_r; apply rsum_ext; intros; ring].
    rewrite <- (rsum_sum_below d (fun r k => (nth j r 0 - class_mean j rows) * ((nth k r 0 - class_mean k rows) * v k))).
    rewrite <- rsum_map_scal. apply rsum_ext. intros r I. rewrite sum_below_scal. fold (z r). ring.
Qed.
Lemma lda_converse svd d x y e : decomposes svd d x y -> length x = length y -> class_rows 0 x y <> [] -> class_rows 1 x y <> [] ->
  lda_fit svd d x y = Err e -> dependent_in_classes d x y.
Proof.
  intros D L H0 H1 E. unfold lda_fit in E. rewrite L, Nat.eqb_refl in E. cbn [negb] in E.
  change (with_label 0 x y) with (class_rows 0 x y) in E. change (with_label 1 x y) with (class_rows 1 x y) in E.
  destruct (mean_row d (class_rows 0 x y)) as [mu0|] eqn:E0; [|unfold mean_row in E0; destruct (class_rows 0 x y); [easy|discriminate]].
  destruct (mean_row d (class_rows 1 x y)) as [mu1|] eqn:E1; [|unfold mean_row in E1; destruct (class_rows 1 x y); [easy|discriminate]]. cbn [bind] in E.
  destruct (mean_row_ok _ _ _ E0) as [L0 M0]. destruct (mean_row_ok _ _ _ E1) as [L1 M1].
  set (s := within_class_scatter _ _ _ _ _) in *.
  assert (Sq : scatter_matrix d x y s) by (split; [apply scatter_square|now apply scatter_entry]). pose proof (D s Sq) as V.
  unfold get_w_v2 in E. destruct (svd s) as [[U Sg] Vt] eqn:Es. destruct V as (HU & HV & LS & OU & OV & _ & _ & P).
  destruct (inverse d (diag d Sg)) as [M|e'] eqn:EM; cbn [bind] in E; [discriminate|].
  destruct (inverse_err_kernel EM) as (u & (i & Hi & Hu) & Z).
  assert (Z0 : nth i Sg 0 = 0).
  { specialize (Z i Hi). rewrite (sum_below_one d i) in Z; [|exact Hi|].
    - unfold entry, diag in Z. rewrite !nth_map_seq, Nat.eqb_refl in Z by auto. destruct (Rmult_integral _ _ Z) as [|K]; [auto|now destruct Hu].
    - intros k Hk N. unfold entry, diag. rewrite !nth_map_seq by auto. destruct (Nat.eqb_spec i k); [now subst|ring]. }
  set (v := fun k => entry Vt i k). exists v.
  assert (K : forall j, (j < d)%nat -> sum_below d (fun k => entry s j k * v k) = 0).
  { intros j Hj. rewrite (sum_below_ext d _ (fun k => sum_below d (fun l => entry U j l * nth l Sg 0 * (entry Vt l k * entry Vt i k)))).
    - rewrite (sum_below_swap d d (fun k l => entry U j l * nth l Sg 0 * (entry Vt l k * entry Vt i k))). apply sum_below_zero. intros l Hl.
      rewrite sum_below_scal, OV by auto. destruct (Nat.eqb_spec l i) as [->|]; [rewrite Z0; ring|ring].
    - intros k Hk. rewrite <- (P j k Hj Hk). rewrite (Rmult_comm (sum_below d _)), <- sum_below_scal. apply sum_below_ext. intros l Hl. unfold v. ring. }
  split.
  - pose proof (OV i i Hi Hi) as N. rewrite Nat.eqb_refl in N.
    destruct (Exists_dec (fun j => v j <> 0) (seq 0 d)) as [E'|E']; [intros j; destruct (Req_EM_T (v j) 0); auto| |].
    + apply Exists_exists in E'. destruct E' as (j & J & Hj). apply in_seq in J. exists j. split; [lia|exact Hj].
    + exfalso. rewrite sum_below_zero in N; [lra|]. intros j Hj. fold (v j). destruct (Req_EM_T (v j) 0) as [->|Nj]; [ring|].
      exfalso. apply E'. apply Exists_exists. exists j. split; [apply in_seq; lia|exact Nj].
  - assert (T : rsum (map (fun r => 1 * (sum_below d (fun j => (nth j r 0 - class_mean j (class_rows 0 x y)) * v j)) ^ 2) (class_rows 0 x y)) +
                rsum (map (fun r => 1 * (sum_below d (fun j => (nth j r 0 - class_mean j (class_rows 1 x y)) * v j)) ^ 2) (class_rows 1 x y)) = 0).
    { rewrite <- !class_square by auto. rewrite <- sum_below_plus. apply sum_below_zero. intros j Hj. rewrite <- Rmult_plus_distr_l, <- sum_below_plus.
      rewrite (sum_below_ext d _ (fun k => entry s j k * v k)); [rewrite K by auto; ring|]. intros k Hk. destruct Sq as [_ Se]. rewrite Se by auto. ring. }
    assert (Pos : forall rows, 0 <= rsum (map (fun r => 1 * (sum_below d (fun j => (nth j r 0 - class_mean j rows) * v j)) ^ 2) rows)).
    { intros rows. apply rsum_nonneg. intros z I. apply in_map_iff in I. destruct I as (r & <- & _). apply Rmult_le_pos; [lra|apply pow2_ge_0]. }
    pose proof (Pos (class_rows 0 x y)) as P0. pose proof (Pos (class_rows 1 x y)) as P1.
    intros l Hl. exists (sum_below d (fun j => class_mean j (class_rows l x y) * v j)). intros r I.
    assert (G : sum_below d (fun j => (nth j r 0 - class_mean j (class_rows l x y)) * v j) = 0).
    { apply (square_sum_zero (fun _ : list R => 1) (fun r => sum_below d (fun j => (nth j r 0 - class_mean j (class_rows l x y)) * v j)) (class_rows l x y)); [intros; lra| |exact I].
      destruct Hl as [-> | ->]; lra. }
    rewrite (sum_below_ext d _ (fun j => nth j r 0 * v j - class_mean j (class_rows l x y) * v j)) in G by (intros; ring).
    rewrite sum_below_minus, combination_eq in G. lra.
Qed.
