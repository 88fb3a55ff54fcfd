(** C47: linear discriminant analysis. *)
From Coq Require Import List ZArith Reals Bool Arith Lia Lra.
From Verif.Model Require Import Base Matrix Lda.
From Verif.Spec Require Import Common Smo Gmm Matrix Logistic Lda.
From Verif.Proof Require Import BaseLemmas Lda.
Import ListNotations.
Local Open Scope R_scope.

(** [predict] answers 1 exactly when the projected row is strictly closer to the
    projected mean of class 1, and 0 otherwise. *)
Theorem C47_predict_closer_mean : forall m r,
  length r = length (lda_w m) -> length (lda_mu0 m) = length (lda_w m) -> length (lda_mu1 m) = length (lda_w m) ->
  (lda_predict m r = 1%Z \/ lda_predict m r = 0%Z) /\
  (lda_predict m r = 1%Z <-> Rabs (inner (lda_w m) r - inner (lda_w m) (lda_mu1 m)) < Rabs (inner (lda_w m) r - inner (lda_w m) (lda_mu0 m))).
Proof. exact predict_rule. Qed.
Print Assumptions C47_predict_closer_mean.

(** So the decision is a half space bounded at the middle of the two projected
    means, and constantly 0 if these coincide. *)
Theorem C47_predict_half_space : forall m r,
  length r = length (lda_w m) -> length (lda_mu0 m) = length (lda_w m) -> length (lda_mu1 m) = length (lda_w m) ->
  let c0 := inner (lda_w m) (lda_mu0 m) in let c1 := inner (lda_w m) (lda_mu1 m) in
  (lda_predict m r = 1%Z <-> (c0 < c1 /\ c0 + c1 < 2 * inner (lda_w m) r) \/ (c1 < c0 /\ 2 * inner (lda_w m) r < c0 + c1)).
Proof. intros m r A B C c0 c1. destruct (predict_rule m r A B C) as [_ P]. rewrite P. apply closer_iff. Qed.
Print Assumptions C47_predict_half_space.

(** The scatter matrix is the sum of the scatter matrices of the classes;
    it is symmetric and positive semidefinite. *)
Theorem C47_scatter : forall d x0 x1 mu0 mu1, mean_row d x0 = Ok mu0 -> mean_row d x1 = Ok mu1 ->
  (forall j, (j < d)%nat -> nth j mu0 0 = class_mean j x0 /\ nth j mu1 0 = class_mean j x1) /\
  (forall j k, (j < d)%nat -> (k < d)%nat -> entry (within_class_scatter d x0 x1 mu0 mu1) j k = class_scatter x0 j k + class_scatter x1 j k) /\
  symmetric_matrix d (within_class_scatter d x0 x1 mu0 mu1) /\ psd_matrix d (within_class_scatter d x0 x1 mu0 mu1).
Proof.
  intros d x0 x1 mu0 mu1 E0 E1. destruct (mean_row_ok _ _ _ E0) as [_ M0]. destruct (mean_row_ok _ _ _ E1) as [_ M1].
  split; [auto|]. split; [now apply scatter_entry|now apply scatter_sym_psd].
Qed.
Print Assumptions C47_scatter.

(** [get_w] (the first version) returns the solution of [s w = mu0 - mu1]. *)
Theorem C47_get_w_solves : forall d s mu0 mu1 w, length mu0 = d -> length mu1 = d -> get_w d s mu0 mu1 = Ok w ->
  solves d s w (difference mu0 mu1).
Proof. exact get_w_ok. Qed.
Print Assumptions C47_get_w_solves.

(** That direction is Fisher's: it maximises the squared distance of the
    projected means relative to the projected scatter. *)
Theorem C47_get_w_is_fisher_optimal : forall d x0 x1 mu0 mu1 w v, mean_row d x0 = Ok mu0 -> mean_row d x1 = Ok mu1 ->
  let s := within_class_scatter d x0 x1 mu0 mu1 in let delta := difference mu0 mu1 in
  get_w d s mu0 mu1 = Ok w -> length v = d ->
  inner v delta ^ 2 <= quadratic_form d s v * inner w delta /\ quadratic_form d s w = inner w delta.
Proof. exact fisher_main. Qed.
Print Assumptions C47_get_w_is_fisher_optimal.

(** [fit] uses the second version: given a correct decomposition of the scatter
    matrix only the diagonals of its factors enter. *)
Theorem C47_fit_weights : forall svd d x y m, decomposes svd d x y -> lda_fit svd d x y = Ok m ->
  length (lda_mu0 m) = d /\ length (lda_mu1 m) = d /\ length (lda_w m) = d /\
  (forall j, (j < d)%nat -> nth j (lda_mu0 m) 0 = class_mean j (class_rows 0 x y) /\ nth j (lda_mu1 m) 0 = class_mean j (class_rows 1 x y)) /\
  exists s U Sg Vt, scatter_matrix d x y s /\ svd s = (U, Sg, Vt) /\ singular_value_decomposition d s U Sg Vt /\
    forall i, (i < d)%nat -> nth i Sg 0 <> 0 /\ nth i (lda_w m) 0 = entry Vt i i * entry U i i / nth i Sg 0 * (nth i (lda_mu0 m) 0 - nth i (lda_mu1 m) 0).
Proof. exact lda_fit_spec. Qed.
Print Assumptions C47_fit_weights.

(** With one feature this is the documented direction. *)
Theorem C47_fit_one_feature : forall svd x y m, decomposes svd 1 x y -> lda_fit svd 1 x y = Ok m ->
  (class_scatter (class_rows 0 x y) 0 0 + class_scatter (class_rows 1 x y) 0 0) * nth 0 (lda_w m) 0 =
  class_mean 0 (class_rows 0 x y) - class_mean 0 (class_rows 1 x y).
Proof. exact lda_one_feature. Qed.
Print Assumptions C47_fit_one_feature.

(** With two features it need not be: here every correct decomposition gives the
    direction 0, and all rows are labelled 0, although the documented direction
    separates the classes. *)
Theorem C47_fit_solves_refuted : exists x y,
  (forall svd m, decomposes svd 2 x y -> lda_fit svd 2 x y = Ok m -> lda_w m = [0; 0] /\ forall r, length r = 2%nat -> lda_predict m r = 0%Z) /\
  (exists svd m, decomposes svd 2 x y /\ lda_fit svd 2 x y = Ok m) /\
  (exists s w mu0 mu1, scatter_matrix 2 x y s /\ mean_row 2 (class_rows 0 x y) = Ok mu0 /\ mean_row 2 (class_rows 1 x y) = Ok mu1 /\
     get_w 2 s mu0 mu1 = Ok w /\ map (lda_predict {| lda_w := w; lda_mu0 := mu0; lda_mu1 := mu1 |}) x = y).
Proof. exists wit_x, wit_y. split; [exact wit_all_zero|]. split; [exact wit_svd|exact wit_documented]. Qed.
Print Assumptions C47_fit_solves_refuted.

(** One feature: the scatter is 4 and the direction (1 - 6) / 4. *)
Definition one_svd (s : list (list R)) : list (list R) * list R * list (list R) := ([[1]], [4], [[1]]).
Example C47_witness : let x := [[0]; [2]; [5]; [7]] in let y := [0; 0; 1; 1]%Z in
  decomposes one_svd 1 x y /\ exists m, lda_fit one_svd 1 x y = Ok m /\ lda_w m = [-5 / 4].
Proof.
  intros x y. split.
  - intros s (_ & Hs). unfold one_svd, singular_value_decomposition. specialize (Hs 0%nat 0%nat ltac:(lia) ltac:(lia)).
    split; [repeat constructor|]. split; [repeat constructor|]. split; [reflexivity|].
    split; [|split; [|split; [|split]]].
    + intros [|i] [|j] Hi Hj; try lia. unfold sum_below, total, entry; cbn; lra.
    + intros [|i] [|j] Hi Hj; try lia. unfold sum_below, total, entry; cbn; lra.
    + intros [|i] Hi; try lia. cbn; lra.
    + intros [|i] [|j] Hi Hj; try lia. cbn; lra.
    + intros [|i] [|j] Hi Hj; try lia. rewrite Hs. unfold class_scatter, class_mean, sum_below, total, entry; cbn; lra.
  - assert (D : det 1 [[4]] = 4) by (unfold det, sign, rsum; cbn; lra).
    assert (I : inverse 1 (diag 1 [4]) = Ok [[1 / 4]]).
    { unfold inverse. change (diag 1 [4]) with [[4]]. rewrite D. destruct (Reqb 4 0) eqn:E; [apply Reqb_true in E; lra|].
      cbn. repeat f_equal. lra. }
    unfold lda_fit, get_w_v2, one_svd. rewrite I. eexists. split; [reflexivity|]. cbn. f_equal. unfold rmean, rsum. cbn. lra.
Qed.
