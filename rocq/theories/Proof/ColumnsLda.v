(** C109: discriminant analysis with the two features exchanged. *)
From Coq Require Import List ZArith Reals Lra Lia Bool Arith.
From Verif.Model Require Import Base Ops KMeans Matrix Lda.
From Verif.Spec Require Import Common Smo Matrix Gmm Svc Lda Logistic Columns.
From Verif.Proof Require Import BaseLemmas Counting Lda UnitsShift.
Import ListNotations.
Local Open Scope R_scope.

Definition turned_x : list (list R) := [[0; 0]; [2; 0]; [1; 4]; [1; 5]].
Lemma turned_order : map (reordered [1; 0]%nat) wit_x = turned_x.
Proof. reflexivity. Qed.
(** A decomposition with the larger singular value first, for both matrices. *)
Definition turned_svd (s : list (list R)) : list (list R) * list R * list (list R) :=
  if Req_EM_T (nth 0 (nth 0 s []) 0) (1 / 2) then (wit_swap, [2; 1 / 2], wit_swap) else ([[1; 0]; [0; 1]], [2; 1 / 2], [[1; 0]; [0; 1]]).
Lemma turned_means : mean_row 2 (class_rows 0 turned_x wit_y) = Ok [1; 0] /\ mean_row 2 (class_rows 1 turned_x wit_y) = Ok [1; 9 / 2].
Proof. unfold class_rows, turned_x, wit_y, mean_row, column, rmean, rsum. simpl. split; f_equal; (f_equal; [field|f_equal; field]). Qed.
Lemma turned_scatter s : scatter_matrix 2 turned_x wit_y s -> s = [[2; 0]; [0; 1 / 2]].
Proof.
  intros [[L F] Sc]. pose proof (Sc 0%nat 0%nat ltac:(lia) ltac:(lia)) as S00. pose proof (Sc 0%nat 1%nat ltac:(lia) ltac:(lia)) as S01.
  pose proof (Sc 1%nat 0%nat ltac:(lia) ltac:(lia)) as S10. pose proof (Sc 1%nat 1%nat ltac:(lia) ltac:(lia)) as S11.
  destruct s as [|r0 [|r1 [|]]]; try discriminate. inversion F as [|? ? A F']; subst. inversion F' as [|? ? B _]; subst.
  destruct r0 as [|a [|b [|]]]; try discriminate. destruct r1 as [|c [|e [|]]]; try discriminate.
  unfold entry, class_scatter, class_mean, total, turned_x, wit_y, class_rows in S00, S01, S10, S11. simpl in S00, S01, S10, S11.
  repeat f_equal; [rewrite S00|rewrite S01|rewrite S10|rewrite S11]; field.
Qed.
Lemma turned_scatter' : within_class_scatter 2 (class_rows 0 turned_x wit_y) (class_rows 1 turned_x wit_y) [1; 0] [1; 9 / 2] = [[2; 0]; [0; 1 / 2]].
Proof.
  unfold within_class_scatter, scatter_of, class_rows, turned_x, wit_y, rsum, vadd. simpl. f_equal; [f_equal; [field|f_equal; field]|f_equal; f_equal; [field|f_equal; field]].
Qed.
Lemma turned_decomposes : decomposes turned_svd 2 wit_x wit_y /\ decomposes turned_svd 2 turned_x wit_y.
Proof.
  split; intros s Hs.
  - rewrite (wit_scatter s Hs). unfold turned_svd, wit_s. cbn [nth]. destruct (Req_EM_T (1 / 2) (1 / 2)); [|congruence].
    split; [split; [reflexivity|repeat constructor]|]. split; [split; [reflexivity|repeat constructor]|]. split; [reflexivity|].
    split; [intros [|[|i]] [|[|j]] Hi Hj; try lia; unfold sum_below, total, entry; simpl; lra|].
    split; [intros [|[|i]] [|[|j]] Hi Hj; try lia; unfold sum_below, total, entry; simpl; lra|].
    split; [intros [|[|i]] Hi; try lia; simpl; lra|].
    split; [intros [|[|i]] [|[|j]] Hi Hj; try lia; simpl; lra|].
    intros [|[|i]] [|[|j]] Hi Hj; try lia; unfold sum_below, total, entry; simpl; lra.
  - rewrite (turned_scatter s Hs). unfold turned_svd. cbn [nth]. destruct (Req_EM_T 2 (1 / 2)); [lra|]. apply decomp_diag; lra.
Qed.
Lemma inverse_diag2 a b : a * b <> 0 -> exists M, inverse 2 (diag 2 [a; b]) = Ok M.
Proof.
  intros N. unfold inverse. destruct (Reqb _ 0) eqn:E; [|eauto]. apply Reqb_true in E. exfalso. apply N. unfold det, diag, minor, drop_nth, sign, rsum in E. simpl in E. lra.
Qed.
Lemma turned_fit : exists m, lda_fit turned_svd 2 turned_x wit_y = Ok m /\ map (lda_predict m) turned_x = wit_y.
Proof.
  destruct turned_means as [M0 M1]. unfold lda_fit. change (with_label 0 turned_x wit_y) with (class_rows 0 turned_x wit_y). change (with_label 1 turned_x wit_y) with (class_rows 1 turned_x wit_y).
  rewrite M0, M1. cbn [length Nat.eqb negb turned_x wit_y bind]. fold turned_x wit_y. rewrite turned_scatter'. unfold get_w_v2, turned_svd. cbn [nth]. destruct (Req_EM_T 2 (1 / 2)); [lra|].
  assert (I : inverse 2 (diag 2 [2; 1 / 2]) = Ok [[1 / 2; 0]; [0; 2]]).
  { unfold inverse. destruct (Reqb _ 0) eqn:E; [apply Reqb_true in E; exfalso; unfold det, diag, minor, drop_nth, sign, rsum in E; simpl in E; lra|].
    unfold det, diag, minor, drop_nth, sign, rsum. simpl. repeat (f_equal; try field). }
  rewrite I. cbn [bind]. eexists. split; [reflexivity|]. unfold turned_x, wit_y, elementwise, transposed, vsub. cbn [seq map combine fst snd column nth dot].
  unfold lda_predict. cbn [lda_w lda_mu0 lda_mu1 dot].
  unfold Rltb. repeat match goal with |- context [Rlt_dec ?p ?q] => destruct (Rlt_dec p q) as [H|H]; [try (exfalso; revert H; unfold Rabs; repeat destruct (Rcase_abs _); lra)|try (exfalso; revert H; unfold Rabs; repeat destruct (Rcase_abs _); lra)]; clear H end. reflexivity.
Qed.
Lemma turned_old : exists m, lda_fit turned_svd 2 wit_x wit_y = Ok m /\ map (lda_predict m) wit_x = [0; 0; 0; 0]%Z.
Proof.
  assert (E : exists m, lda_fit turned_svd 2 wit_x wit_y = Ok m).
  { destruct wit_means as [M0 M1].
    unfold lda_fit. change (with_label 0 wit_x wit_y) with (class_rows 0 wit_x wit_y). change (with_label 1 wit_x wit_y) with (class_rows 1 wit_x wit_y).
    rewrite M0, M1. cbn [length Nat.eqb negb wit_x wit_y bind]. fold wit_x wit_y. unfold get_w_v2, turned_svd.
    destruct (inverse_diag2 2 (1 / 2) ltac:(lra)) as [M HM]. destruct (Req_EM_T _ _); rewrite HM; cbn [bind]; eauto. }
  destruct E as [m E]. exists m. split; [exact E|]. destruct (wit_all_zero turned_svd m (proj1 turned_decomposes) E) as [_ Z]. unfold wit_x. cbn [map]. rewrite !Z by reflexivity. reflexivity.
Qed.
