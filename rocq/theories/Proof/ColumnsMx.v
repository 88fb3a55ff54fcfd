(** Lemmas for C109: determinant and inverse with rows and columns in another order. *)
From Coq Require Import List Reals Lra Lia Arith Permutation.
From Verif.Model Require Import Base Matrix.
From Verif.Spec Require Import Common Smo Gmm Matrix Columns.
From Verif.Proof Require Import BaseLemmas RealField Determinant.
From mathcomp Require Import ssreflect ssrfun ssrbool eqtype ssrnat seq choice fintype fingroup perm bigop ssralg matrix.
Import GRing.Theory.
Set Implicit Arguments.
Unset Strict Implicit.
Unset Printing Implicit Defensive.
Local Open Scope ring_scope.

Section Grid.
Variable n : nat.
Variable s : list nat.
Hypothesis Hs : new_order n s.

Lemma order_length : length s = n.
Proof. by rewrite (Permutation_length Hs) List.seq_length. Qed.
Lemma order_lt i : (i < n)%coq_nat -> (List.nth i s 0%N < n)%coq_nat.
Proof.
  move=> Hi. have I : List.In (List.nth i s 0%N) s by apply: nth_In; rewrite order_length.
  have := Permutation_in _ Hs I. rewrite in_seq. lia.
Qed.
Lemma order_inj i j : (i < n)%coq_nat -> (j < n)%coq_nat -> List.nth i s 0%N = List.nth j s 0%N -> i = j.
Proof.
  move=> Hi Hj E. have N : List.NoDup s by apply: (Permutation_NoDup (Permutation_sym Hs)); exact: seq_NoDup.
  apply: (proj1 (NoDup_nth s 0%N) N) => //; by rewrite order_length.
Qed.
Lemma entry_reordered m i j : (i < n)%coq_nat -> (j < n)%coq_nat -> entry (grid_reordered s m) i j = entry m (List.nth i s 0%N) (List.nth j s 0%N).
Proof.
  move=> Hi Hj. rewrite /entry /grid_reordered.
  rewrite (@nth_indep _ _ i [::] (List.map (fun j => entry m 0%N j) s)); last by rewrite List.map_length order_length.
  rewrite (List.map_nth (fun i => List.map (fun j => entry m i j) s)).
  rewrite (@nth_indep _ _ j _ (entry m (List.nth i s 0%N) 0%N)); last by rewrite List.map_length order_length.
  by rewrite (List.map_nth (fun j => entry m (List.nth i s 0%N) j)).
Qed.
Lemma grid_square m : square n (grid_reordered s m).
Proof.
  split; first by rewrite List.map_length order_length.
  apply List.Forall_forall => r /List.in_map_iff [i [<- _]]. by rewrite List.map_length order_length.
Qed.
Definition pick_ord (i : 'I_n) : 'I_n := Ordinal (introT ltP (order_lt (elimT ltP (ltn_ord i)))).
Lemma pick_inj : injective pick_ord.
Proof. move=> i j /(congr1 val) /= E. apply: val_inj => /=. exact: (order_inj (elimT ltP (ltn_ord i)) (elimT ltP (ltn_ord j)) E). Qed.
Definition sp : 'S_n := perm pick_inj.
Lemma mx_reordered m : mx n (grid_reordered s m) = perm_mx sp *m (mx n m *m perm_mx sp^-1).
Proof.
  rewrite -col_permE -row_permE. apply/matrixP => i j. rewrite !mxE.
  rewrite !permE. apply: entry_reordered; exact: (elimT ltP (ltn_ord _)).
Qed.
Lemma perm_cancel : (perm_mx sp^-1 *m perm_mx sp : 'M[R]_n) = 1%:M.
Proof. by rewrite -perm_mxM mulVg perm_mx1. Qed.
Lemma perm_cancel' : (perm_mx sp *m perm_mx sp^-1 : 'M[R]_n) = 1%:M.
Proof. by rewrite -perm_mxM mulgV perm_mx1. Qed.
Lemma det_reordered m : det n (grid_reordered s m) = det n m.
Proof.
  rewrite !det_mx mx_reordered !det_mulmx.
  rewrite mulrCA -det_mulmx perm_cancel' det1. exact: mulr1.
Qed.
Lemma one_reordered a b : product_is_one n a b -> product_is_one n (grid_reordered s a) (grid_reordered s b).
Proof.
  move=> /product_mx E. apply/product_mx. rewrite !mx_reordered.
  rewrite -!mulmxA (mulmxA (perm_mx sp^-1) (perm_mx sp)) perm_cancel mul1mx (mulmxA (mx n a)) E mul1mx. exact: perm_cancel'.
Qed.
Lemma square_eq a b : square n a -> square n b -> (forall i j, (i < n)%coq_nat -> (j < n)%coq_nat -> entry a i j = entry b i j) -> a = b.
Proof.
  move=> [La Fa] [Lb Fb] E. apply: (nth_ext _ _ [::] [::]); first by rewrite La Lb.
  move=> i Hi. rewrite La in Hi. rewrite List.Forall_forall in Fa. rewrite List.Forall_forall in Fb.
  have Ra := Fa _ (nth_In a [::] (eq_ind_r (fun k => (i < k)%coq_nat) Hi La)).
  have Rb := Fb _ (nth_In b [::] (eq_ind_r (fun k => (i < k)%coq_nat) Hi Lb)).
  apply: (nth_ext _ _ 0 0); first by rewrite Ra Rb.
  move=> j Hj. rewrite Ra in Hj. exact: E.
Qed.
Lemma inverse_reordered m : inverse n (grid_reordered s m) = match inverse n m with Ok M => Ok (grid_reordered s M) | Err e => Err e end.
Proof.
  have D := det_reordered m.
  case E: (inverse n m) => [M|e]; case E': (inverse n (grid_reordered s m)) => [M'|e'].
  - congr Ok. have [Sq _] := inverse_ok E'. apply: square_eq => // [|i j Hi Hj]; first exact: grid_square.
    have [_ [_ L]] := inverse_ok E. symmetry. exact: (left_inverse_unique E' (one_reordered L) Hi Hj).
  - have [_ [R _]] := inverse_ok E. have [_ N] := inverse_err E'. by case: (N (grid_reordered s M)) => Q _; case: Q; apply: one_reordered.
  - move: E E'. rewrite /inverse D. by case: Reqb.
  - have [-> _] := inverse_err E. by have [-> _] := inverse_err E'.
Qed.
End Grid.
