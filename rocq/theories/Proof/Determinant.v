(** The list determinant and inverse agree with mathcomp's. *)
From Coq Require Import List Reals Lra Lia Arith.
From Verif.Model Require Import Base Matrix.
From Verif.Spec Require Import Common Smo Gmm Matrix.
From Verif.Proof Require Import BaseLemmas RealField.
From mathcomp Require Import ssreflect ssrfun ssrbool eqtype ssrnat seq choice fintype bigop ssralg matrix.
Import GRing.Theory.
Set Implicit Arguments.
Unset Strict Implicit.
Unset Printing Implicit Defensive.
Local Open Scope ring_scope.

Definition mx (n : nat) (m : list (list R)) : 'M[R]_n := \matrix_(i, j) entry m i j.

Lemma rsum_big n (f : nat -> R) : rsum (List.map f (List.seq 0 n)) = \sum_(i < n) f i.
Proof.
  have G : forall a, rsum (List.map f (List.seq a n)) = \sum_(i < n) f (a + i)%N.
  { elim: n => [|n IH] a; first by rewrite big_ord0.
    rewrite big_ord_recl /= addn0. congr (_ + _). rewrite IH. apply: eq_bigr => i _. by rewrite addSnnS. }
  by rewrite G; apply: eq_bigr.
Qed.

Lemma sum_below_big n (f : nat -> R) : sum_below n f = \sum_(i < n) f i.
Proof. exact: rsum_big. Qed.

Lemma nth_drop_list (A : Type) (d : A) (k : nat) (l : list A) (a : nat) : List.nth a (Model.Matrix.drop_nth k l) d = List.nth (bump k a) l d.
Proof.
  rewrite /Model.Matrix.drop_nth /bump. elim: k l a => [|k IH] [|x l] a.
  - by rewrite /=; case: a.
  - by [].
  - by rewrite /=; case: a => [|a]; case: (_ <= _)%N.
  - case: a => [|a] //=. rewrite IH. by rewrite ltnS; case: (k <= a)%N.
Qed.

Lemma mx_minor n m (i j : 'I_n.+1) : mx n (minor m i j) = row' i (col' j (mx n.+1 m)).
Proof.
  apply/matrixP => a b. rewrite !mxE /entry /minor.
  rewrite -[X in List.nth b (List.nth a _ X)](_ : Model.Matrix.drop_nth j [::] = [::]); last by rewrite /Model.Matrix.drop_nth List.firstn_nil.
  rewrite List.map_nth !nth_drop_list //=.
Qed.

Lemma sign_mx k : sign k = (-1) ^+ k.
Proof.
  have E : forall k, sign k.+1 = - sign k.
  { move=> {}k. rewrite /sign. elim: k => [|k IH]; first by [].
    rewrite -[Nat.even k.+2]/(Nat.even k). rewrite IH. by rewrite opprK. }
  elim: k => [|k IH]; first by rewrite expr0.
  by rewrite E IH exprS mulN1r.
Qed.

Lemma det_S n m : det n.+1 m =
  rsum (List.map (fun j => Rmult (Rmult (sign j) (List.nth j (List.nth 0 m [::]) 0)) (det n (minor m 0 j))) (List.seq 0 n.+1)).
Proof. by []. Qed.

Lemma det_mx n m : det n m = \det (mx n m).
Proof.
  elim: n m => [|n IH] m; first by rewrite det_mx00.
  rewrite (expand_det_row _ ord0) det_S rsum_big. apply: eq_bigr => j _.
  rewrite IH (mx_minor m ord0 j) /cofactor sign_mx !mxE add0n.
  by rewrite -[RHS]mulrCA mulrA.
Qed.

Lemma entry_map n (f : nat -> nat -> R) i j : (i < n)%N -> (j < n)%N ->
  entry (List.map (fun i => List.map (fun j => f i j) (List.seq 0 n)) (List.seq 0 n)) i j = f i j.
Proof.
  move=> /ltP Hi /ltP Hj. rewrite /entry.
  rewrite (@nth_indep _ _ i [::] (List.map (fun j => f 0%N j) (List.seq 0 n))); last by rewrite List.map_length List.seq_length.
  rewrite (List.map_nth (fun i => List.map (fun j => f i j) (List.seq 0 n))) List.seq_nth //.
  rewrite (@nth_indep _ _ j _ (f (0 + i)%coq_nat 0%N)); last by rewrite List.map_length List.seq_length.
  by rewrite (List.map_nth (fun j => f (0 + i)%coq_nat j)) List.seq_nth.
Qed.

Lemma inverse_mx n m M : inverse n m = Ok M -> mx n m \in unitmx /\ mx n M = invmx (mx n m).
Proof.
  rewrite /inverse. case E: (Reqb (det n m) _) => // - [<-]. apply Reqb_false in E.
  have U : mx n m \in unitmx by rewrite unitmxE unitfE -det_mx; apply/eqP.
  split=> //. apply/matrixP => i j. rewrite /invmx U !mxE entry_map //.
  rewrite -det_mx sign_mx plusE addnC.
  case: n m M E U i j => [|n] m M E U i j; first by case: i.
  rewrite (_ : (n.+1 - 1)%coq_nat = n); last by rewrite minusE subn1.
  rewrite [in LHS](det_mx n) mx_minor /cofactor.
  rewrite /Rdiv. rewrite [LHS]Rmult_comm. apply: (f_equal2 Rmult) => //.
  rewrite /GRing.inv /= /R_inv /Req_bool. by case: Req_EM_T.
Qed.

Lemma product_mx n a b : product_is_one n a b <-> mx n a *m mx n b = 1%:M.
Proof.
  split=> [H|H i j /ltP Hi /ltP Hj].
  - apply/matrixP => i j. rewrite !mxE.
    transitivity (sum_below n (fun k => Rmult (entry a i k) (entry b k j))).
    + rewrite sum_below_big. apply: eq_bigr => k _. by rewrite !mxE.
    + rewrite (H i j); [|exact: ltP|exact: ltP]. rewrite -val_eqE /=. by case: Nat.eqb_spec => [->|/eqP/negbTE ->]; rewrite ?eqxx.
  - have E := congr1 (fun A : 'M_n => A (Ordinal Hi) (Ordinal Hj)) H. rewrite /= !mxE in E.
    transitivity (\sum_k mx n a (Ordinal Hi) k * mx n b k (Ordinal Hj)).
    + rewrite sum_below_big. apply: eq_bigr => k _. by rewrite !mxE.
    + rewrite E -val_eqE /=. by case: Nat.eqb_spec => [->|/eqP/negbTE ->]; rewrite ?eqxx.
Qed.

Lemma inverse_ok n m M : inverse n m = Ok M -> inverse_of n m M.
Proof.
  move=> H. have [U E] := inverse_mx H. split; last split.
  - move: H. rewrite /inverse. case: Reqb => // - [<-]. split; first by rewrite List.map_length List.seq_length.
    apply List.Forall_forall => r /List.in_map_iff [i [<- _]]. by rewrite List.map_length List.seq_length.
  - by apply/product_mx; rewrite E mulmxV.
  - by apply/product_mx; rewrite E mulVmx.
Qed.

Lemma inverse_err n m e : inverse n m = Err e -> e = LinAlgError /\ forall N, ~ product_is_one n m N /\ ~ product_is_one n N m.
Proof.
  rewrite /inverse. case E: (Reqb (det n m) _) => // - [<-]. apply Reqb_true in E. split=> // N.
  have D : forall X Y : 'M[R]_n, X *m Y = 1%:M -> \det X != 0 /\ \det Y != 0.
  { move=> X Y HXY. have Q : \det X * \det Y = 1 by rewrite -det_mulmx HXY det1.
    split; apply/eqP => Z; move: Q; rewrite Z ?mul0r ?mulr0 => /eqP; by rewrite eq_sym oner_eq0. }
  by split; move=> /product_mx /D [/eqP A /eqP B]; rewrite -!det_mx in A B.
Qed.

Lemma left_inverse_unique n m M N : inverse n m = Ok M -> product_is_one n N m ->
  forall i j, (i < n)%coq_nat -> (j < n)%coq_nat -> entry N i j = entry M i j.
Proof.
  move=> H /product_mx L i j /ltP Hi /ltP Hj. have [U E] := inverse_mx H.
  have Q : mx n N = mx n M by rewrite E -[LHS]mulmx1 -(mulmxV U) mulmxA L mul1mx.
  have := congr1 (fun A : 'M_n => A (Ordinal Hi) (Ordinal Hj)) Q. by rewrite /= !mxE.
Qed.

(** A singular matrix maps some vector other than zero to zero. *)
Lemma inverse_err_kernel n m e : inverse n m = Err e -> exists v : nat -> R, (exists i, (i < n)%coq_nat /\ v i <> R0) /\
  forall i, (i < n)%coq_nat -> sum_below n (fun k => Rmult (entry m i k) (v k)) = R0.
Proof.
  rewrite /inverse. case E: (Reqb (det n m) _) => // _. apply Reqb_true in E.
  have /det0P [v Hv Ev] : \det (mx n m)^T == 0 by rewrite det_tr -det_mx E.
  exists (fun k => match (insub k : option 'I_n) with Some i => v ord0 i | None => R0 end). split.
  - have /existsP [i Hi] : [exists i, v ord0 i != 0].
    { apply: contraNT Hv. rewrite negb_exists => /forallP H. apply/eqP/matrixP => a b. rewrite !mxE (ord1 a). by apply/eqP; move: (H b); rewrite negbK. }
    exists i. split; first exact/ltP. rewrite (valK i). exact/eqP.
  - move=> i /ltP Hi. have Q := congr1 (fun A : 'rV_n => A ord0 (Ordinal Hi)) Ev. rewrite /= !mxE in Q.
    rewrite sum_below_big -[RHS]Q. apply: eq_bigr => k _. rewrite !mxE /= (valK k). exact: Rmult_comm.
Qed.
