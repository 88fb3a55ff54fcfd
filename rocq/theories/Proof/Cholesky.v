(** Positive semidefinite matrices: factorisation into a matrix and its
    transpose, and an inequality between determinant and trace. *)
From Coq Require Import List Reals Lra Lia Arith.
From Verif.Model Require Import Base Matrix.
From Verif.Spec Require Import Common Smo Gmm Matrix.
From Verif.Proof Require Import BaseLemmas RealField Determinant.
From mathcomp Require Import ssreflect ssrfun ssrbool eqtype ssrnat seq choice fintype bigop ssralg matrix.
Import GRing.Theory.
Set Implicit Arguments.
Unset Strict Implicit.
Unset Printing Implicit Defensive.
Local Open Scope ring_scope.

(** Arithmetic of the standard library. *)
Lemma addE (a b : R) : a + b = Rplus a b. Proof. by []. Qed.
Lemma mulE (a b : R) : a * b = Rmult a b. Proof. by []. Qed.
Lemma oppE (a : R) : - a = Ropp a. Proof. by []. Qed.
Lemma zeroE : 0 = R0 :> R. Proof. by []. Qed.
Lemma oneE : 1 = R1 :> R. Proof. by []. Qed.
Definition rE := (addE, mulE, oppE, zeroE, oneE).
Ltac rring := rewrite ?rE; match goal with |- @eq _ ?a ?b => change (@eq R a b) end; ring.

Definition form n (A : 'M[R]_n) (v : 'cV[R]_n) : R := (v^T *m A *m v) ord0 ord0.
Definition psd n (A : 'M[R]_n) : Prop := forall v, Rle R0 (form A v).

Lemma form_block n (a : R) (v : 'cV[R]_n) (B : 'M[R]_n) (t : R) (u : 'cV[R]_n) :
  form (block_mx a%:M v^T v B : 'M_(1 + n)) (col_mx t%:M u) =
  t * t * a + (t * (u^T *m v) ord0 ord0 + t * (u^T *m v) ord0 ord0) + form B u.
Proof.
  rewrite /form (@tr_col_mx _ 1 n 1) mul_row_block mul_row_col tr_scalar_mx !mulmxDl -!scalar_mxM.
  rewrite mul_mx_scalar -!mulmxA mul_scalar_mx.
  have E : (v^T *m u) ord0 ord0 = (u^T *m v) ord0 ord0 by rewrite -[v^T *m u]trmxK trmx_mul trmxK mxE.
  have arith : forall t a p q : R, t * a * t + t * p + (t * p + q) = t * t * a + (t * p + t * p) + q by move=> *; rring.
  rewrite [X in X = _]mxE [X in X + _ = _]mxE [X in _ + X = _]mxE.
  rewrite [(_ *: _ : 'M_1) _ _]mxE [(_ *: (v^T *m u) : 'M_1) _ _]mxE E.
  rewrite [(_%:M : 'M_1) _ _]mxE eqxx mulr1n mulmxA. exact: arith.
Qed.

Lemma sq_col n (v : 'cV[R]_n) : Rle R0 ((v^T *m v) ord0 ord0) /\ ((v^T *m v) ord0 ord0 = 0 -> v = 0).
Proof.
  rewrite mxE.
  have P : forall s : seq 'I_n, Rle R0 (\sum_(i <- s) v^T ord0 i * v i ord0) /\
     (\sum_(i <- s) v^T ord0 i * v i ord0 = 0 -> forall i, i \in s -> v i ord0 = 0).
  { elim => [|i s [IH1 IH2]]; first by rewrite big_nil; split; [exact: Rle_refl|].
    rewrite big_cons mxE. have Q : Rle R0 (v i ord0 * v i ord0) by exact: Rle_0_sqr. split; first exact: Rplus_le_le_0_compat.
    have ar : forall p q : R, Rle R0 p -> Rle R0 q -> p + q = 0 -> p = 0 /\ q = 0 by (move=> p q H1 H2; rewrite !rE => H3; split; lra).
    move=> E. have [E1 E2] := ar _ _ Q IH1 E. move=> j. rewrite in_cons => /orP [/eqP ->|Hj]; last exact: IH2.
    by move: E1 => /Rmult_integral; case. }
  split; first exact: (proj1 (P _)). move=> E. apply/matrixP => i j. rewrite ord1 mxE. apply: (proj2 (P (index_enum _)) E). exact: mem_index_enum.
Qed.

Lemma form0 n (A : 'M[R]_n) : form A 0 = 0.
Proof. by rewrite /form mulmx0 mxE. Qed.

Lemma factor n (A : 'M[R]_n) : A^T = A -> psd A -> exists T : 'M[R]_n, A = T *m T^T /\ \det T = \prod_i T i i.
Proof.
  elim: n A => [|n IH] A Hs Hp.
  { exists 0. split; first by apply/matrixP => - []. by rewrite det_mx00 big_ord0. }
  rewrite -[n.+1]/(1 + n)%N in A Hs Hp *.
  pose a : R := ulsubmx A ord0 ord0. pose v : 'cV[R]_n := dlsubmx A. pose B : 'M[R]_n := drsubmx A.
  have EA : A = block_mx a%:M v^T v B.
  { by rewrite /a -mx11_scalar /v trmx_dlsub Hs submxK. }
  have HB : B^T = B by rewrite /B trmx_drsub Hs.
  have Q : forall t u, Rle R0 (t * t * a + (t * (u^T *m v) ord0 ord0 + t * (u^T *m v) ord0 ord0) + form B u).
  { move=> t u. have := Hp (@col_mx _ 1 n 1 t%:M u). by rewrite {1}EA form_block. }
  have Ha : Rle R0 a.
  { have := Q 1 0. rewrite form0 trmx0 mul0mx mxE !rE. lra. }
  case: (Req_dec a R0) => Za.
  - have Zv : v = 0.
    { have [P1 P2] := sq_col v. apply: P2. set c := (v^T *m v) ord0 ord0 in P1 *.
      case: (Rle_lt_or_eq_dec _ _ P1) => [Hc|//]. exfalso.
      have ar : forall f : R, ~ Rle R0 (Rplus (Rplus (Rmult (Rmult (Ropp (Rdiv (Rplus f R1) (Rmult 2 c))) (Ropp (Rdiv (Rplus f R1) (Rmult 2 c)))) R0)
         (Rplus (Rmult (Ropp (Rdiv (Rplus f R1) (Rmult 2 c))) c) (Rmult (Ropp (Rdiv (Rplus f R1) (Rmult 2 c))) c))) f).
      { move=> f. set k := Rdiv _ _. have E : Rmult 2 (Rmult k c) = Rplus f R1 by rewrite /k; field; lra. lra. }
      apply: (ar (form B v)). have := Q (Ropp (Rdiv (Rplus (form B v) R1) (Rmult 2 c))) v. by rewrite Za. }
    have [L [EL DL]] : exists T : 'M[R]_n, B = T *m T^T /\ \det T = \prod_i T i i.
    { apply: IH => // u. have ar : forall p q f : R, Rle R0 (0 * 0 * p + (0 * q + 0 * q) + f) -> Rle R0 f by (move=> p q f; lra).
      exact: ar (Q 0 u). }
    exists (block_mx 0 0 0 L : 'M_(1 + n)). split.
    + rewrite EA Za Zv (_ : R0%:M = 0 :> 'M[R]_1); last by apply/matrixP => i j; rewrite !mxE mul0rn.
      rewrite (@tr_block_mx _ 1 n 1 n) mulmx_block !trmx0 !mul0mx !mulmx0 !addr0 !add0r -EL. by [].
    + rewrite det_ublock DL (_ : \det (0 : 'M[R]_1) = 0); last by rewrite det_mx11 mxE.
      rewrite mul0r. rewrite (@big_split_ord _ _ _ 1 n) /= big_ord_recl big_ord0 mulr1 (@block_mxEul _ 1 n 1 n) mxE mul0r. by [].
  - have Pa : Rlt R0 a by lra.
    pose r := sqrt a. have Hr : Rmult r r = a by exact: sqrt_sqrt. have Hr0 : r <> R0 by move=> E; rewrite E in Hr; lra.
    pose w : 'cV[R]_n := Rinv r *: v.
    have [L [EL DL]] : exists T : 'M[R]_n, B - w *m w^T = T *m T^T /\ \det T = \prod_i T i i.
    { apply: IH; first by rewrite linearB /= trmx_mul trmxK HB. move=> u.
      have Ef : form (B - w *m w^T) u = form B u - (u^T *m w) ord0 ord0 * (u^T *m w) ord0 ord0.
      { rewrite /form mulmxBr mulmxBl [LHS]mxE [X in _ + X]mxE. congr (_ - _).
        rewrite !mulmxA -mulmxA [LHS]mxE big_ord_recl big_ord0 addr0. congr (_ * _).
        by rewrite -[w^T *m u]trmxK trmx_mul trmxK mxE. }
      have Ew : (u^T *m w) ord0 ord0 = Rinv r * (u^T *m v) ord0 ord0 by rewrite /w -scalemxAr mxE.
      rewrite Ef Ew. set p := (u^T *m v) ord0 ord0. have := Q (Ropp (Rdiv p a)) u. rewrite -/p.
      have ar : forall p f : R, Rplus (Rplus (Rmult (Rmult (Ropp (Rdiv p a)) (Ropp (Rdiv p a))) a) (Rplus (Rmult (Ropp (Rdiv p a)) p) (Rmult (Ropp (Rdiv p a)) p))) f
         = f - Rinv r * p * (Rinv r * p).
      { move=> {}p f. rewrite !rE -Hr. match goal with |- @eq _ ?a ?b => change (@eq R a b) end. field. exact: Hr0. }
      by rewrite ar. }
    exists (block_mx r%:M 0 w L : 'M_(1 + n)). split.
    + rewrite EA (@tr_block_mx _ 1 n 1 n) mulmx_block trmx0 !mulmx0 !mul0mx !addr0 tr_scalar_mx -scalar_mxM -EL.
      have ar : r * Rinv r = 1 by exact: Rinv_r.
      rewrite (_ : r * r = a) // mul_scalar_mx mul_mx_scalar /w linearZ /= !scalerA ar !scale1r. by rewrite addrC subrK.
    + rewrite det_lblock DL det_scalar1 (@big_split_ord _ _ _ 1 n) /= big_ord_recl big_ord0 mulr1 (@block_mxEul _ 1 n 1 n) mxE eqxx mulr1n.
      congr (_ * _). apply: eq_bigr => i _. by rewrite (@block_mxEdr _ 1 n 1 n).
Qed.

Lemma form_congr n (A C : 'M[R]_n) v : form (C^T *m A *m C) v = form A (C *m v).
Proof. by rewrite /form trmx_mul !mulmxA. Qed.
Lemma psd_congr n (A C : 'M[R]_n) : psd A -> psd (C^T *m A *m C).
Proof. by move=> H v; rewrite form_congr; apply: H. Qed.

Lemma ln_prod n (f : 'I_n -> R) (s : seq 'I_n) : \prod_(i <- s) f i <> 0 ->
  Rle (ln (Rmult (\prod_(i <- s) f i) (\prod_(i <- s) f i))) (Rminus (\sum_(i <- s) f i * f i) (INR (size s))).
Proof.
  have ln_le : forall z, Rlt R0 z -> Rle (ln z) (Rminus z R1).
  { move=> z H. case: (Req_dec z R1) => [->|N]; first by rewrite ln_1; lra.
    have N' : ln z <> R0 by move=> E; apply: N; apply: ln_inv; [lra|lra|rewrite ln_1].
    have E := exp_ineq1 (ln z) N'. rewrite exp_ln in E => //. lra. }
  elim: s => [|i s IH]; first by rewrite !big_nil => _; change (Rle (ln (Rmult R1 R1)) (Rminus R0 R0)); rewrite Rmult_1_l ln_1; lra.
  rewrite !big_cons => H. set p := \prod_(j <- s) f j in IH H *. set q := \sum_(j <- s) f j * f j in IH *.
  have Hf : f i <> R0 by move=> E; apply: H; rewrite E mul0r.
  have Hp : p <> R0 by move=> E; apply: H; rewrite E mulr0.
  have Qf := Rsqr_pos_lt _ Hf. have Qp := Rsqr_pos_lt _ Hp. rewrite /Rsqr in Qf Qp.
  have := IH Hp. have := ln_le _ Qf. move=> H1 H2.
  change (Rle (ln (Rmult (Rmult (f i) p) (Rmult (f i) p))) (Rminus (Rplus (Rmult (f i) (f i)) q) (INR (size s).+1))).
  have E : Rmult (Rmult (f i) p) (Rmult (f i) p) = Rmult (Rmult (f i) (f i)) (Rmult p p) by ring.
  rewrite E ln_mult // S_INR. lra.
Qed.

Lemma sum_le (I : eqType) (s : seq I) (f g : I -> R) : (forall i, Rle (f i) (g i)) -> Rle (\sum_(i <- s) f i) (\sum_(i <- s) g i).
Proof.
  move=> H. elim: s => [|i s IH]; first by rewrite !big_nil; apply: Rle_refl. rewrite !big_cons. exact: Rplus_le_compat (H i) IH.
Qed.
Lemma sum_ge0 (I : eqType) (s : seq I) (f : I -> R) : (forall i, Rle R0 (f i)) -> Rle R0 (\sum_(i <- s) f i).
Proof.
  move=> H. elim: s => [|i s IH]; first by rewrite !big_nil; apply: Rle_refl. rewrite !big_cons. exact: Rplus_le_le_0_compat (H i) IH.
Qed.

Lemma det_trace n (A : 'M[R]_n) : A^T = A -> psd A -> \det A <> 0 -> Rlt R0 (\det A) /\ Rle (ln (\det A)) (Rminus (\tr A) (INR n)).
Proof.
  move=> Hs Hp Hd. have [T [ET DT]] := factor Hs Hp.
  have ED : \det A = Rmult (\prod_i T i i) (\prod_i T i i) by rewrite ET det_mulmx det_tr DT.
  have NZ : \prod_i T i i <> 0 by move=> E; apply: Hd; rewrite ED E; exact: Rmult_0_l.
  split; first by rewrite ED; exact: Rsqr_pos_lt.
  have H := @ln_prod n (fun i => T i i) (index_enum _) NZ. rewrite ED. apply: Rle_trans H _.
  rewrite [size _](_ : _ = n); last by rewrite -[RHS]card_ord cardE enumT.
  apply: Rplus_le_compat_r. rewrite /mxtrace. apply: sum_le => i. rewrite ET mxE.
  rewrite (bigD1 i) //= mxE. rewrite -[X in Rle X _]Rplus_0_r. apply: Rplus_le_compat_l.
  rewrite -big_filter. apply: sum_ge0 => j. rewrite mxE. exact: Rle_0_sqr.
Qed.

Lemma det_trace_pair n (A B : 'M[R]_n) : A^T = A -> psd A -> \det A <> 0 -> B^T = B -> psd B -> \det B <> 0 ->
  Rle (Rminus (ln (\det B)) (ln (\det A))) (Rminus (\tr (invmx A *m B)) (INR n)).
Proof.
  move=> As Ap Ad Bs Bp Bd. have [M [EM DM]] := factor As Ap.
  have dM : \det M <> 0 by move=> E; apply: Ad; rewrite EM det_mulmx E mul0r.
  have UM : M \in unitmx by rewrite unitmxE unitfE; apply/eqP.
  have UMt : M^T \in unitmx by rewrite unitmx_tr.
  have EI : invmx A = (invmx M)^T *m invmx M.
  { have U : A \in unitmx by rewrite unitmxE unitfE; apply/eqP.
    have : A *m ((invmx M)^T *m invmx M) = 1%:M.
    { rewrite EM trmx_inv. rewrite -mulmxA (mulmxA M^T) mulmxV // mul1mx mulmxV //. }
    move=> E. by rewrite -[LHS]mulmx1 -E mulmxA mulVmx // mul1mx. }
  pose C := (invmx M)^T. pose P := C^T *m B *m C.
  have Ps : P^T = P by rewrite /P !trmx_mul Bs trmxK mulmxA.
  have Pp : psd P by apply: psd_congr.
  have dA : \det A = \det M * \det M by rewrite EM det_mulmx det_tr.
  have dP : \det P * \det A = \det B.
  { rewrite dA /P !det_mulmx !det_tr det_inv.
    have U : \det M \is a GRing.unit by rewrite unitfE; apply/eqP.
    by rewrite -!mulrA (mulrA (\det M)^-1 (\det M)) mulVr // mul1r (mulrC _ (\det M)) mulrA mulVr // mul1r. }
  have dP0 : \det P <> 0 by move=> E; apply: Bd; rewrite -dP E mul0r.
  have [PP PT] := det_trace Ps Pp dP0. have [PA _] := det_trace As Ap Ad.
  have EL : ln (\det B) = Rplus (ln (\det P)) (ln (\det A)) by rewrite -dP; exact: ln_mult.
  rewrite EL. have -> : \tr (invmx A *m B) = \tr P.
  { by rewrite EI /P /C trmxK -mulmxA mxtrace_mulC. }
  have ar : forall p q r : R, Rle p r -> Rle (Rminus (Rplus p q) q) r by move=> p q r H; lra.
  exact: ar PT.
Qed.

Lemma psd_inv n (A : 'M[R]_n) : A^T = A -> psd A -> A \in unitmx -> psd (invmx A).
Proof.
  move=> As Ap U. have -> : invmx A = (invmx A)^T *m A *m invmx A by rewrite trmx_inv As mulVmx // mul1mx.
  exact: psd_congr.
Qed.

(** ** The same for lists *)
Lemma symmetric_mx d m : symmetric_matrix d m -> (mx d m)^T = mx d m.
Proof. move=> H. apply/matrixP => i j. rewrite !mxE. apply: H; exact/ltP. Qed.
Lemma form_list d m (v : nat -> R) : form (mx d m) (\col_i v i) = sum_below d (fun a => sum_below d (fun b => Rmult (Rmult (v a) (v b)) (entry m a b))).
Proof.
  rewrite /form -mulmxA mxE sum_below_big. apply: eq_bigr => a _. rewrite !mxE sum_below_big mulr_sumr. apply: eq_bigr => b _.
  rewrite !mxE. have ar : forall p q r : R, p * (r * q) = Rmult (Rmult p q) r by move=> p q r; rring. exact: ar.
Qed.
Lemma col_fun d (v : 'cV[R]_d) : exists f : nat -> R, v = \col_i f i.
Proof.
  exists (fun k => match (insub k : option 'I_d) with Some i => v i ord0 | None => R0 end).
  apply/matrixP => i j. by rewrite !mxE (valK i) ord1.
Qed.
Lemma psd_mx d m : psd_matrix d m -> psd (mx d m).
Proof. move=> H v. have [f ->] := col_fun v. rewrite form_list. exact: H. Qed.

Lemma det_trace_list d S S' Q : symmetric_matrix d S -> psd_matrix d S -> inverse d S = Ok Q ->
  symmetric_matrix d S' -> psd_matrix d S' -> det d S' <> R0 ->
  Rlt R0 (det d S) /\ Rlt R0 (det d S') /\
  Rle (Rminus (ln (det d S')) (ln (det d S))) (Rminus (sum_below d (fun a => sum_below d (fun b => Rmult (entry Q a b) (entry S' b a)))) (INR d)) /\
  psd_matrix d Q.
Proof.
  move=> As Ap HQ Bs Bp Bd. have [U EQ] := inverse_mx HQ.
  have Ad : \det (mx d S) <> 0 by apply/eqP; rewrite -unitfE -unitmxE.
  have Bd' : \det (mx d S') <> 0 by rewrite -det_mx.
  have As' := symmetric_mx As. have Ap' := psd_mx Ap. have Bs' := symmetric_mx Bs. have Bp' := psd_mx Bp.
  have [PA _] := det_trace As' Ap' Ad. have [PB _] := det_trace Bs' Bp' Bd'.
  rewrite !det_mx. do 2 (split => //). split.
  - have := det_trace_pair As' Ap' Ad Bs' Bp' Bd'. rewrite -EQ.
    have -> // : \tr (mx d Q *m mx d S') = sum_below d (fun a => sum_below d (fun b => Rmult (entry Q a b) (entry S' b a))).
    rewrite /mxtrace sum_below_big. apply: eq_bigr => i _. rewrite mxE sum_below_big. apply: eq_bigr => j _. by rewrite !mxE.
  - move=> v. rewrite -form_list EQ. exact: psd_inv.
Qed.
