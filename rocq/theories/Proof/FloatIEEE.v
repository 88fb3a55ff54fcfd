(** The operations of Model/Float.v are those of IEEE 754, as formalised in
    Flocq: [read] forgets the sign of zeros. *)
From Coq Require Import Reals ZArith Bool Lia Lra.
From Flocq Require Import Core IEEE754.BinarySingleNaN.
From Verif.Model Require Import Base Float.
From Verif.Spec Require Import Float.
From Verif.Proof Require Import Float.
Local Open Scope R_scope.

Section IEEE.
Variable f : format.
Hypothesis G : good f.
Local Instance prec_pos : Prec_gt_0 (prec f). Proof. unfold Prec_gt_0. destruct G. lia. Qed.
Local Instance prec_emax : Prec_lt_emax (prec f) (emax f). Proof. unfold Prec_lt_emax. destruct G. lia. Qed.
Notation float := (binary_float (prec f) (emax f)).

Definition read (x : float) : num :=
  match x with
  | B754_zero _ => Num 0
  | B754_infinity s => Inf s
  | B754_nan => NaN
  | B754_finite _ _ _ _ => Num (B2R x)
  end.

Lemma read_finite x : is_finite x = true -> read x = Num (B2R x).
Proof. destruct x; try discriminate; reflexivity. Qed.
Lemma sign_nonzero (x : float) : is_finite x = true -> B2R x <> 0 -> Bsign x = Rltb (B2R x) 0.
Proof.
  destruct x as [s|s| |s m e H]; try discriminate; intros _ N; [now cbn in N|].
  cbn [Bsign]. cbn [B2R] in *. unfold Rltb. destruct s; cbn [SpecFloat.cond_Zopp] in *.
  - destruct (Rlt_dec _ _) as [_|L]; [reflexivity|]. exfalso. apply L. now apply F2R_lt_0.
  - destruct (Rlt_dec _ _) as [L|_]; [|reflexivity]. exfalso. apply Rlt_not_le in L. apply L. now apply F2R_ge_0.
Qed.
Lemma sign_cases (x : float) : is_finite x = true -> if Bsign x then B2R x <= 0 else 0 <= B2R x.
Proof.
  destruct x as [s|s| |s m e H]; try discriminate; intros _.
  - cbn. destruct s; lra.
  - cbn [Bsign B2R]. destruct s; [now apply F2R_le_0|now apply F2R_ge_0].
Qed.
Lemma read_B2SF (z : float) s : B2SF z = SpecFloat.S754_infinity s -> read z = Inf s.
Proof. destruct z; try discriminate. intros E. injection E as ->. reflexivity. Qed.

Lemma rlt_bool x y : Rlt_bool x y = Rltb x y.
Proof.
  unfold Rltb. destruct (Rlt_dec x y) as [L|L]; [now apply Rlt_bool_true|]. apply Rlt_bool_false. lra.
Qed.

(** The stored value of an exact result, given the sign of the overflow. *)
Lemma read_result (z : float) v s :
  (if Rlt_bool (Rabs (rnd f v)) (bpow radix2 (emax f))
   then B2R z = rnd f v /\ is_finite z = true
   else B2SF z = SpecFloat.S754_infinity s /\ s = Rltb (rnd f v) 0) -> read z = make f v.
Proof.
  rewrite rlt_bool. unfold make. destruct (Rltb (Rabs (rnd f v)) (bpow radix2 (emax f))).
  - intros [E F]. rewrite read_finite by exact F. now rewrite E.
  - intros [E ->]. now apply read_B2SF.
Qed.
Lemma rnd_sign v : (0 <= v -> Rltb (rnd f v) 0 = false) /\ (v <= 0 -> rnd f v <> 0 -> Rltb (rnd f v) 0 = true).
Proof.
  unfold Rltb. split.
  - intros H. pose proof (rnd_nonneg f G v H). destruct (Rlt_dec _ _); [lra|reflexivity].
  - intros H N. pose proof (rnd_nonpos f G v H). destruct (Rlt_dec _ _); [reflexivity|lra].
Qed.
Lemma big_nonzero v : Rlt_bool (Rabs (rnd f v)) (bpow radix2 (emax f)) = false -> rnd f v <> 0.
Proof.
  intros H E. rewrite E, Rabs_R0 in H. rewrite Rlt_bool_true in H by apply bpow_gt_0. discriminate.
Qed.

Lemma plus_finite (x y : float) : is_finite x = true -> is_finite y = true ->
  read (Bplus mode_NE x y) = make f (B2R x + B2R y).
Proof.
  intros X Y. pose proof (Bplus_correct _ _ prec_pos prec_emax mode_NE x y X Y) as C.
  change (round radix2 (SpecFloat.fexp (prec f) (emax f)) (round_mode mode_NE) (B2R x + B2R y)) with (rnd f (B2R x + B2R y)) in C.
  apply (read_result _ _ (Bsign x)). destruct (Rlt_bool _ _) eqn:E; [destruct C as (A & B & _); auto|].
  destruct C as [A S]. split; [exact A|].
  pose proof (sign_cases x X) as Sx. pose proof (sign_cases y Y) as Sy. rewrite <- S in Sy.
  pose proof (big_nonzero _ E) as N. destruct (rnd_sign (B2R x + B2R y)) as [P Q].
  destruct (Bsign x); symmetry; [apply Q; [lra|exact N]|apply P; lra].
Qed.
Theorem plus_is_ieee (x y : float) : read (Bplus mode_NE x y) = fadd f (read x) (read y).
Proof.
  destruct (is_finite x) eqn:X, (is_finite y) eqn:Y.
  - rewrite plus_finite by assumption. now rewrite (read_finite x X), (read_finite y Y).
  - destruct x, y; try discriminate; reflexivity.
  - destruct x, y; try discriminate; reflexivity.
  - destruct x as [?|s| |], y as [?|s'| |]; try discriminate; try reflexivity. cbn. destruct (Bool.eqb s s'); reflexivity.
Qed.
Theorem opp_is_ieee (x : float) : read (Bopp x) = fneg (read x).
Proof.
  destruct x as [s|s| |s m e H]; cbn [Bopp]; try reflexivity.
  - cbn. f_equal. ring.
  - unfold read. cbn [fneg]. f_equal. cbn [B2R]. rewrite <- F2R_Zopp. destruct s; reflexivity.
Qed.
Theorem minus_is_ieee (x y : float) : read (Bminus mode_NE x y) = fsub f (read x) (read y).
Proof.
  replace (Bminus mode_NE x y) with (Bplus mode_NE x (Bopp y)) by (destruct x, y; reflexivity).
  unfold fsub. rewrite <- opp_is_ieee. apply plus_is_ieee.
Qed.

Lemma sign_product (x y : float) : is_finite x = true -> is_finite y = true ->
  if xorb (Bsign x) (Bsign y) then B2R x * B2R y <= 0 else 0 <= B2R x * B2R y.
Proof.
  intros X Y. pose proof (sign_cases x X) as A. pose proof (sign_cases y Y) as B. destruct (Bsign x), (Bsign y); cbn; nra.
Qed.
Lemma finite_sign s m e H : Rltb (B2R (B754_finite s m e H : float)) 0 = s /\ Reqb (B2R (B754_finite s m e H : float)) 0 = false.
Proof.
  assert (N : B2R (B754_finite s m e H : float) <> 0).
  { cbn [B2R]. apply F2R_neq_0. destruct s; discriminate. }
  split; [|unfold Reqb; destruct (Req_EM_T _ 0); [contradiction|reflexivity]].
  symmetry. exact (sign_nonzero (B754_finite s m e H) eq_refl N).
Qed.
Theorem mult_is_ieee (x y : float) : read (Bmult mode_NE x y) = fmul f (read x) (read y).
Proof.
  destruct (is_finite x && is_finite y) eqn:F.
  - apply andb_prop in F as [X Y].
    rewrite (read_finite x X), (read_finite y Y). cbn [fmul].
    pose proof (Bmult_correct _ _ prec_pos prec_emax mode_NE x y) as C.
    change (round radix2 (SpecFloat.fexp (prec f) (emax f)) (round_mode mode_NE) (B2R x * B2R y)) with (rnd f (B2R x * B2R y)) in C.
    apply (read_result _ _ (xorb (Bsign x) (Bsign y))). rewrite X, Y in C. destruct (Rlt_bool _ _) eqn:E; [destruct C as (A & B & _); auto|].
    split; [exact C|]. pose proof (sign_product x y X Y) as S. pose proof (big_nonzero _ E) as N.
    destruct (rnd_sign (B2R x * B2R y)) as [P Q]. destruct (xorb _ _); symmetry; [apply Q; [lra|exact N]|apply P; lra].
  - assert (Z : Reqb 0 0 = true) by (unfold Reqb; destruct (Req_EM_T 0 0); [reflexivity|lra]).
    destruct x as [s|s| |s m e H], y as [s'|s'| |s' m' e' H']; try discriminate; cbn [Bmult read fmul]; rewrite ?Z; try reflexivity.
    + destruct (finite_sign s' m' e' H') as [-> ->]. reflexivity.
    + destruct (finite_sign s m e H) as [-> ->]. now rewrite xorb_comm.
Qed.
Theorem div_is_ieee (x y : float) : y <> B754_zero true -> read (Bdiv mode_NE x y) = fdiv f (read x) (read y).
Proof.
  intros NZ. assert (Z : Reqb 0 0 = true) by (unfold Reqb; destruct (Req_EM_T 0 0); [reflexivity|lra]).
  assert (L : Rltb 0 0 = false) by (unfold Rltb; destruct (Rlt_dec 0 0); [lra|reflexivity]).
  destruct y as [s'|s'| |s' m' e' H'].
  - destruct s'; [contradiction|]. destruct x as [s|s| |s m e H]; cbn [Bdiv read fdiv]; rewrite ?Z, ?L; try reflexivity.
    destruct (finite_sign s m e H) as [-> ->]. now rewrite xorb_false_r.
  - destruct x; reflexivity.
  - destruct x; reflexivity.
  - set (y := B754_finite s' m' e' H' : float). destruct (finite_sign s' m' e' H') as [Sy Ny]. fold y in Sy, Ny.
    assert (N : B2R y <> 0) by (intros E; rewrite E, Z in Ny; discriminate).
    destruct (is_finite x) eqn:X.
    + rewrite (read_finite x X). change (read y) with (Num (B2R y)). cbn [fdiv]. rewrite Ny.
      pose proof (Bdiv_correct _ _ prec_pos prec_emax mode_NE x y N) as C.
      change (round radix2 (SpecFloat.fexp (prec f) (emax f)) (round_mode mode_NE) (B2R x / B2R y)) with (rnd f (B2R x / B2R y)) in C.
      apply (read_result _ _ (xorb (Bsign x) (Bsign y))). rewrite X in C. destruct (Rlt_bool _ _) eqn:E; [destruct C as (A & B & _); auto|].
      split; [exact C|].
      assert (S : if xorb (Bsign x) (Bsign y) then B2R x / B2R y <= 0 else 0 <= B2R x / B2R y).
      { pose proof (sign_cases x X) as A. assert (B : if Bsign y then / B2R y < 0 else 0 < / B2R y).
        { change (Bsign y) with s'. rewrite <- Sy. unfold Rltb. destruct (Rlt_dec (B2R y) 0); [now apply Rinv_lt_0_compat|apply Rinv_0_lt_compat; lra]. }
        unfold Rdiv. revert A B. generalize (/ B2R y) (B2R x). clear. intros v a A B. destruct (Bsign x), (Bsign y); cbn; nra. }
      pose proof (big_nonzero _ E) as Nq.
      destruct (rnd_sign (B2R x / B2R y)) as [P Q]. destruct (xorb _ _); symmetry; [apply Q; [lra|exact Nq]|apply P; lra].
    + destruct x as [s|s| |s m e H]; try discriminate; [|reflexivity]. unfold y. cbn [Bdiv read fdiv]. fold y. now rewrite Sy.
Qed.
Theorem less_is_ieee (x y : float) : Bltb x y = flt (read x) (read y).
Proof.
  destruct (is_finite x) eqn:X, (is_finite y) eqn:Y.
  - rewrite Bltb_correct by assumption. rewrite (read_finite x X), (read_finite y Y). cbn. apply rlt_bool.
  - destruct x as [?|?| |?], y as [?|[]| |?]; try discriminate; try reflexivity; destruct s; reflexivity.
  - destruct x as [?|[]| |?], y as [?|?| |?]; try discriminate; try reflexivity.
  - destruct x as [?|[]| |?], y as [?|[]| |?]; try discriminate; reflexivity.
Qed.
Theorem equal_is_ieee (x y : float) : Beqb x y = feq (read x) (read y).
Proof.
  destruct (is_finite x) eqn:X, (is_finite y) eqn:Y.
  - rewrite Beqb_correct by assumption. rewrite (read_finite x X), (read_finite y Y). cbn. unfold Reqb.
    destruct (Req_EM_T _ _); [now apply Req_bool_true|now apply Req_bool_false].
  - destruct x as [?|?| |?], y as [?|[]| |?]; try discriminate; try reflexivity; destruct s; reflexivity.
  - destruct x as [?|[]| |?], y as [?|?| |?]; try discriminate; try reflexivity.
  - destruct x as [?|[]| |?], y as [?|[]| |?]; try discriminate; reflexivity.
Qed.
End IEEE.
