(** The real numbers of the standard library as a mathcomp field, so that the
    theory of determinants can be used. *)
From Coq Require Import Reals Lra ClassicalEpsilon FunctionalExtensionality.
From mathcomp Require Import ssreflect ssrfun ssrbool eqtype ssrnat seq choice fintype bigop ssralg.
Set Implicit Arguments.
Unset Strict Implicit.
Unset Printing Implicit Defensive.

Definition Req_bool (x y : R) : bool := if Req_EM_T x y then true else false.
Lemma Req_boolP : Equality.axiom Req_bool.
Proof. move=> x y; rewrite /Req_bool; case: Req_EM_T => H; [exact: ReflectT|exact: ReflectF]. Qed.
Canonical R_eqMixin := EqMixin Req_boolP.
Canonical R_eqType := Eval hnf in EqType R R_eqMixin.

Definition R_find (P : pred R) (n : nat) : option R :=
  match excluded_middle_informative (exists x, P x) with
  | left H => Some (proj1_sig (constructive_indefinite_description _ H))
  | right _ => None
  end.
Lemma R_find_sound P n x : R_find P n = Some x -> P x.
Proof.
  rewrite /R_find; case: excluded_middle_informative => // H [<-].
  exact: (proj2_sig (constructive_indefinite_description _ H)).
Qed.
Lemma R_find_complete (P : pred R) : (exists x, P x) -> exists n, R_find P n.
Proof. by move=> H; exists 0; rewrite /R_find; case: excluded_middle_informative. Qed.
Lemma R_find_ext (P Q : pred R) : P =1 Q -> R_find P =1 R_find Q.
Proof. by move=> E n; have -> : P = Q by apply: functional_extensionality. Qed.
Definition R_choiceMixin := Choice.Mixin R_find_sound R_find_complete R_find_ext.
Canonical R_choiceType := Eval hnf in ChoiceType R R_choiceMixin.

Lemma RplusA : associative Rplus. Proof. by move=> x y z; rewrite Rplus_assoc. Qed.
Definition R_zmodMixin := ZmodMixin RplusA Rplus_comm Rplus_0_l Rplus_opp_l.
Canonical R_zmodType := Eval hnf in ZmodType R R_zmodMixin.

Lemma RmultA : associative Rmult. Proof. by move=> x y z; rewrite Rmult_assoc. Qed.
Lemma R1_neq_0 : R1 != R0. Proof. by apply/eqP; exact: R1_neq_R0. Qed.
Definition R_ringMixin := RingMixin RmultA Rmult_1_l Rmult_1_r Rmult_plus_distr_r Rmult_plus_distr_l R1_neq_0.
Canonical R_ringType := Eval hnf in RingType R R_ringMixin.
Canonical R_comRingType := Eval hnf in ComRingType R Rmult_comm.

Definition R_inv (x : R) : R := if Req_bool x R0 then R0 else Rinv x.
Lemma R_mulVf : GRing.Field.axiom R_inv.
Proof.
  move=> x /eqP H. rewrite /R_inv /Req_bool. case: Req_EM_T => [//|H1]. exact: Rinv_l.
Qed.
Lemma R_inv0 : R_inv R0 = R0.
Proof. by rewrite /R_inv /Req_bool; case: Req_EM_T. Qed.
Definition R_unitRingMixin := FieldUnitMixin R_mulVf R_inv0.
Canonical R_unitRingType := Eval hnf in UnitRingType R R_unitRingMixin.
Canonical R_comUnitRingType := Eval hnf in [comUnitRingType of R].
Definition R_fieldMixin := FieldMixin R_mulVf R_inv0.
Definition R_idomainMixin := FieldIdomainMixin R_fieldMixin.
Canonical R_idomainType := Eval hnf in IdomainType R R_idomainMixin.
Canonical R_fieldType := FieldType R R_fieldMixin.
