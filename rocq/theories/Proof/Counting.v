(** Counting lemmas. *)
From Coq Require Import List ZArith Reals Lra Lia Bool Arith Permutation.
From Verif.Model Require Import Base.
From Verif.Spec Require Import Common.
From Verif.Proof Require Import BaseLemmas.
Import ListNotations.

Lemma hm_count {A} (P : A -> Prop) (f : A -> bool) l :
  (forall a, In a l -> (f a = true <-> P a)) -> how_many P l (count f l).
Proof.
  induction l as [|a l IH]; intros H; [constructor|]. unfold count; simpl.
  destruct (f a) eqn:E; simpl.
  - apply hm_yes; [apply H; simpl; auto|]. apply IH. intros; apply H; simpl; auto.
  - apply hm_no; [intros K; apply H in K; simpl; auto; congruence|]. apply IH. intros; apply H; simpl; auto.
Qed.

Lemma hm_unique {A} (P : A -> Prop) l n m : how_many P l n -> how_many P l m -> n = m.
Proof.
  intros H; revert m; induction H; intros m Hm; inversion Hm; subst; auto; try contradiction.
Qed.

Lemma hm_is_count {A} (P : A -> Prop) (f : A -> bool) l n :
  (forall a, In a l -> (f a = true <-> P a)) -> how_many P l n -> n = count f l.
Proof. intros H Hn. eapply hm_unique; eauto. apply hm_count; auto. Qed.

Lemma count_le {A} (f : A -> bool) l : (count f l <= length l)%nat.
Proof. unfold count. induction l as [|a l IH]; simpl; auto. destruct (f a); simpl; lia. Qed.

Lemma count_negb {A} (f : A -> bool) l : (count f l + count (fun a => negb (f a)) l = length l)%nat.
Proof. unfold count. induction l as [|a l IH]; simpl; auto. destruct (f a); simpl; lia. Qed.

Lemma count_ext {A} (f g : A -> bool) l : (forall a, In a l -> f a = g a) -> count f l = count g l.
Proof.
  unfold count. induction l as [|a l IH]; simpl; intros H; auto.
  rewrite (H a) by auto. destruct (g a); simpl; rewrite IH; auto.
Qed.

Lemma count_perm {A} (f : A -> bool) l m : Permutation l m -> count f l = count f m.
Proof.
  unfold count. induction 1; simpl; auto; try lia.
  - destruct (f x); simpl; lia.
  - destruct (f x), (f y); simpl; lia.
Qed.

Lemma hm_le {A} (P : A -> Prop) l n : how_many P l n -> (n <= length l)%nat.
Proof. induction 1; simpl; lia. Qed.

Lemma count_map {A B} (f : B -> bool) (g : A -> B) l : count f (map g l) = count (fun a => f (g a)) l.
Proof. unfold count. induction l as [|a l IH]; simpl; auto. destruct (f (g a)); simpl; lia. Qed.

Lemma count_mono {A} (f g : A -> bool) l :
  (forall a, In a l -> f a = true -> g a = true) -> (count f l <= count g l)%nat.
Proof.
  unfold count. induction l as [|a l IH]; simpl; intros H; auto.
  assert (IH' : (length (filter f l) <= length (filter g l))%nat) by (apply IH; auto).
  destruct (f a) eqn:E; [rewrite (H a) by auto; simpl; lia|]. destruct (g a); simpl; lia.
Qed.

Lemma count_false {A} (l : list A) : count (fun _ => false) l = 0%nat.
Proof. unfold count. induction l; simpl; auto. Qed.

Lemma count_cons' {A} (p : A -> bool) a l : count p (a :: l) = ((if p a then 1 else 0) + count p l)%nat.
Proof. unfold count. simpl. destruct (p a); reflexivity. Qed.
