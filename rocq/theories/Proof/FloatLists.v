(** Lists in the floating point statements. *)
From Coq Require Import List Reals ZArith Bool Lia Lra.
From Verif.Model Require Import Base Float FloatOps.
From Verif.Spec Require Import Common Preprocessing Float.
From Verif.Proof Require Import BaseLemmas Preprocessing Float FloatAct.
Import ListNotations.
Local Open Scope R_scope.

Lemma min_max_of data mn mx : is_min mn data -> is_max mx data -> np_min data = Ok mn /\ np_max data = Ok mx.
Proof.
  intros Mn Mx. destruct data as [|d t]; [now destruct Mn|].
  destruct (np_min (d :: t)) as [a|] eqn:A; [|discriminate A]. destruct (np_max (d :: t)) as [b|] eqn:B; [|discriminate B].
  apply np_min_is_min in A. apply np_max_is_max in B. split; f_equal; apply Rle_antisym.
  - apply A, Mn.
  - apply Mn, A.
  - apply Mx, B.
  - apply B, Mx.
Qed.
Lemma nth_map_in {A B} (a : A) (b : B) (h : A -> B) l i : (i < length l)%nat -> nth i (map h l) b = h (nth i l a).
Proof. intros H. rewrite (nth_indep _ b (h a)) by (now rewrite map_length). apply map_nth. Qed.
Lemma softmax_ok f ex sum z out : softmax_float f ex sum z = Ok out ->
  exists m, is_max m (concat z) /\ out = map (softmax_row_float f ex sum m) z.
Proof.
  unfold softmax_float. intros H. destruct (np_max (concat z)) as [m|] eqn:M; [|discriminate]. cbn [bind] in H.
  exists m. split; [now apply np_max_is_max|congruence].
Qed.
Lemma nth_error_combine {A B} (l : list A) (r : list B) i a b :
  nth_error (combine l r) i = Some (a, b) <-> nth_error l i = Some a /\ nth_error r i = Some b.
Proof.
  revert r i. induction l as [|x t IH]; intros r i; [destruct i; cbn; (split; [discriminate|intros [? _]; discriminate])|].
  destruct r as [|y q]; [destruct i; cbn; (split; [discriminate|intros [_ ?]; discriminate])|].
  destruct i; cbn; [|apply IH]. split; [intros H; injection H as <- <-; auto|intros [H K]; congruence].
Qed.
Lemma up_not_negative f v : up f v -> not_negative v.
Proof. destruct v as [x|s|]; cbn; [intros [_ H]; left; eauto|intros ->; now right|contradiction]. Qed.
Lemma filter_none {A} (p : A -> bool) l : (forall x, In x l -> p x = false) -> filter p l = [].
Proof.
  induction l as [|x t IH]; intros H; [reflexivity|]. cbn. rewrite (H x (or_introl eq_refl)). apply IH. intros y I. apply H. now right.
Qed.
Lemma filter_split {A} (p : A -> bool) l : (length (filter p l) + length (filter (fun x => negb (p x)) l))%nat = length l.
Proof. induction l as [|x t IH]; [reflexivity|]. cbn. destruct (p x); cbn; lia. Qed.
Lemma combine_len {A B} (l : list A) (r : list B) : length l = length r -> length (combine l r) = length l.
Proof. intros H. rewrite combine_length. lia. Qed.
