(** Loss and accuracy with the classes in another order (C115). *)
From Coq Require Import List ZArith Reals Lra Lia Bool Arith Permutation.
From Verif.Model Require Import Base Activations Metrics.
From Verif.Spec Require Import Common Metrics Network Units Columns ClassOrder.
From Verif.Proof Require Import BaseLemmas Gmm Metrics UnitsMore Columns ColumnsNet HiddenOrder ClassOrder.
Import ListNotations.
Local Open Scope R_scope.

Section Score.
Variables (c : nat) (s : list nat).
Hypothesis Hs : new_order c s.
Notation re := (reordered s).

Lemma existsb_perm {A} (f : A -> bool) l l' : Permutation l l' -> existsb f l = existsb f l'.
Proof. intros P. apply eq_iff_eq_true. rewrite !existsb_exists. split; intros (x & I & E); exists x; split; auto; [exact (Permutation_in _ P I)|exact (Permutation_in _ (Permutation_sym P) I)]. Qed.
Lemma loss_re yp yt : Units.width c yp -> Units.width c yt -> categorical_crossentropy (map re yp) (map re yt) = categorical_crossentropy yp yt.
Proof.
  intros Wp Wt. unfold categorical_crossentropy.
  assert (E : existsb (existsb (fun p => Rleb p 0)) (map re yp) = existsb (existsb (fun p => Rleb p 0)) yp).
  { clear Wt. unfold Units.width in Wp. induction Wp as [|r z L W IH]; [reflexivity|]. cbn [map existsb]. rewrite IH. f_equal. apply existsb_perm. exact (re_perm c s Hs r L). }
  rewrite E. destruct (existsb _ yp); [reflexivity|]. rewrite map_length, (mzip_re c s Hs) by auto.
  rewrite (rsum_perm _ _ (concat_perm c s Hs _ (mzip_wide c _ _ _ Wt Wp))). destruct yt; reflexivity.
Qed.

Lemma argmax_re r : length r = c -> one_greatest r -> exists j k, argmax (re r) = Ok j /\ argmax r = Ok k /\ (j < c)%nat /\ nth j s 0%nat = k.
Proof.
  intros L (k & Hk & G).
  assert (K : argmax r = Ok k).
  { apply argmax_spec. split; [exact Hk|]. split; [|intros j Hj; apply G; lia]. intros j Hj. destruct (Nat.eq_dec j k) as [->|N]; [lra|]. specialize (G j Hj N). lra. }
  destruct (mapM_argmax_total [re r]) as (q & Q). { intros u [<-|[]] E. apply (f_equal (@length R)) in E. rewrite (re_length c s Hs) in E. cbn in E. lia. }
  cbn [mapM] in Q. destruct (argmax (re r)) as [j|] eqn:A; [|discriminate]. pose proof (proj1 (argmax_spec _ _) A) as (Hj & B & _). rewrite (re_length c s Hs) in Hj, B.
  exists j, k. split; [auto|]. split; [auto|]. split; [auto|].
  assert (Ls : length s = c) by (rewrite (Permutation_length Hs); apply seq_length).
  assert (Ik : In k s) by (apply (in_s c s Hs); lia). destruct (In_nth s k 0%nat Ik) as (i & Hi & Ei).
  specialize (B i ltac:(lia)). rewrite !(nth_re c s Hs), Ei in B by lia.
  destruct (Nat.eq_dec (nth j s 0%nat) k) as [|N]; [auto|]. assert (Hj' : (nth j s 0 < length r)%nat) by (rewrite L; apply (in_s c s Hs), nth_In; lia).
  specialize (G _ Hj' N). lra.
Qed.
Lemma argmaxes_re m : Units.width c m -> Forall one_greatest m -> exists js, mapM argmax (map re m) = Ok js /\ mapM argmax m = Ok (map (fun j => nth j s 0%nat) js) /\ Forall (fun j => (j < c)%nat) js.
Proof.
  unfold Units.width. induction 1 as [|r m L W IH]; intros G; [exists []; repeat split; constructor|]. pose proof (Forall_inv G) as G1. pose proof (Forall_inv_tail G) as G2. destruct (IH G2) as (js & E1 & E2 & F).
  destruct (argmax_re r L G1) as (j & k & A & B & Hj & E). exists (j :: js). cbn [map mapM]. rewrite A, B, E1, E2. cbn [bind]. rewrite E. repeat split. constructor; auto.
Qed.
Lemma accuracy_re yp yt : Units.width c yp -> Units.width c yt -> Forall one_greatest yp -> Forall one_greatest yt ->
  categorical_accuracy (map re yp) (map re yt) = categorical_accuracy yp yt.
Proof.
  intros Wp Wt Gp Gt. unfold categorical_accuracy. destruct (argmaxes_re yp Wp Gp) as (p & E1 & E2 & Fp). destruct (argmaxes_re yt Wt Gt) as (t & E3 & E4 & Ft).
  rewrite E1, E2, E3, E4. cbn [bind]. rewrite !map_length. destruct (_ =? _)%nat; [|reflexivity].
  assert (K : count (fun q => Nat.eqb (fst q) (snd q)) (combine p t) = count (fun q => Nat.eqb (fst q) (snd q)) (combine (map (fun j => nth j s 0%nat) p) (map (fun j => nth j s 0%nat) t))).
  { assert (Nd : NoDup s) by (apply (Permutation_NoDup (Permutation_sym Hs)), seq_NoDup). assert (Ls : length s = c) by (rewrite (Permutation_length Hs); apply seq_length).
    clear E1 E2 E3 E4. unfold count. revert t Ft. induction Fp as [|j p Hj Fp IH]; intros t Ft; [reflexivity|]. destruct Ft as [|i t Hi Ft]; [reflexivity|]. cbn [combine map filter fst snd].
    replace (nth j s 0 =? nth i s 0)%nat with (j =? i)%nat; [destruct (j =? i)%nat; cbn [length]; now rewrite (IH t Ft)|].
    apply eq_iff_eq_true. rewrite !Nat.eqb_eq. split; [congruence|]. apply (proj1 (NoDup_nth s 0%nat) Nd); lia. }
  rewrite K. destruct p; reflexivity.
Qed.
End Score.
