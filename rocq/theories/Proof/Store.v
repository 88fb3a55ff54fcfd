(** Proofs about the weight files. *)
From Coq Require Import List String Reals ZArith Bool Arith Lia.
From Verif.Model Require Import Base Training Store Life.
From Verif.Spec Require Import Store.
Import ListNotations.
Local Open Scope string_scope.

(** ** Versions *)
Lemma nth_hd_tl : forall (b : list nat) p, nth (S p) b 0%nat = nth p (tl b) 0%nat.
Proof. intros [| y b] [| p]; reflexivity. Qed.
Lemma nth_hd : forall (b : list nat), nth 0 b 0%nat = hd 0%nat b.
Proof. intros [| y b]; reflexivity. Qed.
Lemma before_cons : forall x a b,
  release_before (x :: a) b <-> (x < hd 0 b)%nat \/ (x = hd 0%nat b /\ release_before a (tl b)).
Proof.
  intros x a b; split.
  - intros ([| p] & Hlt & Heq).
    + left; rewrite (nth_hd b) in Hlt; exact Hlt.
    + right; split.
      * specialize (Heq 0%nat ltac:(lia)); rewrite (nth_hd b) in Heq; exact Heq.
      * exists p; split; [ rewrite (nth_hd_tl b) in Hlt; exact Hlt |].
        intros q Hq; specialize (Heq (S q) ltac:(lia)); rewrite (nth_hd_tl b) in Heq; exact Heq.
  - intros [H | [-> (p & Hlt & Heq)]].
    + exists 0%nat; split; [ rewrite (nth_hd b); exact H | lia ].
    + exists (S p); split; [ rewrite (nth_hd_tl b); exact Hlt |].
      intros [| q] Hq; [ now rewrite (nth_hd b) | rewrite (nth_hd_tl b); apply Heq; lia ].
Qed.
Lemma same_cons : forall x a b, same_release (x :: a) b <-> x = hd 0%nat b /\ same_release a (tl b).
Proof.
  intros x a b; split.
  - intros H; split.
    + specialize (H 0%nat); rewrite (nth_hd b) in H; exact H.
    + intros q; specialize (H (S q)); rewrite (nth_hd_tl b) in H; exact H.
  - intros [-> H] [| q]; [ now rewrite (nth_hd b) | rewrite (nth_hd_tl b); apply H ].
Qed.
Lemma zeros_nth : forall b, forallb (Nat.eqb 0) b = true -> forall q, nth q b 0%nat = 0%nat.
Proof.
  induction b as [| y b IH]; intros H [| q]; cbn in *; try reflexivity.
  - apply andb_true_iff in H as [H _]; destruct y; [ reflexivity | discriminate ].
  - apply andb_true_iff in H as [_ H]; now apply IH.
Qed.
Lemma nil_before : forall b, forallb (Nat.eqb 0) b = false -> release_before [] b.
Proof.
  induction b as [| y b IH]; intros H; [ discriminate |].
  cbn in H; destruct y as [| y]; cbn in H.
  - destruct (IH H) as (p & Hlt & Heq); exists (S p); split; [ destruct p; exact Hlt |].
    intros [| q] Hq; [ reflexivity | specialize (Heq q ltac:(lia)); destruct q; exact Heq ].
  - exists 0%nat; split; [ cbn; lia | lia ].
Qed.
Lemma before_not_same : forall a b, release_before a b -> ~ same_release a b.
Proof. intros a b (p & Hlt & _) H; specialize (H p); lia. Qed.
Lemma before_asym : forall a b, release_before a b -> ~ release_before b a.
Proof.
  intros a b (p & Hlt & Heq) (q & Hlt' & Heq').
  destruct (Nat.lt_trichotomy p q) as [H | [-> | H]]; [ specialize (Heq' p H) | | specialize (Heq q H) ]; lia.
Qed.
Lemma compare_release_spec : forall a b,
  match compare_release a b with
  | Lt => release_before a b | Eq => same_release a b | Gt => release_before b a
  end.
Proof.
  induction a as [| x a IH]; intros b; cbn [compare_release].
  - destruct (forallb (Nat.eqb 0) b) eqn:E.
    + intros q; rewrite (zeros_nth b E q); now destruct q.
    + now apply nil_before.
  - destruct (Nat.compare x (hd 0%nat b)) eqn:E.
    + apply Nat.compare_eq in E; specialize (IH (tl b)).
      destruct (compare_release a (tl b)).
      * now apply same_cons.
      * apply before_cons; now right.
      * destruct IH as (p & Hlt & Heq); exists (S p); split; [ rewrite (nth_hd_tl b); exact Hlt |].
        intros [| q] Hq; [ rewrite (nth_hd b); now symmetry | rewrite (nth_hd_tl b); apply Heq; lia ].
    + apply Nat.compare_lt_iff in E; apply before_cons; now left.
    + apply Nat.compare_gt_iff in E; exists 0%nat; split; [ rewrite (nth_hd b); exact E | lia ].
Qed.
Lemma older_spec : forall v m, older v m = true <-> earlier v m.
Proof.
  intros v m; unfold older, earlier; pose proof (compare_release_spec (release v) m) as H.
  destruct (compare_release (release v) m).
  - rewrite Z.ltb_lt; split; [ now right |].
    intros [Hb | [_ Hs]]; [ exfalso; exact (before_not_same _ _ Hb H) | exact Hs ].
  - split; [ now left | reflexivity ].
  - split; [ discriminate |].
    intros [Hb | [Hs _]]; exfalso; [ exact (before_asym _ _ H Hb) | ].
    apply (before_not_same _ _ H); intros q; symmetry; apply Hs.
Qed.
Lemma older_final : forall r m, older {| release := r; stage := 0 |} m = true <-> release_before r m.
Proof.
  intros r m; rewrite older_spec; unfold earlier; cbn; split; [| now left ].
  intros [H | [_ H]]; [ exact H | lia ].
Qed.

Section Proofs.
Context {A : Type}.
Notation file := (@file A).
Notation obj := (@obj A).
Notation cls := (@cls A).

(** ** Opening *)
Lemma parse_acceptable : forall n (f : file), parse n f = Ok tt <-> acceptable n f.
Proof.
  intros n f; unfold parse, acceptable, says; split.
  - destruct (description f) as [d |] eqn:Ed; [| discriminate ].
    destruct (lookup d "cml_version") as [[] |] eqn:Ec; cbn [bind]; try discriminate.
    destruct (lookup d "io_version") as [[] |] eqn:Ei; cbn [bind]; try discriminate.
    destruct (older v min_support_model_version || _) eqn:Eo; [ discriminate |].
    destruct (lookup d "model_name") as [[] |] eqn:En; try discriminate.
    destruct (s =? n) eqn:Es; [| discriminate ]; intros _.
    apply String.eqb_eq in Es; subst s.
    apply orb_false_iff in Eo as [E1 E2].
    exists v, v0; split; [ exists d; now repeat split |].
    unfold min_support_model_version, min_support_io_version in *.
    split; intros H; [ apply older_spec in H | apply older_final in H ]; congruence.
  - intros (v & w & (d & Ed & Ec & Ei & En) & Hv & Hw).
    rewrite Ed, Ec, Ei; cbn [bind].
    destruct (older v min_support_model_version) eqn:E1; [ now apply older_spec in E1 |].
    destruct (older {| release := release w; stage := 0 |} min_support_io_version) eqn:E2; [ now apply older_final in E2 |].
    cbn [orb]; now rewrite En, String.eqb_refl.
Qed.

Lemma load_rejects : forall (c : cls) f i, ~ acceptable (model_name c) f -> exists e, load c (Hdf5 f) i = (i, Some e).
Proof.
  intros c f i H; unfold load, open_weights.
  destruct (parse (model_name c) f) as [[] | e] eqn:E; [ now apply parse_acceptable in E |].
  now exists e.
Qed.
Lemma load_wrong : forall (c : cls) f i v w n,
  says f v w n -> earlier v [0; 5]%nat \/ release_before (release w) [0; 7]%nat \/ n <> model_name c ->
  load c (Hdf5 f) i = (i, Some ValueError).
Proof.
  intros c f i v w n (d & Ed & Ec & Ei & En) H; unfold load, open_weights, parse.
  rewrite Ed, Ec, Ei; cbn [bind]; rewrite En.
  destruct (older v min_support_model_version) eqn:E1; [ reflexivity |].
  destruct (older {| release := release w; stage := 0 |} min_support_io_version) eqn:E2; [ reflexivity |].
  cbn [orb]; destruct H as [H | [H | H]].
  - apply older_spec in H; unfold min_support_model_version in E1; congruence.
  - apply older_final in H; unfold min_support_io_version in E2; congruence.
  - apply String.eqb_neq in H; now rewrite H.
Qed.

(** ** Flags *)
Lemma do_read_flags : forall f (i j : obj) r, do_read f i r = Ok j -> is_trained j = is_trained i /\ is_loaded j = is_loaded i.
Proof.
  intros f i j r H; destruct r as [p key fld conv | p key fld conv | p fld]; cbn [do_read] in H.
  - destruct (get_attr f p key); cbn [bind] in H; [| discriminate ].
    destruct (conv i a); cbn [bind] in H; [| discriminate ]; now inversion H.
  - destruct (field i fld);
      try (destruct (get_attr f p key); cbn [bind] in H; [| discriminate ];
           destruct (conv i a); cbn [bind] in H; [| discriminate ]; now inversion H).
    now inversion H.
  - destruct (part_of f p); [| discriminate ]; destruct (merge_into (field i fld) a); cbn [bind] in H; [| discriminate ]; now inversion H.
Qed.
Lemma do_reads_flags : forall f rs (i : obj),
  is_trained (fst (do_reads f i rs)) = is_trained i /\ is_loaded (fst (do_reads f i rs)) = is_loaded i.
Proof.
  intros f; induction rs as [| r rs IH]; intros i; cbn [do_reads fst]; [ now split |].
  destruct (do_read f i r) as [j | e] eqn:E; [| now split ].
  destruct (do_read_flags _ _ _ _ E) as [<- <-]; apply IH.
Qed.
Lemma load_flags : forall (c : cls) k i,
  is_trained (fst (load c k i)) = is_trained i /\
  is_loaded (fst (load c k i)) = (match snd (load c k i) with None => true | Some _ => is_loaded i end).
Proof.
  intros c k i; unfold load; destruct (open_weights (model_name c) k) as [f | e]; [| now split ].
  destruct (forallb _ (opens c)); [| now split ].
  pose proof (do_reads_flags f (reads c) i) as [H1 H2].
  destruct (do_reads f i (reads c)) as [j [e |]]; cbn in *; now split.
Qed.

(** ** Interrupted saves *)
Lemma save_ops_truncate : forall (c : cls) author now i, exists rest, fst (save_ops c author now i) = Truncate :: rest.
Proof.
  intros c author now i; unfold save_ops; destruct (until_error _) as [ops e]; cbn; eexists; reflexivity.
Qed.
Lemma interrupted_forgets : forall (c : cls) author now i n k k', (0 < n)%nat ->
  save_interrupted c author now i n k = save_interrupted c author now i n k'.
Proof.
  intros c author now i n k k' Hn; unfold save_interrupted; destruct (save_ops_truncate c author now i) as [rest ->].
  destruct n; [ lia | reflexivity ].
Qed.
Lemma save_is_interrupted : forall (c : cls) author now i k,
  fst (save c author now i k) = save_interrupted c author now i (List.length (fst (save_ops c author now i))) k.
Proof.
  intros; unfold save, save_interrupted; destruct (save_ops c author now i) as [ops e]; cbn [fst]; now rewrite firstn_all.
Qed.
Lemma save_forgets : forall (c : cls) author now i k k', save c author now i k = save c author now i k'.
Proof.
  intros; pose proof (save_ops_truncate c author now i) as [rest H]; unfold save.
  destruct (save_ops c author now i) as [ops e]; cbn [fst] in H; subst; reflexivity.
Qed.
End Proofs.
