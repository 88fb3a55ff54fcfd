(** Bayes classifiers on a continuous column that is constant in a class. *)
From Coq Require Import List ZArith Reals Lra Lia Bool.
From Verif.Model Require Import Base Bayes.
From Verif.Spec Require Import Common Bayes.
From Verif.Proof Require Import BaseLemmas Counting Bayes Preprocessing BayesMain.
Import ListNotations.
Local Open Scope R_scope.

Section Nan.
Context {A : Type} (O : TotalOrder A).
Variable num : A -> R.
Variable continuous : list A -> bool.
Variable vc : list A -> list A.
Variable rnd : R -> R.

Lemma nan_label s : fst s = Nan \/ snd s = Nan -> nb_label s = 1%Z.
Proof. intros [H | H]; destruct s as [a b]; cbn in H; subst; [ reflexivity |]; unfold nb_label; cbn; destruct a; reflexivity. Qed.
Lemma nan_add_l a : eadd Nan a = Nan.
Proof. reflexivity. Qed.
Lemma nan_add_r a : eadd a Nan = Nan.
Proof. destruct a; reflexivity. Qed.
Lemma constant_density l v a : (forall x, In x l -> x = a) -> nb_density num rnd (mean_var l) v = None.
Proof.
  intros H; destruct l as [| x l]; [ reflexivity |]; cbn [mean_var nb_density].
  assert (E : rvar (x :: l) = 0).
  { apply (proj2 (rvar_zero_constant (x :: l) ltac:(discriminate))); intros p q Hp Hq; rewrite (H p Hp), (H q Hq); reflexivity. }
  unfold get_probability_density; rewrite E; unfold Reqb; destruct (Req_EM_T 0 0); [ reflexivity | lra ].
Qed.
(** A property that every step keeps and one step establishes. *)
Lemma foldM_reaches {S B} (f : S -> B -> result S) (P : S -> Prop) b : (forall s x s', P s -> f s x = Ok s' -> P s') ->
  (forall s s', f s b = Ok s' -> P s') -> forall l s s', In b l -> foldM f l s = Ok s' -> P s'.
Proof.
  intros K E.
  assert (G : forall l s s', P s -> foldM f l s = Ok s' -> P s').
  { induction l as [| x l IH]; intros s s' Hs H; cbn in H; [ now injection H as <- |].
    apply bind_Ok in H as (s1 & H1 & H2); exact (IH _ _ (K _ _ _ Hs H1) H2). }
  induction l as [| x l IH]; intros s s' Hb H; [ destruct Hb |]; cbn in H; apply bind_Ok in H as (s1 & H1 & H2).
  destruct Hb as [-> | Hb]; [ exact (G _ _ _ (E _ _ H1) H2) | exact (IH _ _ Hb H2) ].
Qed.
Lemma forall2_pick {B C} (P : B -> C -> Prop) l r b : Forall2 P l r -> In b l -> exists c, In c r /\ P b c.
Proof.
  induction 1 as [| x z l r H _ IH]; intros Hb; [ destruct Hb |].
  destruct Hb as [-> | Hb]; [ exists z; split; [ left; reflexivity | exact H ] |].
  destruct (IH Hb) as (c & H1 & H2); exists c; split; [ right; exact H1 | exact H2 ].
Qed.
Lemma combine_at {B C} (l : list B) (r : list C) k b c : nth_error l k = Some b -> nth_error r k = Some c -> nth_error (combine l r) k = Some (b, c).
Proof.
  revert r k; induction l as [| x l IH]; intros [| z r] [| k] H1 H2; cbn in *; try discriminate.
  - injection H1 as ->; injection H2 as ->; reflexivity.
  - exact (IH r k H1 H2).
Qed.
Lemma in_enumerate {B} (l : list B) b : In b l -> exists k, In (k, b) (enumerate l).
Proof. intros H; apply In_nth_error in H as [k H]; exists k; apply enumerate_In; exact H. Qed.
Lemma of_class_from (y : list Z) c (col : list A) v : In v (of_class y c col) -> exists k, nth_error col k = Some v /\ nth_error y k = Some c.
Proof.
  unfold of_class; rewrite in_map_iff; intros ([u z] & E & H); cbn in E; subst u; apply filter_In in H as [H Hz]; cbn in Hz.
  apply Z.eqb_eq in Hz; subst z; apply In_nth_error in H as [k H]; exists k.
  revert y k H; induction col as [| w col IH]; intros [| z y] [| k] H; cbn in *; try discriminate.
  - injection H as -> ->; split; reflexivity.
  - exact (IH y k H).
Qed.

(** The column has one number in the rows of the class (or the class has no rows). *)
Definition flat (y : list Z) (c : Z) (col : list A) : Prop :=
  exists a, forall k v, nth_error col k = Some v -> nth_error y k = Some c -> num v = a.
Lemma flat_values y c col : flat y c col -> exists a, forall x, In x (map num (of_class y c col)) -> x = a.
Proof.
  intros [a H]; exists a; intros x Hx; apply in_map_iff in Hx as (v & <- & Hv); apply of_class_from in Hv as (k & H1 & H2); exact (H k v H1 H2).
Qed.

Lemma nb_flat cols y smoothing m q l col c : nb_fit O num continuous vc cols y smoothing = Ok m ->
  In col cols -> continuous col = true -> c = 0%Z \/ c = 1%Z -> flat y c col ->
  nb_predict O num rnd m q = Ok l -> l = 1%Z.
Proof.
  intros Hf Hc Hk Hz Hfl Hp; unfold nb_fit in Hf; apply bind_Ok in Hf as (p & _ & Hf); apply bind_Ok in Hf as (pi & Hpi & Hf).
  injection Hf as <-; apply mapM_Ok in Hpi; apply flat_values in Hfl as [a Ha].
  assert (G : exists i, In i pi /\ forall v, exists t, nb_term O num rnd smoothing i v = Ok t /\ (fst t = Nan \/ snd t = Nan)).
  { clear Hp; revert Hc; induction Hpi as [| col' i cols' pi' Hi _ IH]; intros Hc; [ destruct Hc |].
    destruct Hc as [-> | Hc]; [| destruct (IH Hc) as (i' & H1 & H2); exists i'; split; [ right; exact H1 | exact H2 ] ].
    exists i; split; [ left; reflexivity |]; intros v; unfold nb_attribute in Hi; rewrite Hk in Hi; injection Hi as <-.
    eexists; split; [ reflexivity |]; cbn [fst snd].
    destruct Hz as [-> | ->]; [ left | right ]; rewrite (constant_density _ _ _ Ha); reflexivity. }
  destruct G as (i & Hi & Ht); unfold nb_predict in Hp; apply bind_Ok in Hp as (s & Hs & Hp); injection Hp as <-.
  apply nan_label; unfold nb_scores in Hs; cbn [nb_pi nb_p0 nb_p1 nb_smoothing] in Hs.
  destruct (in_enumerate _ _ Hi) as [k Hk'].
  refine (foldM_reaches _ (fun s => fst s = Nan \/ snd s = Nan) (k, i) _ _ _ _ _ Hk' Hs).
  - intros s0 x s' Hn H; apply bind_Ok in H as (v & _ & H); apply bind_Ok in H as (t & _ & H); injection H as <-; cbn [fst snd].
    destruct Hn as [-> | ->]; [ left | right ]; apply nan_add_l.
  - intros s0 s' H; apply bind_Ok in H as (v & _ & H); apply bind_Ok in H as (t & Hv & H); injection H as <-; cbn [fst snd] in *.
    destruct (Ht v) as (t' & E & Hn); rewrite E in Hv; injection Hv as <-.
    destruct Hn as [-> | ->]; [ left | right ]; apply nan_add_r.
Qed.

(** The estimators with a super parent. *)
Lemma pick_from y c (sel : list bool) (col parent : list A) v' :
  sel = selected O y c v' parent -> forall v, In v (pick sel col) -> In v (of_class y c col).
Proof.
  intros -> v; unfold pick, of_class, selected; rewrite !in_map_iff; intros ([u b] & E & H); cbn in E; subst u.
  apply filter_In in H as [H Hb]; cbn in Hb; subst b; apply In_nth_error in H as [k H].
  assert (K : exists w z, nth_error col k = Some v /\ nth_error y k = Some z /\ (eqb O w v' && (z =? c)%Z) = true).
  { revert y k parent H; induction col as [| w col IH]; intros y k parent H; [ destruct k; discriminate |].
    destruct parent as [| u parent]; [ destruct k; discriminate |]; destruct y as [| z y]; [ destruct k; discriminate |].
    destruct k as [| k]; cbn in H.
    - injection H as -> Hb; exists u, z; repeat split; exact Hb.
    - exact (IH y k parent H). }
  destruct K as (w & z & H1 & H2 & H3); apply andb_prop in H3 as [_ H3]; apply Z.eqb_eq in H3; subst z.
  exists (v, c); split; [ reflexivity |]; apply filter_In; split; [| apply Z.eqb_refl ].
  apply nth_error_In with k; apply combine_at; assumption.
Qed.

Lemma sp_attribute_flat y smoothing c v' parent col : continuous col = true -> flat y c col ->
  exists s, sp_attribute O num continuous y smoothing c (selected O y c v' parent) col = SPCont s /\
    forall v, sp_info_log O num rnd (SPCont s) v = Ok Nan.
Proof.
  intros Hk Hfl; apply flat_values in Hfl as [a Ha]; unfold sp_attribute; rewrite Hk; eexists; split; [ reflexivity |]; intros v.
  set (l := map num _).
  assert (Hl : forall x, In x l -> x = a).
  { intros x Hx; unfold l in Hx; destruct (_ <=? _)%nat; [ exact (Ha x Hx) |].
    apply in_map_iff in Hx as (u & <- & Hu); apply Ha, in_map; exact (pick_from y c _ col parent v' eq_refl u Hu). }
  pose proof (constant_density l v a Hl) as E; unfold nb_density in E; cbn [sp_info_log].
  destruct (mean_var l) as [[m w] |]; [ rewrite E |]; reflexivity.
Qed.
Lemma entry_flat q e i : In i (infos e) -> (forall v, sp_info_log O num rnd i v = Ok Nan) ->
  forall t, sp_entry_log O num rnd q e = Ok t -> t = Nan.
Proof.
  intros Hi Hn t H; unfold sp_entry_log in H; destruct (in_enumerate _ _ Hi) as [k Hk].
  refine (foldM_reaches _ (fun s => s = Nan) (k, i) _ _ _ _ _ Hk H).
  - intros s x s' -> Hx; apply bind_Ok in Hx as (v & _ & Hx); apply bind_Ok in Hx as (u & _ & Hx); injection Hx as <-; reflexivity.
  - intros s s' Hx; apply bind_Ok in Hx as (v & _ & Hx); cbn [snd] in Hx; rewrite Hn in Hx; cbn [bind] in Hx; injection Hx as <-; apply nan_add_r.
Qed.
Lemma sp_flat state cols y smoothing index l q r col parent c : sp_fit O num continuous state cols y smoothing index = Ok l ->
  nth_error cols index = Some parent -> parent <> [] -> In c y -> c = 0%Z \/ c = 1%Z ->
  In col cols -> continuous col = true -> flat y c col ->
  sp_predict O num rnd l q = Ok r -> r = 1%Z.
Proof.
  intros Hf Hpar Hne Hy Hz Hcol Hk Hfl Hp; unfold sp_fit in Hf; apply bind_Ok in Hf as (parent' & Hpar' & Hf).
  assert (parent' = parent) as -> by (unfold get_at in Hpar'; rewrite Hpar in Hpar'; now injection Hpar').
  apply bind_Ok in Hf as (t & Ht & Hf); injection Hf as <-; unfold sp_table in Ht; apply mapM_Ok in Ht.
  destruct parent as [| v0 parent0] eqn:Epar; [ now destruct Hne |]; rewrite <- Epar in *.
  assert (Hin : In (c, v0) (flat_map (fun c => map (fun v => (c, v)) (unique O parent)) (zsort y))).
  { apply in_flat_map; exists c; split; [ apply zsort_In; exact Hy |]; apply in_map, unique_In; rewrite Epar; left; reflexivity. }
  destruct (sp_attribute_flat y smoothing c v0 parent col Hk Hfl) as (s & Es & Hs).
  assert (G : exists e, In e t /\ category e = c /\ In (SPCont s) (infos e)).
  { destruct (forall2_pick _ _ _ _ Ht Hin) as (e & He & E); cbn [fst snd] in E; apply bind_Ok in E as (p & _ & E); injection E as <-.
    eexists; split; [ exact He |]; cbn [category infos]; split; [ reflexivity |]; rewrite <- Es.
    apply (in_map (sp_attribute O num continuous y smoothing c (selected O y c v0 parent))); exact Hcol. }
  destruct G as (e & He & Ec & Hi); unfold sp_predict in Hp; apply bind_Ok in Hp as (sc & Hsc & Hp); injection Hp as <-; apply nan_label.
  unfold sp_scores in Hsc.
  refine (foldM_reaches _ (fun s => fst s = Nan \/ snd s = Nan) e _ _ _ _ _ (in_or_app state t e (or_intror He)) Hsc).
  - intros s0 x s' Hn Hx; unfold sp_step in Hx.
    destruct (category x =? 0)%Z; [| destruct (category x =? 1)%Z; [| injection Hx as <-; exact Hn ]];
      apply bind_Ok in Hx as (u & _ & Hx); injection Hx as <-; cbn [fst snd]; destruct Hn as [-> | ->];
      first [ left; reflexivity | right; reflexivity ].
  - intros s0 s' Hx; unfold sp_step in Hx; rewrite Ec in Hx.
    destruct Hz as [-> | ->]; cbn in Hx; apply bind_Ok in Hx as (u & Hu & Hx); injection Hx as <-; cbn [fst snd];
      rewrite (entry_flat q e _ Hi Hs u Hu); [ left | right ]; apply nan_add_r.
Qed.
End Nan.
