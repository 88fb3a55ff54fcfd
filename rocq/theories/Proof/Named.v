(** Column names: lemmas for C95-C97. *)
From Coq Require Import List ZArith Reals Bool Arith Lia Lra String Permutation.
From Verif.Model Require Import Base Bayes Tree Pruner Named.
From Verif.Spec Require Import Named.
From Verif.Proof Require Import BaseLemmas.
From Verif.Proof Require Bayes.
Import ListNotations.
Local Notation length := List.length.

Lemma same_name_true a b : same_name a b = true <-> a = b.
Proof. unfold same_name; destruct (name_eq_dec a b); split; congruence. Qed.
Lemma same_name_refl a : same_name a a = true.
Proof. now apply same_name_true. Qed.
Lemma same_name_false a b : a <> b -> same_name a b = false.
Proof. unfold same_name; now destruct (name_eq_dec a b). Qed.

Lemma no_duplicates l : NoDup l -> has_duplicates l = false.
Proof.
  induction 1 as [|a l N _ IH]; [reflexivity|]; cbn; rewrite IH, orb_false_r.
  destruct (existsb (same_name a) l) eqn:E; [|reflexivity]; apply existsb_exists in E; destruct E as (b & Hb & E).
  apply same_name_true in E; subst; contradiction.
Qed.

Lemma place_In l n : In n l -> exists k, place l n = Some k.
Proof.
  induction l as [|a l IH]; intros E; [destruct E|]; destruct E as [E|E]; cbn; [subst; rewrite same_name_refl; eauto|].
  destruct (same_name n a); [eauto|]; destruct (IH E) as (k & ->); cbn; eauto.
Qed.
Lemma under_place {A} l (r : list A) n : length r = length l ->
  under l r n = match place l n with Some k => nth_error r k | None => None end.
Proof.
  revert r; induction l as [|a l IH]; intros [|v r] H; try discriminate; [reflexivity|]; cbn.
  unfold same_name; destruct (name_eq_dec n a); [reflexivity|]; rewrite IH by (cbn in H; lia); destruct (place l n); reflexivity.
Qed.

(** The values under the names [l] in a row with the names [m]. *)
Definition arranged {A} (l m : list name) (r : list A) : list A :=
  flat_map (fun n => match under m r n with Some v => [v] | None => [] end) l.
Lemma arranged_ext {A} l m1 m2 (r1 r2 : list A) : (forall n, under m1 r1 n = under m2 r2 n) -> arranged l m1 r1 = arranged l m2 r2.
Proof. intros H; unfold arranged; apply flat_map_ext; intros n; now rewrite H. Qed.
Lemma arranged_skip {A} a l m v (r : list A) : ~ In a l -> arranged l (a :: m) (v :: r) = arranged l m r.
Proof.
  induction l as [|b l IH]; intros N; [reflexivity|]; unfold arranged in *; cbn [flat_map].
  rewrite IH by (intros X; apply N; now right); f_equal; cbn [under].
  destruct (name_eq_dec b a) as [->|]; [exfalso; apply N; now left|reflexivity].
Qed.
Lemma arranged_self {A} l (r : list A) : NoDup l -> length r = length l -> arranged l l r = r.
Proof.
  intros N; revert r; induction N as [|a l N _ IH]; intros [|v r] H; try discriminate; [reflexivity|].
  unfold arranged; cbn [flat_map under]; destruct (name_eq_dec a a); [|easy]; cbn [app]; f_equal.
  exact (eq_trans (arranged_skip a l l v r N) (IH r ltac:(cbn in H; lia))).
Qed.
Lemma arranged_length {A} l m (r : list A) : incl l m -> length r = length m -> length (arranged l m r) = length l.
Proof.
  intros I H; induction l as [|n l IH]; [reflexivity|]; unfold arranged in *; cbn [flat_map]; rewrite app_length, IH by (intros x X; apply I; now right).
  rewrite under_place by exact H; destruct (place_In m n (I n (or_introl eq_refl))) as (k & E); rewrite E.
  destruct (nth_error r k) eqn:En; [reflexivity|]; apply nth_error_None in En.
  assert (Hk : (k < length m)%nat); [|rewrite H in En; lia].
  clear - E; revert k E; induction m as [|a m IH]; intros k E; [discriminate|]; cbn in E; destruct (same_name n a); [injection E as <-; cbn; lia|].
  destruct (place m n); [|discriminate]; injection E as <-; cbn; specialize (IH _ eq_refl); lia.
Qed.

Lemma with_names_frame {A} l (f : frame A) : is_table f -> incl l (labels f) ->
  with_names (Some l) (Frame f) = Ok {| labels := l; rows := map (arranged l (labels f)) (rows f) |}.
Proof.
  intros [N F] I; unfold with_names; destruct (list_eq_dec name_eq_dec l (labels f)) as [->|].
  - destruct f as [m r]; cbn in *; do 2 f_equal; rewrite <- (map_id r) at 1; apply map_ext_in; intros q Hq.
    rewrite Forall_forall in F; symmetry; apply arranged_self; auto.
  - rewrite no_duplicates by exact N.
    assert (E : exists p, mapM (fun n0 => match place (labels f) n0 with Some k => Ok k | None => Err NotANumber end) l = Ok p /\
                forall q : list A, length q = length (labels f) -> entries p q = arranged l (labels f) q).
    { clear n; induction l as [|a l IH]; [exists []; split; reflexivity|].
      destruct IH as (p & Hp & E); [intros x X; apply I; now right|].
      destruct (place_In (labels f) a (I a (or_introl eq_refl))) as (k & Hk).
      exists (k :: p); cbn [mapM]; rewrite Hk; cbn [bind]; rewrite Hp; split; [reflexivity|]; intros q Hq.
      unfold entries, arranged in *; cbn [flat_map]; rewrite (E q Hq); f_equal; rewrite under_place by exact Hq; now rewrite Hk. }
    destruct E as (p & -> & E); cbn [bind]; do 2 f_equal; apply map_ext_in; intros q Hq; rewrite Forall_forall in F; auto.
Qed.
Lemma with_names_same {A} l (f g : frame A) : same_table f g -> incl l (labels f) ->
  with_names (Some l) (Frame f) = with_names (Some l) (Frame g).
Proof.
  intros (Tf & Tg & P & F) If; assert (Ig : incl l (labels g)) by (intros x X; apply (Permutation_in _ P); now apply If); rewrite !with_names_frame by assumption; do 2 f_equal.
  induction F as [|r s l1 l2 H _ IH]; [reflexivity|]; cbn; f_equal; [now apply arranged_ext|exact IH].
Qed.
Lemma with_names_array {A} l (r : list (list A)) : with_names (Some l) (Array (length l) r) = Ok {| labels := l; rows := r |}.
Proof. cbn; now rewrite Nat.eqb_refl. Qed.

(** [x[k]] is the entry number [k]. *)
Lemma place_seq d k s : (s <= k)%nat -> (k < s + d)%nat -> place (map Number (seq s d)) (Number k) = Some (k - s)%nat.
Proof.
  revert s; induction d as [|d IH]; intros s H1 H2; [lia|]; cbn [seq map place].
  destruct (Nat.eq_dec k s) as [->|]; [rewrite same_name_refl; f_equal; lia|].
  rewrite same_name_false by congruence; rewrite IH by lia; cbn; f_equal; lia.
Qed.
Lemma item_usual {A} l (r : list A) k : usual_names l -> (k < length l)%nat -> item l r k = get_at r k.
Proof.
  intros [F|E] H; unfold item.
  - replace (existsb is_number l) with false; [reflexivity|]; symmetry; apply not_true_is_false; intros X; apply existsb_exists in X; destruct X as (n & Hn & X).
    rewrite Forall_forall in F; destruct (F n Hn) as (s & ->); discriminate.
  - assert (X : existsb is_number l = true).
    { destruct l as [|n l]; [cbn in H; lia|]; rewrite E; reflexivity. }
    rewrite X; rewrite E, place_seq by (rewrite ?Nat.add_0_l; lia); now rewrite Nat.sub_0_r.
Qed.

Lemma by_name_put {B} (d : list (name * B)) n b m : by_name (put d n b) m = if same_name m n then Some b else by_name d m.
Proof.
  induction d as [|[a c] d IH]; cbn; [destruct (same_name m n); reflexivity|].
  destruct (same_name n a) eqn:E; cbn.
  - apply same_name_true in E; subst; destruct (same_name m a); reflexivity.
  - rewrite IH; destruct (same_name m n) eqn:E2; [|reflexivity]; apply same_name_true in E2; subst; now rewrite E.
Qed.

(** ** Loops over columns *)
Lemma mapM_same {X Y} (f g : X -> result Y) l : (forall a, In a l -> f a = g a) -> mapM f l = mapM g l.
Proof.
  induction l as [|a l IH]; intros H; [reflexivity|]; cbn [mapM]; rewrite (H a (or_introl eq_refl)), IH; [reflexivity|]; intros b Hb; apply H; now right.
Qed.
Lemma mapM_len {X Y} (f : X -> result Y) l r : mapM f l = Ok r -> length r = length l.
Proof. intros H; apply mapM_Ok in H; symmetry; eapply Forall2_length; eauto. Qed.
Lemma foldM_ext2 {S X Y} (f : S -> X -> result S) (g : S -> Y -> result S) l m s :
  Forall2 (fun a b => forall s, f s a = g s b) l m -> foldM f l s = foldM g m s.
Proof. intros F; revert s; induction F as [|a b l m H _ IH]; intros s; [reflexivity|]; cbn; rewrite H; destruct (g s b); cbn; auto. Qed.
Lemma Forall2_enumerate {X Y} (P : nat * X -> nat * Y -> Prop) l m : length l = length m ->
  (forall j a b, nth_error l j = Some a -> nth_error m j = Some b -> P (j, a) (j, b)) -> Forall2 P (enumerate l) (enumerate m).
Proof.
  unfold enumerate; intros L H; rewrite <- L.
  assert (G : forall s, (forall j a b, nth_error l j = Some a -> nth_error m j = Some b -> P (s + j, a)%nat (s + j, b)%nat) ->
              Forall2 P (combine (seq s (length l)) l) (combine (seq s (length l)) m)); [|apply G; exact H].
  clear H; revert m L; induction l as [|a l IH]; intros [|b m] L s H; try discriminate; constructor.
  - specialize (H 0%nat a b eq_refl eq_refl); now rewrite Nat.add_0_r in H.
  - apply IH; [cbn in L; lia|]; intros j c d Hc Hd; specialize (H (S j) c d Hc Hd); now rewrite Nat.add_succ_r in H.
Qed.
Lemma by_name_combine {B} l (m : list B) j n b : NoDup l -> nth_error l j = Some n -> nth_error m j = Some b -> by_name (combine l m) n = Some b.
Proof.
  intros N; revert m j; induction N as [|a l N _ IH]; intros [|c m] [|j] H1 H2; try discriminate; cbn in *.
  - injection H1 as ->; injection H2 as ->; now rewrite same_name_refl.
  - rewrite same_name_false; [now apply (IH m j)|]; intros ->; apply N; now apply nth_error_In in H1.
Qed.
Lemma by_name_none {B} l (m : list B) n : ~ In n l -> by_name (combine l m) n = None.
Proof.
  revert m; induction l as [|a l IH]; intros [|c m] H; try reflexivity; cbn; rewrite same_name_false; [apply IH|]; intros X; apply H; [now right|now left].
Qed.

Lemma foldM_put {X B} (g : X -> result B) l cols infos d : length l = length cols -> NoDup l -> mapM g cols = Ok infos ->
  exists d', foldM (fun d c => i <- g (snd c) ;; Ok (put d (fst c) i)) (combine l cols) d = Ok d' /\
  forall n, by_name d' n = match by_name (combine l infos) n with Some i => Some i | None => by_name d n end.
Proof.
  intros L N; revert cols infos d L; induction N as [|a l N _ IH]; intros [|c cols] infos d L H; try discriminate.
  - injection H as <-; exists d; split; reflexivity.
  - cbn [mapM] in H; destruct (g c) as [i|] eqn:E; [|discriminate]; cbn [bind] in H; destruct (mapM g cols) as [is|] eqn:E2; [|discriminate]; injection H as <-.
    destruct (IH cols is (put d a i)) as (d' & H1 & H2); [cbn in L; lia|exact E2|].
    exists d'; cbn [combine foldM fst snd]; rewrite E; cbn [bind]; split; [exact H1|]; intros n; rewrite H2; cbn [by_name combine].
    rewrite by_name_put; destruct (same_name n a) eqn:En; [|reflexivity].
    apply same_name_true in En; subst; now rewrite by_name_none by exact N.
Qed.
Lemma foldM_put_err {X B} (g : X -> result B) l cols d e : length l = length cols -> mapM g cols = Err e ->
  foldM (fun d c => i <- g (snd c) ;; Ok (put d (fst c) i)) (combine l cols) d = Err e.
Proof.
  revert cols d; induction l as [|a l IH]; intros [|c cols] d L H; try discriminate; cbn [mapM combine foldM fst snd] in *.
  destruct (g c); cbn [bind] in *; [|now injection H as ->]; destruct (mapM g cols) eqn:E; [discriminate|]; injection H as ->; apply IH; [cbn in L; lia|exact E].
Qed.
Lemma columns_length {A} d (r : list (list A)) : length (columns d r) = d.
Proof. unfold columns; now rewrite map_length, seq_length. Qed.

Section Bayes.
Context {A : Type} (O : TotalOrder A).
Variable num : A -> R.
Variable continuous : list A -> bool.
Variable vc : list A -> list A.
Variable rnd : R -> R.
Notation nb_object := (naive_bayes (A := A)).

(** Arrays. *)
Lemma fit_nb_array (o : nb_object) l r y : n_names o = Some l -> NoDup l ->
  match nb_fit O num continuous vc (columns (length l) r) y (n_smoothing o) with
  | Err e => fit_nb O num continuous vc (Array (length l) r) y o = Err e
  | Ok m => exists pi, fit_nb O num continuous vc (Array (length l) r) y o =
              Ok {| n_names := Some l; n_smoothing := n_smoothing o; n_priors := Some (nb_p0 m, nb_p1 m); n_pi := pi; n_ready := true |} /\
            nb_smoothing m = n_smoothing o /\ length (nb_pi m) = length l /\
            forall j n i, nth_error l j = Some n -> nth_error (nb_pi m) j = Some i -> by_name pi n = Some i
  end.
Proof.
  intros Hn N; unfold fit_nb, nb_fit; rewrite Hn, with_names_array; cbn [bind labels rows].
  destruct (get_prior_probability (length y) y (n_smoothing o)) as [[p0 p1]|]; cbn [bind]; [|reflexivity].
  destruct (mapM (nb_attribute O num continuous vc y) (columns (length l) r)) as [is|e] eqn:E; cbn [bind].
  - destruct (foldM_put (nb_attribute O num continuous vc y) l (columns (length l) r) is (n_pi o)) as (pi & H1 & H2);
      [now rewrite columns_length|exact N|exact E|].
    exists pi; rewrite H1; cbn [bind fst snd nb_p0 nb_p1 nb_smoothing nb_pi]; repeat split.
    + apply mapM_len in E; rewrite E; apply columns_length.
    + intros j n i Hj Hi; rewrite H2; now rewrite (by_name_combine l is j n i N Hj Hi).
  - rewrite (foldM_put_err (nb_attribute O num continuous vc y) l (columns (length l) r) (n_pi o) e); [reflexivity|now rewrite columns_length|exact E].
Qed.
Lemma predict_nb_array m p pi l q : usual_names l -> length (nb_pi m) = length l -> p = (nb_p0 m, nb_p1 m) ->
  (forall j n i, nth_error l j = Some n -> nth_error (nb_pi m) j = Some i -> by_name pi n = Some i) ->
  predict_nb O num rnd {| n_names := Some l; n_smoothing := nb_smoothing m; n_priors := Some p; n_pi := pi; n_ready := true |}
    (Array (length l) q) = mapM (nb_predict O num rnd m) q.
Proof.
  intros U L -> H; unfold predict_nb; cbn [n_ready n_names]; rewrite with_names_array; cbn [bind labels rows].
  apply mapM_same; intros r _; unfold nb_predict, scores_nb, nb_scores; cbn [n_names n_priors n_pi n_smoothing fst snd].
  erewrite foldM_ext2; [reflexivity|]; apply Forall2_enumerate; [now rewrite L|].
  intros j n i Hj Hi [s0 s1]; cbn [fst snd]; rewrite (H j n i Hj Hi); cbn [bind].
  rewrite item_usual; [reflexivity|exact U|]; apply nth_error_Some; congruence.
Qed.

(** The order of the names. *)
Lemma eadd_swap a b c : eadd (eadd a b) c = eadd (eadd a c) b.
Proof. destruct a, b, c; cbn; try reflexivity; f_equal; lra. Qed.
Lemma foldM_perm {X} (h : X -> result (ext * ext)) e l m : Permutation l m -> (forall x, (exists t, h x = Ok t) \/ h x = Err e) -> forall s,
  foldM (fun s x => t <- h x ;; Ok (eadd (fst s) (fst t), eadd (snd s) (snd t))) l s =
  foldM (fun s x => t <- h x ;; Ok (eadd (fst s) (fst t), eadd (snd s) (snd t))) m s.
Proof.
  intros P H; induction P as [|x l m _ IH|x y l|l m k _ IH1 _ IH2]; intros s.
  - reflexivity.
  - cbn [foldM]; destruct (h x); cbn [bind]; [apply IH|reflexivity].
  - cbn [foldM]; destruct (H x) as [(tx & Ex)|Ex], (H y) as [(ty & Ey)|Ey]; rewrite Ex, Ey; cbn [bind fst snd]; rewrite ?Ex, ?Ey; cbn [bind fst snd]; try reflexivity.
    now rewrite (eadd_swap (fst s)), (eadd_swap (snd s)).
  - now rewrite IH1.
Qed.
Lemma arranged_nth l m (r : list A) j n : incl l m -> length r = length m -> nth_error l j = Some n -> nth_error (arranged l m r) j = under m r n.
Proof.
  intros I L; revert j; induction l as [|a l IH]; intros [|j] H; try discriminate.
  - injection H as ->; unfold arranged; cbn [flat_map]; assert (X : length (arranged [n] m r) = 1%nat) by (apply (arranged_length [n] m r); [intros x [<-|[]]; apply I; now left|exact L]).
    unfold arranged in X; cbn [flat_map] in X; destruct (under m r n); [reflexivity|discriminate].
  - assert (X : length (arranged [a] m r) = 1%nat) by (apply (arranged_length [a] m r); [intros x [<-|[]]; apply I; now left|exact L]).
    unfold arranged in *; cbn [flat_map] in *; destruct (under m r a); [|discriminate]; apply IH; [intros x Hx; apply I; now right|exact H].
Qed.
Lemma enumerate_nth {X} (l : list X) p : In p (enumerate l) -> nth_error l (fst p) = Some (snd p).
Proof.
  unfold enumerate; intros H; destruct p as [j a]; cbn [fst snd].
  assert (G : forall s, In (j, a) (combine (seq s (length l)) l) -> (s <= j)%nat /\ nth_error l (j - s) = Some a).
  { clear H; induction l as [|b l IH]; intros s H; [destruct H|]; destruct H as [E|H].
    - injection E as -> ->; rewrite Nat.sub_diag; now split.
    - destruct (IH (S s) H) as [H1 H2]; split; [lia|]; now replace (j - s)%nat with (S (j - S s)) by lia. }
  destruct (G 0%nat H) as [_ E]; now rewrite Nat.sub_0_r in E.
Qed.
Lemma foldM_enumerate {S X} (f : S -> nat * X -> result S) (g : S -> X -> result S) l s :
  (forall j n, nth_error l j = Some n -> forall s, f s (j, n) = g s n) -> foldM f (enumerate l) s = foldM g l s.
Proof.
  intros H; apply foldM_ext2; unfold enumerate.
  assert (G : forall k, (forall j n, nth_error l j = Some n -> forall s, f s ((k + j)%nat, n) = g s n) ->
              Forall2 (fun a b => forall s, f s a = g s b) (combine (seq k (length l)) l) l); [|apply G; exact H].
  clear H; induction l as [|a l IH]; intros k H; constructor.
  - intros s'; specialize (H 0%nat a eq_refl s'); now rewrite Nat.add_0_r in H.
  - apply IH; intros j n Hj s'; specialize (H (Datatypes.S j) n Hj s'); now rewrite Nat.add_succ_r in H.
Qed.
Lemma nb_term_error sm i v : (exists t, nb_term (A := A) O num rnd sm i v = Ok t) \/ nb_term O num rnd sm i v = Err KeyError.
Proof.
  destruct i as [s0 s1|d0 d1 n0 n1 k]; [left; eexists; reflexivity|]; cbn; unfold dict_lookup.
  destruct (dict_get O d0 v); [|now right]; cbn; destruct (dict_get O d1 v); [left; eexists; reflexivity|now right].
Qed.
Lemma scores_nb_rows (o : nb_object) l p m r : n_names o = Some l -> n_priors o = Some p -> Forall (fun n => exists s, n = Text s) l ->
  incl l m -> length r = length m ->
  scores_nb O num rnd o l (arranged l m r) =
  foldM (fun s n => t <- (i <- match by_name (n_pi o) n with Some i => Ok i | None => Err KeyError end ;;
                          v <- match under m r n with Some v => Ok v | None => Err KeyError end ;;
                          nb_term O num rnd (n_smoothing o) i v) ;;
                    Ok (eadd (fst s) (fst t), eadd (snd s) (snd t))) l (elog (Some (fst p)), elog (Some (snd p))).
Proof.
  intros Hn Hp F I L; unfold scores_nb; rewrite Hn, Hp; apply foldM_enumerate; intros j n Hj s; cbn [fst snd].
  destruct (by_name (n_pi o) n) as [i|]; [|reflexivity]; cbn [bind].
  rewrite item_usual; [|now left|apply nth_error_Some; congruence]; unfold get_at; rewrite (arranged_nth l m r j n I L Hj).
  destruct (under m r n) eqn:E; [reflexivity|]; exfalso.
  assert (X : length (arranged l m r) = length l) by now apply arranged_length.
  rewrite <- (arranged_nth l m r j n I L Hj) in E; apply nth_error_None in E; rewrite X in E.
  assert (j < length l)%nat by (apply nth_error_Some; congruence); lia.
Qed.
Lemma predict_nb_order (o o' : nb_object) l l' (f : frame A) : n_names o = Some l -> n_names o' = Some l' -> Permutation l l' ->
  Forall (fun n => exists s, n = Text s) l -> n_smoothing o' = n_smoothing o -> n_priors o' = n_priors o -> n_pi o' = n_pi o -> n_ready o' = n_ready o ->
  is_table f -> incl l (labels f) -> predict_nb O num rnd o' (Frame f) = predict_nb O num rnd o (Frame f).
Proof.
  intros Hl Hl' P F Es Ep Epi Er T I; unfold predict_nb; rewrite Er; destruct (n_ready o); [|reflexivity].
  assert (I' : incl l' (labels f)) by (intros x Hx; apply I; now apply (Permutation_in x (Permutation_sym P))).
  assert (F' : Forall (fun n => exists s, n = Text s) l') by (rewrite Forall_forall in *; intros x Hx; apply F; now apply (Permutation_in x (Permutation_sym P))).
  rewrite Hl, Hl', !with_names_frame by assumption; cbn [bind labels rows].
  destruct T as [_ T]; induction T as [|r rs H _ IH]; [reflexivity|]; cbn [map mapM]; rewrite IH.
  destruct (n_priors o) as [p|] eqn:Ep0.
  - rewrite (scores_nb_rows o' l' p), (scores_nb_rows o l p) by first [assumption|congruence]; rewrite Epi, Es.
    erewrite (foldM_perm _ KeyError l' l); [reflexivity|now apply Permutation_sym|].
    intros n; destruct (by_name (n_pi o) n); [|now right]; cbn [bind]; destruct (under (labels f) r n); [|now right]; cbn [bind]; apply nb_term_error.
  - unfold scores_nb; rewrite Hl, Hl', Ep, Ep0; reflexivity.
Qed.
End Bayes.

(** ** One-dependent estimators *)
Section Estimators.
Context {A : Type} (O : TotalOrder A).
Variable num : A -> R.
Variable continuous : list A -> bool.
Variable rnd : R -> R.
Notation group := (group (A := A)).
Notation estimator := (estimator (A := A)).
Notation entry := (sp_entry (A := A)).
Notation key := (Text "p_c_xi").

(** The element with names and the one without. *)
Definition grouped (l : list name) (g : group) (e : entry) : Prop :=
  g_category g = category e /\ g_value g = sp_value e /\ length (infos e) = length l /\
  g_parts g = (key, Prior (p_c_xi e)) :: combine l (map Info (infos e)).

Lemma fold_put_new {X B} (h : X -> B) l cols d : length l = length cols -> NoDup l -> (forall n, In n l -> ~ In n (map fst d)) ->
  fold_left (fun d c => put d (fst c) (h (snd c))) (combine l cols) d = (d ++ combine l (map h cols))%list.
Proof.
  intros L N; revert cols d L; induction N as [|a l N _ IH]; intros [|c cols] d L H; try discriminate; [now rewrite app_nil_r|].
  cbn [combine fold_left map fst snd].
  assert (E : put d a (h c) = (d ++ [(a, h c)])%list).
  { specialize (H a (or_introl eq_refl)); clear - H; induction d as [|[b x] d IH]; [reflexivity|]; cbn.
    rewrite same_name_false by (intros ->; apply H; now left); f_equal; apply IH; intros Q; apply H; now right. }
  rewrite E, IH; [now rewrite <- app_assoc|cbn in L; lia|]; intros n Hn; rewrite map_app, in_app_iff; intros [Q|[<-|[]]]; [|now apply N].
  now apply (H n (or_intror Hn)).
Qed.
Lemma make_group_new (f : frame A) y sm parent cv : NoDup (labels f) -> ~ In key (labels f) ->
  match (let sel := selected O y (fst cv) (snd cv) parent in
         p <- get_dependent_prior_probability (count (fun b => b) sel) (length y) (length (unique O parent)) sm ;;
         Ok {| category := fst cv; sp_value := snd cv; p_c_xi := p;
               infos := map (sp_attribute O num continuous y sm (fst cv) sel) (columns (length (labels f)) (rows f)) |}) with
  | Err e => make_group O num continuous f y sm parent cv = Err e
  | Ok e => exists g, make_group O num continuous f y sm parent cv = Ok g /\ grouped (labels f) g e
  end.
Proof.
  intros N K; cbv zeta; unfold make_group.
  destruct (get_dependent_prior_probability _ _ _ sm) as [p|]; cbn [bind]; [|reflexivity].
  eexists; split; [reflexivity|]; repeat split; cbn [g_parts infos p_c_xi]; [now rewrite map_length, columns_length|].
  rewrite map_map; rewrite (fold_put_new (fun col => Info (sp_attribute O num continuous y sm (fst cv) (selected O y (fst cv) (snd cv) parent) col))).
  - reflexivity.
  - now rewrite columns_length.
  - exact N.
  - cbn; intros n Hn [<-|[]]; now apply K.
Qed.
Lemma mapM_related {X Y Z} (P : Y -> Z -> Prop) (f : X -> result Y) (g : X -> result Z) l :
  (forall a, In a l -> match g a with Err e => f a = Err e | Ok z => exists y, f a = Ok y /\ P y z end) ->
  match mapM g l with Err e => mapM f l = Err e | Ok zs => exists ys, mapM f l = Ok ys /\ Forall2 P ys zs end.
Proof.
  induction l as [|a l IH]; intros H; [exists []; split; [reflexivity|constructor]|]; cbn [mapM].
  pose proof (H a (or_introl eq_refl)) as Ha; destruct (g a) as [z|e]; cbn [bind]; [|now rewrite Ha].
  destruct Ha as (y & -> & Hy); cbn [bind]; specialize (IH (fun b Hb => H b (or_intror Hb))).
  destruct (mapM g l); cbn [bind]; [|now rewrite IH]; destruct IH as (ys & -> & F); exists (y :: ys); split; [reflexivity|now constructor].
Qed.

(** Training. *)
Definition fitted (o : estimator) (k : nat) (gs : list group) : estimator :=
  {| e_names := e_names o; e_parent := e_parent o; e_index := Some k; e_smoothing := e_smoothing o;
     e_m := e_m o; e_groups := gs; e_lists := e_lists o; e_ready := true |}.
Lemma fit_sp_positional (o : estimator) x f y k st : with_names (e_names o) x = Ok f -> parent_index o f = Some k -> (k < length (labels f))%nat ->
  NoDup (labels f) -> ~ In key (labels f) -> Forall2 (grouped (labels f)) (e_groups o) st ->
  match sp_fit O num continuous st (columns (length (labels f)) (rows f)) y (e_smoothing o) k with
  | Err e => fit_sp O num continuous x y o = Err e
  | Ok st' => exists gs, fit_sp O num continuous x y o = Ok (fitted o k gs) /\ Forall2 (grouped (labels f)) gs st'
  end.
Proof.
  intros W E Hk N K F; unfold fit_sp, sp_fit, sp_table; rewrite W; cbn [bind]; rewrite E.
  assert (G : exists parent, get_at (columns (length (labels f)) (rows f)) k = Ok parent).
  { unfold get_at; destruct (nth_error (columns (length (labels f)) (rows f)) k) eqn:X; [eauto|].
    apply nth_error_None in X; rewrite columns_length in X; lia. }
  destruct G as (parent & ->); cbn [bind].
  pose proof (mapM_related (grouped (labels f)) (make_group O num continuous f y (e_smoothing o) parent) _
    (flat_map (fun c => map (fun v => (c, v)) (unique O parent)) (zsort y)) (fun cv _ => make_group_new f y (e_smoothing o) parent cv N K)) as M.
  destruct (mapM _ (flat_map (fun c => map (fun v => (c, v)) (unique O parent)) (zsort y))) as [t|e] in M |- *; cbn [bind].
  - destruct M as (gs & M & Fg); exists (e_groups o ++ gs)%list; split; [|now apply Forall2_app].
    destruct (zsort y) as [|c cs]; [cbn in M |- *; injection M as <-; reflexivity|]; rewrite M; reflexivity.
  - destruct (zsort y) as [|c cs]; [discriminate|]; now rewrite M.
Qed.

(** Prediction. *)
Lemma eadd_zero t : eadd (Fin 0) t = t.
Proof. destruct t; cbn; try reflexivity; f_equal; lra. Qed.
Lemma group_log_positional l l2 r g e : usual_names l2 -> length l2 = length l -> ~ In key l -> grouped l g e ->
  group_log O num rnd l2 r g = sp_entry_log O num rnd r e.
Proof.
  intros U L2 K (_ & _ & L & P); unfold group_log, sp_entry_log; rewrite P; unfold enumerate; cbn [length seq combine foldM fst snd].
  rewrite same_name_refl; cbn [bind]; rewrite eadd_zero.
  apply foldM_ext2; rewrite combine_length, map_length, L, Nat.min_id.
  rewrite <- seq_shift.
  assert (G : forall s m (is : list (sp_info (A := A))), length is = length m -> ~ In key m -> (s + length m <= length l2)%nat ->
    Forall2 (fun (a : nat * (name * part)) (b : nat * sp_info) => forall s0,
       (t <- (if same_name (fst (snd a)) key then match snd (snd a) with Prior q => Ok (elog (Some q)) | Info _ => Err TypeError end
              else match snd (snd a) with Info i => v <- item l2 r (fst a - 1) ;; sp_info_log O num rnd i v | Prior _ => Err TypeError end) ;; Ok (eadd s0 t)) =
       (v <- get_at r (fst b) ;; t <- sp_info_log O num rnd (snd b) v ;; Ok (eadd s0 t)))
      (combine (map S (seq s (length m))) (combine m (map Info is))) (combine (seq s (length m)) is)).
  { clear - U; intros s m; revert s; induction m as [|n m IH]; intros s [|i is] Lm Km Hs; try discriminate; constructor.
    - intros s0; cbn [fst snd]; rewrite same_name_false by (intros X; apply Km; now left).
      replace (S s - 1)%nat with s by lia; rewrite item_usual by (try exact U; cbn in Hs; lia).
      destruct (get_at r s); reflexivity.
    - apply (IH (S s)); [cbn in Lm; lia|intros X; apply Km; now right|cbn in Hs; lia]. }
  apply (G 0%nat l (infos e) L K); lia.
Qed.
Lemma group_step_positional l l2 r g e s : usual_names l2 -> length l2 = length l -> ~ In key l -> grouped l g e ->
  group_step O num rnd l2 r s g = sp_step O num rnd r s e.
Proof.
  intros U L2 K G; unfold group_step, sp_step; rewrite (group_log_positional l l2 r g e U L2 K G); destruct G as (-> & _); reflexivity.
Qed.
Lemma predict_sp_positional (o : estimator) l x f st : e_ready o = true -> with_names (e_names o) x = Ok f -> usual_names (labels f) ->
  length (labels f) = length l -> ~ In key l ->
  Forall2 (grouped l) (e_groups o) st -> predict_sp O num rnd o x = mapM (sp_predict O num rnd st) (rows f).
Proof.
  intros Rd W U L2 K F; unfold predict_sp; rewrite Rd, W; cbn [bind]; apply mapM_same; intros r _; unfold sp_predict, sp_scores.
  rewrite (foldM_ext2 _ (sp_step O num rnd r) (e_groups o) st); [reflexivity|].
  clear - U L2 K F; induction F as [|g e gs st G _ IH]; constructor; [intros s; now apply (group_step_positional l)|exact IH].
Qed.

(** The averaged estimator. *)
Lemma last_place_nth l k n : NoDup l -> nth_error l k = Some n -> last_place l n = Some k.
Proof.
  intros N; revert k; induction N as [|a l Na _ IH]; intros [|k] H; try discriminate; cbn in *.
  - injection H as ->; destruct (last_place l n) eqn:E; [exfalso|now rewrite same_name_refl].
    apply Na; clear - E; revert n0 E; induction l as [|b l IH]; intros k E; [discriminate|]; cbn in E; destruct (last_place l n); [right; now apply (IH n0)|].
    destruct (same_name n b) eqn:X; [|discriminate]; apply same_name_true in X; now left.
  - now rewrite (IH k H).
Qed.
Lemma last_place_none l n : ~ In n l -> last_place l n = None.
Proof.
  induction l as [|a l IH]; intros H; [reflexivity|]; cbn; rewrite IH by (intros X; apply H; now right).
  rewrite same_name_false by (intros ->; apply H; now left); reflexivity.
Qed.
Lemma fold_put_filter {X} (h : X -> bool) l cols d : length l = length cols -> NoDup l -> (forall n, In n l -> ~ In n (map fst d)) ->
  fold_left (fun d c => if h (snd c) then put d (fst c) tt else d) (combine l cols) d =
  (d ++ map (fun c => (fst c, tt)) (filter (fun c => h (snd c)) (combine l cols)))%list.
Proof.
  intros L N; revert cols d L; induction N as [|a l N _ IH]; intros [|c cols] d L H; try discriminate; [now rewrite app_nil_r|].
  cbn [combine fold_left filter fst snd]; destruct (h c).
  - assert (E : put d a tt = (d ++ [(a, tt)])%list).
    { specialize (H a (or_introl eq_refl)); clear - H; induction d as [|[b x] d IH]; [reflexivity|]; cbn.
      rewrite same_name_false by (intros ->; apply H; now left); f_equal; apply IH; intros Q; apply H; now right. }
    rewrite E, IH; [now rewrite <- app_assoc|cbn in L; lia|]; intros n Hn; rewrite map_app, in_app_iff; intros [Q|[<-|[]]]; [|now apply N].
    now apply (H n (or_intror Hn)).
  - apply IH; [cbn in L; lia|]; intros n Hn; apply H; now right.
Qed.
Lemma parents_ao_places f m : NoDup (labels f) ->
  Forall2 (fun n p => nth_error (labels f) (fst p) = Some n) (parents_ao O continuous f m)
    (filter (fun p => ao_eligible O continuous m (snd p)) (enumerate (columns (length (labels f)) (rows f)))).
Proof.
  intros N; unfold parents_ao; rewrite (fold_put_filter (ao_eligible O continuous m)) by (try exact N; cbn; rewrite ?columns_length; auto).
  cbn [app]; rewrite map_map; cbn [fst]; change (map (fun x => fst x)) with (map (@fst name (list A))).
  assert (G : forall s l cols, length cols = length l -> (forall j n, nth_error l j = Some n -> nth_error (labels f) (s + j) = Some n) ->
    Forall2 (fun n (p : nat * list A) => nth_error (labels f) (fst p) = Some n)
      (map fst (filter (fun c => ao_eligible O continuous m (snd c)) (combine l cols)))
      (filter (fun p => ao_eligible O continuous m (snd p)) (combine (seq s (length cols)) cols))).
  { clear; intros s l; revert s; induction l as [|n l IH]; intros s [|c cols] L H; try discriminate; [constructor|].
    cbn [combine length seq filter snd].
    assert (T : Forall2 (fun n (p : nat * list A) => nth_error (labels f) (fst p) = Some n)
      (map fst (filter (fun c => ao_eligible O continuous m (snd c)) (combine l cols)))
      (filter (fun p => ao_eligible O continuous m (snd p)) (combine (seq (S s) (length cols)) cols))).
    { apply IH; [cbn in L; lia|]; intros j x Hj; specialize (H (S j) x Hj); now rewrite Nat.add_succ_r in H. }
    destruct (ao_eligible O continuous m c); [|exact T]; cbn [map]; constructor; [|exact T]; cbn; specialize (H 0%nat n eq_refl); now rewrite Nat.add_0_r in H. }
  unfold enumerate; apply G; [apply columns_length|]; intros j n H; exact H.
Qed.
Lemma with_names_again names (x : input A) f : with_names names x = Ok f -> with_names names (Frame f) = Ok f.
Proof.
  destruct names as [l|]; [|reflexivity]; intros H; assert (E : l = labels f).
  { destruct x as [d r|g]; cbn in H.
    - destruct (length l =? d)%nat; [now injection H as <-|discriminate].
    - destruct (list_eq_dec name_eq_dec l (labels g)) as [->|]; [now injection H as <-|].
      destruct (has_duplicates (labels g)); [discriminate|]; destruct (mapM _ l); [|discriminate]; now injection H as <-. }
  unfold with_names; destruct (list_eq_dec name_eq_dec l (labels f)); [reflexivity|contradiction].
Qed.
Lemma fit_ao_positional (o : estimator) x f y st : with_names (e_names o) x = Ok f -> NoDup (labels f) -> ~ In key (labels f) ->
  Forall2 (grouped (labels f)) (e_groups o) st ->
  match ao_fit O num continuous st (columns (length (labels f)) (rows f)) y (e_smoothing o) (e_m o) with
  | Err e => fit_ao O num continuous x y o = Err e
  | Ok (st', lists) => exists o', fit_ao O num continuous x y o = Ok o' /\ e_names o' = e_names o /\ e_smoothing o' = e_smoothing o /\ e_m o' = e_m o /\
      e_ready o' = true /\ Forall2 (grouped (labels f)) (e_groups o') st' /\ Forall2 (Forall2 (grouped (labels f))) (e_lists o') lists
  end.
Proof.
  intros W N K F; unfold fit_ao, ao_fit; rewrite W; cbn [bind].
  pose proof (parents_ao_places f (e_m o) N) as P; set (ps := filter _ _) in *; set (ns := parents_ao O continuous f (e_m o)) in *; clearbody ps ns.
  pose proof (with_names_again _ _ _ W) as W'.
  assert (G : forall o1 st1, e_names o1 = e_names o -> e_smoothing o1 = e_smoothing o -> Forall2 (grouped (labels f)) (e_groups o1) st1 ->
    match foldM (fun st p => sp_fit O num continuous st (columns (length (labels f)) (rows f)) y (e_smoothing o) (fst p)) ps st1 with
    | Err e => foldM (fun o n => fit_sp O num continuous (Frame f) y
        {| e_names := e_names o; e_parent := Some n; e_index := e_index o; e_smoothing := e_smoothing o; e_m := e_m o;
           e_groups := e_groups o; e_lists := e_lists o; e_ready := e_ready o |}) ns o1 = Err e
    | Ok st' => exists o', foldM (fun o n => fit_sp O num continuous (Frame f) y
        {| e_names := e_names o; e_parent := Some n; e_index := e_index o; e_smoothing := e_smoothing o; e_m := e_m o;
           e_groups := e_groups o; e_lists := e_lists o; e_ready := e_ready o |}) ns o1 = Ok o' /\ Forall2 (grouped (labels f)) (e_groups o') st'
    end).
  { clear F; induction P as [|n p ns ps Hn _ IH]; intros o1 st1 E1 E2 F; [exists o1; split; [reflexivity|exact F]|]; cbn [foldM].
    match goal with |- context [fit_sp O num continuous (Frame f) y ?oo] => set (o2 := oo) end.
    assert (Hk : (fst p < length (labels f))%nat) by (apply nth_error_Some; congruence).
    pose proof (fit_sp_positional o2 (Frame f) f y (fst p) st1 ltac:(cbn; rewrite E1; exact W')) as Q.
    specialize (Q ltac:(unfold parent_index; cbn [e_parent o2]; now rewrite (last_place_nth _ _ _ N Hn)) Hk N K F).
    cbn [e_smoothing o2] in Q; rewrite E2 in Q.
    destruct (sp_fit O num continuous st1 _ y (e_smoothing o) (fst p)) as [st2|e]; cbn [bind]; [|rewrite Q; reflexivity].
    destruct Q as (gs & -> & Fg); cbn [bind]; apply IH; [exact E1|exact E2|exact Fg]. }
  specialize (G o st eq_refl eq_refl F).
  destruct (foldM _ ps st) as [st'|e]; cbn [bind]; [|now rewrite G]; destruct G as (o' & -> & Fg); cbn [bind].
  eexists; split; [reflexivity|]; cbn; repeat split; [exact Fg|].
  clear - P Fg; induction P; constructor; assumption.
Qed.
Lemma foldM_cond {S X Y} (f : S -> X -> result S) (g : S -> Y -> result S) (l : list X) (m : list Y) (s : S) (P : X -> Y -> Prop) :
  Forall2 P l m -> (forall a b s, P a b -> f s a = g s b) -> foldM f l s = foldM g m s.
Proof. intros F H; apply foldM_ext2; eapply Forall2_impl; [|exact F]; intros a b Hab s'; now apply H. Qed.
Lemma scores_ao_positional ls lists l l2 r : usual_names l2 -> length l2 = length l -> ~ In key l -> (length lists <= length l)%nat -> length r = length l ->
  Forall2 (Forall2 (grouped l)) ls lists -> scores_ao O num rnd ls l2 r = ao_scores O num rnd lists r.
Proof.
  intros U L2 K Hl Hr F; unfold scores_ao, ao_scores; apply foldM_ext2; apply Forall2_enumerate; [eapply Forall2_length; eauto|].
  intros j gs es H1 H2 s; cbn [fst snd].
  assert (Hj : (j < length l2)%nat) by (assert (j < length lists)%nat by (apply nth_error_Some; congruence); lia).
  rewrite item_usual by assumption.
  assert (V : exists v, get_at r j = Ok v) by (unfold get_at; destruct (nth_error r j) eqn:X; [eauto|]; apply nth_error_None in X; lia).
  destruct V as (v & ->); cbn [bind].
  pose proof (Forall2_nth_error _ _ _ _ _ _ F H1 H2) as G.
  erewrite (foldM_cond _ _ gs es); [reflexivity|exact G|]; intros g e s' H; cbn beta; rewrite (group_step_positional l l2 r g e s' U L2 K H).
  destruct H as (_ & -> & _); reflexivity.
Qed.

(** Histories of training on arrays. *)
Lemma with_names_of names d (r : list (list A)) : length (names_of names d) = d ->
  with_names names (Array d r) = Ok {| labels := names_of names d; rows := r |}.
Proof. destruct names as [l|]; [|reflexivity]; cbn; intros ->; now rewrite Nat.eqb_refl. Qed.
Lemma sp_history names d parent sm k history : length (names_of names d) = d -> usual_names (names_of names d) -> NoDup (names_of names d) ->
  ~ In key (names_of names d) -> nth_error (names_of names d) k = Some parent ->
  match foldM (fun st h => sp_fit O num continuous st (columns d (fst h)) (snd h) sm k) history [] with
  | Err e => foldM (fun o h => fit_sp O num continuous (Array d (fst h)) (snd h) o) history (compile_sp parent sm (new_estimator names)) = Err e
  | Ok st => exists o, foldM (fun o h => fit_sp O num continuous (Array d (fst h)) (snd h) o) history (compile_sp parent sm (new_estimator names)) = Ok o /\
      (history <> [] -> forall q, predict_sp O num rnd o (Array d q) = mapM (sp_predict O num rnd st) q /\
        forall o', length (names_of (e_names o') d) = d -> usual_names (names_of (e_names o') d) ->
          predict_sp O num rnd (load_sp o o') (Array d q) = mapM (sp_predict O num rnd st) q)
  end.
Proof.
  intros L U N K Hk.
  assert (G : forall o st, e_names o = names -> e_parent o = Some parent -> e_smoothing o = sm -> Forall2 (grouped (names_of names d)) (e_groups o) st ->
    match foldM (fun st h => sp_fit O num continuous st (columns d (fst h)) (snd h) sm k) history st with
    | Err e => foldM (fun o h => fit_sp O num continuous (Array d (fst h)) (snd h) o) history o = Err e
    | Ok st' => exists o', foldM (fun o h => fit_sp O num continuous (Array d (fst h)) (snd h) o) history o = Ok o' /\
        e_names o' = names /\ e_ready o' = (match history with [] => e_ready o | _ => true end) /\ Forall2 (grouped (names_of names d)) (e_groups o') st'
    end).
  { induction history as [|[r y] history IH]; intros o st E1 E2 E3 F; [exists o; repeat split; assumption|]; cbn [foldM fst snd].
    pose proof (fit_sp_positional o (Array d r) {| labels := names_of names d; rows := r |} y k st) as Q; cbn [labels rows] in Q.
    specialize (Q ltac:(rewrite E1; now apply with_names_of)).
    specialize (Q ltac:(unfold parent_index; rewrite E2; cbn [labels]; now rewrite (last_place_nth _ _ _ N Hk))).
    specialize (Q ltac:(apply nth_error_Some; congruence) N K F); rewrite L, E3 in Q.
    destruct (sp_fit O num continuous st (columns d r) y sm k) as [st2|e]; cbn [bind]; [|rewrite Q; reflexivity].
    destruct Q as (gs & -> & Fg); cbn [bind]; specialize (IH (fitted o k gs) st2 E1 E2 E3 Fg).
    destruct (foldM _ history st2); [|exact IH]; destruct IH as (o' & H1 & H2 & H3 & H4); exists o'; repeat split; try assumption; rewrite H3; now destruct history. }
  specialize (G (compile_sp parent sm (new_estimator names)) [] eq_refl eq_refl eq_refl (Forall2_nil _)).
  destruct (foldM _ history []) as [st|]; [|exact G]; destruct G as (o & H1 & H2 & H3 & H4); exists o; split; [exact H1|]; intros Hh q.
  assert (G : forall o', e_ready o' = true -> e_groups o' = e_groups o -> length (names_of (e_names o') d) = d -> usual_names (names_of (e_names o') d) ->
    predict_sp O num rnd o' (Array d q) = mapM (sp_predict O num rnd st) q).
  { intros o' R' G' L' U'; rewrite (predict_sp_positional o' (names_of names d) (Array d q) {| labels := names_of (e_names o') d; rows := q |} st); cbn [labels rows]; auto.
    - now apply with_names_of.
    - congruence.
    - now rewrite G'. }
  split; [apply G; rewrite ?H2; try assumption; [rewrite H3; now destruct history|reflexivity]|].
  intros o' L' U'; apply G; auto.
Qed.
Lemma filter_len {X} (h : X -> bool) l : (length (filter h l) <= length l)%nat.
Proof. induction l as [|a l IH]; [apply le_n|]; cbn; destruct (h a); cbn; lia. Qed.
Lemma ao_fit_few st cols y sm m st' lists : ao_fit O num continuous st cols y sm m = Ok (st', lists) -> (length lists <= length cols)%nat.
Proof.
  unfold ao_fit; destruct (foldM _ _ st); cbn [bind]; [|discriminate]; intros H; injection H as <- <-; rewrite map_length.
  etransitivity; [apply filter_len|]; now rewrite enumerate_length.
Qed.
Lemma ao_history names d sm m history : length (names_of names d) = d -> usual_names (names_of names d) -> NoDup (names_of names d) ->
  ~ In key (names_of names d) ->
  match foldM (fun s h => ao_fit O num continuous (fst s) (columns d (fst h)) (snd h) sm m) history ([], []) with
  | Err e => foldM (fun o h => fit_ao O num continuous (Array d (fst h)) (snd h) o) history (compile_ao sm m (new_estimator names)) = Err e
  | Ok s => exists o, foldM (fun o h => fit_ao O num continuous (Array d (fst h)) (snd h) o) history (compile_ao sm m (new_estimator names)) = Ok o /\
      (history <> [] -> forall q, is_array d q -> predict_ao O num rnd o (Array d q) = mapM (ao_predict O num rnd (snd s)) q /\
        forall o', length (names_of (e_names o') d) = d -> usual_names (names_of (e_names o') d) ->
          predict_ao O num rnd (load_ao o o') (Array d q) = mapM (ao_predict O num rnd (snd s)) q)
  end.
Proof.
  intros L U N K.
  assert (G : forall o s, e_names o = names -> e_smoothing o = sm -> e_m o = m -> Forall2 (grouped (names_of names d)) (e_groups o) (fst s) ->
    Forall2 (Forall2 (grouped (names_of names d))) (e_lists o) (snd s) -> (length (snd s) <= d)%nat ->
    match foldM (fun s h => ao_fit O num continuous (fst s) (columns d (fst h)) (snd h) sm m) history s with
    | Err e => foldM (fun o h => fit_ao O num continuous (Array d (fst h)) (snd h) o) history o = Err e
    | Ok s' => exists o', foldM (fun o h => fit_ao O num continuous (Array d (fst h)) (snd h) o) history o = Ok o' /\
        e_names o' = names /\ e_ready o' = (match history with [] => e_ready o | _ => true end) /\
        Forall2 (Forall2 (grouped (names_of names d))) (e_lists o') (snd s') /\ (length (snd s') <= d)%nat
    end).
  { induction history as [|[r y] history IH]; intros o s E1 E2 E3 F F' Hs; [exists o; repeat split; assumption|]; cbn [foldM fst snd].
    pose proof (fit_ao_positional o (Array d r) {| labels := names_of names d; rows := r |} y (fst s)) as Q; cbn [labels rows] in Q.
    specialize (Q ltac:(rewrite E1; now apply with_names_of) N K F); rewrite L, E2, E3 in Q.
    pose proof (ao_fit_few (fst s) (columns d r) y sm m) as Few; rewrite columns_length in Few.
    destruct (ao_fit O num continuous (fst s) (columns d r) y sm m) as [[st2 ls2]|e]; cbn [bind]; [|rewrite Q; reflexivity].
    destruct Q as (o2 & -> & Q1 & Q2 & Q3 & Q4 & Q5 & Q6); cbn [bind].
    specialize (IH o2 (st2, ls2) (eq_trans Q1 E1) Q2 Q3 Q5 Q6 (Few _ _ eq_refl)).
    destruct (foldM _ history (st2, ls2)); [|exact IH]; destruct IH as (o' & H1 & H2 & H3 & H4 & H5); exists o'; repeat split; try assumption; rewrite H3; now destruct history. }
  specialize (G (compile_ao sm m (new_estimator names)) ([], []) eq_refl eq_refl eq_refl (Forall2_nil _) (Forall2_nil _) (Nat.le_0_l _)).
  destruct (foldM _ history ([], [])) as [s|]; [|exact G]; destruct G as (o & H1 & H2 & H3 & H4 & H5); exists o; split; [exact H1|]; intros Hh q Hq.
  assert (G : forall o', e_ready o' = true -> e_lists o' = e_lists o -> length (names_of (e_names o') d) = d -> usual_names (names_of (e_names o') d) ->
    predict_ao O num rnd o' (Array d q) = mapM (ao_predict O num rnd (snd s)) q).
  { intros o' R' G' L' U'; unfold predict_ao; rewrite R', G', with_names_of by exact L'; cbn [bind labels rows].
    apply mapM_same; intros r Hr; unfold ao_predict.
    unfold is_array in Hq; rewrite Forall_forall in Hq.
    rewrite (scores_ao_positional (e_lists o) (snd s) (names_of names d)); auto; [congruence|lia|rewrite L; now apply Hq]. }
  split; [apply G; rewrite ?H2; try assumption; [rewrite H3; now destruct history|reflexivity]|].
  intros o' L' U'; apply G; auto.
Qed.

(** The super parent. *)
Lemma fit_sp_parent (o o' : estimator) x y f : with_names (e_names o) x = Ok f -> e_names o' = e_names o -> e_smoothing o' = e_smoothing o ->
  e_groups o' = e_groups o -> parent_index o' f = parent_index o f ->
  match fit_sp O num continuous x y o, fit_sp O num continuous x y o' with
  | Ok a, Ok b => e_names b = e_names a /\ e_groups b = e_groups a /\ e_ready b = e_ready a /\ e_index b = e_index a
  | Err a, Err b => a = b
  | _, _ => False
  end.
Proof.
  intros W E1 E2 E3 E4; unfold fit_sp; rewrite E1, W; cbn [bind]; rewrite E2, E3, E4.
  match goal with |- context [bind ?t _] => destruct t end; cbn [bind]; [|reflexivity]; cbn; auto.
Qed.
Lemma zsort_nil y : zsort y = [] -> y = [].
Proof. unfold zsort; apply np_unique_nil. Qed.
Lemma unknown_parent (o : estimator) x y f n : with_names (e_names o) x = Ok f -> e_parent o = Some n -> e_index o = None -> ~ In n (labels f) -> y <> [] ->
  fit_sp O num continuous x y o = Err ValueError.
Proof.
  intros W E1 E2 Hn Hy; unfold fit_sp; rewrite W; cbn [bind]; unfold parent_index; rewrite E1, E2, (last_place_none _ _ Hn).
  destruct (zsort y) eqn:E; [now apply zsort_nil in E|reflexivity].
Qed.

(** A column named as the prior. *)
Lemma put_head {B} (d : list (name * B)) a b n c : exists d' b', put ((a, b) :: d) n c = (a, b') :: d' /\ (n = a -> b' = c) /\ (n <> a -> b' = b).
Proof.
  cbn; destruct (same_name n a) eqn:E.
  - apply same_name_true in E; exists d, c; repeat split; congruence.
  - exists (put d n c), b; split; [reflexivity|]; split; [intros X; subst; now rewrite same_name_refl in E|reflexivity].
Qed.
Lemma fold_put_head {X} (h : X -> part) l cols d b : In key l -> length l = length cols -> (forall c, exists i, h c = Info i) ->
  exists d' i, fold_left (fun d c => put d (fst c) (h (snd c))) (combine l cols) ((key, b) :: d) = (key, Info (A := A) i) :: d'.
Proof.
  intros I L H; revert cols d b I L; induction l as [|a l IH]; intros [|c cols] d b I L; try discriminate; [destruct I|].
  cbn [combine fold_left fst snd]; destruct (put_head d key b a (h c)) as (d' & b' & -> & H1 & H2).
  destruct (in_dec name_eq_dec key l) as [J|J]; [apply IH; [exact J|cbn in L; lia]|].
  destruct I as [->|I]; [|contradiction]; rewrite (H1 eq_refl); destruct (H c) as (i & ->).
  assert (G : forall l cols d, ~ In key l -> exists d', fold_left (fun d c => put d (fst c) (h (snd c))) (combine l cols) ((key, Info i) :: d) = (key, Info (A := A) i) :: d').
  { clear; induction l as [|a l IH]; intros [|c cols] d J; try (exists d; reflexivity).
    cbn [combine fold_left fst snd]; destruct (put_head d key (Info i) a (h c)) as (d' & b' & -> & _ & H2).
    rewrite H2 by (intros ->; apply J; now left); apply IH; intros Q; apply J; now right. }
  destruct (G l cols d' J) as (d2 & E); exists d2, i; exact E.
Qed.
Lemma make_group_key (f : frame A) y sm parent cv g : In key (labels f) -> make_group O num continuous f y sm parent cv = Ok g ->
  g_category g = fst cv /\ exists i d, g_parts g = (key, Info i) :: d.
Proof.
  intros I; unfold make_group; destruct (get_dependent_prior_probability _ _ _ sm) as [p|]; cbn [bind]; [|discriminate]; intros H; injection H as <-; split; [reflexivity|]; cbn [g_parts].
  destruct (fold_put_head (fun col => Info (sp_attribute O num continuous y sm (fst cv) (selected O y (fst cv) (snd cv) parent) col))
    (labels f) (columns (length (labels f)) (rows f)) [] (Prior p) I) as (d' & i & E); [now rewrite columns_length|eauto|].
  exists i, d'; exact E.
Qed.
Lemma zsort_In y c : In c (zsort y) <-> In c y.
Proof. unfold zsort; apply np_unique_In. Qed.
Lemma key_column names x f parent sm y o q fq : with_names names x = Ok f -> In key (labels f) -> Forall (fun r => length r = length (labels f)) (rows f) ->
  rows f <> [] -> In 0%Z y \/ In 1%Z y -> fit_sp O num continuous x y (compile_sp parent sm (new_estimator names)) = Ok o ->
  with_names names q = Ok fq -> rows fq <> [] -> predict_sp O num rnd o q = Err TypeError.
Proof.
  intros W I F Hr Hy H Wq Hq.
  unfold fit_sp in H; cbn [e_names compile_sp new_estimator] in H; rewrite W in H; cbn [bind] in H.
  destruct (zsort y) as [|c0 cs] eqn:Ez; [apply zsort_nil in Ez; subst; destruct Hy as [[]|[]]|].
  destruct (parent_index (compile_sp parent sm (new_estimator names)) f) as [k|]; [|discriminate].
  destruct (get_at (columns (length (labels f)) (rows f)) k) as [col|] eqn:Ek; [|discriminate]; cbn [bind] in H.
  destruct (mapM _ _) as [t|] eqn:Et in H; [|discriminate]; cbn [bind] in H; injection H as <-.
  unfold predict_sp; cbn [e_ready e_names]; cbn [compile_sp new_estimator e_names]; rewrite Wq; cbn [bind e_groups app].
  destruct (rows fq) as [|r rs]; [congruence|]; cbn [mapM].
  assert (Hgroups : forall g, In g t -> exists cv, In cv (flat_map (fun c => map (fun v => (c, v)) (unique O col)) (c0 :: cs)) /\
             g_category g = fst cv /\ exists i d, g_parts g = (key, Info i) :: d).
  { apply mapM_Ok in Et; clear - Et I; induction Et as [|cv g cvs t E _ IH]; intros g' Hg; [destruct Hg|]; destruct Hg as [<-|Hg].
    - exists cv; split; [now left|]; now apply (make_group_key f y sm col cv g I).
    - destruct (IH g' Hg) as (cv' & H1 & H2); exists cv'; split; [now right|exact H2]. }
  assert (Hlog : forall g, In g t -> group_log O num rnd (labels fq) r g = Err TypeError).
  { intros g Hg; destruct (Hgroups g Hg) as (_ & _ & _ & i & d & E); unfold group_log; rewrite E; unfold enumerate; cbn [length seq combine foldM fst snd].
    rewrite same_name_refl; reflexivity. }
  assert (Hex : exists g, In g t /\ (g_category g = 0 \/ g_category g = 1)%Z).
  { assert (Hc : exists c, In c (c0 :: cs) /\ (c = 0 \/ c = 1)%Z) by (rewrite <- Ez; destruct Hy as [Hy|Hy]; [exists 0%Z|exists 1%Z]; (split; [now apply zsort_In|auto])).
    destruct Hc as (c & Hc & Hcc).
    assert (Hv : exists v, In v (unique O col)).
    { unfold get_at in Ek; destruct (nth_error (columns (length (labels f)) (rows f)) k) eqn:X; [|discriminate]; injection Ek as ->.
      destruct (rows f) as [|r0 rs0]; [congruence|]; unfold columns in X.
      assert (Hkl : (k < length (labels f))%nat).
      { assert (Y : (k < length (map (fun j => column j (r0 :: rs0)) (seq 0 (length (labels f)))))%nat) by (apply nth_error_Some; congruence); now rewrite map_length, seq_length in Y. }
      rewrite nth_error_map, (nth_error_nth' _ 0%nat) in X by now rewrite seq_length.
      rewrite seq_nth in X by exact Hkl; cbn in X; injection X as <-; inversion F; subst.
      destruct (nth_error r0 k) as [v|] eqn:Y; [|apply nth_error_None in Y; lia].
      exists v; apply Proof.Bayes.unique_In; apply in_or_app; left; now left. }
    destruct Hv as (v & Hv).
    assert (Hin : In (c, v) (flat_map (fun c => map (fun v => (c, v)) (unique O col)) (c0 :: cs))).
    { apply in_flat_map; exists c; split; [exact Hc|]; apply in_map_iff; exists v; auto. }
    apply mapM_Ok in Et; clear - Et Hin I Hcc; induction Et as [|cv g cvs t E _ IH]; [destruct Hin|]; destruct Hin as [->|Hin].
    - exists g; split; [now left|]; apply make_group_key in E; [|exact I]; destruct E as [-> _]; exact Hcc.
    - destruct (IH Hin) as (g' & H1 & H2); exists g'; split; [now right|exact H2]. }
  replace (foldM (group_step O num rnd (labels fq) r) t (Fin 0, Fin 0)) with (Err (A := ext * ext) TypeError); [reflexivity|]; symmetry.
  destruct Hex as (g & Hg & Hc).
  assert (Gen : forall l s, (forall g, In g l -> group_log O num rnd (labels fq) r g = Err TypeError) -> In g l -> foldM (group_step O num rnd (labels fq) r) l s = Err TypeError).
  { clear - Hc; induction l as [|a l IH]; intros s Hl Hg; [destruct Hg|]; cbn [foldM].
    unfold group_step at 1; rewrite (Hl a (or_introl eq_refl)); cbn [bind].
    destruct Hg as [->|Hg].
    - destruct Hc as [-> | ->]; reflexivity.
    - destruct (g_category a =? 0)%Z; [reflexivity|]; destruct (g_category a =? 1)%Z; [reflexivity|]; cbn [bind]; apply IH; [|exact Hg]; intros b Hb; apply Hl; now right. }
  apply Gen; assumption.
Qed.

(** Training after loading. *)
Lemma fit_sp_fields (o o' : estimator) x y : e_names o = e_names o' -> e_smoothing o = e_smoothing o' -> e_index o = e_index o' -> e_parent o = e_parent o' -> e_groups o = e_groups o' ->
  match fit_sp O num continuous x y o, fit_sp O num continuous x y o' with
  | Ok a, Ok b => e_names a = e_names b /\ e_smoothing a = e_smoothing b /\ e_index a = e_index b /\ e_parent a = e_parent b /\ e_groups a = e_groups b
  | Err a, Err b => a = b
  | _, _ => False
  end.
Proof.
  intros E1 E2 E3 E4 E5; unfold fit_sp, parent_index; rewrite E1, E2, E3, E4, E5; destruct (with_names (e_names o') x); cbn [bind]; [|reflexivity].
  match goal with |- context [bind ?t _] => destruct t end; cbn [bind]; [|reflexivity]; cbn; auto.
Qed.
Lemma fit_ao_loaded names saved x y : fit_ao O num continuous x y (load_ao saved (new_estimator names)) =
  fit_ao O num continuous x y (compile_ao (e_smoothing saved) (e_m saved) (new_estimator names)).
Proof.
  unfold fit_ao, load_ao, compile_ao; cbn [e_names e_m e_smoothing new_estimator].
  destruct (with_names names x) as [f|]; cbn [bind]; [|reflexivity].
  generalize (parents_ao O continuous f (e_m saved)) as ps; intros ps.
  assert (G : forall ns o o', e_names o = e_names o' -> e_smoothing o = e_smoothing o' -> e_index o = e_index o' -> e_parent o = e_parent o' -> e_groups o = e_groups o' ->
    let run := foldM (fun o n => fit_sp O num continuous (Frame f) y
        {| e_names := e_names o; e_parent := Some n; e_index := e_index o; e_smoothing := e_smoothing o; e_m := e_m o;
           e_groups := e_groups o; e_lists := e_lists o; e_ready := e_ready o |}) ns in
    match run o, run o' with
    | Ok a, Ok b => e_parent a = e_parent b /\ e_index a = e_index b /\ e_groups a = e_groups b
    | Err a, Err b => a = b
    | _, _ => False
    end).
  { cbv zeta; induction ns as [|n ns IH]; intros o o' E1 E2 E3 E4 E5; cbn [foldM]; [auto|].
    match goal with |- match bind (fit_sp _ _ _ _ _ ?p) _ with _ => _ end => match goal with |- match _ with Ok _ => match bind (fit_sp _ _ _ _ _ ?p') _ with _ => _ end | Err _ => _ end =>
      pose proof (fit_sp_fields p p' (Frame f) y E1 E2 E3 eq_refl E5) as Q; destruct (fit_sp O num continuous (Frame f) y p), (fit_sp O num continuous (Frame f) y p') end end;
      try contradiction; cbn [bind]; [|exact Q].
    destruct Q as (Q1 & Q2 & Q3 & Q4 & Q5); now apply IH. }
  match goal with |- bind (foldM ?F ps ?o) _ = bind (foldM _ ps ?o') _ => specialize (G ps o o' eq_refl eq_refl eq_refl eq_refl eq_refl); cbv zeta in G; destruct (foldM F ps o), (foldM F ps o') end;
    try contradiction; cbn [bind]; [|now f_equal].
  destruct G as (-> & -> & ->); reflexivity.
Qed.
End Estimators.

(** ** Decision trees *)
Lemma same_labels_same_rows {A} (f g : frame A) : same_table f g -> labels f = labels g -> rows f = rows g.
Proof.
  intros ((N & F1) & (_ & F2) & _ & F) E; destruct f as [l r1], g as [l' r2]; cbn in *; subst l'.
  induction F as [|a b r1 r2 H _ IH]; [reflexivity|]; inversion F1; inversion F2; subst; f_equal; [|now apply IH].
  rewrite <- (arranged_self l a), <- (arranged_self l b) by assumption; now apply arranged_ext.
Qed.
