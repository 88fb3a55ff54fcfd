(** K-means: statements about [fit]. *)
From Coq Require Import List ZArith Reals Lra Lia Bool Arith.
From Verif.Model Require Import Base Ops KMeans.
From Verif.Spec Require Import Common Ops Smo KMeans.
From Verif.Proof Require Import BaseLemmas Preprocessing Smo Kernels Ops KMeans.
Import ListNotations.
Local Open Scope R_scope.

Lemma squeeze_entries s : entries (squeeze_shape s) = entries s.
Proof.
  induction s as [|k s IH]; simpl; auto. destruct (Nat.eqb_spec k 1) as [->|N]; simpl; [rewrite IH; lia|now rewrite IH].
Qed.
Lemma flat_reals_length f : length (flat_reals f) = flat_length f.
Proof. destruct f; simpl; auto. apply map_length. Qed.
Lemma chunk_rect {A} n d (l : list A) : length l = (n * d)%nat -> length (chunk n d l) = n /\ Forall (fun r => length r = d) (chunk n d l).
Proof.
  revert l; induction n as [|n IH]; intros l H; simpl in *; [split; auto|].
  destruct (IH (skipn d l)) as (H1 & H2); [rewrite skipn_length; lia|]. split; [lia|]. constructor; auto. rewrite firstn_length. lia.
Qed.
Lemma mapM_rows {B} (x : list B) (f : nat -> nat) (P : B -> Prop) : Forall P x -> forall l c, mapM (fun i => get_at x (f i)) l = Ok c ->
  length c = length l /\ Forall P c.
Proof.
  intros F l c H. apply mapM_Ok in H. split; [symmetry; now apply Forall2_length in H|].
  induction H as [|i r l c G H IH]; constructor; auto. unfold get_at in G. destruct (nth_error x (f i)) eqn:E; [|discriminate].
  injection G as <-. rewrite Forall_forall in F. apply F. eapply nth_error_In; eauto.
Qed.
Lemma init_rect randint d x n init c : valid_randint randint -> rect d x -> x <> [] -> consistent init ->
  init_centroids randint d x n init = Ok c -> length c = n /\ rect d c.
Proof.
  intros V Rx Hx Cs H. destruct init as [|a|]; simpl in *; [| |discriminate].
  - destruct (Nat.eqb_spec (length x) 0); [discriminate|].
    destruct (mapM_rows x (fun i => i) _ Rx _ _ H) as (L & F). split; auto. rewrite L. apply V. lia.
  - assert (Sq : entries (squeeze_shape (shape a)) = flat_length (data a)) by (rewrite squeeze_entries; auto).
    assert (G : forall s, entries s = flat_length (data a) -> (if negb (shape_eqb s [n; d]) then Err ValueError
        else Ok (chunk n d (flat_reals (data a)))) = Ok c -> length c = n /\ rect d c).
    { intros s E. unfold shape_eqb. destruct (list_eq_dec Nat.eq_dec s [n; d]) as [->|]; simpl; [|discriminate].
      intros Q. injection Q as <-. apply chunk_rect. rewrite flat_reals_length. simpl in E. lia. }
    destruct (squeeze_shape (shape a)) as [|k [|k' t]] eqn:E; [exact (G [] Sq H)| |exact (G _ Sq H)].
    destruct (Nat.eqb_spec k n) as [->|]; simpl in H; [|discriminate].
    apply bind_Ok in H. destruct H as (mn & _ & H). apply bind_Ok in H. destruct H as (mx & _ & H).
    destruct (Rltb mn 0 || Rleb (INR (length x)) mx); [discriminate|]. destruct (data a) as [l|l]; [|discriminate].
    simpl in Sq. assert (H' : mapM (fun i => get_at x (Z.to_nat (nth i l 0%Z))) (seq 0 (length l)) = Ok c).
    { refine (eq_trans _ H). clear. assert (G : forall p, mapM (fun i => get_at x (Z.to_nat (nth i (p ++ l) 0%Z))) (seq (length p) (length l)) = mapM (fun z => get_at x (Z.to_nat z)) l).
      { induction l as [|z l IH]; intros p; simpl; auto. rewrite app_nth2, Nat.sub_diag by lia. simpl.
        destruct (get_at x (Z.to_nat z)); simpl; auto. specialize (IH (p ++ [z])). rewrite app_length, <- app_assoc in IH. simpl in IH.
        rewrite Nat.add_comm in IH. simpl in IH. now rewrite IH. }
      exact (G []). }
    destruct (mapM_rows x _ _ Rx _ _ H') as (L & F). rewrite seq_length in L. split; auto. lia.
Qed.

Section Fit.
Variables (randint : nat -> nat -> list nat) (d : nat) (x : list (list R)) (n : nat) (init : init_arg) (tol : R).
Hypothesis V : valid_randint randint.
Hypothesis Rx : rect d x.
Hypothesis Hx : x <> [].
Hypothesis Hn : (1 <= n)%nat.
Hypothesis Cs : consistent init.

Lemma fit_start epochs res : km_fit randint d x n init tol epochs = Ok res ->
  exists c0, init_centroids randint d x n init = Ok c0 /\ length c0 = n /\ rect d c0 /\ c0 <> [] /\
  km_loop d x tol epochs (map Some c0) None = Ok res.
Proof.
  unfold km_fit. intros H. apply bind_Ok in H. destruct H as (c0 & E & H). exists c0.
  destruct (init_rect _ _ _ _ _ _ V Rx Hx Cs E) as (L & F). split; auto. split; auto. split; auto. split; auto.
  destruct c0; [simpl in L; lia|discriminate].
Qed.

Lemma fit_descends epochs r cl st : km_fit randint d x n init tol epochs = Ok (r, cl, st) ->
  exists c0 c', init_centroids randint d x n init = Ok c0 /\ length c0 = n /\ r = map Some c' /\ rect d c' /\ (1 <= length c' <= n)%nat /\
    exists J J', objective x c0 J /\ objective x c' J' /\ J' <= J.
Proof.
  intros H. destruct (fit_start _ _ H) as (c0 & E & L & Rc & Hc & HL).
  destruct (loop_real d x tol Rx Hx _ _ _ _ _ _ Hc Rc HL) as (c' & -> & Hc' & Rc' & Le & M & _).
  exists c0, c'. split; auto. split; auto. split; auto. split; auto.
  split; [destruct c'; [congruence|]; simpl in *; lia|].
  destruct (objective_exists x c0 Hc) as (J & HJ), (objective_exists x c' Hc') as (J' & HJ'). eauto 6.
Qed.

Lemma fit_stopped epochs r cl : km_fit randint d x n init tol epochs = Ok (r, cl, true) ->
  exists c' labels, r = map Some c' /\ cl = Some labels /\ km_predict r x = Ok labels /\
  (In 0%nat labels -> forall k, In k labels -> exists v, is_mean_of d x labels k v /\ close tol (nth k c' []) v) /\
  (~ In 0%nat labels -> forall k l, In k labels -> In l labels -> k = l).
Proof.
  intros H. destruct (fit_start _ _ H) as (c0 & E & L & Rc & Hc & HL).
  destruct (loop_real d x tol Rx Hx _ _ _ _ _ _ Hc Rc HL) as (_ & _ & _ & _ & _ & _ & S & _).
  destruct (S eq_refl) as (labels & -> & P).
  destruct (loop_stop d x tol Rx Hx _ _ _ _ _ Hc Rc HL) as (c' & -> & A & B). exists c', labels. auto.
Qed.

Lemma gapless_round epochs : forall c cl0 r cl, c <> [] -> rect d c ->
  km_loop d x tol (S epochs) (map Some c) cl0 = Ok (r, cl, false) ->
  exists c' labels, r = map Some c' /\ cl = Some labels /\ assignment x (length c') labels /\
  forall k, (k < length c')%nat -> is_mean_of d x labels k (nth k c' []).
Proof.
  induction epochs as [|epochs IH]; intros c cl0 r cl Hc Rc H; cbn [km_loop] in H;
  apply bind_Ok in H; destruct H as (lb & HL & H); cbv zeta in H; apply bind_Ok in H; destruct H as (ch & HC & H);
  change (km_predict (map Some c) x = Ok lb) in HL; destruct (labels_facts c x lb Hc HL) as (A & F);
  (destruct ch; [|discriminate]);
  destruct (round_spec d x c lb tol Hc Hx A HC) as (c' & E & Hc' & Rc' & L & Le & A' & N); rewrite E in H.
  - injection H as <- <-. exists c', lb. split; auto. split; auto. split; auto. intros k Lk.
    rewrite (proj2 (N k Lk)). apply means_is_mean. apply members_nonempty; [apply A|]. now apply N.
  - exact (IH c' (Some lb) _ _ Hc' Rc' H).
Qed.

Lemma fit_exhausted epochs r cl : km_fit randint d x n init tol (S epochs) = Ok (r, cl, false) ->
  exists c' labels, r = map Some c' /\ cl = Some labels /\ assignment x (length c') labels /\
  forall k, (k < length c')%nat -> is_mean_of d x labels k (nth k c' []).
Proof.
  intros H. destruct (fit_start _ _ H) as (c0 & E & L & Rc & Hc & HL). exact (gapless_round _ _ _ _ _ Hc Rc HL).
Qed.

Lemma fit_converges : 0 <= tol -> exists m, forall epochs, (m <= epochs)%nat ->
  (exists e, km_fit randint d x n init tol epochs = Err e) \/ (exists r l, km_fit randint d x n init tol epochs = Ok (r, l, true)).
Proof.
  intros Ht. unfold km_fit. destruct (init_centroids randint d x n init) as [c0|e] eqn:E; [|exists O; left; simpl; eauto].
  destruct (init_rect _ _ _ _ _ _ V Rx Hx Cs E) as (L & F).
  destruct (training_converges d x tol c0 Ht Rx Hx) as (m & H); auto; [destruct c0; [simpl in L; lia|discriminate]|].
  exists m. intros epochs He. simpl. auto.
Qed.
End Fit.

Lemma predict_eq c x labels : c <> [] -> Forall2 (fun r k => first_nearest c r k) x labels -> km_predict (map Some c) x = Ok labels.
Proof.
  intros Hc F. destruct (predict_nearest c x Hc) as (l & H & F'). rewrite H. f_equal. clear H.
  revert l F'. induction F as [|r k x labels A F IH]; intros l F'; inversion F'; subst; auto. f_equal; eauto using first_nearest_unique.
Qed.

Ltac near := eexists; split; [reflexivity|];
  intros j w; do 4 (destruct j as [|j]; [simpl; intros E; first [discriminate E | injection E as <-; unfold sq_dist, total; simpl; split; [lra|intros; first [lia|lra]]]|]);
  simpl; intros E; destruct j; discriminate E.

Definition kx := [[0]; [1]; [4]].
Lemma k_labels1 : km_predict (map Some [[0]; [1]]) kx = Ok [0; 1; 1]%nat.
Proof. apply predict_eq; [discriminate|]. repeat (apply Forall2_nil || apply Forall2_cons); near. Qed.
Lemma k_labels2 : km_predict (map Some [[0]; [5/2]]) kx = Ok [0; 0; 1]%nat.
Proof. apply predict_eq; [discriminate|]. repeat (apply Forall2_nil || apply Forall2_cons); near. Qed.
Lemma k_labels3 : km_predict (map Some [[1/2]; [4]]) kx = Ok [0; 0; 1]%nat.
Proof. apply predict_eq; [discriminate|]. repeat (apply Forall2_nil || apply Forall2_cons); near. Qed.
Lemma k_mean1 : calculate_centroids 1 kx [0; 1; 1]%nat = map Some [[0]; [5/2]].
Proof. unfold calculate_centroids. simpl. unfold mean_rows, members, column, rmean. simpl. repeat first [lra | f_equal]. Qed.
Lemma k_mean2 : calculate_centroids 1 kx [0; 0; 1]%nat = map Some [[1/2]; [4]].
Proof. unfold calculate_centroids. simpl. unfold mean_rows, members, column, rmean. simpl. repeat first [lra | f_equal]. Qed.

Lemma cmp1 a b a' b' tol : compare_differences_any (map Some [[a]; [b]]) (map Some [[a']; [b']]) tol =
  Ok (Rltb tol (Rabs (a - a')) || Rltb tol (Rabs (b - b'))).
Proof. unfold compare_differences_any. simpl. now rewrite !orb_false_r. Qed.

Definition ki := InitArray {| shape := [2%nat]; data := Ints [0; 1]%Z |}.
Lemma k_init rd : init_centroids rd 1 kx 2 ki = Ok [[0]; [1]].
Proof.
  destruct (init_indices rd 1 kx 2 [0; 1]%nat) as (c & H & F); auto; [repeat constructor|].
  change (InitArray {| shape := [2%nat]; data := Ints (map Z.of_nat [0; 1]%nat) |}) with ki in H. rewrite H. f_equal.
  inversion F as [|i r is rs A F1]; subst. inversion F1 as [|i' r' is' rs' A' F2]; subst. inversion F2; subst.
  simpl in *. congruence.
Qed.
Lemma k_round c cl0 labels c' ch tol epochs : km_predict (map Some c) kx = Ok labels -> calculate_centroids 1 kx labels = map Some c' ->
  compare_differences_any (map Some c) (map Some c') tol = Ok ch ->
  km_loop 1 kx tol (S epochs) (map Some c) cl0 =
  if ch : bool then km_loop 1 kx tol epochs (map Some c') (Some labels) else Ok (map Some c, Some labels, true).
Proof. intros H E C. cbn [km_loop]. unfold km_predict in H. rewrite H. cbn [bind]. cbv zeta. rewrite E, C. destruct ch; reflexivity. Qed.

Ltac absr := unfold Rabs; repeat match goal with |- context [Rcase_abs ?z] => destruct (Rcase_abs z); try lra end; try lra.

Lemma k_one_round rd : km_fit rd 1 kx 2 ki (1/4) 1 = Ok (map Some [[0]; [5/2]], Some [0; 1; 1]%nat, false).
Proof.
  unfold km_fit. rewrite k_init. cbn [bind]. erewrite (k_round _ _ _ _ true); [reflexivity|exact k_labels1|exact k_mean1|].
  rewrite cmp1. f_equal. apply orb_true_iff. right. apply Rltb_true. absr.
Qed.
Lemma k_three_rounds rd epochs : km_fit rd 1 kx 2 ki (1/4) (3 + epochs) = Ok (map Some [[1/2]; [4]], Some [0; 0; 1]%nat, true).
Proof.
  unfold km_fit. rewrite k_init. cbn [bind Nat.add].
  erewrite (k_round _ _ _ _ true); [|exact k_labels1|exact k_mean1|rewrite cmp1; f_equal; apply orb_true_iff; right; apply Rltb_true; absr].
  erewrite (k_round _ _ _ _ true); [|exact k_labels2|exact k_mean2|rewrite cmp1; f_equal; apply orb_true_iff; right; apply Rltb_true; absr].
  erewrite (k_round _ _ _ _ false); [reflexivity|exact k_labels3|exact k_mean2|].
  rewrite cmp1. f_equal. apply orb_false_iff. split; apply Rltb_false; absr.
Qed.

(** Stored clusters can differ from the predictions when the rounds are exhausted. *)
Lemma exhausted_clusters_differ : exists randint d x n init tol epochs r labels labels',
  valid_randint randint /\ rect d x /\ consistent init /\ 0 < tol /\
  km_fit randint d x n init tol (S epochs) = Ok (r, Some labels, false) /\
  km_predict r x = Ok labels' /\ labels <> labels'.
Proof.
  exists (fun _ b => repeat 0%nat b), 1%nat, kx, 2%nat, ki, (1/4), O, (map Some [[0]; [5/2]]), [0; 1; 1]%nat, [0; 0; 1]%nat.
  split. { intros a b Ha. split; [apply repeat_length|]. apply Forall_forall. intros i Hi. pose proof (repeat_spec _ _ _ Hi). subst. lia. }
  split; [repeat constructor|]. split; [reflexivity|]. split; [lra|]. split; [apply k_one_round|]. split; [exact k_labels2|discriminate].
Qed.

(** An explicit start that no sample but the second centroid attracts. *)
Definition fx := [[1; 1]; [3; 3]].
Definition fi := InitArray {| shape := [2; 2]%nat; data := Floats [100; 100; 0; 0] |}.
Lemma f_labels : km_predict (map Some [[100; 100]; [0; 0]]) fx = Ok [1; 1]%nat.
Proof. apply predict_eq; [discriminate|]. repeat (apply Forall2_nil || apply Forall2_cons); near. Qed.
Lemma false_stop : exists randint d x n init tol r c labels,
  valid_randint randint /\ rect d x /\ consistent init /\ 0 < tol /\
  (forall epochs, km_fit randint d x n init tol (S epochs) = Ok (r, Some labels, true)) /\ r = map Some c /\
  exists k v, In k labels /\ is_mean_of d x labels k v /\ ~ close tol (nth k c []) v.
Proof.
  exists (fun _ b => repeat 0%nat b), 2%nat, fx, 2%nat, fi, 1, (map Some [[100; 100]; [0; 0]]), [[100; 100]; [0; 0]], [1; 1]%nat.
  split. { intros a b Ha. split; [apply repeat_length|]. apply Forall_forall. intros i Hi. pose proof (repeat_spec _ _ _ Hi). subst. lia. }
  split; [repeat constructor|]. split; [reflexivity|]. split; [lra|]. split.
  { intros epochs. unfold km_fit.
    pose proof (init_explicit (fun _ b => repeat 0%nat b) 2 fx 2 [[100; 100]; [0; 0]]) as I. simpl List.concat in I.
    change (InitArray {| shape := [2; 2]%nat; data := Floats [100; 100; 0; 0] |}) with fi in I. rewrite I; auto;
      [|simpl; intros r [<-|[<-|[]]]; reflexivity].
    cbn [bind km_loop]. pose proof f_labels as L. unfold km_predict in L. rewrite L. reflexivity. }
  split; [reflexivity|]. exists 1%nat, [2; 2]. split; [left; auto|]. split.
  - split; auto. intros [|[|j]] Hj; [| |lia]; unfold mean_of, total; simpl; lra.
  - intros C. unfold close in C. simpl in C. inversion C as [|? ? ? ? A]; subst. revert A. absr.
Qed.

Definition ei := InitArray {| shape := [3%nat]; data := Ints [0; 0; 2]%Z |}.
Lemma e_labels : km_predict (map Some [[0]; [0]; [4]]) kx = Ok [0; 0; 2]%nat.
Proof. apply predict_eq; [discriminate|]. repeat (apply Forall2_nil || apply Forall2_cons); near. Qed.
