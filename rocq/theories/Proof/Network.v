(** Back-propagation: the chain rule over the layers. *)
From Coq Require Import List Reals Arith Lia Lra Ranalysis.
From Verif.Model Require Import Base Activations Network.
From Verif.Spec Require Import Common Smo Activations Network.
From Verif.Proof Require Import BaseLemmas Smo Kernels Gmm KMeans Activations Logistic.
Import ListNotations.
Local Open Scope R_scope.

Lemma inner_is_dot a b : Smo.inner a b = dot a b.
Proof. reflexivity. Qed.

(** A row depending on [t], with its derivative at 0. *)
Definition vder (n : nat) (X : R -> list R) (x' : list R) : Prop :=
  (forall t, length (X t) = n) /\ length x' = n /\
  forall j, (j < n)%nat -> derivable_pt_lim (fun t => nth j (X t) 0) 0 (nth j x' 0).

Lemma shifted_length t a b : length a = length b -> length (shifted t a b) = length a.
Proof. intros H. unfold shifted. rewrite map_length, combine_length. lia. Qed.
Lemma nth_shifted t : forall a b j, length a = length b -> nth j (shifted t a b) 0 = nth j a 0 + t * nth j b 0.
Proof.
  unfold shifted. induction a as [|u a IH]; intros [|v b] j H; try discriminate.
  - destruct j; simpl; lra.
  - destruct j; simpl; auto.
Qed.
Lemma shifted_0 a b : length a = length b -> shifted 0 a b = a.
Proof.
  intros H. apply nth_ext with 0 0; [now apply shifted_length|]. intros j _. rewrite nth_shifted by auto. lra.
Qed.
Lemma deriv_lin c c' : derivable_pt_lim (fun t => c + t * c') 0 c'.
Proof. apply derivable_pt_lim_ext with (fun t => c + (t - 0) * c'); [intros; lra|]. apply deriv_line. Qed.

Lemma dot_der n X x' r r' : vder n X x' -> length r = n -> length r' = n ->
  derivable_pt_lim (fun t => dot (X t) (shifted t r r')) 0 (dot x' r + dot (X 0) r').
Proof.
  intros (L & L' & D) Hr Hr'.
  apply derivable_pt_lim_ext with (fun t => rsum (map (fun j => nth j (X t) 0 * (nth j r 0 + t * nth j r' 0)) (seq 0 n))).
  { intros t. rewrite (dot_sum n) by (rewrite ?shifted_length; lia || apply L). apply sum_below_ext. intros j Hj. now rewrite nth_shifted by lia. }
  replace (dot x' r + dot (X 0) r') with (rsum (map (fun j => nth j x' 0 * (nth j r 0 + 0 * nth j r' 0) + nth j (X 0) 0 * nth j r' 0) (seq 0 n))).
  - apply (deriv_sum (fun j t => nth j (X t) 0 * (nth j r 0 + t * nth j r' 0))). intros j Hj. apply in_seq in Hj.
    apply (derivable_pt_lim_mult (fun t => nth j (X t) 0) (fun t => nth j r 0 + t * nth j r' 0)); [apply D; lia|apply deriv_lin].
  - rewrite (dot_sum n x' r), (dot_sum n (X 0) r') by auto. rewrite <- sum_below_plus. apply sum_below_ext. intros j Hj. lra.
Qed.

Lemma scores_length l a : length (snd l) = length (fst l) -> length (scores l a) = length (fst l).
Proof. intros H. unfold scores. rewrite map_length, combine_length. lia. Qed.
Lemma scores_nth l a i : length (snd l) = length (fst l) -> (i < length (fst l))%nat ->
  nth i (scores l a) 0 = dot a (nth i (fst l) []) + nth i (snd l) 0.
Proof.
  intros H Hi. unfold scores. rewrite (nth_map_in _ _ i 0 ([], 0)) by (rewrite combine_length; lia).
  rewrite combine_nth by auto. cbn [fst snd]. now rewrite inner_is_dot.
Qed.

Definition moved_layer (t : R) (l e : neurons) : neurons :=
  (map (fun q => shifted t (fst q) (snd q)) (combine (fst l) (fst e)), shifted t (snd l) (snd e)).
Lemma moved_cons t l ls e d : moved t (l :: ls) (e :: d) = moved_layer t l e :: moved t ls d.
Proof. reflexivity. Qed.

Definition same_layer (l e : neurons) : Prop := Forall2 (fun r s => length r = length s) (fst l) (fst e) /\ length (snd l) = length (snd e).

Lemma nth_moved_row t (w e : list (list R)) i : Forall2 (fun r s => length r = length s) w e -> (i < length w)%nat ->
  nth i (map (fun q => shifted t (fst q) (snd q)) (combine w e)) [] = shifted t (nth i w []) (nth i e []) /\ length (nth i w []) = length (nth i e []).
Proof.
  intros H. revert i. induction H as [|r s w e Hr H IH]; intros i Hi; [simpl in Hi; lia|]. destruct i; simpl; [auto|]. apply IH. simpl in Hi. lia.
Qed.
Lemma Forall2_len {A B} (P : A -> B -> Prop) l r : Forall2 P l r -> length l = length r.
Proof. induction 1; simpl; auto. Qed.

(** The derivative of the scores of a layer. *)
Lemma scores_der n X x' l e : vder n X x' -> same_layer l e -> Forall (fun r => length r = n) (fst l) -> length (snd l) = length (fst l) ->
  exists z', vder (length (fst l)) (fun t => scores (moved_layer t l e) (X t)) z' /\
    forall i, (i < length (fst l))%nat -> nth i z' 0 = dot x' (nth i (fst l) []) + dot (X 0) (nth i (fst e) []) + nth i (snd e) 0.
Proof.
  intros V [S1 S2] Hw Hb.
  exists (map (fun i => dot x' (nth i (fst l) []) + dot (X 0) (nth i (fst e) []) + nth i (snd e) 0) (seq 0 (length (fst l)))).
  assert (LM : forall t, length (fst (moved_layer t l e)) = length (fst l)).
  { intros t. simpl. rewrite map_length, combine_length. apply Forall2_len in S1. lia. }
  assert (LB : forall t, length (snd (moved_layer t l e)) = length (fst (moved_layer t l e))).
  { intros t. rewrite LM. simpl. rewrite shifted_length; auto. }
  split.
  - split; [|split].
    + intros t. rewrite scores_length; auto.
    + now rewrite map_length, seq_length.
    + intros i Hi. rewrite nth_map_seq by auto.
      destruct (nth_moved_row 0 _ _ i S1 Hi) as [_ Li].
      assert (Lw : length (nth i (fst l) []) = n) by (rewrite Forall_forall in Hw; apply Hw, nth_In; auto).
      apply derivable_pt_lim_ext with (fun t => dot (X t) (shifted t (nth i (fst l) []) (nth i (fst e) [])) + (nth i (snd l) 0 + t * nth i (snd e) 0)).
      { intros t. rewrite scores_nth by first [apply LB | rewrite LM; exact Hi]. unfold moved_layer. cbn [fst snd]. destruct (nth_moved_row t _ _ i S1 Hi) as [-> _].
        now rewrite nth_shifted by auto. }
      apply (derivable_pt_lim_plus (fun t => dot (X t) (shifted t (nth i (fst l) []) (nth i (fst e) []))) (fun t => nth i (snd l) 0 + t * nth i (snd e) 0)).
      * apply (dot_der n); auto. lia.
      * apply deriv_lin.
  - intros i Hi. now rewrite nth_map_seq.
Qed.

Lemma moved_layer_0 l e : same_layer l e -> moved_layer 0 l e = l.
Proof.
  intros [S1 S2]. destruct l as [w b], e as [w' b']. unfold moved_layer. cbn [fst snd] in *. rewrite shifted_0 by auto. f_equal.
  clear S2. induction S1 as [|r s w w' H S1 IH]; simpl; [auto|]. rewrite shifted_0 by auto. now rewrite IH.
Qed.
Lemma moved_0 ls d : same_network ls d -> moved 0 ls d = ls.
Proof.
  induction 1 as [|l e ls d H S IH]; [reflexivity|]. rewrite moved_cons. now rewrite moved_layer_0, IH.
Qed.

(** The derivative of the rectifier away from 0. *)
Lemma relu_der f f' : derivable_pt_lim f 0 f' -> f 0 <> 0 ->
  derivable_pt_lim (fun t => Rmax 0 (f t)) 0 (if Rleb (Rmax 0 (f 0)) 0 then 0 else f').
Proof.
  intros D N. destruct (Rleb (Rmax 0 (f 0)) 0) eqn:E.
  - apply Rleb_true in E. assert (F : f 0 < 0). { pose proof (Rmax_r 0 (f 0)). lra. }
    assert (K : derivable_pt_lim (Rmax 0) (f 0) 0).
    { apply derivable_pt_lim_locally_ext with (fun _ => 0) (2 * f 0) (f 0 / 2); [lra| |apply derivable_pt_lim_const].
      intros z Hz. symmetry. apply Rmax_left. lra. }
    pose proof (derivable_pt_lim_comp f (Rmax 0) 0 f' 0 D K) as C. rewrite Rmult_0_l in C. exact C.
  - apply Rleb_false in E. assert (F : 0 < f 0). { destruct (Rlt_le_dec 0 (f 0)); auto. rewrite Rmax_left in E by lra. lra. }
    assert (K : derivable_pt_lim (Rmax 0) (f 0) 1).
    { apply derivable_pt_lim_locally_ext with id (f 0 / 2) (2 * f 0); [lra| |apply derivable_pt_lim_id].
      intros z Hz. unfold id. symmetry. apply Rmax_right. lra. }
    pose proof (derivable_pt_lim_comp f (Rmax 0) 0 f' 1 D K) as C. rewrite Rmult_1_l in C. exact C.
Qed.

Lemma relu_vder n X x' : vder n X x' -> Forall (fun z => z <> 0) (X 0) ->
  exists a', vder n (fun t => map (Rmax 0) (X t)) a' /\
    forall i, (i < n)%nat -> nth i a' 0 = if Rleb (nth i (map (Rmax 0) (X 0)) 0) 0 then 0 else nth i x' 0.
Proof.
  intros (L & L' & D) N.
  assert (NM : forall t i, (i < n)%nat -> nth i (map (Rmax 0) (X t)) 0 = Rmax 0 (nth i (X t) 0)).
  { intros t i Hi. apply nth_map_in. now rewrite L. }
  exists (map (fun i => if Rleb (nth i (map (Rmax 0) (X 0)) 0) 0 then 0 else nth i x' 0) (seq 0 n)). split; [split; [|split]|].
  - intros t. now rewrite map_length.
  - now rewrite map_length, seq_length.
  - intros i Hi. rewrite nth_map_seq by auto. apply derivable_pt_lim_ext with (fun t => Rmax 0 (nth i (X t) 0)); [intros t; now rewrite NM|].
    rewrite NM by auto. apply (relu_der (fun t => nth i (X t) 0)); [now apply D|]. rewrite Forall_forall in N. apply N, nth_In. now rewrite L.
  - intros i Hi. now rewrite nth_map_seq.
Qed.

(** ** One sample: signals and inputs of the layers, first layer first. *)
Definition vec_mat_w (r : list R) (w : list (list R)) : list R := map (fun j => dot r (column 0 w j)) (seq 0 (width w)).
Fixpoint row_back (ls : list layer) (x delta : list R) : list (list R * list R) * list R :=
  match ls with
  | [] => ([], delta)
  | l :: ls' =>
      match ls' with
      | [] => ([(delta, x)], vec_mat_w delta (fst l))
      | _ => let a := map (Rmax 0) (scores l x) in
             let r := row_back ls' a delta in
             let d := zip2 relu_diff (snd r) a in
             ((d, x) :: fst r, vec_mat_w d (fst l))
      end
  end.
(** The product with a direction. *)
Definition layer_pairing (s : list R * list R) (e : neurons) : R :=
  sum_below (length (fst s)) (fun i => nth i (fst s) 0 * (dot (snd s) (nth i (fst e) []) + nth i (snd e) 0)).
Definition row_pairing (g : list (list R * list R)) (d : list neurons) : R :=
  rsum (map (fun p => layer_pairing (fst p) (snd p)) (combine g d)).

Lemma width_rows n (w : list (list R)) : w <> [] -> Forall (fun r => length r = n) w -> width w = n.
Proof. destruct w; [congruence|]. intros _ H. now inversion H. Qed.
Lemma vec_mat_length r w n : w <> [] -> Forall (fun r => length r = n) w -> length (vec_mat_w r w) = n.
Proof. intros H1 H2. unfold vec_mat_w. rewrite map_length, seq_length. now apply width_rows. Qed.

(** The transposed product. *)
Lemma vec_mat_dot r w n x : w <> [] -> Forall (fun r => length r = n) w -> length r = length w -> length x = n ->
  dot (vec_mat_w r w) x = sum_below (length w) (fun i => nth i r 0 * dot x (nth i w [])).
Proof.
  intros H1 H2 Hr Hx. rewrite (dot_sum n) by (auto; now apply vec_mat_length).
  transitivity (sum_below n (fun j => sum_below (length w) (fun i => nth i r 0 * nth j (nth i w []) 0 * nth j x 0))).
  - apply sum_below_ext. intros j Hj. unfold vec_mat_w. rewrite nth_map_seq by (rewrite (width_rows n); auto).
    rewrite (dot_sum (length w)) by (unfold column; rewrite ?map_length; auto).
    rewrite Rmult_comm, <- sum_below_scal. apply sum_below_ext. intros i Hi. unfold column.
    rewrite (nth_map_in _ w i 0 []) by auto. ring.
  - rewrite <- (sum_below_swap n (length w) (fun i j => nth i r 0 * nth j (nth i w []) 0 * nth j x 0)).
    apply sum_below_ext. intros i Hi. rewrite Forall_forall in H2.
    rewrite (dot_sum n x) by (auto; apply H2, nth_In; auto).
    rewrite <- sum_below_scal. apply sum_below_ext. intros j Hj. ring.
Qed.

Lemma zip2_length f a b : length a = length b -> length (zip2 f a b) = length a.
Proof. intros H. unfold zip2. rewrite map_length, combine_length. lia. Qed.
Lemma nth_zip2 f a b i : length a = length b -> (i < length a)%nat -> nth i (zip2 f a b) 0 = f (nth i a 0) (nth i b 0).
Proof.
  intros H Hi. unfold zip2. rewrite (nth_map_in _ _ i 0 (0, 0)) by (rewrite combine_length; lia).
  now rewrite combine_nth.
Qed.

Lemma row_back_length c : forall ls d x delta, wired d ls c -> length delta = c ->
  length (fst (row_back ls x delta)) = length ls /\ length (snd (row_back ls x delta)) = d.
Proof.
  induction ls as [|l ls IH]; intros d x delta W Hd; [destruct W|]. destruct W as (W1 & W2 & W3 & W4).
  destruct ls as [|l2 ls]; simpl.
  - split; auto. now apply vec_mat_length.
  - destruct (IH _ (map (Rmax 0) (scores l x)) delta W4 Hd) as [A B]. simpl in A, B. split; [now rewrite A|]. now apply vec_mat_length.
Qed.

(** The chain rule over all layers. *)
Lemma row_derivative c : forall ls D n X x', wired n ls c -> same_network ls D -> vder n X x' -> away_from_kinks ls (X 0) ->
  exists z', vder c (fun t => output_scores (moved t ls D) (X t)) z' /\
    forall delta, length delta = c -> dot delta z' = row_pairing (fst (row_back ls (X 0) delta)) D + dot (snd (row_back ls (X 0) delta)) x'.
Proof.
  induction ls as [|l ls IH]; intros D n X x' W S V K; [destruct W|].
  destruct W as (W1 & W2 & W3 & W4). inversion S as [|? e ? D' S1 S2]; subst. fold (same_layer l e) in S1. fold (same_network ls D') in S2.
  destruct (scores_der n X x' l e V S1 W2 W3) as (z' & Vz & Ez).
  destruct ls as [|l2 ls].
  - inversion S2; subst D'. pose proof V as (LX & Lx' & _). exists z'. split; [rewrite <- W4; exact Vz|]. rewrite <- W4. intros delta Hd. cbn [row_back fst snd].
    unfold row_pairing. cbn [combine map rsum fold_right]. unfold layer_pairing. cbn [fst snd].
    rewrite (vec_mat_dot _ _ n) by auto. rewrite Hd. unfold rsum. cbn [fold_right]. rewrite Rplus_0_r, <- sum_below_plus.
    destruct Vz as (_ & Lz & _). rewrite (dot_sum (length (fst l))) by auto. apply sum_below_ext. intros i Hi. rewrite Ez by auto. ring.
  - pose proof V as (LX & Lx' & _). assert (E0 : scores (moved_layer 0 l e) (X 0) = scores l (X 0)) by now rewrite moved_layer_0.
    destruct K as [K1 K2]. rewrite <- E0 in K1.
    destruct (relu_vder _ _ _ Vz K1) as (a' & Va & Ea). cbv beta in Ea. rewrite E0 in Ea.
    assert (K3 : away_from_kinks (l2 :: ls) (map (Rmax 0) (scores (moved_layer 0 l e) (X 0)))) by now rewrite E0.
    destruct (IH D' _ _ a' W4 S2 Va K3) as (z2 & Vz2 & E2). exists z2. split.
    + destruct Vz2 as (P1 & P2 & P3). inversion S2 as [|? e2 ? D2 S3 S4]; subst. split; [|split]; auto.
    + intros delta Hd. rewrite (E2 delta Hd). cbv beta. rewrite E0.
      set (a := map (Rmax 0) (scores l (X 0))) in *.
      change (row_back (l :: l2 :: ls) (X 0) delta) with
        (let r := row_back (l2 :: ls) a delta in let d := zip2 relu_diff (snd r) a in ((d, X 0) :: fst r, vec_mat_w d (fst l))).
      cbv zeta. set (r := row_back (l2 :: ls) a delta) in *. cbn [fst snd].
      change (row_pairing ((zip2 relu_diff (snd r) a, X 0) :: fst r) (e :: D')) with
        (layer_pairing (zip2 relu_diff (snd r) a, X 0) e + row_pairing (fst r) D').
      destruct (row_back_length c (l2 :: ls) _ a delta W4 Hd) as [_ Lr]. fold r in Lr.
      assert (La : length a = length (fst l)) by (unfold a; now rewrite map_length, scores_length).
      assert (Ld : length (zip2 relu_diff (snd r) a) = length (fst l)) by (rewrite zip2_length; congruence).
      rewrite (vec_mat_dot _ _ n) by auto. unfold layer_pairing. cbn [fst snd]. rewrite Ld.
      destruct Va as (_ & La' & _). rewrite (dot_sum (length (fst l)) (snd r) a') by auto.
      assert (G : sum_below (length (fst l)) (fun k => nth k (snd r) 0 * nth k a' 0) =
                  sum_below (length (fst l)) (fun i => nth i (zip2 relu_diff (snd r) a) 0 * nth i z' 0)).
      { apply sum_below_ext. intros i Hi. rewrite nth_zip2 by lia. rewrite Ea by auto. unfold relu_diff. destruct (Rleb (nth i a 0) 0); ring. }
      rewrite G.
      assert (G2 : sum_below (length (fst l)) (fun i => nth i (zip2 relu_diff (snd r) a) 0 * nth i z' 0) =
        sum_below (length (fst l)) (fun i => nth i (zip2 relu_diff (snd r) a) 0 * (dot (X 0) (nth i (fst e) []) + nth i (snd e) 0)) +
        sum_below (length (fst l)) (fun i => nth i (zip2 relu_diff (snd r) a) 0 * dot x' (nth i (fst l) []))).
      { rewrite <- sum_below_plus. apply sum_below_ext. intros i Hi. rewrite Ez by auto. ring. }
      lra.
Qed.
