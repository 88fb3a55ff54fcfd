(** Back-propagation: the code against the chain rule, losses, and updates. *)
From Coq Require Import List Reals Arith Lia Lra Ranalysis.
From Verif.Model Require Import Base Activations Network.
From Verif.Spec Require Import Common Smo Activations Network.
From Verif.Proof Require Import BaseLemmas Smo Kernels Gmm KMeans Activations Logistic Network.
Import ListNotations.
Local Open Scope R_scope.

(** ** The forward pass *)
Lemma affine_row_ok d l x : Forall (fun r => length r = d) (fst l) -> length (snd l) = length (fst l) -> length x = d ->
  affine_row l x = Ok (scores l x).
Proof.
  intros Hw Hb Hx. unfold affine_row.
  assert (F : forallb (fun r => (length r =? length x)%nat) (fst l) = true).
  { apply forallb_forall. intros r Hr. rewrite Forall_forall in Hw. rewrite (Hw r Hr), Hx. apply Nat.eqb_refl. }
  rewrite F, Hb, Nat.eqb_refl. cbn [andb]. f_equal.
  apply nth_ext with 0 0.
  - rewrite scores_length by auto. rewrite zip2_length; rewrite map_length; auto.
  - intros i Hi. rewrite zip2_length in Hi by (rewrite map_length; auto). rewrite map_length in Hi.
    rewrite nth_zip2 by (rewrite ?map_length; auto). rewrite scores_nth by auto. now rewrite (nth_map_in _ _ i 0 []).
Qed.

Definition hidden_act (l : layer) (r : list R) : list R := map (Rmax 0) (scores l r).
Fixpoint caches_of (ls : list layer) (x p : list (list R)) : list cache :=
  match ls with
  | [] => []
  | l :: ls' => match ls' with
                | [] => [(x, fst l, p)]
                | _ => (x, fst l, map (hidden_act l) x) :: caches_of ls' (map (hidden_act l) x) p
                end
  end.

Lemma forward_rows c : forall ls d x, wired d ls c -> Forall (fun r => length r = d) x ->
  forward ls x = (p <- (if (c =? 1)%nat then Ok (mmap sigmoid (map (output_scores ls) x)) else softmax (map (output_scores ls) x)) ;;
                  Ok (p, caches_of ls x p)).
Proof.
  induction ls as [|l ls IH]; intros d x W Hx; [destruct W|]. destruct W as (W1 & W2 & W3 & W4).
  cbn [forward]. unfold affine. rewrite (mapM_total _ (scores l)).
  2:{ intros r Hr. rewrite Forall_forall in Hx. apply (affine_row_ok d); auto. }
  cbn [bind]. destruct ls as [|l2 ls].
  - unfold output_activation. rewrite W4. destruct (c =? 1)%nat; reflexivity.
  - cbv zeta. replace (mmap relu (map (scores l) x)) with (map (hidden_act l) x) by (unfold mmap; now rewrite map_map).
    rewrite (IH _ _ W4).
    + rewrite map_map. change (fun r => output_scores (l2 :: ls) (hidden_act l r)) with (output_scores (l :: l2 :: ls)).
      destruct (if (c =? 1)%nat then Ok (mmap sigmoid (map (output_scores (l :: l2 :: ls)) x)) else softmax (map (output_scores (l :: l2 :: ls)) x)); reflexivity.
    + apply Forall_forall. intros r Hr. apply in_map_iff in Hr. destruct Hr as (s & <- & _). unfold hidden_act. now rewrite map_length, scores_length.
Qed.

Lemma output_scores_length c : forall ls d r, wired d ls c -> length (output_scores ls r) = c.
Proof.
  induction ls as [|l ls IH]; intros d r W; [destruct W|]. destruct W as (W1 & W2 & W3 & W4). destruct ls as [|l2 ls]; simpl.
  - now rewrite scores_length.
  - apply (IH _ _ W4).
Qed.

(** ** The backward pass, first layer first *)
Definition step_back (n : nat) (c : cache) (r : list grad * list (list R)) : list grad * list (list R) :=
  let g := get_grad n (mzip relu_diff (snd r) (snd c)) c in (fst g :: fst r, snd g).
Fixpoint back_rec (n : nat) (cs : list cache) (da : list (list R)) : list grad * list (list R) :=
  match cs with
  | [] => ([], da)
  | c :: cs' => match cs' with
                | [] => let g := get_grad n da c in ([fst g], snd g)
                | _ => step_back n c (back_rec n cs' da)
                end
  end.
Lemma back_rec_cons n c cs da : cs <> [] -> back_rec n (c :: cs) da = step_back n c (back_rec n cs da).
Proof. destruct cs; [congruence|reflexivity]. Qed.

Lemma backward_hidden_rec n da : forall pre T, T <> [] ->
  fst (back_rec n (pre ++ T) da) = rev (backward_hidden n (rev pre) (snd (back_rec n T da))) ++ fst (back_rec n T da).
Proof.
  intros pre. induction pre as [|c pre IH] using rev_ind; intros T HT; [reflexivity|].
  rewrite <- app_assoc. cbn [app]. rewrite IH by discriminate. rewrite rev_app_distr. cbn [rev app].
  rewrite back_rec_cons by auto. unfold step_back. cbn [fst snd]. cbn [backward_hidden]. destruct c as [[x w] a]. cbn [snd].
  destruct (get_grad n (mzip relu_diff (snd (back_rec n T da)) a) (x, w, a)) as [g da_]. cbn [fst snd rev]. now rewrite <- app_assoc.
Qed.

Lemma backward_is_rec y_pred y_true cs da : cs <> [] -> y_true <> [] ->
  output_signal y_pred y_true (snd (last cs ([], [], []))) = Ok da ->
  backward y_pred y_true cs = Ok (fst (back_rec (length y_true) cs da)).
Proof.
  intros Hc Hy E. destruct (exists_last Hc) as (pre & c & ->). unfold backward. rewrite rev_app_distr. cbn [rev app].
  rewrite last_last in E. destruct c as [[x w] a]. cbn [snd] in E. rewrite E. cbn [bind].
  destruct (length y_true =? 0)%nat eqn:L; [apply Nat.eqb_eq in L; destruct y_true; [congruence|discriminate]|].
  rewrite backward_hidden_rec by discriminate. cbn [back_rec]. destruct (get_grad (length y_true) da (x, w, a)) as [g da_]. cbn [fst snd rev].
  reflexivity.
Qed.

(** ** A batch is the sum of its rows *)
Definition net_pairing_layer (g e : neurons) : R :=
  total (map (fun q => inner (fst q) (snd q)) (combine (fst g) (fst e))) + inner (snd g) (snd e).

Lemma nth_row_length (w : list (list R)) n i : Forall (fun r => length r = n) w -> (i < length w)%nat -> length (nth i w []) = n.
Proof. intros H Hi. rewrite Forall_forall in H. now apply H, nth_In. Qed.

Lemma combine_sum (a b : list (list R)) : length a = length b ->
  total (map (fun q => inner (fst q) (snd q)) (combine a b)) = sum_below (length a) (fun i => dot (nth i a []) (nth i b [])).
Proof.
  intros H. change total with rsum. rewrite (rsum_map_nth ([], [])). rewrite combine_length, <- H, Nat.min_id.
  apply sum_below_ext. intros i Hi. now rewrite combine_nth.
Qed.

Lemma same_layer_rows l e d : same_layer l e -> Forall (fun r => length r = d) (fst l) -> Forall (fun r => length r = d) (fst e).
Proof.
  intros [S _]. induction S as [|r s w v H S IH]; intros F; constructor; inversion F; subst; auto.
Qed.

Lemma get_grad_ok n d x w a da b : x <> [] -> length da = length x -> Forall (fun r => length r = d) x ->
  w <> [] -> Forall (fun r => length r = d) w -> Forall (fun r => length r = length w) da -> length b = length w ->
  let g := get_grad n da (x, w, a) in
  same_layer (w, b) (fst g) /\ snd g = map (fun r => vec_mat_w r w) da /\
  forall e, same_layer (w, b) e -> net_pairing_layer (fst g) e = rsum (map (fun q => layer_pairing q e) (combine da x)) / INR n.
Proof.
  intros Hx Ln Fx Hw Fw Fd Hb g. unfold g, get_grad. cbn [fst snd]. rewrite (width_rows d x) by auto. split; [|split].
  - split; cbn [fst snd].
    + clear - Fw. generalize (seq 0 d) (seq_length d 0). intros sd Hsd. generalize 0%nat as k. induction Fw as [|r w Hr Fw IH]; intros k; simpl; [constructor|].
      constructor; [rewrite map_length; congruence|]. apply IH.
    + now rewrite map_length, seq_length.
  - reflexivity.
  - intros e Se. pose proof (same_layer_rows _ _ d Se Fw) as Fe. destruct Se as [S1 S2]. cbn [fst snd] in S1, S2.
    pose proof (Forall2_len _ _ _ S1) as Le. unfold net_pairing_layer. cbn [fst snd].
    set (m := length w) in *.
    set (N := INR n).
    assert (E1 : forall i, (i < m)%nat ->
       dot (nth i (map (fun i => map (fun j => rsum (map (fun t => nth i (fst t) 0 * nth j (snd t) 0) (combine da x)) / N) (seq 0 d)) (seq 0 m)) []) (nth i (fst e) [])
       = rsum (map (fun q => nth i (fst q) 0 * dot (snd q) (nth i (fst e) [])) (combine da x)) / N).
    { intros i Hi. rewrite nth_map_seq by auto.
      rewrite (dot_sum d) by (rewrite ?map_length, ?seq_length; auto; apply nth_row_length; auto; lia).
      transitivity (sum_below d (fun k => rsum (map (fun t => nth i (fst t) 0 * (nth k (snd t) 0 * nth k (nth i (fst e) []) 0) * / N) (combine da x)))).
      - apply sum_below_ext. intros k Hk. rewrite nth_map_seq by auto. unfold Rdiv.
        rewrite (rsum_map_scal_r (/ N)). rewrite Rmult_assoc, (Rmult_comm (/ N)), <- Rmult_assoc. f_equal. rewrite Rmult_comm, <- rsum_map_scal. apply rsum_ext. intros t _. ring.
      - rewrite <- rsum_sum_below. unfold Rdiv. rewrite <- rsum_map_scal_r. apply rsum_ext. intros q Hq.
        rewrite (dot_sum d (snd q)).
        + rewrite <- (sum_below_scal d (nth i (fst q) 0)). rewrite Rmult_comm, <- sum_below_scal. apply sum_below_ext. intros k _. ring.
        + destruct q as [u v]. apply in_combine_r in Hq. rewrite Forall_forall in Fx. now apply Fx.
        + apply nth_row_length; auto. lia. }
    rewrite combine_sum by (rewrite map_length, seq_length; auto). rewrite map_length, seq_length.
    change (@inner) with dot. rewrite (dot_sum m) by (rewrite ?map_length, ?seq_length; congruence).
    rewrite <- sum_below_plus.
    transitivity (sum_below m (fun i => rsum (map (fun q => nth i (fst q) 0 * (dot (snd q) (nth i (fst e) []) + nth i (snd e) 0) * / N) (combine da x)))).
    + apply sum_below_ext. intros i Hi. rewrite E1 by auto. rewrite nth_map_seq by auto.
      transitivity (rsum (map (fun q => nth i (fst q) 0 * dot (snd q) (nth i (fst e) [])) (combine da x)) * / N
                    + rsum (map (fun q : list R * list R => nth i (fst q) 0) (combine da x)) * (/ N * nth i (snd e) 0)).
      * assert (MF : map (fun r => nth i r 0) da = map (fun q : list R * list R => nth i (fst q) 0) (combine da x)).
        { rewrite <- (map_map fst (fun r => nth i r 0)). f_equal. clear - Ln. revert x Ln. induction da; intros [|u x] L; try discriminate; simpl; auto.
          f_equal. apply IHda. simpl in L. lia. }
        rewrite MF. unfold Rdiv. ring.
      * rewrite <- !rsum_map_scal_r, <- rsum_map_plus. apply rsum_ext. intros q _. ring.
    + rewrite <- rsum_sum_below. unfold Rdiv. rewrite <- rsum_map_scal_r. apply rsum_ext. intros q Hq. unfold layer_pairing.
      replace (length (fst q)) with m.
      * rewrite Rmult_comm, <- sum_below_scal. apply sum_below_ext. intros i _. ring.
      * destruct q as [u v]. apply in_combine_l in Hq. rewrite Forall_forall in Fd. symmetry. now apply Fd.
Qed.

Lemma pairing_cons g gs e d : pairing (g :: gs) (e :: d) = net_pairing_layer g e + pairing gs d.
Proof. reflexivity. Qed.

Lemma back_rec_rows c n : forall ls d x p da, wired d ls c -> x <> [] -> Forall (fun r => length r = d) x ->
  length da = length x -> Forall (fun r => length r = c) da ->
  let r := back_rec n (caches_of ls x p) da in
  same_network ls (fst r) /\
  snd r = map (fun q => snd (row_back ls (snd q) (fst q))) (combine da x) /\
  forall D, same_network ls D ->
    pairing (fst r) D = rsum (map (fun q => row_pairing (fst (row_back ls (snd q) (fst q))) D) (combine da x)) / INR n.
Proof.
  induction ls as [|l ls IH]; intros d x p da W Hx Fx Ld Fd; [destruct W|]. destruct W as (W1 & W2 & W3 & W4).
  destruct ls as [|l2 ls].
  - cbn [caches_of back_rec]. subst c.
    destruct (get_grad_ok n d x (fst l) p da (snd l)) as (G1 & G2 & G3); auto.
    destruct (get_grad n da (x, fst l, p)) as [g da_]. cbn [fst snd] in *. split; [|split].
    + constructor; [|constructor]. exact G1.
    + rewrite G2. cbn [row_back snd]. clear - Ld. revert x Ld. induction da as [|u da IH]; intros [|v x] L; try discriminate; simpl; auto. f_equal. apply IH. simpl in L. lia.
    + intros D S. inversion S as [|? e ? D' S1 S2]; subst. inversion S2; subst. rewrite pairing_cons. unfold pairing at 1. cbn [combine map total fold_right].
      rewrite (G3 e) by exact S1. unfold total. cbn [fold_right]. rewrite Rplus_0_r. f_equal. apply rsum_ext. intros [u v] _. unfold row_pairing. cbn [row_back fst snd combine map]. unfold rsum. cbn [fold_right]. now rewrite Rplus_0_r.
  - change (caches_of (l :: l2 :: ls) x p) with ((x, fst l, map (hidden_act l) x) :: caches_of (l2 :: ls) (map (hidden_act l) x) p).
    assert (NE : caches_of (l2 :: ls) (map (hidden_act l) x) p <> []) by (destruct ls; discriminate).
    cbv zeta. rewrite back_rec_cons by exact NE.
    assert (Fa : Forall (fun r => length r = length (fst l)) (map (hidden_act l) x)).
    { apply Forall_forall. intros r Hr. apply in_map_iff in Hr. destruct Hr as (s & <- & _). unfold hidden_act. now rewrite map_length, scores_length. }
    destruct (IH _ (map (hidden_act l) x) p da W4) as (I1 & I2 & I3); auto; [destruct x; simpl; congruence|now rewrite map_length|].
    destruct (back_rec n (caches_of (l2 :: ls) (map (hidden_act l) x) p) da) as [gs da_]. cbn [fst snd] in I1, I2, I3.
    unfold step_back. cbn [fst snd].
    set (da1 := mzip relu_diff da_ (map (hidden_act l) x)).
    assert (CM : combine da (map (hidden_act l) x) = map (fun q => (fst q, hidden_act l (snd q))) (combine da x)).
    { clear. revert x. induction da as [|u da IH]; intros [|v x]; simpl; auto. now rewrite IH. }
    assert (E1 : da1 = map (fun q => zip2 relu_diff (snd (row_back (l2 :: ls) (hidden_act l (snd q)) (fst q))) (hidden_act l (snd q))) (combine da x)).
    { unfold da1. rewrite I2, CM, map_map. cbn [fst snd]. clear - Ld. revert x Ld. induction da as [|u da IH]; intros [|v x] L; try discriminate; simpl; auto.
      unfold mzip in *. simpl. f_equal. apply IH. simpl in L. lia. }
    assert (Fd1 : Forall (fun r => length r = length (fst l)) da1).
    { rewrite E1. apply Forall_forall. intros r Hr. apply in_map_iff in Hr. destruct Hr as ([u v] & <- & Hq). cbn [fst snd].
      assert (Lu : length u = c) by (apply in_combine_l in Hq; rewrite Forall_forall in Fd; now apply Fd).
      destruct (row_back_length c (l2 :: ls) _ (hidden_act l v) u W4 Lu) as [_ LL].
      rewrite zip2_length; rewrite LL; auto. unfold hidden_act. now rewrite map_length, scores_length. }
    assert (Ld1 : length da1 = length x) by (rewrite E1, map_length, combine_length; lia).
    destruct (get_grad_ok n d x (fst l) (map (hidden_act l) x) da1 (snd l)) as (G1 & G2 & G3); auto.
    destruct (get_grad n da1 (x, fst l, map (hidden_act l) x)) as [g da2]. cbn [fst snd] in *.
    split; [|split].
    + constructor; auto.
    + rewrite G2, E1, map_map. apply map_ext. intros q. reflexivity.
    + intros D S. inversion S as [|? e ? D' S1 S2]; subst. rewrite pairing_cons. rewrite (G3 e) by exact S1. rewrite (I3 D') by exact S2.
      rewrite CM, map_map. cbn [fst snd]. unfold Rdiv. rewrite <- Rmult_plus_distr_r. f_equal.
      assert (E2 : combine da1 x = map (fun q => (zip2 relu_diff (snd (row_back (l2 :: ls) (hidden_act l (snd q)) (fst q))) (hidden_act l (snd q)), snd q)) (combine da x)).
      { rewrite E1. clear - Ld. revert x Ld. induction da as [|u da IH]; intros [|v x] L; try discriminate; simpl; auto. f_equal. apply IH. simpl in L. lia. }
      rewrite E2, map_map, <- rsum_map_plus. apply rsum_ext. intros q _. reflexivity.
Qed.
