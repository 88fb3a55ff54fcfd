(** Lemmas for C114: the neurons of a hidden layer in another order. *)
From Coq Require Import List ZArith Reals Lra Lia Bool Arith Permutation.
From Verif.Model Require Import Base Activations Network.
From Verif.Spec Require Import Common Smo Network Units Columns HiddenOrder.
From Verif.Proof Require Import BaseLemmas Network NetworkMain NetworkStep UnitsMore Columns ColumnsNet Twins.
Import ListNotations.
Local Open Scope R_scope.

Section Hidden.
Variables (h : nat) (s : list nat).
Hypothesis Hs : new_order h s.
Notation re := (reordered s).
Notation sel := (rows_in_order s).
Notation moved k ls := (neurons_moved k s ls).

Lemma sel_length w : length (sel w) = h.
Proof. unfold rows_in_order. rewrite map_length, (Permutation_length Hs). apply seq_length. Qed.
Lemma in_s i : In i s <-> (i < h)%nat.
Proof. split; [apply (in_order h s Hs)|]. intros H. apply (Permutation_in _ (Permutation_sym Hs)). apply in_seq. lia. Qed.
Lemma in_sel w r : length w = h -> (In r (sel w) <-> In r w).
Proof.
  intros L. unfold rows_in_order. rewrite in_map_iff. split.
  - intros (i & <- & I). apply in_s in I. apply nth_In. lia.
  - intros I. destruct (In_nth w r [] I) as (i & Hi & E). exists i. split; auto. apply in_s. lia.
Qed.
Lemma map_re_sel (f : list R -> R) w : length w = h -> map f (sel w) = re (map f w).
Proof.
  intros L. unfold rows_in_order, reordered. rewrite map_map. apply map_ext_in. intros i I. apply in_s in I. symmetry. apply nth_map_in. lia.
Qed.
Lemma map_re f r : length r = h -> map f (re r) = re (map f r).
Proof. intros L. unfold reordered. rewrite map_map. apply map_ext_in. intros i I. apply in_s in I. symmetry. apply nth_map_in. lia. Qed.

Lemma affine_row_sel w b r : length w = h -> length b = h -> affine_row (sel w, re b) r = (z <- affine_row (w, b) r ;; Ok (re z)).
Proof.
  intros L B. unfold affine_row. cbn [fst snd]. rewrite sel_length, (re_length h s Hs), L, B.
  replace (forallb (fun u => (length u =? length r)%nat) (sel w)) with (forallb (fun u => (length u =? length r)%nat) w).
  2:{ apply eq_iff_eq_true. rewrite !forallb_forall. split; intros H u I; apply H; now apply (in_sel w). }
  destruct (_ && _); [|reflexivity]. cbn [bind]. f_equal. rewrite map_re_sel by auto. apply (zip2_re h s Hs); [now rewrite map_length|auto].
Qed.
Lemma affine_sel w b x : length w = h -> length b = h -> affine (sel w, re b) x = (z <- affine (w, b) x ;; Ok (map re z)).
Proof.
  intros L B. unfold affine. rewrite <- mapM_follow. apply mapM_ext_in. intros r _. now apply affine_row_sel.
Qed.
Lemma affine_wide w b x z : length w = h -> affine (w, b) x = Ok z -> Units.width h (mmap relu z) /\ Units.width h z.
Proof.
  intros L A. apply affine_rows in A. unfold Units.width, mmap. split; induction A as [|r t x z (E & _ & ->) A IH]; constructor; auto;
    rewrite ?map_length, zip2_len, map_length; cbn [fst snd] in *; lia.
Qed.
Lemma relu_re z : Units.width h z -> mmap relu (map re z) = map re (mmap relu z).
Proof. intros W. unfold mmap. rewrite !map_map. apply map_ext_in. intros r I. unfold Units.width in W. rewrite Forall_forall in W. apply map_re. auto. Qed.

(** ** Forward *)
Fixpoint cmoved (k : nat) (cs : list cache) : list cache :=
  match k, cs with
  | O, (x, w, a) :: t => (x, sel w, map re a) :: caches_re s t
  | S k', c :: t => c :: cmoved k' t
  | _, _ => cs
  end.
Lemma forward_cons l ls x : ls <> [] -> forward (l :: ls) x = (z <- affine l x ;; r <- forward ls (mmap relu z) ;; Ok (fst r, (x, fst l, mmap relu z) :: snd r)).
Proof. destruct ls; [congruence|reflexivity]. Qed.
Lemma hidden_moved_nonempty k ls : hidden_layer k h ls -> ls <> [] /\ moved k ls <> [].
Proof. destruct k, ls as [|[w b] [|[w' b'] t]]; cbn; intros H; try contradiction; split; discriminate. Qed.
Lemma forward_moved : forall k ls x, hidden_layer k h ls ->
  forward (moved k ls) x = (r <- forward ls x ;; Ok (fst r, cmoved k (snd r))).
Proof.
  induction k as [|k IH]; intros ls x H.
  - destruct ls as [|[w b] [|[w' b'] t]]; cbn in H; try contradiction. destruct H as (L & B & _ & W). cbn [neurons_moved].
    rewrite !forward_cons by discriminate. rewrite affine_sel by auto. destruct (affine (w, b) x) as [z|] eqn:A; [|reflexivity]. cbn [bind].
    destruct (affine_wide w b x z L A) as (Wa & Wz). rewrite relu_re by auto.
    change ((map re w', b') :: t) with (layers_reordered s ((w', b') :: t)). rewrite (forward_net_re h s Hs) by auto.
    unfold layer, neurons in *.
    match goal with |- context [forward ?a ?b] => destruct (forward a b) end; reflexivity.
  - destruct ls as [|l ls]; cbn in H; [contradiction|]. destruct (hidden_moved_nonempty k ls H) as (N1 & N2). cbn [neurons_moved].
    rewrite !forward_cons by auto. destruct (affine l x) as [z|]; [|reflexivity]. cbn [bind]. rewrite IH by auto.
    destruct (forward ls (mmap relu z)); reflexivity.
Qed.

(** ** Backward *)
Fixpoint cache_ok (k : nat) (cs : list cache) : Prop :=
  match k, cs with
  | O, (x, w, a) :: (x2, w', a') :: _ => x2 = a /\ a <> [] /\ Units.width h a /\ length w = h /\ (exists p, Units.width p w) /\ w' <> [] /\ Units.width h w'
  | S k', c :: t => cache_ok k' t
  | _, _ => False
  end.
Lemma forward_ok : forall k ls x r, x <> [] -> forward ls x = Ok r -> hidden_layer k h ls -> cache_ok k (snd r).
Proof.
  induction k as [|k IH]; intros ls x r Hx E H.
  - destruct ls as [|[w b] [|[w' b'] t]]; cbn in H; try contradiction. destruct H as (L & B & N & W).
    destruct (forward_first _ _ _ _ E) as (a & cs & Er & z & A & K). destruct (K ltac:(discriminate)) as (Ea & r' & E' & Ecs).
    destruct (forward_first _ _ _ _ E') as (a' & cs' & Er' & _). rewrite Er. rewrite Er' in Ecs. subst cs. cbn [cache_ok fst]. split; [reflexivity|].
    destruct (affine_wide w b x z L A) as (Wa & _). pose proof (affine_rows _ _ _ A) as A'.
    split; [destruct A'; [easy|rewrite Ea; discriminate]|]. split; [now rewrite Ea|]. split; [auto|].
    split; [|split; auto]. destruct A' as [|x0 z0 x z (_ & F & _) _]; [easy|]. exists (length x0). exact F.
  - destruct ls as [|l ls]; cbn in H; [contradiction|]. destruct (hidden_moved_nonempty k ls H) as (N1 & _).
    destruct (forward_first _ _ _ _ E) as (a & cs & Er & z & A & K). destruct (K N1) as (Ea & r' & E' & Ecs). rewrite Er. cbn [cache_ok]. rewrite <- Ecs.
    apply (IH ls a r'); auto. pose proof (affine_rows _ _ _ A) as A'. destruct A'; [easy|rewrite Ea; discriminate].
Qed.
Lemma wide_width m : m <> [] -> Units.width h m -> Network.width m = h.
Proof. intros N W. destruct m as [|r m]; [congruence|]. now inversion W. Qed.
Lemma get_grad_next n da (c : cache) : fst (fst c) <> [] -> Units.width h (fst (fst c)) -> snd (fst c) <> [] -> Units.width h (snd (fst c)) ->
  get_grad n da (cache_re s c) = (grad_re s (fst (get_grad n da c)), map re (snd (get_grad n da c))).
Proof.
  intros N X N2 W. rewrite (surjective_pairing (get_grad n da (cache_re s c))). rewrite (get_grad_re h s Hs) by auto. f_equal.
  destruct c as [[x w] a]. unfold cache_re, get_grad. cbn [fst snd] in *. rewrite map_map. apply map_ext. intros r.
  rewrite (wide_width w) by auto. rewrite (wide_width (map re w)).
  2:{ destruct w; [congruence|discriminate]. }
  2:{ unfold Units.width. apply Forall_forall. intros u I. apply in_map_iff in I as (q & <- & _). apply (re_length h s Hs). }
  apply (seq_re h s Hs). intros j Hj. f_equal. unfold column. rewrite map_map. apply map_ext. intros u. now apply (nth_re h s Hs).
Qed.
Lemma snd_grad_wide n da c : snd (fst c) <> [] -> Units.width h (snd (fst c)) -> Units.width h (snd (get_grad n da c)).
Proof.
  intros N W. destruct c as [[x w] a]. cbn [fst snd] in *. unfold get_grad. cbn [snd]. unfold Units.width. apply Forall_forall. intros r I. apply in_map_iff in I as (q & <- & _).
  rewrite map_length, seq_length. now apply wide_width.
Qed.
Lemma back_rec_next n da (c : cache) (t : list cache) : fst (fst c) <> [] -> Units.width h (fst (fst c)) -> snd (fst c) <> [] -> Units.width h (snd (fst c)) ->
  back_rec n (caches_re s (c :: t)) da = (layers_reordered s (fst (back_rec n (c :: t) da)), map re (snd (back_rec n (c :: t) da))) /\
  Units.width h (snd (back_rec n (c :: t) da)).
Proof.
  intros N X N2 W. cbn [caches_re]. destruct t as [|c' t].
  - cbn [back_rec fst snd]. rewrite get_grad_next by auto. cbn [fst snd]. split; [|now apply snd_grad_wide].
    destruct (fst (get_grad n da c)) as [dw db]. reflexivity.
  - rewrite (back_rec_cons n (cache_re s c)) by discriminate. rewrite (back_rec_cons n c) by discriminate. unfold step_back. cbn [fst snd]. replace (snd (cache_re s c)) with (snd c) by reflexivity.
    rewrite get_grad_next by auto. cbn [fst snd]. split; [|now apply snd_grad_wide].
    destruct (fst (get_grad n (mzip relu_diff (snd (back_rec n (c' :: t) da)) (snd c)) c)) as [dw db]. reflexivity.
Qed.
Lemma sel_seq F G : (forall j, (j < h)%nat -> G j = F (nth j s 0%nat)) -> map G (seq 0 h) = sel (map F (seq 0 h)).
Proof.
  intros H. transitivity (map F s).
  - rewrite <- (map_order h s Hs). apply map_ext_in. intros j I. apply in_seq in I. apply H. lia.
  - unfold rows_in_order. apply map_ext_in. intros j I. apply in_s in I. now rewrite nth_map_seq.
Qed.
Lemma get_grad_sel n D x w a a' p : Units.width h D -> length w = h -> Units.width p w ->
  get_grad n (map re D) (x, sel w, a') = ((sel (fst (fst (get_grad n D (x, w, a)))), re (snd (fst (get_grad n D (x, w, a))))), snd (get_grad n D (x, w, a))).
Proof.
  intros WD L Wp. unfold get_grad. cbn [fst snd]. rewrite sel_length, L. f_equal; [f_equal|].
  - apply sel_seq. intros i Hi. apply map_ext. intros j. f_equal. f_equal. rewrite NetworkStep.combine_map_l, map_map. apply map_ext. intros q. cbn [fst snd]. now rewrite (nth_re h s Hs).
  - apply (seq_re h s Hs). intros i Hi. f_equal. f_equal. rewrite map_map. apply map_ext. intros r. now apply (nth_re h s Hs).
  - rewrite map_map. apply map_ext_in. intros r I. unfold Units.width in WD. rewrite Forall_forall in WD.
    assert (E : Network.width (sel w) = Network.width w \/ h = 0%nat).
    { destruct (Nat.eq_dec h 0) as [|Eh]; [auto|left]. destruct w as [|u w]; [cbn in L; lia|]. pose proof (sel_length (u :: w)) as Ls. pose proof (in_sel (u :: w)) as Is.
      destruct (sel (u :: w)) as [|v sw]; [cbn in Ls; lia|]. cbn [Network.width]. unfold Units.width in Wp. rewrite Forall_forall in Wp.
      rewrite (Wp u (or_introl eq_refl)). apply Wp. apply (Is v L). now left. }
    destruct E as [E|E].
    + rewrite E. apply map_ext. intros j. unfold column. rewrite map_re_sel by auto. apply (dot_re h s Hs); [auto|]. now rewrite map_length.
    + pose proof (sel_length w) as Ls. destruct (sel w) as [|v sw]; [|cbn in Ls; lia]. destruct w as [|u w]; [reflexivity|cbn in L; lia].
Qed.
Lemma back_moved n da : forall k cs, cache_ok k cs -> back_rec n (cmoved k cs) da = (moved k (fst (back_rec n cs da)), snd (back_rec n cs da)).
Proof.
  induction k as [|k IH]; intros cs H.
  - destruct cs as [|[[x w] a] [|[[x2 w'] a'] t]]; cbn in H; try contradiction. destruct H as (-> & Na & Wa & L & (p & Wp) & N' & W'). cbn [cmoved].
    set (c := (a, w', a') : cache).
    destruct (back_rec_next n da c t Na Wa N' W') as (E & Wo).
    rewrite back_rec_cons by (cbn; discriminate). rewrite (back_rec_cons n (x, w, a)) by discriminate. unfold step_back. fold c. rewrite E. cbn [fst snd].
    rewrite (mzip_re h s Hs) by auto. rewrite (get_grad_sel n _ x w a (map re a) p); [|now apply mzip_wide|auto|auto]. cbn [fst snd].
    set (G := get_grad n (mzip relu_diff (snd (back_rec n (c :: t) da)) a) (x, w, a)).
    destruct (back_rec_head n da c t) as (de & H1 & _). f_equal. rewrite H1. cbn [layers_reordered neurons_moved].
    destruct (fst G) as [dw db]. destruct (fst (get_grad n de c)) as [dw' db']. reflexivity.
  - destruct cs as [|c t]; cbn in H; [contradiction|]. cbn [cmoved].
    assert (N1 : t <> []) by (destruct k, t as [|[[? ?] ?] ?]; cbn in H; try contradiction; discriminate).
    assert (N2 : cmoved k t <> []) by (destruct k, t as [|[[? ?] ?] ?]; cbn in H |- *; try contradiction; discriminate).
    rewrite !back_rec_cons by auto. unfold step_back. rewrite (IH t H). reflexivity.
Qed.
Lemma last_moved : forall k cs d, cache_ok k cs -> snd (last (cmoved k cs) d) = snd (last cs d).
Proof.
  induction k as [|k IH]; intros cs d H.
  - destruct cs as [|[[x w] a] [|[[x2 w'] a'] t]]; cbn in H; try contradiction. cbn [cmoved caches_re]. destruct t; reflexivity.
  - destruct cs as [|c t]; cbn in H; [contradiction|]. cbn [cmoved]. specialize (IH t d H).
    destruct t as [|c' t]; [destruct k; contradiction|]. destruct (cmoved k (c' :: t)) as [|c2 t2] eqn:E; [destruct k as [|k]; [destruct c' as [[? ?] ?]|]; discriminate E|]. exact IH.
Qed.
Lemma backward_full yp yt cs : cs <> [] -> yt <> [] ->
  backward yp yt cs = (da <- output_signal yp yt (snd (last cs ([], [], []))) ;; Ok (fst (back_rec (length yt) cs da))).
Proof.
  intros Hc Hy. destruct (output_signal yp yt (snd (last cs ([], [], [])))) as [da|e] eqn:E; cbn [bind]; [now apply backward_is_rec|].
  destruct (exists_last Hc) as (pre & c & ->). rewrite last_last in E. unfold backward. rewrite rev_app_distr. cbn [rev app]. destruct c as [[x w] a]. cbn [snd] in E. now rewrite E.
Qed.
Lemma sample_moved k x y ls i : hidden_layer k h ls ->
  sample_gradient x y (moved k ls) i = (g <- sample_gradient x y ls i ;; Ok (moved k g)).
Proof.
  intros H. unfold sample_gradient. destruct (get_at x i) as [xi|]; [|reflexivity]. cbn [bind]. destruct (get_at y i) as [yi|]; [|reflexivity]. cbn [bind].
  rewrite forward_moved by auto. destruct (forward ls [xi]) as [r|] eqn:F; [|reflexivity]. cbn [bind fst snd].
  assert (K : cache_ok k (snd r)) by (apply (forward_ok k ls [xi] r); auto; discriminate).
  assert (N1 : snd r <> []) by (destruct k, (snd r) as [|[[? ?] ?] ?]; cbn in K; try contradiction; discriminate).
  assert (N2 : cmoved k (snd r) <> []) by (destruct k, (snd r) as [|[[? ?] ?] ?]; cbn in K |- *; try contradiction; discriminate).
  rewrite !backward_full by (auto; discriminate). rewrite last_moved by auto. destruct (output_signal _ _ _) as [da|]; [|reflexivity]. cbn [bind].
  now rewrite back_moved.
Qed.
End Hidden.
