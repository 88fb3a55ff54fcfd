(** Training with the neurons of a hidden layer in another order (C114). *)
From Coq Require Import List ZArith Reals Lra Lia Bool Arith Permutation.
From Verif.Model Require Import Base Activations Network.
From Verif.Spec Require Import Common Smo Network Units Columns HiddenOrder.
From Verif.Proof Require Import BaseLemmas Network NetworkMain NetworkStep UnitsMore Columns ColumnsNet Twins HiddenOrder.
Import ListNotations.
Local Open Scope R_scope.

Lemma hidden_same h : forall k a b, same_network a b -> hidden_layer k h a -> hidden_layer k h b.
Proof.
  induction k as [|k IH]; intros a b S H.
  - destruct a as [|[w u] [|[w' u'] a]]; cbn in H; try contradiction. destruct H as (L & B & N & W). unfold same_network in S.
    inversion S as [|? [v c] ? ? (S1 & S2) T]; subst. inversion T as [|? [v' c'] ? ? (T1 & _) T']; subst. cbn [fst snd hidden_layer] in *.
    apply Forall2_length in S1. split; [auto|]. split; [congruence|]. split; [destruct T1; [easy|discriminate]|].
    clear - T1 W. revert W. induction T1 as [|x y l l' E T1 IH]; intros W; constructor; inversion W; subst; [congruence|]. now apply IH.
  - destruct a as [|l a]; cbn in H; [contradiction|]. inversion S as [|? e ? b' _ T]; subst. cbn [hidden_layer]. exact (IH a b' T H).
Qed.
Lemma hidden_lzip h f a b k : same_network a b -> hidden_layer k h a -> hidden_layer k h (lzip f a b).
Proof. intros S. apply hidden_same. now apply lzip_shape. Qed.
Lemma lmap_shape f (a : list layer) : same_network a (lmap f a).
Proof. unfold lmap. induction a as [|[w c] a IH]; cbn [map]; constructor; auto. cbn [fst snd]. rewrite map_length. split; [|reflexivity]. unfold mmap. induction w as [|t w IHw]; cbn [map]; constructor; auto. now rewrite map_length. Qed.
Lemma lmap_as_lzip (a b : list layer) : same_network a b -> lmap (fun _ => 0) b = lzip (fun _ _ => 0) a b.
Proof.
  assert (Q : forall r t : list R, length r = length t -> map (fun _ => 0) t = zip2 (fun _ _ => 0) r t) by (induction r as [|? r IHr]; intros [|? t] E; cbn in E |- *; try discriminate; [reflexivity|]; unfold zip2 in *; cbn; f_equal; apply IHr; lia).
  unfold same_network, lmap, lzip. induction 1 as [|[w u] [v c] a b (S1 & S2) S IH]; [reflexivity|]. cbn [map combine fst snd] in *. f_equal; [|exact IH]. f_equal; [|now apply Q].
  unfold mmap, mzip. clear - S1 Q. induction S1 as [|x y l l' E S1 IH]; [reflexivity|]. cbn [map combine fst snd]. f_equal; [now apply Q|exact IH].
Qed.

Section Run.
Variables (h : nat) (s : list nat).
Hypothesis Hs : new_order h s.
Notation re := (reordered s).
Notation sel := (rows_in_order s).
Notation moved k ls := (neurons_moved k s ls).

Lemma sel_mapM {B} (dflt : B) (g : nat -> result B) e0 : (forall a e, g a = Err e -> e = e0) ->
  mapM g s = (r <- mapM g (seq 0 h) ;; Ok (map (fun j => nth j r dflt) s)).
Proof.
  intros Ha. set (ok := fun j => match g j with Ok _ => true | Err _ => false end). set (v := fun j => match g j with Ok w => w | Err _ => dflt end).
  destruct (forallb ok (seq 0 h)) eqn:F.
  - rewrite forallb_forall in F. assert (K : forall j, In j (seq 0 h) -> g j = Ok (v j)) by (intros j I; specialize (F j I); unfold ok, v in *; now destruct (g j)).
    rewrite (mapM_all_ok g v (seq 0 h) K). rewrite (mapM_all_ok g v s) by (intros j I; apply K; exact (Permutation_in _ Hs I)). cbn [bind]. f_equal.
    apply map_ext_in. intros j I. apply (in_order h s Hs) in I. now rewrite nth_map_seq.
  - assert (Ex : exists j, In j (seq 0 h) /\ ok j = false).
    { clear - F. induction (seq 0 h) as [|j l IH]; [discriminate|]. cbn [forallb] in F. destruct (ok j) eqn:E; [|exists j; split; [now left|auto]]. destruct IH as (k & I & Ek); auto. exists k. split; [now right|auto]. }
    destruct Ex as (j & I & Ej). assert (Gj : g j = Err e0) by (unfold ok in Ej; destruct (g j) as [|e] eqn:E; [discriminate|]; f_equal; exact (Ha _ _ E)).
    rewrite (mapM_one_err g e0 (seq 0 h) j Ha I Gj), (mapM_one_err g e0 s j Ha (Permutation_in _ (Permutation_sym Hs) I) Gj). reflexivity.
Qed.
Lemma rows_all (w : list (list R)) : length w = h -> map (fun i => nth i w []) (seq 0 h) = w.
Proof. intros <-. apply nth_ext with (d := []) (d' := []); [now rewrite map_length, seq_length|]. intros i Hi. rewrite map_length, seq_length in Hi. now rewrite nth_map_seq. Qed.
Lemma sel_rows_mapM (g : list R * list R -> result (list R)) e0 w v : (forall a e, g a = Err e -> e = e0) -> length w = h -> length v = h ->
  mapM g (combine (sel w) (sel v)) = (r <- mapM g (combine w v) ;; Ok (sel r)).
Proof.
  intros Ha L V. unfold rows_in_order. rewrite combine_map_same, mapM_map.
  transitivity (r <- mapM g (combine (map (fun i => nth i w []) (seq 0 h)) (map (fun i => nth i v []) (seq 0 h))) ;; Ok (map (fun i => nth i r []) s)); [|now rewrite !rows_all].
  rewrite combine_map_same, mapM_map. apply (sel_mapM [] _ e0). intros a e. apply Ha.
Qed.
Lemma mzip_sel f w v : length w = h -> length v = h -> mzip f (sel w) (sel v) = sel (mzip f w v).
Proof.
  intros L V. apply nth_ext with (d := []) (d' := []); [rewrite mzip_len, !(sel_length h s Hs); lia|]. intros i Hi. rewrite mzip_len, !(sel_length h s Hs) in Hi.
  rewrite nth_mzip by (rewrite (sel_length h s Hs); lia). unfold rows_in_order.
  assert (Ls : length s = h) by (rewrite (Permutation_length Hs); apply seq_length).
  rewrite !(nth_map_in _ s i [] 0%nat) by lia. assert (I : In (nth i s 0%nat) s) by (apply nth_In; lia). apply (in_order h s Hs) in I.
  rewrite nth_mzip by lia. reflexivity.
Qed.
Lemma lzip_cons f l m a b : lzip f (l :: a) (m :: b) = (mzip f (fst l) (fst m), zip2 f (snd l) (snd m)) :: lzip f a b.
Proof. reflexivity. Qed.
Lemma lzip_moved f : forall k a b, hidden_layer k h a -> hidden_layer k h b -> lzip f (moved k a) (moved k b) = moved k (lzip f a b).
Proof.
  induction k as [|k IH]; intros a b A B.
  - destruct a as [|[w u] [|[w' u'] a]]; cbn in A; try contradiction. destruct b as [|[v c] [|[v' c'] b]]; cbn in B; try contradiction.
    destruct A as (L & U & _ & W), B as (L2 & U2 & _ & W2). cbn [neurons_moved]. rewrite !lzip_cons. cbn [fst snd neurons_moved].
    rewrite mzip_sel, (mzip_re h s Hs), (zip2_re h s Hs) by auto. reflexivity.
  - destruct a as [|l a], b as [|m b]; cbn in A, B; try contradiction. cbn [neurons_moved]. rewrite !lzip_cons. cbn [neurons_moved]. now rewrite IH.
Qed.
Lemma lmap_moved : forall k a, hidden_layer k h a -> lmap (fun _ => 0) (moved k a) = moved k (lmap (fun _ => 0) a).
Proof.
  intros k a H. rewrite !(lmap_as_lzip _ _ (same_network_refl _)). now apply lzip_moved.
Qed.
Definition layerM (f : R -> R -> result R) (l m : layer) : result layer :=
  dw <- mapM (fun q => mapM (fun e => f (fst e) (snd e)) (combine (fst q) (snd q))) (combine (fst l) (fst m)) ;;
  db <- mapM (fun e => f (fst e) (snd e)) (combine (snd l) (snd m)) ;; Ok (dw, db).
Lemma lzipM_cons f l m a b : lzipM f (l :: a) (m :: b) = (x <- layerM f l m ;; xs <- lzipM f a b ;; Ok (x :: xs)).
Proof. reflexivity. Qed.
Lemma mapM_uniform {A B} (g : A -> result B) e0 l : (forall a e, g a = Err e -> e = e0) -> forall e, mapM g l = Err e -> e = e0.
Proof.
  intros H. induction l as [|a l IH]; intros e E; [discriminate|]. cbn [mapM] in E. destruct (g a) as [v|e1] eqn:G; cbn [bind] in E; [|injection E as <-; eauto].
  destruct (mapM g l); [discriminate|]. injection E as <-. now apply IH.
Qed.
Lemma lzipM_moved f e0 : (forall u v e, f u v = Err e -> e = e0) -> forall k a b, hidden_layer k h a -> hidden_layer k h b ->
  lzipM f (moved k a) (moved k b) = (r <- lzipM f a b ;; Ok (moved k r)).
Proof.
  intros He. induction k as [|k IH]; intros a b A B.
  - destruct a as [|[w u] [|[w' u'] a]]; cbn in A; try contradiction. destruct b as [|[v c] [|[v' c'] b]]; cbn in B; try contradiction.
    destruct A as (L & U & _ & W), B as (L2 & U2 & _ & W2). cbn [neurons_moved]. rewrite !lzipM_cons. unfold layerM. cbn [fst snd].
    rewrite (sel_rows_mapM _ e0) by (auto; intros q e; apply mapM_uniform; intros; eauto).
    destruct (mapM (fun q => mapM (fun e => f (fst e) (snd e)) (combine (fst q) (snd q))) (combine w v)) as [dw|]; [|reflexivity]. cbn [bind].
    rewrite (row_mapM_re h s Hs f e0) by auto. destruct (mapM (fun e => f (fst e) (snd e)) (combine u c)) as [db|]; [|reflexivity]. cbn [bind].
    rewrite combine_map_both, mapM_map. cbn [fst snd]. unfold Units.width in W, W2. rewrite Forall_forall in W, W2.
    rewrite (mapM_ext_in (fun q : list R * list R => mapM (fun e => f (fst e) (snd e)) (combine (re (fst q)) (re (snd q))))
             (fun q => r <- mapM (fun e => f (fst e) (snd e)) (combine (fst q) (snd q)) ;; Ok (re r))).
    2:{ intros [x x'] I. cbn [fst snd]. apply (row_mapM_re h s Hs f e0); auto; [apply W; now apply in_combine_l in I|apply W2; now apply in_combine_r in I]. }
    rewrite mapM_follow. destruct (mapM (fun q => mapM (fun e => f (fst e) (snd e)) (combine (fst q) (snd q))) (combine w' v')) as [dw'|]; [|reflexivity]. cbn [bind].
    destruct (mapM (fun e => f (fst e) (snd e)) (combine u' c')) as [db'|]; [|reflexivity]. cbn [bind]. destruct (lzipM f a b); reflexivity.
  - destruct a as [|l a], b as [|m b]; cbn in A, B; try contradiction. cbn [neurons_moved]. rewrite !lzipM_cons. destruct (layerM f l m) as [x|]; [|reflexivity]. cbn [bind].
    rewrite IH by auto. destruct (lzipM f a b); reflexivity.
Qed.
Lemma moved_hidden : forall k a, hidden_layer k h a -> hidden_layer k h (moved k a).
Proof.
  induction k as [|k IH]; intros a H.
  - destruct a as [|[w u] [|[w' u'] a]]; cbn in H; try contradiction. destruct H as (L & U & N & W). cbn. split; [apply (sel_length h s Hs)|]. split; [apply (re_length h s Hs)|].
    split; [destruct w'; [congruence|discriminate]|]. unfold Units.width. apply Forall_forall. intros r I. apply in_map_iff in I as (q & <- & _). apply (re_length h s Hs).
  - destruct a as [|l a]; cbn in H |- *; auto.
Qed.

Lemma sgd_moved k rate x y draws ls : hidden_layer k h ls ->
  sgd_run rate x y (moved k ls) draws = (r <- sgd_run rate x y ls draws ;; Ok (moved k r)).
Proof.
  intros H. unfold sgd_run. apply (foldM_follow (fun l => moved k l) (hidden_layer k h)); auto.
  - intros l i Hl. unfold sgd_epoch. rewrite (sample_moved h s Hs) by auto. destruct (sample_gradient x y l i) as [g|] eqn:G; [|reflexivity]. cbn [bind]. unfold sgd_update. f_equal.
    apply lzip_moved; auto. exact (hidden_same h k l g (sample_shape _ _ _ _ _ G) Hl).
  - intros l i r Hl. unfold sgd_epoch. destruct (sample_gradient x y l i) as [g|] eqn:G; [|discriminate]. cbn [bind]. intros E. injection E as <-.
    apply hidden_lzip; auto. exact (sample_shape _ _ _ _ _ G).
Qed.
Definition state_moved k (t : adam_state) : adam_state := {| params := moved k (params t); m_state := moved k (m_state t); v_state := moved k (v_state t) |}.
Definition state_hidden k (t : adam_state) : Prop := hidden_layer k h (params t) /\ same_network (params t) (m_state t) /\ same_network (params t) (v_state t).
Lemma adam_update_moved k o t st g : state_hidden k st -> same_network (params st) g ->
  adam_update o t (state_moved k st) (moved k g) = (r <- adam_update o t st g ;; Ok (state_moved k r)) /\ forall r, adam_update o t st g = Ok r -> state_hidden k r.
Proof.
  intros (Hp & Sm & Sv) Sg. unfold adam_update, state_moved. cbn [params m_state v_state].
  assert (Hm : hidden_layer k h (m_state st)) by (eapply hidden_same; eauto). assert (Hv : hidden_layer k h (v_state st)) by (eapply hidden_same; eauto).
  assert (Hg : hidden_layer k h g) by (eapply hidden_same; eauto).
  assert (C : forall f a b, same_network (params st) a -> same_network (params st) b -> same_network (params st) (lzip f a b)).
  { intros f a b A B. apply (same_network_trans _ a); [exact A|]. apply lzip_shape. apply (same_network_trans _ (params st)); [now apply same_network_sym|exact B]. }
  assert (S1 : same_network (params st) (lzip (moment_1 o) (m_state st) g)) by auto. assert (S2 : same_network (params st) (lzip (moment_2 o) (v_state st) g)) by auto.
  rewrite !lzip_moved by auto. rewrite (lzipM_moved (adam_step o t) NotANumber (adam_step_err o t)) by (eapply hidden_same; eauto).
  destruct (lzipM (adam_step o t) (lzip (moment_1 o) (m_state st) g) (lzip (moment_2 o) (v_state st) g)) as [d|] eqn:D; [|split; [reflexivity|discriminate]]. cbn [bind].
  apply lzipM_is in D. assert (Sd : same_network (params st) d) by (subst d; auto).
  rewrite lzip_moved by (auto; eapply hidden_same; eauto). split; [reflexivity|]. intros r E. injection E as <-. unfold state_hidden. cbn [params m_state v_state].
  assert (Sp : same_network (params st) (lzip Rminus (params st) d)) by (apply C; auto; apply same_network_refl).
  split; [eapply hidden_same; eauto|]. split; (eapply same_network_trans; [apply same_network_sym; exact Sp|]); auto.
Qed.
Lemma adam_moved k o x y draws ls : hidden_layer k h ls ->
  adam_run o x y (moved k ls) draws = (r <- adam_run o x y ls draws ;; Ok (moved k r)).
Proof.
  intros H. unfold adam_run.
  assert (Ei : adam_init (moved k ls) = state_moved k (adam_init ls)) by (unfold adam_init, state_moved; cbn [params m_state v_state]; now rewrite lmap_moved).
  assert (Hi : state_hidden k (adam_init ls)) by (unfold state_hidden, adam_init; cbn [params m_state v_state]; split; [auto|]; split; apply lmap_shape). rewrite Ei.
  destruct (foldM_follow (state_moved k) (state_hidden k) (adam_epoch o x y) (adam_epoch o x y)) with (l := combine (seq 1 (length draws)) draws) (s := adam_init ls) as [E K]; auto.
  - intros st e Ws. unfold adam_epoch. cbn [params state_moved]. rewrite (sample_moved h s Hs) by apply Ws.
    destruct (sample_gradient x y (params st) (snd e)) as [g|] eqn:G; [|reflexivity]. cbn [bind]. apply adam_update_moved; auto. exact (sample_shape _ _ _ _ _ G).
  - intros st e r Ws. unfold adam_epoch. destruct (sample_gradient x y (params st) (snd e)) as [g|] eqn:G; [|discriminate]. cbn [bind]. apply adam_update_moved; auto. exact (sample_shape _ _ _ _ _ G).
  - rewrite E. destruct (foldM (adam_epoch o x y) (combine (seq 1 (length draws)) draws) (adam_init ls)) as [st|]; reflexivity.
Qed.
End Run.

(** ** Several layers *)
Lemma moved_other h s : new_order h s -> forall k j h' a, hidden_layer k h a -> hidden_layer j h' a -> hidden_layer j h' (neurons_moved k s a).
Proof.
  intros Hs. induction k as [|k IH]; intros j h' a H J.
  - destruct a as [|[w u] [|[w' u'] a]]; cbn in H; try contradiction. destruct H as (L & U & N & W). cbn [neurons_moved].
    assert (Q : Units.width h (map (reordered s) w')) by (unfold Units.width; apply Forall_forall; intros r I; apply in_map_iff in I as (q & <- & _); apply (re_length h s Hs)).
    destruct j as [|[|j]]; cbn in J |- *.
    + destruct J as (J1 & J2 & _ & _). assert (E' : h' = h) by congruence. rewrite E'. split; [apply (sel_length h s Hs)|]. split; [apply (re_length h s Hs)|]. split; [destruct w'; [congruence|discriminate]|exact Q].
    + destruct a as [|[w2 u2] a]; [contradiction|]. now rewrite map_length.
    + exact J.
  - destruct a as [|l a]; cbn in H; [contradiction|]. destruct j as [|j]; cbn [neurons_moved hidden_layer] in J |- *; [|now apply IH].
    destruct l as [w u]. destruct a as [|[w2 u2] a]; [contradiction|]. destruct J as (L & U & N & W). destruct k as [|k]; cbn [neurons_moved] in *.
    + destruct a as [|[w3 u3] a]; cbn in H; [contradiction|]. destruct H as (L2 & _). cbn. split; [auto|]. split; [auto|].
      split; [intros E; pose proof (sel_length h s Hs w2) as L3; rewrite E in L3; cbn in L3; destruct w2; cbn in L2; [congruence|lia]|].
      unfold Units.width in *. rewrite Forall_forall in *. intros r I. apply W. now apply (in_sel h s Hs w2 r L2).
    + cbn. auto.
Qed.
Lemma movable_next m moves ls : movable (m :: moves) ls -> movable moves (neurons_moved (fst m) (snd m) ls).
Proof.
  intros M. inversion M as [|? ? (h & H & S) M']; subst. unfold movable in *. rewrite Forall_forall in *. intros q I. destruct (M' q I) as (h' & H' & S'). exists h'. split; [|auto].
  now apply (moved_other h (snd m) S).
Qed.
Lemma movable_same moves a b : same_network a b -> movable moves a -> movable moves b.
Proof. intros S. unfold movable. apply Forall_impl. intros m (h & H & P). exists h. split; [|auto]. exact (hidden_same h _ a b S H). Qed.
Lemma forward_all x : forall moves ls, movable moves ls -> (r <- forward (all_moved moves ls) x ;; Ok (fst r)) = (r <- forward ls x ;; Ok (fst r)).
Proof.
  induction moves as [|m moves IH]; intros ls M; [reflexivity|]. unfold all_moved in *. cbn [fold_left]. rewrite IH by now apply movable_next. inversion M as [|? ? (h & H & S) M']; subst.
  rewrite (forward_moved h (snd m) S) by auto. destruct (forward ls x); reflexivity.
Qed.
Lemma sgd_all rate x y draws : forall moves ls, movable moves ls -> sgd_run rate x y (all_moved moves ls) draws = (r <- sgd_run rate x y ls draws ;; Ok (all_moved moves r)).
Proof.
  induction moves as [|m moves IH]; intros ls M; [cbn; now destruct (sgd_run rate x y ls draws)|]. unfold all_moved in *. cbn [fold_left]. rewrite IH by now apply movable_next. inversion M as [|? ? (h & H & S) M']; subst.
  rewrite (sgd_moved h (snd m) S) by auto. destruct (sgd_run rate x y ls draws); reflexivity.
Qed.
Lemma adam_all o x y draws : forall moves ls, movable moves ls -> adam_run o x y (all_moved moves ls) draws = (r <- adam_run o x y ls draws ;; Ok (all_moved moves r)).
Proof.
  induction moves as [|m moves IH]; intros ls M; [cbn; now destruct (adam_run o x y ls draws)|]. unfold all_moved in *. cbn [fold_left]. rewrite IH by now apply movable_next. inversion M as [|? ? (h & H & S) M']; subst.
  rewrite (adam_moved h (snd m) S) by auto. destruct (adam_run o x y ls draws); reflexivity.
Qed.
