(** Lemmas for C109: networks with the features in another order. *)
From Coq Require Import List ZArith Reals Lra Lia Bool Arith Permutation.
From Verif.Model Require Import Base Activations Network Rbf.
From Verif.Spec Require Import Common Smo Gmm Units BayesUnits Columns.
From Verif.Proof Require Import BaseLemmas Counting Smo Kernels Gmm Network UnitsMore UnitsLinear ColumnsMx Columns.
Import ListNotations.
Local Open Scope R_scope.

Lemma foldM_follow {A S} (T : S -> S) (Inv : S -> Prop) (f f' : S -> A -> result S) :
  (forall s a, Inv s -> f' (T s) a = (r <- f s a ;; Ok (T r))) -> (forall s a r, Inv s -> f s a = Ok r -> Inv r) ->
  forall l s, Inv s -> foldM f' l (T s) = (r <- foldM f l s ;; Ok (T r)) /\ forall r, foldM f l s = Ok r -> Inv r.
Proof.
  intros H K. induction l as [|a l IH]; intros s I; cbn [foldM]; [split; [reflexivity|]; intros r E; now injection E as <-|].
  rewrite H by auto. destruct (f s a) as [s'|] eqn:E; cbn [bind]; [|split; [reflexivity|discriminate]]. apply IH. exact (K s a s' I E).
Qed.
Lemma mapM_follow {A B} (g : A -> result B) (h : B -> B) l : mapM (fun q => r <- g q ;; Ok (h r)) l = (rs <- mapM g l ;; Ok (map h rs)).
Proof. induction l as [|a l IH]; [reflexivity|]. cbn [mapM]. destruct (g a); [|reflexivity]. cbn [bind]. rewrite IH. destruct (mapM g l); reflexivity. Qed.
Lemma mapM_all_ok {A B} (g : A -> result B) (h : A -> B) l : (forall a, In a l -> g a = Ok (h a)) -> mapM g l = Ok (map h l).
Proof. induction l as [|a l IH]; intros H; [reflexivity|]. cbn [mapM map]. rewrite (H a (or_introl eq_refl)), IH by (intros; apply H; now right). reflexivity. Qed.
Lemma mapM_one_err {A B} (g : A -> result B) e0 l a : (forall a e, g a = Err e -> e = e0) -> In a l -> g a = Err e0 -> mapM g l = Err e0.
Proof.
  intros H. induction l as [|b l IH]; intros I E; [destruct I|]. cbn [mapM]. destruct (g b) as [v|e] eqn:Eb; cbn [bind]; [|f_equal; exact (H b e Eb)].
  destruct I as [->|I]; [congruence|]. rewrite IH by auto. reflexivity.
Qed.
Lemma mapM_forall {A B} (P : B -> Prop) (g : A -> result B) l r : (forall a b, In a l -> g a = Ok b -> P b) -> mapM g l = Ok r -> Forall P r.
Proof.
  revert r. induction l as [|a l IH]; intros r H E; cbn [mapM] in E; [injection E as <-; constructor|].
  destruct (g a) as [b|] eqn:Eb; [|discriminate]. cbn [bind] in E. destruct (mapM g l) as [bs|]; [|discriminate]. cbn [bind] in E. injection E as <-.
  constructor; [apply (H a b); [now left|auto]|]. apply IH; [|reflexivity]. intros a' b' I. apply H. now right.
Qed.

Section Net.
Variables (d : nat) (s : list nat).
Hypothesis Hs : new_order d s.
Notation re := (reordered s).
Notation net_re := (layers_reordered s).

Lemma affine_row_re w b x : Units.width d w -> length x = d -> affine_row (map re w, b) (re x) = affine_row (w, b) x.
Proof.
  intros W L. unfold affine_row. cbn [fst snd]. rewrite map_length. unfold Units.width in W. rewrite Forall_forall in W.
  replace (forallb (fun r => length r =? length (re x))%nat (map re w)) with true.
  2:{ symmetry. apply forallb_forall. intros r I. apply in_map_iff in I as (q & <- & _). rewrite !(re_length d s Hs). apply Nat.eqb_refl. }
  replace (forallb (fun r => length r =? length x)%nat w) with true.
  2:{ symmetry. apply forallb_forall. intros r I. rewrite (W r I), L. apply Nat.eqb_refl. }
  destruct (true && _); [|reflexivity]. do 2 f_equal. rewrite map_map. apply map_ext_in. intros r I. apply (dot_re d s Hs); auto.
Qed.
Lemma affine_re w b x : Units.width d w -> Units.width d x -> affine (map re w, b) (map re x) = affine (w, b) x.
Proof. intros W X. unfold affine. rewrite mapM_map. apply mapM_ext_in. intros r I. unfold Units.width in X. rewrite Forall_forall in X. apply affine_row_re; auto. Qed.
Definition cache_re (c : cache) : cache := (map re (fst (fst c)), map re (snd (fst c)), snd c).
Definition caches_re (cs : list cache) : list cache := match cs with [] => [] | c :: t => cache_re c :: t end.
Lemma forward_net_re ls x : takes_features d ls -> Units.width d x ->
  forward (net_re ls) (map re x) = (r <- forward ls x ;; Ok (fst r, caches_re (snd r))).
Proof.
  intros W X. destruct ls as [|[w b] ls]; [reflexivity|]. cbn [layers_reordered forward]. cbn in W. rewrite affine_re by auto. destruct (affine (w, b) x) as [z|]; [|reflexivity]. cbn [bind].
  destruct ls as [|l ls].
  - unfold output_activation. cbn [fst]. rewrite map_length. destruct (length w =? 1)%nat; [reflexivity|]. destruct (softmax z); reflexivity.
  - destruct (forward (l :: ls) (mmap relu z)); reflexivity.
Qed.
Definition grad_re (g : grad) : grad := (map re (fst g), snd g).
Lemma get_grad_re n da c : fst (fst c) <> [] -> Units.width d (fst (fst c)) -> fst (get_grad n da (cache_re c)) = grad_re (fst (get_grad n da c)).
Proof.
  destruct c as [[x w] a]. cbn [fst snd cache_re]. intros N X. unfold get_grad, cache_re, grad_re. cbn [fst snd]. rewrite map_length. f_equal. rewrite map_map. apply map_ext. intros i.
  assert (W1 : Network.width x = d) by (destruct x as [|r x]; [congruence|]; unfold Units.width in X; rewrite Forall_forall in X; apply X; now left).
  assert (W2 : Network.width (map re x) = d) by (destruct x as [|r x]; [congruence|]; cbn; apply (re_length d s Hs)).
  rewrite W1, W2. apply (seq_re d s Hs). intros j Hj. f_equal. rewrite combine_map_second, map_map. f_equal. apply map_ext. intros p. cbn [fst snd]. now rewrite (nth_re d s Hs).
Qed.
Lemma get_grad_wide n da c : fst (fst c) <> [] -> Units.width d (fst (fst c)) -> Units.width d (fst (fst (get_grad n da c))).
Proof.
  destruct c as [[x w] a]. cbn [fst snd]. intros N X. unfold get_grad. cbn [fst]. unfold Units.width. apply Forall_forall. intros r I. apply in_map_iff in I as (i & <- & _). rewrite map_length, seq_length.
  destruct x as [|r x]; [congruence|]. unfold Units.width in X. rewrite Forall_forall in X. apply X. now left.
Qed.
Lemma hidden_last n c cs : fst (fst c) <> [] -> Units.width d (fst (fst c)) -> forall out, exists pre g0,
  backward_hidden n (cs ++ [c]) out = pre ++ [g0] /\ backward_hidden n (cs ++ [cache_re c]) out = pre ++ [grad_re g0] /\ Units.width d (fst g0).
Proof.
  intros N X. induction cs as [|c' cs IH]; intros out; cbn [app backward_hidden].
  - destruct c as [[x w] a]. change (cache_re (x, w, a)) with (map re x, map re w, a). cbv beta iota. set (da := mzip relu_diff out a).
    pose proof (get_grad_re n da (x, w, a) N X) as E. pose proof (get_grad_wide n da (x, w, a) N X) as Wd. change (cache_re (x, w, a)) with (map re x, map re w, a) in E.
    destruct (get_grad n da (map re x, map re w, a)) as [g1 o1]. destruct (get_grad n da (x, w, a)) as [g0 o0]. cbn [fst] in E, Wd. exists [], g0. cbn [app]. rewrite E. auto.
  - destruct c' as [[x' w'] a']. destruct (get_grad n (mzip relu_diff out a') (x', w', a')) as [g o]. destruct (IH o) as (pre & g0 & E1 & E2 & Wd). exists (g :: pre), g0. rewrite E1, E2. auto.
Qed.
Lemma rev_net pre g0 : rev (pre ++ [grad_re g0]) = net_re (rev (pre ++ [g0])).
Proof. rewrite !rev_app_distr. destruct g0. reflexivity. Qed.
Lemma backward_re yp yt c cs : fst (fst c) <> [] -> Units.width d (fst (fst c)) ->
  backward yp yt (caches_re (c :: cs)) = (g <- backward yp yt (c :: cs) ;; Ok (net_re g)) /\ forall g, backward yp yt (c :: cs) = Ok g -> takes_features d g.
Proof.
  intros N X. unfold backward. cbn [caches_re].
  change (rev (cache_re c :: cs)) with (@rev cache cs ++ [cache_re c]). change (rev (c :: cs)) with (@rev cache cs ++ [c]).
  destruct (@rev cache cs) as [|c' l]; cbn [app].
  - destruct c as [[x w] a]. change (cache_re (x, w, a)) with (map re x, map re w, a). cbv beta iota. destruct (output_signal yp yt a) as [da|]; [|split; [reflexivity|discriminate]]. cbn [bind].
    destruct (length yt =? 0)%nat; [split; [reflexivity|discriminate]|].
    pose proof (get_grad_re (length yt) da (x, w, a) N X) as E. pose proof (get_grad_wide (length yt) da (x, w, a) N X) as Wd. change (cache_re (x, w, a)) with (map re x, map re w, a) in E.
    destruct (get_grad (length yt) da (map re x, map re w, a)) as [g1 o1]. destruct (get_grad (length yt) da (x, w, a)) as [g0 o0]. cbn [fst] in E, Wd. rewrite E. destruct g0 as [dw db]. split; [reflexivity|].
    intros g Eg. injection Eg as <-. exact Wd.
  - destruct c' as [[x' w'] a']. cbv beta iota. destruct (output_signal yp yt a') as [da|]; [|split; [reflexivity|discriminate]]. cbn [bind]. destruct (length yt =? 0)%nat; [split; [reflexivity|discriminate]|].
    destruct (get_grad (length yt) da (x', w', a')) as [g o]. destruct (hidden_last (length yt) c l N X o) as (pre & g0 & E1 & E2 & Wd). unfold cache in *. rewrite E1, E2. cbn [bind].
    change (g :: pre ++ [grad_re g0]) with ((g :: pre) ++ [grad_re g0]). rewrite rev_net. split; [reflexivity|]. intros g' Eg. injection Eg as <-.
    change (rev (g :: pre ++ [g0])) with (rev ((g :: pre) ++ [g0])). rewrite rev_app_distr. destruct g0. exact Wd.
Qed.
Lemma forward_caches ls x r : forward ls x = Ok r -> exists c cs, snd r = c :: cs /\ fst (fst c) = x.
Proof.
  destruct ls as [|l ls]; cbn [forward]; [discriminate|]. destruct (affine l x) as [z|]; [|discriminate]. cbn [bind]. destruct ls as [|l' ls].
  - destruct (output_activation (fst l) z) as [p|]; [|discriminate]. cbn [bind]. intros E. injection E as <-. cbn. eauto.
  - destruct (forward (l' :: ls) (mmap relu z)) as [q|]; [|discriminate]. cbn [bind]. intros E. injection E as <-. cbn. eauto.
Qed.
Lemma sample_re x y ls i : takes_features d ls -> Units.width d x ->
  sample_gradient (map re x) y (net_re ls) i = (g <- sample_gradient x y ls i ;; Ok (net_re g)) /\ forall g, sample_gradient x y ls i = Ok g -> takes_features d g.
Proof.
  intros W X. unfold sample_gradient. rewrite get_at_map. destruct (get_at x i) as [xi|] eqn:E; [|split; [reflexivity|discriminate]]. cbn [bind].
  destruct (get_at y i) as [yi|]; [|split; [reflexivity|discriminate]]. cbn [bind].
  assert (L : length xi = d).
  { unfold get_at in E. destruct (nth_error x i) eqn:En; [|discriminate]. injection E as <-. apply nth_error_In in En. unfold Units.width in X. rewrite Forall_forall in X. auto. }
  change [re xi] with (map re [xi]). assert (X1 : Units.width d [xi]) by (constructor; auto). rewrite forward_net_re by auto.
  destruct (forward ls [xi]) as [r|] eqn:F; [|split; [reflexivity|discriminate]]. cbn [bind fst snd]. destruct (forward_caches _ _ _ F) as (c & cs & Ec & Ex). rewrite Ec.
  apply backward_re; rewrite Ex; [discriminate|auto].
Qed.
Lemma zip2_re f a b : length a = d -> length b = d -> zip2 f (re a) (re b) = re (zip2 f a b).
Proof.
  intros A B. unfold zip2 at 1, reordered. rewrite combine_map_same, map_map. apply map_ext_in. intros j I. apply (in_order d s Hs) in I. cbn [fst snd]. rewrite nth_zip2; auto; [congruence|lia].
Qed.
Lemma mzip_re f w w' : Units.width d w -> Units.width d w' -> mzip f (map re w) (map re w') = map re (mzip f w w').
Proof.
  intros W W'. unfold mzip. rewrite combine_map_both, !map_map. apply map_ext_in. intros [a b] I. cbn [fst snd]. unfold Units.width in *. rewrite Forall_forall in *.
  apply zip2_re; [apply W; now apply in_combine_l in I|apply W'; now apply in_combine_r in I].
Qed.
Lemma mzip_wide f w w' : Units.width d w -> Units.width d w' -> Units.width d (mzip f w w').
Proof.
  intros W W'. unfold mzip, Units.width in *. rewrite Forall_forall in *. intros r I. apply in_map_iff in I as ([a b] & <- & I). cbn [fst snd].
  unfold zip2. rewrite map_length, combine_length, (W a), (W' b); [lia|now apply in_combine_r in I|now apply in_combine_l in I].
Qed.
Lemma lzip_re f a b : takes_features d a -> takes_features d b -> lzip f (net_re a) (net_re b) = net_re (lzip f a b) /\ takes_features d (lzip f a b).
Proof.
  destruct a as [|[w u] a], b as [|[w' u'] b]; cbn [takes_features layers_reordered]; intros W W'; try (split; [reflexivity|exact I]).
  unfold lzip. cbn [combine map fst snd layers_reordered takes_features]. rewrite mzip_re by auto. split; [reflexivity|now apply mzip_wide].
Qed.
Lemma lmap_zero a : takes_features d a -> lmap (fun _ => 0) (net_re a) = net_re (lmap (fun _ => 0) a) /\ takes_features d (lmap (fun _ => 0) a).
Proof.
  destruct a as [|[w u] a]; cbn [takes_features layers_reordered]; intros W; [split; [reflexivity|exact I]|]. unfold lmap. cbn [map fst snd layers_reordered takes_features]. split.
  - do 2 f_equal. unfold mmap. rewrite !map_map. apply map_ext_in. intros r I. unfold reordered. rewrite map_map. apply map_ext. intros j.
    revert j. clear. induction r as [|v r IH]; intros [|j]; cbn; auto.
  - unfold mmap, Units.width in *. rewrite Forall_forall in *. intros r I. apply in_map_iff in I as (q & <- & I). rewrite map_length. auto.
Qed.
Lemma row_mapM_re (f : R -> R -> result R) e0 u v : (forall a b e, f a b = Err e -> e = e0) -> length u = d -> length v = d ->
  mapM (fun e => f (fst e) (snd e)) (combine (re u) (re v)) = (r <- mapM (fun e => f (fst e) (snd e)) (combine u v) ;; Ok (re r)).
Proof.
  intros H U V. set (g := fun j => f (nth j u 0) (nth j v 0)).
  assert (E1 : mapM (fun e => f (fst e) (snd e)) (combine (re u) (re v)) = mapM g s) by (unfold reordered; rewrite combine_map_same, mapM_map; reflexivity).
  assert (E2 : mapM (fun e => f (fst e) (snd e)) (combine u v) = mapM g (seq 0 d)).
  { transitivity (mapM (fun e => f (fst e) (snd e)) (combine (map (fun j => nth j u 0) (seq 0 d)) (map (fun j => nth j v 0) (seq 0 d)))); [now rewrite !map_nth_seq|]. rewrite combine_map_same, mapM_map. reflexivity. }
  rewrite E1, E2. set (ok := fun j => match g j with Ok _ => true | Err _ => false end). set (h := fun j => match g j with Ok w => w | Err _ => 0 end).
  destruct (forallb ok (seq 0 d)) eqn:B.
  - rewrite forallb_forall in B. assert (K : forall j, In j (seq 0 d) -> g j = Ok (h j)) by (intros j I; specialize (B j I); unfold ok, h in *; now destruct (g j)).
    rewrite (mapM_all_ok g h (seq 0 d) K). rewrite (mapM_all_ok g h s) by (intros j I; apply K; exact (Permutation_in _ Hs I)). cbn [bind]. f_equal.
    unfold reordered. apply map_ext_in. intros j I. apply (in_order d s Hs) in I. now rewrite nth_map_seq.
  - assert (Ex : exists j, In j (seq 0 d) /\ ok j = false).
    { clear - B. induction (seq 0 d) as [|j l IH]; [discriminate|]. cbn [forallb] in B. destruct (ok j) eqn:E; [|exists j; split; [now left|auto]]. destruct IH as (k & I & Ek); auto. exists k. split; [now right|auto]. }
    destruct Ex as (j & I & Ej). assert (Gj : g j = Err e0) by (unfold ok in Ej; destruct (g j) as [|e] eqn:E; [discriminate|]; f_equal; exact (H _ _ _ E)).
    assert (Ha : forall a e, g a = Err e -> e = e0) by (intros a e; apply H).
    rewrite (mapM_one_err g e0 (seq 0 d) j Ha I Gj), (mapM_one_err g e0 s j Ha (Permutation_in _ (Permutation_sym Hs) I) Gj). reflexivity.
Qed.
Lemma lzipM_re f e0 a b : (forall u v e, f u v = Err e -> e = e0) -> takes_features d a -> takes_features d b ->
  lzipM f (net_re a) (net_re b) = (r <- lzipM f a b ;; Ok (net_re r)) /\ forall r, lzipM f a b = Ok r -> takes_features d r.
Proof.
  intros H. destruct a as [|[w u] a], b as [|[w' u'] b]; cbn [takes_features layers_reordered]; intros W W'; try (split; [reflexivity|intros r E; injection E as <-; exact I]).
  unfold lzipM. cbn [combine mapM fst snd]. rewrite combine_map_both, mapM_map. cbn [fst snd]. unfold Units.width in W, W'. rewrite Forall_forall in W, W'.
  rewrite (mapM_ext_in (fun q : list R * list R => mapM (fun e => f (fst e) (snd e)) (combine (re (fst q)) (re (snd q))))
             (fun q => r <- mapM (fun e => f (fst e) (snd e)) (combine (fst q) (snd q)) ;; Ok (re r))).
  2:{ intros [x x'] I. cbn [fst snd]. apply (row_mapM_re f e0); auto; [apply W; now apply in_combine_l in I|apply W'; now apply in_combine_r in I]. }
  rewrite mapM_follow. destruct (mapM (fun q => mapM (fun e => f (fst e) (snd e)) (combine (fst q) (snd q))) (combine w w')) as [dw|] eqn:Ew; [|split; [reflexivity|discriminate]]. cbn [bind].
  destruct (mapM (fun e => f (fst e) (snd e)) (combine u u')) as [db|]; [|split; [reflexivity|discriminate]]. cbn [bind].
  enough (Wd : Units.width d dw).
  { assert (G : forall X : result (list layer), (bs <- X ;; Ok ((map re dw, db) :: bs)) = (r <- (bs <- X ;; Ok ((dw, db) :: bs)) ;; Ok (net_re r)) /\
      forall r, (bs <- X ;; Ok ((dw, db) :: bs)) = Ok r -> takes_features d r).
    { intros [t|]; cbn [bind]; [|split; [reflexivity|discriminate]]. split; [reflexivity|]. intros r E. injection E as <-. exact Wd. }
    apply G. }
  unfold Units.width. eapply mapM_forall; [|exact Ew]. intros [x x'] r I E. cbn [fst snd] in E. apply mapM_length in E. rewrite E, combine_length.
  rewrite (W x), (W' x'); [lia|now apply in_combine_r in I|now apply in_combine_l in I].
Qed.
Lemma sgd_run_re rate x y draws ls : takes_features d ls -> Units.width d x ->
  sgd_run rate (map re x) y (net_re ls) draws = (r <- sgd_run rate x y ls draws ;; Ok (net_re r)) /\ forall r, sgd_run rate x y ls draws = Ok r -> takes_features d r.
Proof.
  intros W X. unfold sgd_run. apply (foldM_follow net_re (takes_features d)); auto.
  - intros l i Wl. unfold sgd_epoch. destruct (sample_re x y l i Wl X) as [E K]. rewrite E. destruct (sample_gradient x y l i) as [g|]; [|reflexivity]. cbn [bind]. unfold sgd_update.
    f_equal. apply lzip_re; auto.
  - intros l i r Wl. unfold sgd_epoch. destruct (sample_re x y l i Wl X) as [_ K]. destruct (sample_gradient x y l i) as [g|]; [|discriminate]. cbn [bind]. intros E. injection E as <-.
    apply lzip_re; auto.
Qed.
Lemma adam_step_err o t u v e : adam_step o t u v = Err e -> e = NotANumber.
Proof. unfold adam_step. destruct (_ || _); [congruence|]. destruct (Rltb _ _); [congruence|]. destruct (Reqb _ _); congruence. Qed.
Definition state_re (t : adam_state) : adam_state := {| params := net_re (params t); m_state := net_re (m_state t); v_state := net_re (v_state t) |}.
Definition state_wide (t : adam_state) : Prop := takes_features d (params t) /\ takes_features d (m_state t) /\ takes_features d (v_state t).
Lemma adam_update_re o t st g : state_wide st -> takes_features d g ->
  adam_update o t (state_re st) (net_re g) = (r <- adam_update o t st g ;; Ok (state_re r)) /\ forall r, adam_update o t st g = Ok r -> state_wide r.
Proof.
  intros (Wp & Wm & Wv) Wg. unfold adam_update, state_re. cbn [params m_state v_state].
  destruct (lzip_re (moment_1 o) _ _ Wm Wg) as [E1 W1]. destruct (lzip_re (moment_2 o) _ _ Wv Wg) as [E2 W2]. rewrite E1, E2.
  destruct (lzipM_re (adam_step o t) NotANumber _ _ (adam_step_err o t) W1 W2) as [E3 W3]. rewrite E3.
  destruct (lzipM (adam_step o t) (lzip (moment_1 o) (m_state st) g) (lzip (moment_2 o) (v_state st) g)) as [st'|]; [|split; [reflexivity|discriminate]]. cbn [bind]. specialize (W3 st' eq_refl). destruct (lzip_re Rminus _ _ Wp W3) as [E4 W4]. rewrite E4.
  split; [reflexivity|]. intros r E. injection E as <-. repeat split; auto.
Qed.
Lemma adam_run_re o x y draws ls : takes_features d ls -> Units.width d x ->
  adam_run o (map re x) y (net_re ls) draws = (r <- adam_run o x y ls draws ;; Ok (net_re r)) /\ forall r, adam_run o x y ls draws = Ok r -> takes_features d r.
Proof.
  intros W X. unfold adam_run. destruct (lmap_zero ls W) as [Ez Wz].
  assert (Ei : adam_init (net_re ls) = state_re (adam_init ls)) by (unfold adam_init, state_re; cbn [params m_state v_state]; now rewrite Ez).
  assert (Wi : state_wide (adam_init ls)) by (repeat split; auto). rewrite Ei.
  destruct (foldM_follow state_re state_wide (adam_epoch o x y) (adam_epoch o (map re x) y)) with (l := combine (seq 1 (length draws)) draws) (s := adam_init ls) as [E K]; auto.
  - intros st e Ws. unfold adam_epoch. destruct (sample_re x y (params st) (snd e) (proj1 Ws) X) as [E K]. cbn [params state_re]. rewrite E.
    destruct (sample_gradient x y (params st) (snd e)) as [g|]; [|reflexivity]. cbn [bind]. apply adam_update_re; auto.
  - intros st e r Ws. unfold adam_epoch. destruct (sample_re x y (params st) (snd e) (proj1 Ws) X) as [_ K].
    destruct (sample_gradient x y (params st) (snd e)) as [g|]; [|discriminate]. cbn [bind]. apply adam_update_re; auto.
  - rewrite E. destruct (foldM (adam_epoch o x y) (combine (seq 1 (length draws)) draws) (adam_init ls)) as [st|]; [|split; [reflexivity|discriminate]]. cbn [bind]. split; [reflexivity|]. intros r Er. injection Er as <-. apply (K st eq_refl).
Qed.

(** * Radial basis functions *)
Definition rbf_re (p : rbf_params) : rbf_params := {| rw := rw p; rb := rb p; rc := map re (rc p); rbeta := rbeta p |}.
Lemma rbf_row_re p r : Units.width d (rc p) -> length r = d -> Rbf.forward_row (rbf_re p) (re r) = Rbf.forward_row p r.
Proof.
  intros W L. unfold Rbf.forward_row, rbf_re. cbn [rw rb rc rbeta]. rewrite map_length. destruct (negb _); [reflexivity|].
  replace (x_ci_row (map re (rc p)) (re r)) with (x_ci_row (rc p) r); [reflexivity|]. unfold x_ci_row. rewrite mapM_map. symmetry. apply mapM_ext_in. intros c I.
  unfold Units.width in W. rewrite Forall_forall in W. pose proof (W c I) as Lc. unfold broadcast_sub. rewrite !(re_length d s Hs), L, Lc, Nat.eqb_refl. cbn [bind]. f_equal. unfold sqnorm.
  rewrite (vsub_re d s) by auto. apply (dot_re d s Hs); apply (vsub_len d); auto.
Qed.
Lemma rbf_forward_re p x : Units.width d (rc p) -> Units.width d x -> rbf_forward (rbf_re p) (map re x) = rbf_forward p x.
Proof. intros W X. unfold rbf_forward. rewrite mapM_map. apply mapM_ext_in. intros r I. unfold Units.width in X. rewrite Forall_forall in X. apply rbf_row_re; auto. Qed.
Lemma rbf_run_re rate x y epochs : Units.width d x -> forall p, Units.width d (rc p) ->
  rbf_run rate (map re x) y epochs (rbf_re p) = (r <- rbf_run rate x y epochs p ;; Ok (rbf_re (fst r), snd r)) /\ forall r, rbf_run rate x y epochs p = Ok r -> rc (fst r) = rc p.
Proof.
  intros X. induction epochs as [|k IH]; intros p W; cbn [rbf_run]; [split; [reflexivity|]; intros r E; now injection E as <-|].
  assert (E : rbf_epoch rate (map re x) y (rbf_re p) = (r <- rbf_epoch rate x y p ;; Ok (rbf_re (fst r), snd r)) /\ forall r, rbf_epoch rate x y p = Ok r -> rc (fst r) = rc p).
  { unfold rbf_epoch. rewrite rbf_forward_re by auto. destruct (rbf_forward p x) as [rows|]; [|split; [reflexivity|discriminate]]. cbn [bind].
    assert (G : (g <- rbf_backward (length (rc (rbf_re p))) rows (label_list y) (rw (rbf_re p)) ;;
                 l <- mean_squared_error (length rows) (map (fun t => fst (fst t)) rows) (label_list y) ;; Ok (rbf_update rate (rbf_re p) g, l)) =
                (r <- (g <- rbf_backward (length (rc p)) rows (label_list y) (rw p) ;;
                 l <- mean_squared_error (length rows) (map (fun t => fst (fst t)) rows) (label_list y) ;; Ok (rbf_update rate p g, l)) ;; Ok (rbf_re (fst r), snd r)) /\
                forall r, (g <- rbf_backward (length (rc p)) rows (label_list y) (rw p) ;;
                 l <- mean_squared_error (length rows) (map (fun t => fst (fst t)) rows) (label_list y) ;; Ok (rbf_update rate p g, l)) = Ok r -> rc (fst r) = rc p).
    { unfold rbf_re at 1 2. cbn [rc rw]. rewrite map_length. destruct (rbf_backward (length (rc p)) rows (label_list y) (rw p)) as [g|]; [|split; [reflexivity|discriminate]]. cbn [bind].
      destruct (mean_squared_error _ _ _) as [l|]; [|split; [reflexivity|discriminate]]. cbn [bind]. split; [reflexivity|]. intros r E. injection E as <-. reflexivity. }
    destruct y as [y|[|v [|v' y]]]; auto. split; [reflexivity|discriminate]. }
  destruct E as [E K]. rewrite E. destruct (rbf_epoch rate x y p) as [r|]; [|split; [reflexivity|discriminate]]. cbn [bind]. specialize (K r eq_refl).
  destruct (IH (fst r)) as [E' K']; [now rewrite K|]. cbn [fst]. rewrite E'. destruct (rbf_run rate x y k (fst r)) as [t|]; [|split; [reflexivity|discriminate]]. cbn [bind fst snd]. split; [reflexivity|].
  intros q Eq. injection Eq as <-. cbn [fst]. rewrite (K' t eq_refl). exact K.
Qed.
End Net.
