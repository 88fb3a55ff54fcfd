(** Lemmas for C115: the classes of a network in another order. *)
From Coq Require Import List ZArith Reals Lra Lia Bool Arith Permutation.
From Verif.Model Require Import Base Activations Network.
From Verif.Spec Require Import Common Smo Network Units Columns HiddenOrder ClassOrder.
From Verif.Proof Require Import BaseLemmas Network NetworkMain NetworkStep UnitsMore Columns ColumnsNet Twins HiddenOrder HiddenOrderRun.
Import ListNotations.
Local Open Scope R_scope.

Lemma fold_max_spec : forall vs v, In (fold_left Rmax vs v) (v :: vs) /\ forall u, In u (v :: vs) -> u <= fold_left Rmax vs v.
Proof.
  induction vs as [|w vs IH]; intros v; cbn [fold_left].
  - split; [now left|]. intros u [->|[]]. lra.
  - destruct (IH (Rmax v w)) as (I & B). pose proof (Rmax_l v w) as L1. pose proof (Rmax_r v w) as L2. split.
    + destruct I as [I|I]; [|now right; right]. rewrite <- I. unfold Rmax. destruct (Rle_dec v w); [right; now left|now left].
    + intros u [->|[->|I']]; [specialize (B (Rmax u w) (or_introl eq_refl)); lra|specialize (B (Rmax v u) (or_introl eq_refl)); lra|]. apply B. now right.
Qed.
Lemma max_perm l l' : Permutation l l' ->
  match l with [] => Err ValueError | v :: vs => Ok (fold_left Rmax vs v) end = match l' with [] => Err ValueError | v :: vs => Ok (fold_left Rmax vs v) end.
Proof.
  intros P. destruct l as [|v vs]; [apply Permutation_nil in P; now subst|]. destruct l' as [|v' vs']; [apply Permutation_sym, Permutation_nil in P; discriminate|]. f_equal.
  destruct (fold_max_spec vs v) as (I & B). destruct (fold_max_spec vs' v') as (I' & B'). apply Rle_antisym.
  - apply B'. exact (Permutation_in _ P I).
  - apply B. exact (Permutation_in _ (Permutation_sym P) I').
Qed.

Section Classes.
Variables (c : nat) (s : list nat).
Hypothesis Hs : new_order c s.
Hypothesis Hc : (2 <= c)%nat.
Notation re := (reordered s).
Notation sel := (rows_in_order s).
Notation om ls := (outputs_moved s ls).

Lemma re_perm r : length r = c -> Permutation (re r) r.
Proof.
  intros L. unfold reordered. apply (perm_trans (l' := map (fun j => nth j r 0) (seq 0 c))); [now apply Permutation_map|]. rewrite (map_nth_seq c r L). reflexivity.
Qed.
Lemma concat_perm z : Units.width c z -> Permutation (concat (map re z)) (concat z).
Proof. unfold Units.width. induction 1 as [|r z L W IH]; [reflexivity|]. cbn. apply Permutation_app; [now apply re_perm|exact IH]. Qed.
Lemma softmax_re z : Units.width c z -> softmax (map re z) = (p <- softmax z ;; Ok (map re p)).
Proof.
  intros W. unfold softmax, matrix_max. rewrite (max_perm _ _ (concat_perm z W)). destruct (concat z) as [|v vs]; [reflexivity|]. cbn [bind]. f_equal. rewrite !map_map. apply map_ext_in. intros r I.
  unfold Units.width in W. rewrite Forall_forall in W. specialize (W r I). set (m := fold_left Rmax vs v).
  assert (E : rsum (map (fun v => exp (v - m)) (re r)) = rsum (map (fun v => exp (v - m)) r)) by (apply rsum_perm, Permutation_map, re_perm; exact W).
  rewrite E. now apply (map_re c s Hs).
Qed.
Lemma softmax_wide z p : softmax z = Ok p -> Units.width c z -> Units.width c p.
Proof.
  unfold softmax. destruct (matrix_max z) as [m|]; [|discriminate]. cbn [bind]. intros E W. injection E as <-. unfold Units.width in *. rewrite Forall_forall in *. intros r I.
  apply in_map_iff in I as (q & <- & I). rewrite map_length. auto.
Qed.

Fixpoint cout (cs : list cache) : list cache :=
  match cs with
  | [] => []
  | [(x, w, a)] => [(x, sel w, map re a)]
  | k :: t => k :: cout t
  end.
Lemma cout_cons k t : t <> [] -> cout (k :: t) = k :: cout t.
Proof. destruct t; [congruence|]. now destruct k as [[? ?] ?]. Qed.
Lemma om_cons l t : t <> [] -> om (l :: t) = l :: om t.
Proof. destruct t; [congruence|]. now destruct l. Qed.
Lemma om_nonempty t : t <> [] -> om t <> [].
Proof. destruct t as [|[w b] [|]]; [congruence|discriminate|discriminate]. Qed.
Lemma output_cons l t : t <> [] -> output_layer c (l :: t) = output_layer c t.
Proof. destruct t; [congruence|]. now destruct l. Qed.
Lemma forward_out : forall ls x, output_layer c ls -> forward (om ls) x = (r <- forward ls x ;; Ok (map re (fst r), cout (snd r))).
Proof.
  induction ls as [|l ls IH]; intros x H; [destruct H|]. destruct ls as [|l2 t].
  - destruct l as [w b]. destruct H as (L & B). cbn [outputs_moved forward]. rewrite (affine_sel c s Hs) by auto. destruct (affine (w, b) x) as [z|] eqn:A; [|reflexivity]. cbn [bind fst].
    destruct (affine_wide c w b x z L A) as (_ & Wz). unfold output_activation. rewrite (sel_length c s Hs), L. destruct (Nat.eqb_spec c 1); [lia|].
    rewrite softmax_re by auto. destruct (softmax z) as [p|]; reflexivity.
  - rewrite om_cons by discriminate. rewrite output_cons in H by discriminate. rewrite forward_cons by (apply om_nonempty; discriminate). rewrite (forward_cons l (l2 :: t)) by discriminate.
    destruct (affine l x) as [z|]; [|reflexivity]. cbn [bind]. rewrite IH by auto. destruct (forward (l2 :: t) (mmap relu z)) as [r|] eqn:F; [|reflexivity]. cbn [bind fst snd].
    rewrite cout_cons; [reflexivity|]. destruct (forward_first _ _ _ _ F) as (a & cs & E & _). rewrite E. discriminate.
Qed.
Fixpoint last_ok (cs : list cache) : Prop :=
  match cs with
  | [] => False
  | [(x, w, a)] => Units.width c a /\ length w = c /\ exists p, Units.width p w
  | _ :: t => last_ok t
  end.
Lemma last_cons k t : t <> [] -> last_ok (k :: t) = last_ok t.
Proof. destruct t; [congruence|]. now destruct k as [[? ?] ?]. Qed.
Lemma forward_last : forall ls x r, x <> [] -> forward ls x = Ok r -> output_layer c ls -> last_ok (snd r).
Proof.
  induction ls as [|l ls IH]; intros x r Hx E H; [destruct H|]. destruct ls as [|l2 t].
  - destruct l as [w b]. destruct H as (L & B). cbn [forward] in E. destruct (affine (w, b) x) as [z|] eqn:A; [|discriminate]. cbn [bind fst] in E.
    destruct (affine_wide c w b x z L A) as (_ & Wz). unfold output_activation in E. rewrite L in E. destruct (Nat.eqb_spec c 1); [lia|].
    destruct (softmax z) as [p|] eqn:Sm; [|discriminate]. cbn [bind] in E. injection E as <-. cbn [snd last_ok]. split; [exact (softmax_wide z p Sm Wz)|]. split; [exact L|].
    apply affine_rows in A. destruct A as [|x0 z0 x z (_ & F & _) _]; [easy|]. exists (length x0). exact F.
  - rewrite output_cons in H by discriminate. destruct (forward_first _ _ _ _ E) as (a & cs & Er & z & A & K). destruct (K ltac:(discriminate)) as (Ea & r' & E' & Ecs). rewrite Er.
    assert (Na : a <> []) by (apply affine_rows in A; destruct A; [easy|rewrite Ea; discriminate]).
    specialize (IH a r' Na E' H). rewrite Ecs in IH. rewrite last_cons; [exact IH|]. destruct cs; [destruct IH|discriminate].
Qed.
Lemma back_out n D : Units.width c D -> forall cs, last_ok cs -> back_rec n (cout cs) (map re D) = (om (fst (back_rec n cs D)), snd (back_rec n cs D)).
Proof.
  intros WD. induction cs as [|k cs IH]; intros H; [destruct H|]. destruct cs as [|k2 t].
  - destruct k as [[x w] a]. destruct H as (Wa & L & (p & Wp)). cbn [cout back_rec]. rewrite (get_grad_sel c s Hs n D x w a (map re a) p) by auto. cbn [fst snd].
    destruct (fst (get_grad n D (x, w, a))) as [dw db]. reflexivity.
  - rewrite last_cons in H by discriminate. rewrite cout_cons by discriminate. specialize (IH H). rewrite back_rec_cons by (destruct k2 as [[? ?] ?], t; discriminate).
    rewrite (back_rec_cons n k (k2 :: t)) by discriminate. unfold step_back. rewrite IH. cbn [fst snd]. rewrite om_cons; [reflexivity|].
    destruct (back_rec_head n D k2 t) as (de & E & _). rewrite E. discriminate.
Qed.
Lemma last_out cs d : last_ok cs -> snd (last (cout cs) d) = map re (snd (last cs d)) /\ Units.width c (snd (last cs d)).
Proof.
  induction cs as [|k cs IH]; intros H; [destruct H|]. destruct cs as [|k2 t].
  - destruct k as [[x w] a]. destruct H as (Wa & _). cbn. auto.
  - rewrite last_cons in H by discriminate. rewrite cout_cons by discriminate. specialize (IH H). destruct (cout (k2 :: t)) as [|k3 t3] eqn:E; [destruct k2 as [[? ?] ?], t; discriminate|]. exact IH.
Qed.
Lemma wide_is m : m <> [] -> Units.width c m -> Network.width m = c.
Proof. intros N W. destruct m as [|r m]; [congruence|]. now inversion W. Qed.
Lemma re_wide m : Units.width c (map re m).
Proof. unfold Units.width. apply Forall_forall. intros r I. apply in_map_iff in I as (q & <- & _). apply (re_length c s Hs). Qed.
Lemma signal_out yp yt a : yt <> [] -> Units.width c yt -> Units.width c a ->
  output_signal (map re yp) (map re yt) (map re a) = (d <- output_signal yp yt a ;; Ok (map re d)) /\ forall d, output_signal yp yt a = Ok d -> Units.width c d.
Proof.
  intros N Wy Wa. unfold output_signal. rewrite !map_length. destruct (negb _); [split; [reflexivity|discriminate]|].
  rewrite (wide_is (map re yt)), (wide_is yt); auto; [|destruct yt; [congruence|discriminate]|apply re_wide]. destruct (Nat.eqb_spec c 1); [lia|].
  assert (E : Network.width (map re a) = Network.width a) by (destruct a as [|r a]; [reflexivity|]; rewrite (wide_is (map re (r :: a))), (wide_is (r :: a)); auto; try discriminate; apply re_wide).
  rewrite E. destruct (_ =? _)%nat; [|split; [reflexivity|discriminate]]. cbn [bind]. rewrite (mzip_re c s Hs) by auto. split; [reflexivity|]. intros d K. injection K as <-. now apply mzip_wide.
Qed.
Lemma get_at_map {A B} (f : A -> B) l i : get_at (map f l) i = (v <- get_at l i ;; Ok (f v)).
Proof. unfold get_at. rewrite nth_error_map. destruct (nth_error l i); reflexivity. Qed.
Lemma sample_out x y ls i : output_layer c ls -> Units.width c y ->
  sample_gradient x (map re y) (om ls) i = (g <- sample_gradient x y ls i ;; Ok (om g)).
Proof.
  intros H Wy. unfold sample_gradient. destruct (get_at x i) as [xi|]; [|reflexivity]. cbn [bind]. rewrite get_at_map. destruct (get_at y i) as [yi|] eqn:Gy; [|reflexivity]. cbn [bind].
  assert (Ly : length yi = c).
  { unfold get_at in Gy. destruct (nth_error y i) as [v|] eqn:En; [|discriminate]. injection Gy as <-. apply nth_error_In in En. unfold Units.width in Wy. rewrite Forall_forall in Wy. auto. }
  rewrite forward_out by auto. destruct (forward ls [xi]) as [r|] eqn:F; [|reflexivity]. cbn [bind fst snd].
  assert (K : last_ok (snd r)) by (apply (forward_last ls [xi] r); auto; discriminate).
  assert (N1 : snd r <> []) by (destruct (snd r); [destruct K|discriminate]).
  assert (N2 : cout (snd r) <> []) by (destruct (snd r) as [|[[? ?] ?] [|]]; [congruence|discriminate|discriminate]).
  rewrite !backward_full by (auto; discriminate). destruct (last_out (snd r) ([], [], []) K) as (E & Wl). rewrite E.
  destruct (signal_out (fst r) [yi] (snd (last (snd r) ([], [], [])))) as (Es & Ws); [discriminate|constructor; auto|auto|]. cbn [map] in Es. rewrite Es.
  destruct (output_signal _ [yi] _) as [da|]; [|reflexivity]. cbn [bind]. cbn [length]. now rewrite back_out by auto.
Qed.

Lemma output_same a b : same_network a b -> output_layer c a -> output_layer c b.
Proof.
  unfold same_network. induction 1 as [|[w u] [v e] a b (S1 & S2) S IH]; intros H; [destruct H|]. cbn [fst snd] in *. destruct S as [|l m a b Sl S].
  - cbn in *. apply Forall2_length in S1. split; [destruct H; congruence|destruct H; congruence].
  - rewrite output_cons in * by discriminate. now apply IH.
Qed.
Lemma lzip_out f a b : same_network a b -> output_layer c a -> lzip f (om a) (om b) = om (lzip f a b).
Proof.
  unfold same_network. induction 1 as [|[w u] [v e] a b (S1 & S2) S IH]; intros H; [destruct H|]. cbn [fst snd] in *. destruct S as [|l m a b Sl S].
  - cbn in H. destruct H as (L & U). apply Forall2_length in S1. cbn [outputs_moved]. rewrite !lzip_cons. cbn [fst snd lzip combine map outputs_moved].
    unfold lzip. cbn [combine map outputs_moved]. rewrite (mzip_sel c s Hs), (zip2_re c s Hs) by congruence. reflexivity.
  - rewrite output_cons in H by discriminate. rewrite (om_cons (w, u)) by discriminate. rewrite (om_cons (v, e)) by discriminate. change (lzip f ((w, u) :: l :: a) ((v, e) :: m :: b)) with ((mzip f w v, zip2 f u e) :: lzip f (l :: a) (m :: b)).
    rewrite (om_cons (mzip f w v, zip2 f u e)) by (cbn; discriminate). rewrite <- (IH H). reflexivity.
Qed.
Lemma lmap_out a : output_layer c a -> lmap (fun _ => 0) (om a) = om (lmap (fun _ => 0) a).
Proof.
  intros H. rewrite !(lmap_as_lzip _ _ (same_network_refl _)). now apply lzip_out; [apply same_network_refl|].
Qed.
Lemma lzipM_out f e0 a b : (forall u v e, f u v = Err e -> e = e0) -> same_network a b -> output_layer c a ->
  lzipM f (om a) (om b) = (r <- lzipM f a b ;; Ok (om r)).
Proof.
  intros He. unfold same_network. induction 1 as [|[w u] [v e] a b (S1 & S2) S IH]; intros H; [destruct H|]. cbn [fst snd] in *. destruct S as [|l m a b Sl S].
  - cbn in H. destruct H as (L & U). apply Forall2_length in S1. cbn [outputs_moved]. rewrite !lzipM_cons. unfold layerM. cbn [fst snd].
    rewrite (sel_rows_mapM c s Hs _ e0) by (try congruence; intros q k; apply mapM_uniform; intros; eauto).
    destruct (mapM (fun q => mapM (fun e => f (fst e) (snd e)) (combine (fst q) (snd q))) (combine w v)) as [dw|]; [|reflexivity]. cbn [bind].
    rewrite (row_mapM_re c s Hs f e0) by (auto; congruence). destruct (mapM (fun e => f (fst e) (snd e)) (combine u e)) as [db|]; reflexivity.
  - rewrite output_cons in H by discriminate. rewrite (om_cons (w, u)) by discriminate. rewrite (om_cons (v, e)) by discriminate. specialize (IH H). 
    transitivity (x <- layerM f (w, u) (v, e) ;; xs <- lzipM f (om (l :: a)) (om (m :: b)) ;; Ok (x :: xs)); [reflexivity|]. rewrite IH.
    transitivity (r <- (x <- layerM f (w, u) (v, e) ;; xs <- lzipM f (l :: a) (m :: b) ;; Ok (x :: xs)) ;; Ok (om r)); [|reflexivity].
    destruct (layerM f (w, u) (v, e)) as [z|]; [|reflexivity]. cbn [bind].
    destruct (lzipM f (l :: a) (m :: b)) as [zs|] eqn:E; [|reflexivity]. cbn [bind]. rewrite om_cons; [reflexivity|]. apply lzipM_is in E. rewrite E. discriminate.
Qed.

Lemma sgd_out rate x y draws ls : output_layer c ls -> Units.width c y ->
  sgd_run rate x (map re y) (om ls) draws = (r <- sgd_run rate x y ls draws ;; Ok (om r)).
Proof.
  intros H Wy. unfold sgd_run. apply (foldM_follow (fun l => om l) (output_layer c)); auto.
  - intros l i Hl. unfold sgd_epoch. rewrite sample_out by auto. destruct (sample_gradient x y l i) as [g|] eqn:G; [|reflexivity]. cbn [bind]. unfold sgd_update. f_equal.
    apply lzip_out; auto. exact (sample_shape _ _ _ _ _ G).
  - intros l i r Hl. unfold sgd_epoch. destruct (sample_gradient x y l i) as [g|] eqn:G; [|discriminate]. cbn [bind]. intros E. injection E as <-.
    apply (output_same l); auto. apply lzip_shape. exact (sample_shape _ _ _ _ _ G).
Qed.
Definition state_out (t : adam_state) : adam_state := {| params := om (params t); m_state := om (m_state t); v_state := om (v_state t) |}.
Definition state_fits (t : adam_state) : Prop := output_layer c (params t) /\ same_network (params t) (m_state t) /\ same_network (params t) (v_state t).
Lemma adam_update_out o t st g : state_fits st -> same_network (params st) g ->
  adam_update o t (state_out st) (om g) = (r <- adam_update o t st g ;; Ok (state_out r)) /\ forall r, adam_update o t st g = Ok r -> state_fits r.
Proof.
  intros (Hp & Sm & Sv) Sg. unfold adam_update, state_out. cbn [params m_state v_state].
  assert (T : forall a b, same_network (params st) a -> same_network (params st) b -> same_network a b) by (intros a b A B; apply (same_network_trans _ (params st)); [now apply same_network_sym|exact B]).
  assert (C : forall f a b, same_network (params st) a -> same_network (params st) b -> same_network (params st) (lzip f a b)).
  { intros f a b A B. apply (same_network_trans _ a); [exact A|]. apply lzip_shape. now apply T. }
  assert (S1 : same_network (params st) (lzip (moment_1 o) (m_state st) g)) by auto. assert (S2 : same_network (params st) (lzip (moment_2 o) (v_state st) g)) by auto.
  rewrite !lzip_out by (auto; eapply output_same; eauto). rewrite (lzipM_out (adam_step o t) NotANumber _ _ (adam_step_err o t)) by (auto; eapply output_same; eauto).
  destruct (lzipM (adam_step o t) (lzip (moment_1 o) (m_state st) g) (lzip (moment_2 o) (v_state st) g)) as [d|] eqn:D; [|split; [reflexivity|discriminate]]. cbn [bind].
  apply lzipM_is in D. assert (Sd : same_network (params st) d) by (subst d; auto).
  rewrite lzip_out by auto. split; [reflexivity|]. intros r E. injection E as <-. unfold state_fits. cbn [params m_state v_state].
  assert (Sp : same_network (params st) (lzip Rminus (params st) d)) by (apply C; auto; apply same_network_refl).
  split; [eapply output_same; eauto|]. split; (eapply same_network_trans; [apply same_network_sym; exact Sp|]); auto.
Qed.
Lemma adam_out o x y draws ls : output_layer c ls -> Units.width c y ->
  adam_run o x (map re y) (om ls) draws = (r <- adam_run o x y ls draws ;; Ok (om r)).
Proof.
  intros H Wy. unfold adam_run.
  assert (Ei : adam_init (om ls) = state_out (adam_init ls)) by (unfold adam_init, state_out; cbn [params m_state v_state]; now rewrite lmap_out).
  assert (Hi : state_fits (adam_init ls)) by (unfold state_fits, adam_init; cbn [params m_state v_state]; split; [auto|]; split; apply lmap_shape). rewrite Ei.
  destruct (foldM_follow state_out state_fits (adam_epoch o x y) (adam_epoch o x (map re y))) with (l := combine (seq 1 (length draws)) draws) (s := adam_init ls) as [E K]; auto.
  - intros st e Ws. unfold adam_epoch. cbn [params state_out]. rewrite sample_out by (auto; apply Ws).
    destruct (sample_gradient x y (params st) (snd e)) as [g|] eqn:G; [|reflexivity]. cbn [bind]. apply adam_update_out; auto. exact (sample_shape _ _ _ _ _ G).
  - intros st e r Ws. unfold adam_epoch. destruct (sample_gradient x y (params st) (snd e)) as [g|] eqn:G; [|discriminate]. cbn [bind]. apply adam_update_out; auto. exact (sample_shape _ _ _ _ _ G).
  - rewrite E. destruct (foldM (adam_epoch o x y) (combine (seq 1 (length draws)) draws) (adam_init ls)) as [st|]; reflexivity.
Qed.
End Classes.
