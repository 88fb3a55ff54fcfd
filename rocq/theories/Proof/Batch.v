(** Lemmas for C104 and C105: predictions of arrays row by row. *)
From Coq Require Import List ZArith Reals Bool Arith Lia Lra String.
From Verif.Model Require Import Base Ops Metrics Activations Network KMeans Kernels Smo Training Life Stump Batch.
From Verif.Model Require Tree Logistic Lda Rbf Gmm Ensemble Bayes.
From Verif.Spec Require Import Common Metrics Batch.
From Verif.Proof Require Import BaseLemmas Counting Metrics Activations.
Import ListNotations.
Local Open Scope R_scope.
Local Notation length := List.length.

(** ** Results up to the exception *)
Definition same {A} (a b : result A) : Prop :=
  match a, b with Ok x, Ok y => x = y | Err _, Err _ => True | _, _ => False end.

Lemma same_refl {A} (a : result A) : same a a.
Proof. destruct a; simpl; auto. Qed.
Lemma same_trans {A} (a b c : result A) : same a b -> same b c -> same a c.
Proof. destruct a, b, c; simpl; try tauto; congruence. Qed.
Lemma same_bind {A B} (a b : result A) (f g : A -> result B) : same a b -> (forall x, a = Ok x -> same (f x) (g x)) -> same (bind a f) (bind b g).
Proof. destruct a, b; simpl; intros H K; try tauto. subst. now apply K. Qed.

Lemma mapM_map_in {A B C} (f : B -> result C) (h : A -> B) l : mapM f (map h l) = mapM (fun a => f (h a)) l.
Proof. induction l as [|a l IH]; simpl; auto. now rewrite IH. Qed.
Lemma mapM_ext {A B} (f g : A -> result B) l : (forall a, In a l -> f a = g a) -> mapM f l = mapM g l.
Proof. intros H. induction l as [|a l IH]; simpl; auto. rewrite H by now left. rewrite IH; auto. intros b Hb. apply H. now right. Qed.
Lemma same_mapM {A B} (f g : A -> result B) l : (forall a, In a l -> same (f a) (g a)) -> same (mapM f l) (mapM g l).
Proof.
  intros H. induction l as [|a l IH]; simpl; auto. apply same_bind; [apply H; now left|]. intros x _.
  apply same_bind; [apply IH; intros b Hb; apply H; now right|]. intros y _. now simpl.
Qed.
(** A loop whose results are used in a second loop. *)
Lemma mapM_after {A B C} (f : A -> result B) (h : B -> result C) l :
  same (bs <- mapM f l ;; mapM h bs) (mapM (fun a => b <- f a ;; h b) l).
Proof.
  induction l as [|a l IH]; simpl; auto.
  destruct (f a) as [b|]; simpl; auto.
  destruct (mapM f l) as [bs|]; simpl in *.
  - destruct (h b) as [c|]; simpl; auto.
    destruct (mapM h bs) as [cs|], (mapM (fun a => b <- f a;; h b) l) as [cs'|]; simpl in *; try tauto. now subst.
  - destruct (mapM (fun a => b <- f a;; h b) l) as [cs'|]; simpl in *; try tauto. now destruct (h b).
Qed.
Lemma mapM_then_map {A B C} (f : A -> result B) (h : B -> C) l :
  (bs <- mapM f l ;; Ok (map h bs)) = mapM (fun a => b <- f a ;; Ok (h b)) l.
Proof.
  induction l as [|a l IH]; simpl; auto. destruct (f a) as [b|]; simpl; auto. rewrite <- IH. now destruct (mapM f l).
Qed.
Lemma mapM_const {A B} (c : bool) (e : err) (h : A -> B) l : l <> [] ->
  mapM (fun a => if c then Ok (h a) else Err e) l = if c then Ok (map h l) else Err e.
Proof.
  intros H. destruct c. - apply mapM_total; auto. - destruct l; [congruence|reflexivity].
Qed.

(** ** Row by row *)
Definition rowwise (w : nat) (P : list (list R) -> result output) (g : list R -> result (list R)) : Prop :=
  (forall m, rectangular w m -> m <> [] -> same (o <- P m ;; Ok (values o)) (mapM g m)) /\
  (forall o, P [] = Ok o -> values o = []).

Lemma values_squeeze l : values (squeeze l) = map (fun v => [v]) l.
Proof. destruct l as [|a [|b l]]; reflexivity. Qed.

Lemma lr_rows beta w : rowwise w (fun m => lr_array beta (Rows w m)) (fun r => if (length beta =? S w)%nat then Ok [Logistic.forward_row beta r] else Err ValueError).
Proof.
  unfold lr_array. split.
  - intros m _ Hm. rewrite mapM_const by auto. destruct (length beta =? S w)%nat; simpl; auto.
    rewrite values_squeeze. unfold Logistic.forward. now rewrite map_map.
  - intros o. destruct (length beta =? S w)%nat; [|discriminate]. intros H. injection H as <-. reflexivity.
Qed.
Lemma lda_rows p w : rowwise w (fun m => lda_array p (Rows w m)) (fun r => if (w =? length (Lda.lda_w p))%nat then Ok [IZR (Lda.lda_predict p r)] else Err ValueError).
Proof.
  unfold lda_array. cbn [as_rows]. split.
  - intros m _ Hm. rewrite mapM_const by auto. destruct (w =? _)%nat; simpl; auto. rewrite values_squeeze. now rewrite map_map.
  - intros o. destruct (w =? _)%nat; [|discriminate]. intros H. injection H as <-. reflexivity.
Qed.
Lemma svc_rows k d sv w : rowwise w (fun m => svc_array k d sv (Rows w m)) (fun r => kv <- kernel_values k d (support_vector sv) (Row r) ;; Ok [svc_label sv kv]).
Proof.
  unfold svc_array, samples. split.
  - intros m _ _. rewrite mapM_map_in. rewrite <- mapM_then_map.
    destruct (mapM _ m); simpl; auto. now rewrite map_map.
  - intros o H. injection H as <-. reflexivity.
Qed.
Lemma km_rows d c w : rowwise w (fun m => km_array d c (Rows w m)) (fun r => if compatible w d then k <- argmin nan_lt (map (km_distance r) c) ;; Ok [INR k] else Err ValueError).
Proof.
  unfold km_array. cbn [as_rows]. split.
  - intros m _ Hm. destruct (compatible w d).
    + unfold get_cluster. rewrite mapM_map_in, <- mapM_then_map. destruct (mapM _ m); simpl; auto. now rewrite map_map.
    + destruct m; [congruence|exact I].
  - intros o. destruct (compatible w d); [|discriminate]. intros H. injection H as <-. reflexivity.
Qed.
Lemma gm_rows rnd d t w : rowwise w (fun m => gm_array rnd d t (Rows w m))
  (fun r => if (w =? d)%nat then p <- Gmm.posterior_row rnd d t r ;; k <- argmin Rltb (map Ropp p) ;; Ok [INR k] else Err ValueError).
Proof.
  unfold gm_array. cbn [as_rows]. split.
  - intros m _ Hm. destruct (w =? d)%nat; [|destruct m; [congruence|exact I]].
    unfold Gmm.gm_predict, Gmm.posterior.
    pose proof (mapM_after (Gmm.posterior_row rnd d t) (fun row => argmin Rltb (map Ropp row)) m) as A.
    rewrite (mapM_ext (fun r => p <- Gmm.posterior_row rnd d t r ;; k <- argmin Rltb (map Ropp p) ;; Ok [INR k]) (fun r => k <- (p <- Gmm.posterior_row rnd d t r ;; argmin Rltb (map Ropp p)) ;; Ok [INR k])).
    2:{ intros r _. now destruct (Gmm.posterior_row rnd d t r). }
    rewrite <- mapM_then_map.
    destruct (bs <- mapM (Gmm.posterior_row rnd d t) m ;; mapM (fun row => argmin Rltb (map Ropp row)) bs) as [x|],
      (mapM (fun a => b <- Gmm.posterior_row rnd d t a ;; argmin Rltb (map Ropp b)) m) as [y|]; cbn [same bind values] in *; try tauto.
    subst. now rewrite map_map.
  - intros o. destruct (w =? d)%nat; [|discriminate]. intros H. injection H as <-. reflexivity.
Qed.
Lemma rbf_rows p w : rowwise w (fun m => rbf_array p (Rows w m))
  (fun r => if forallb (fun c => compatible w (length c)) (Rbf.rc p) then t <- Rbf.forward_row p r ;; Ok [fst (fst t)] else Err ValueError).
Proof.
  unfold rbf_array. split.
  - intros m _ Hm. destruct (forallb _ (Rbf.rc p)); [|destruct m; [congruence|exact I]].
    unfold Rbf.rbf_predict, Rbf.rbf_forward. rewrite <- mapM_then_map. destruct (mapM _ m); simpl; auto. now rewrite map_map.
  - intros o. destruct (forallb _ (Rbf.rc p)); [|discriminate]. intros H. injection H as <-. reflexivity.
Qed.

(** *** Ensembles *)
Definition stump_fits (w : nat) (s : stump) : bool := match s with Some (j, _, _) => (j <? w)%nat | None => false end.
Definition stump_answer (s : stump) (r : list R) : Z := match s with Some (j, t, m) => stump_label j t m r | None => 0%Z end.
Lemma stump_array_eq s w m : stump_fits w s = true -> stump_array s (Rows w m) = Ok (map (stump_answer s) m).
Proof. destruct s as [[[j t] mo]|]; simpl; [|discriminate]. intros ->. reflexivity. Qed.
Lemma stump_array_err s w m : stump_fits w s = false -> exists e, stump_array s (Rows w m) = Err e.
Proof. destruct s as [[[j t] mo]|]; simpl; [|eauto]. intros ->. eauto. Qed.
Lemma stumps_array ss w m : same (mapM (fun s => stump_array s (Rows w m)) ss) (if forallb (stump_fits w) ss then Ok (map (fun s => map (stump_answer s) m) ss) else Err IndexError).
Proof.
  induction ss as [|s ss IH]; [reflexivity|]. cbn [mapM forallb map]. destruct (stump_fits w s) eqn:F; cbn [andb].
  - rewrite stump_array_eq by auto. cbn [bind]. destruct (mapM _ ss), (forallb _ ss); simpl in *; try tauto. now subst.
  - destruct (stump_array_err s w m F) as [e ->]. exact I.
Qed.

Lemma seq_rows {B} (h : list R -> B) (k : nat -> B) m : (forall i, (i < length m)%nat -> k i = h (nth i m [])) -> map k (seq 0 (length m)) = map h m.
Proof.
  intros H. apply nth_ext with (d := k 0%nat) (d' := h []).
  - now rewrite !map_length, seq_length.
  - rewrite map_length, seq_length. intros i Hi.
    rewrite (map_nth k), (map_nth h), seq_nth by auto. now apply H.
Qed.
Lemma nth_answers {A} (h : A -> Z) (m : list A) a i : (i < length m)%nat -> nth i (map h m) 0%Z = h (nth i m a).
Proof. intros H. rewrite (nth_indep _ 0%Z (h a)) by now rewrite map_length. apply map_nth. Qed.

Definition bag_vote (ss : list stump) (r : list R) : R := if Rleb 0 (rsum (map (fun s => IZR (stump_answer s r)) ss)) then 1 else -1.
Lemma bag_rows ss w : rowwise w (fun m => bag_array ss (Rows w m)) (fun r => if forallb (stump_fits w) ss then Ok [bag_vote ss r] else Err IndexError).
Proof.
  unfold bag_array. split.
  - intros m _ Hm. rewrite mapM_const by auto. pose proof (stumps_array ss w m) as A.
    destruct (mapM _ ss) as [x|], (forallb (stump_fits w) ss); simpl in *; try tauto. subst. rewrite map_map.
    apply seq_rows. intros i Hi. unfold bag_vote. rewrite map_map. erewrite map_ext; [reflexivity|]. intros s. cbn. f_equal. now apply nth_answers.
  - intros o. destruct (mapM _ ss); [|discriminate]. intros H. injection H as <-. reflexivity.
Qed.

Definition tl_answer (t : tltree) (r : list R) : Z := match tl_sample t (Row r) with Ok z => z | Err _ => 0%Z end.
Definition tl_fits (t : tltree) (r : list R) : bool := match tl_sample t (Row r) with Ok _ => true | Err _ => false end.
Lemma tl_all t m : same (mapM (tl_sample t) (map Row m)) (if forallb (tl_fits t) m then Ok (map (tl_answer t) m) else Err IndexError).
Proof.
  induction m as [|r m IH]; simpl; auto. unfold tl_fits at 1, tl_answer at 1. destruct (tl_sample t (Row r)); simpl; auto.
  destruct (mapM _ (map Row m)), (forallb (tl_fits t) m); simpl in *; try tauto. now subst.
Qed.
Lemma ada_all (hs : list (tltree * R)) m :
  same (mapM (fun h => l <- mapM (tl_sample (fst h)) (map Row m) ;; Ok (snd h, l)) hs)
       (if forallb (fun h => forallb (tl_fits (fst h)) m) hs then Ok (map (fun h => (snd h, map (tl_answer (fst h)) m)) hs) else Err IndexError).
Proof.
  induction hs as [|h hs IH]; simpl; auto. pose proof (tl_all (fst h) m) as A.
  destruct (mapM (tl_sample (fst h)) (map Row m)) as [l|], (forallb (tl_fits (fst h)) m); simpl in *; try tauto. subst.
  destruct (mapM _ hs), (forallb _ hs); simpl in *; try tauto. now subst.
Qed.
Definition ada_vote (hs : list (tltree * R)) (r : list R) : R :=
  if Rleb 0 (rsum (map (fun h => snd h * IZR (tl_answer (fst h) r)) hs) / rsum (map snd hs)) then 1 else -1.
Lemma forallb_swap {A B} (f : A -> B -> bool) l m : forallb (fun a => forallb (f a) m) l = forallb (fun b => forallb (fun a => f a b) l) m.
Proof.
  apply eq_true_iff_eq. rewrite !forallb_forall. split; intros H x Hx; apply forallb_forall; intros y Hy.
  - specialize (H y Hy). rewrite forallb_forall in H. auto.
  - specialize (H y Hy). rewrite forallb_forall in H. auto.
Qed.
Lemma mapM_guard {A B} (c : A -> bool) (e : err) (h : A -> B) l :
  same (mapM (fun a => if c a then Ok (h a) else Err e) l) (if forallb c l then Ok (map h l) else Err e).
Proof.
  induction l as [|a l IH]; simpl; auto. destruct (c a); simpl; auto. destruct (mapM _ l), (forallb c l); simpl in *; try tauto. now subst.
Qed.
Lemma forallb_const {A} (f : A -> bool) (c : bool) l : l <> [] -> forallb (fun a => f a && c) l = forallb f l && c.
Proof.
  intros H. destruct c.
  - rewrite andb_true_r. induction l as [|a l IH]; [congruence|]. simpl. rewrite andb_true_r. f_equal. destruct l; [reflexivity|]. apply IH. discriminate.
  - rewrite andb_false_r. destruct l; [congruence|]. simpl. now rewrite andb_false_r.
Qed.
Lemma same_sym {A} (a b : result A) : same a b -> same b a.
Proof. destruct a, b; simpl; auto. Qed.
Lemma ada_rows hs w : rowwise w (fun m => ada_array hs (Rows w m))
  (fun r => if forallb (fun h => tl_fits (fst h) r) hs && negb (Reqb (rsum (map snd hs)) 0) then Ok [ada_vote hs r] else Err IndexError).
Proof.
  unfold ada_array. cbn [samples first_dimension]. split.
  - intros m _ Hm. eapply same_trans; [|apply same_sym; apply mapM_guard].
    pose proof (ada_all hs m) as A. rewrite (forallb_swap (fun h => tl_fits (fst h)) hs m) in A.
    replace (length m =? 0)%nat with false by (destruct m; [congruence|reflexivity]). cbn [negb]. rewrite andb_true_r.
    rewrite forallb_const by auto.
    destruct (mapM _ hs) as [x|], (forallb (fun b => forallb (fun a => tl_fits (fst a) b) hs) m); cbn [same bind andb] in *; try tauto.
    subst. destruct (Reqb (rsum (map snd hs)) 0); cbn [negb bind same values]; auto. rewrite map_map.
    apply seq_rows. intros i Hi. unfold ada_vote. rewrite map_map. cbn [fst snd].
    erewrite map_ext; [reflexivity|]. intros h. cbn. f_equal. f_equal. now apply nth_answers.
  - intros o. destruct (mapM _ hs); [|discriminate]. cbn [bind length Nat.eqb negb]. rewrite andb_false_r. intros H. injection H as <-. reflexivity.
Qed.

(** *** The layered network *)
Lemma softmax_rows z : z <> [] -> (forall r, In r z -> r <> []) ->
  exists p, softmax z = Ok p /\ Forall2 (fun r q => softmax [r] = Ok [q]) z p.
Proof.
  intros Hz Hr. unfold softmax, matrix_max. destruct z as [|[|v r] z]; [congruence|destruct (Hr []); [now left|reflexivity]|].
  cbn [List.concat app]. set (c := fold_left Rmax _ v). cbn [bind]. eexists. split; [reflexivity|]. clearbody c. clear Hz.
  revert Hr. generalize ((v :: r) :: z) as y. intros y Hr. induction y as [|a y IH]; cbn [map]; constructor; [|apply IH; intros q Hq; apply Hr; now right].
  assert (Ha : a <> []) by (apply Hr; now left). destruct a as [|u a]; [congruence|]. cbn [List.concat app]. rewrite app_nil_r.
  set (c' := fold_left Rmax a u). cbn [bind map]. do 2 f_equal. clearbody c'. fold (map (fun v0 : R => exp (v0 - c') / rsum (map (fun v1 : R => exp (v1 - c')) (u :: a)))).
  pose proof (exp_sum_pos c (u :: a) Ha) as S. pose proof (exp_sum_pos c' (u :: a) Ha) as S'.
  assert (Q : rsum (map (fun v => exp (v - c')) (u :: a)) = exp (c - c') * rsum (map (fun v => exp (v - c)) (u :: a))).
  { rewrite <- rsum_map_scal. f_equal. apply map_ext. intros x. rewrite <- exp_plus. f_equal. lra. }
  match goal with |- ?l = ?r => change (map (fun v => exp (v - c') / rsum (map (fun v => exp (v - c')) (u :: a))) (u :: a) = map (fun v => exp (v - c) / rsum (map (fun v => exp (v - c)) (u :: a))) (u :: a)) end.
  apply map_ext. intros x. rewrite Q. replace (x - c') with ((c - c') + (x - c)) by lra. rewrite exp_plus.
  pose proof (exp_pos (c - c')). field. lra.
Qed.

Definition the_row (m : list (list R)) : result (list R) := match m with [q] => Ok q | _ => Err ValueError end.
Definition activated (w : list (list R)) (z : list R) : result (list R) := p <- output_activation w [z] ;; the_row p.
Definition forward_one (ls : list layer) (r : list R) : result (list R) := p <- Network.forward ls [r] ;; the_row (fst p).

Lemma activation_rows w z : z <> [] -> rectangular (length w) z -> same (output_activation w z) (mapM (activated w) z).
Proof.
  intros Hz Hr. unfold activated, output_activation. destruct (length w =? 1)%nat.
  - cbn [bind the_row mmap map]. rewrite (mapM_total _ (map sigmoid)); [reflexivity|]. auto.
  - destruct (length w) as [|k] eqn:L.
    + destruct z as [|r z]; [congruence|]. assert (E : List.concat (r :: z) = []).
      { clear -Hr. induction (r :: z) as [|a y IH]; auto. inversion Hr; subst. destruct a; [|discriminate]. simpl. auto. }
      unfold softmax at 1, matrix_max. rewrite E. cbn [bind]. inversion Hr; subst. destruct r; [|discriminate]. exact I.
    + destruct (softmax_rows z Hz) as (p & -> & F).
      { intros r Hi E. unfold rectangular in Hr. rewrite Forall_forall in Hr. specialize (Hr r Hi). subst. discriminate. }
      clear -F. assert (Q : mapM (fun r => p <- softmax [r] ;; the_row p) z = Ok p); [|rewrite Q; reflexivity].
      induction F as [|r q z p H F IH]; [reflexivity|]. cbn [mapM]. rewrite H. cbn [bind the_row]. rewrite IH. reflexivity.
Qed.
Lemma affine_lengths l x z : affine l x = Ok z -> rectangular (length (fst l)) z /\ length z = length x.
Proof.
  unfold affine. revert z. induction x as [|r x IH]; simpl; intros z H; [injection H as <-; split; [constructor|reflexivity]|].
  unfold affine_row at 1 in H. destruct (forallb _ (fst l) && _)%bool eqn:F; [|discriminate]. cbn [bind] in H.
  destruct (mapM _ x) as [z'|]; [|discriminate]. injection H as <-. destruct (IH z' eq_refl) as [A B].
  split; [|simpl; congruence]. constructor; auto. apply andb_true_iff in F. destruct F as [_ F]. apply Nat.eqb_eq in F.
  unfold zip2. rewrite map_length, combine_length, map_length, F. apply Nat.min_id.
Qed.
Lemma forward_rows : forall ls x w, x <> [] -> rectangular w x ->
  same (p <- Network.forward ls x ;; Ok (fst p)) (mapM (forward_one ls) x).
Proof.
  induction ls as [|l ls IH]; intros x w Hx Hr.
  - destruct x; [congruence|exact I].
  - set (h := fun z => match ls with [] => activated (fst l) z | _ => forward_one ls (map relu z) end).
    assert (E : forall r, forward_one (l :: ls) r = (z <- affine_row l r ;; h z)).
    { intros r. unfold forward_one. cbn [Network.forward]. unfold affine. cbn [mapM]. destruct (affine_row l r) as [z|]; [|reflexivity].
      cbn [bind]. unfold h. destruct ls as [|l' ls']; [unfold activated; now destruct (output_activation (fst l) [z])|].
      unfold forward_one. change (mmap relu [z]) with [map relu z]. destruct (Network.forward (l' :: ls') [map relu z]); reflexivity. }
    rewrite (mapM_ext (forward_one (l :: ls)) (fun r => z <- affine_row l r ;; h z)) by auto.
    eapply same_trans; [|apply mapM_after]. cbn [Network.forward]. fold (affine l x).
    destruct (affine l x) as [z|] eqn:A; [|exact I]. cbn [bind]. apply affine_lengths in A. destruct A as [A1 A2].
    assert (Hz : z <> []) by (intros ->; destruct x; [congruence|discriminate]).
    unfold h. destruct ls as [|l' ls'].
    + pose proof (activation_rows (fst l) z Hz A1) as Q. destruct (output_activation (fst l) z), (mapM _ z); simpl in *; tauto.
    + specialize (IH (mmap relu z) (length (fst l))). unfold mmap in *. rewrite mapM_map_in in IH.
      assert (Q : same (p <- Network.forward (l' :: ls') (map (map relu) z);; Ok (fst p)) (mapM (fun a => forward_one (l' :: ls') (map relu a)) z)).
      { apply IH; [destruct z; [congruence|discriminate]|]. apply Forall_map. eapply Forall_impl; [|exact A1]. intros r. now rewrite map_length. }
      clear -Q. destruct (Network.forward (l' :: ls') (map (map relu) z)), (mapM _ z); simpl in *; tauto.
Qed.
Lemma forward_nil : forall ls p, Network.forward ls [] = Ok p -> fst p = [].
Proof.
  induction ls as [|l ls IH]; intros p; [discriminate|]. cbn [Network.forward affine mapM bind mmap map].
  destruct ls as [|l' ls'].
  - unfold output_activation. destruct (length (fst l) =? 1)%nat; cbn; [intros H; injection H as <-; reflexivity|discriminate].
  - change (mmap relu []) with (@nil (list R)). destruct (Network.forward (l' :: ls') []) as [q|]; [|discriminate]. intros H. injection H as <-. cbn. now apply IH.
Qed.
Lemma bp_rows ls w : rowwise w (fun m => bp_array ls (Rows w m)) (fun r => if chain w ls then forward_one ls r else Err ValueError).
Proof.
  unfold bp_array. cbn [as_rows]. split.
  - intros m Hr Hm. destruct (chain w ls); [|destruct m; [congruence|exact I]].
    pose proof (forward_rows ls m w Hm Hr) as Q. destruct (Network.forward ls m), (mapM (forward_one ls) m); simpl in *; tauto.
  - intros o. destruct (chain w ls); [|discriminate]. destruct (Network.forward ls []) as [p|] eqn:F; [|discriminate].
    intros H. injection H as <-. now apply forward_nil in F.
Qed.

(** ** All models *)
Definition answer_row (f : numeric) (w : nat) (r : list R) : result (list R) :=
  match f with
  | FLogistic beta => if (length beta =? S w)%nat then Ok [Logistic.forward_row beta r] else Err ValueError
  | FLda p => if (w =? length (Lda.lda_w p))%nat then Ok [IZR (Lda.lda_predict p r)] else Err ValueError
  | FSvc k d sv => kv <- kernel_values k d (support_vector sv) (Row r) ;; Ok [svc_label sv kv]
  | FKMeans d c => if compatible w d then k <- argmin nan_lt (map (km_distance r) c) ;; Ok [INR k] else Err ValueError
  | FMixture rnd d t => if (w =? d)%nat then p <- Gmm.posterior_row rnd d t r ;; k <- argmin Rltb (map Ropp p) ;; Ok [INR k] else Err ValueError
  | FRbf p => if forallb (fun c => compatible w (length c)) (Rbf.rc p) then t <- Rbf.forward_row p r ;; Ok [fst (fst t)] else Err ValueError
  | FBp ls => if chain w ls then forward_one ls r else Err ValueError
  | FBagging ss => if forallb (stump_fits w) ss then Ok [bag_vote ss r] else Err IndexError
  | FAda hs => if forallb (fun h => tl_fits (fst h) r) hs && negb (Reqb (rsum (map snd hs)) 0) then Ok [ada_vote hs r] else Err IndexError
  end.
Lemma all_rows f w : rowwise w (fun m => predict_array f (Rows w m)) (answer_row f w).
Proof.
  destruct f; [apply lr_rows|apply lda_rows|apply svc_rows|apply km_rows|apply gm_rows|apply rbf_rows|apply bp_rows|apply bag_rows|apply ada_rows].
Qed.

Lemma same_ok {A} (a b : result A) x : same a b -> (a = Ok x <-> b = Ok x).
Proof. destruct a, b; simpl; intros H; subst; try tauto; split; discriminate. Qed.
Lemma mapM_nth {A B} (f : A -> result B) l bs : mapM f l = Ok bs -> length bs = length l /\ forall i a b, (i < length l)%nat -> f (nth i l a) = Ok (nth i bs b).
Proof.
  revert bs. induction l as [|x l IH]; simpl; intros bs H; [injection H as <-; split; [reflexivity|intros; lia]|].
  destruct (f x) as [y|] eqn:F; [|discriminate]. cbn [bind] in H. destruct (mapM f l) as [ys|]; [|discriminate]. injection H as <-.
  destruct (IH ys eq_refl) as [L N]. split; [simpl; congruence|]. intros [|i] a b Hi; simpl; auto. apply N. simpl in Hi. lia.
Qed.
Lemma single_row f w r v : length r = w ->
  (exists o, predict_array f (Rows w [r]) = Ok o /\ values o = [v]) <-> answer_row f w r = Ok v.
Proof.
  intros Hr. destruct (all_rows f w) as [H _]. specialize (H [r]). cbv beta in H. cbn [mapM] in H.
  assert (S := H (Forall_cons _ Hr (Forall_nil _)) ltac:(discriminate)). clear H.
  destruct (predict_array f (Rows w [r])) as [o|], (answer_row f w r) as [u|]; cbn [bind same] in S; try tauto.
  - split; [intros (o' & E & V); injection E as <-; congruence|intros E; injection E as ->; exists o; auto].
  - split; [intros (o' & E & _)|]; discriminate.
Qed.
Lemma each_row_main f w m o : rectangular w m -> predict_array f (Rows w m) = Ok o ->
  length (values o) = length m /\
  forall i, (i < length m)%nat -> exists o1, predict_array f (Rows w [nth i m []]) = Ok o1 /\ values o1 = [nth i (values o) []].
Proof.
  intros Hr Ho. destruct m as [|r m].
  - destruct (all_rows f w) as [_ H]. rewrite (H o Ho). split; [reflexivity|simpl; intros; lia].
  - destruct (all_rows f w) as [H _]. specialize (H (r :: m) Hr ltac:(discriminate)). cbv beta in H. rewrite Ho in H. cbn [bind] in H.
    destruct (mapM (answer_row f w) (r :: m)) as [bs|] eqn:E; [|destruct H]. cbn [same] in H. subst bs.
    apply mapM_nth in E. destruct E as [L N]. split; auto. intros i Hi. apply single_row; [|apply N; auto].
    unfold rectangular in Hr. rewrite Forall_forall in Hr. apply Hr. now apply nth_In.
Qed.
Lemma rows_together_main f w m : rectangular w m -> m <> [] ->
  (forall r, In r m -> exists o, predict_array f (Rows w [r]) = Ok o) -> exists o, predict_array f (Rows w m) = Ok o.
Proof.
  intros Hr Hm Ha. destruct (all_rows f w) as [H _]. specialize (H m Hr Hm). cbv beta in H.
  assert (E : exists bs, mapM (answer_row f w) m = Ok bs).
  { clear H Hm. induction m as [|r m IH]; [exists []; reflexivity|]. inversion Hr as [|? ? Hl Hr']; subst.
    destruct (Ha r (or_introl eq_refl)) as [o1 Ho1]. destruct (each_row_main f (length r) [r] o1) as [L1 N1]; auto.
    { repeat constructor. }
    assert (V : values o1 = [nth 0 (values o1) []]) by (destruct (values o1) as [|v [|? ?]]; [discriminate|reflexivity|discriminate]).
    assert (A : answer_row f (length r) r = Ok (nth 0 (values o1) [])) by (apply single_row; eauto).
    destruct IH as [bs Hbs]; auto. { intros q Hq. apply Ha. now right. }
    exists (nth 0 (values o1) [] :: bs). simpl. rewrite A. cbn [bind]. rewrite Hbs. reflexivity. }
  destruct E as [bs E]. rewrite E in H. destruct (predict_array f (Rows w m)); [eauto|destruct H].
Qed.

(** ** Shapes *)
Lemma softmax_lengths z p k : softmax z = Ok p -> rectangular k z -> rectangular k p.
Proof.
  unfold softmax. destruct (matrix_max z) as [c|]; [|discriminate]. cbn [bind]. intros H R. injection H as <-.
  apply Forall_map. eapply Forall_impl; [|exact R]. intros r Hr. now rewrite map_length.
Qed.
Lemma forward_widths : forall ls x p, Network.forward ls x = Ok p -> rectangular (outputs ls) (fst p).
Proof.
  induction ls as [|l ls IH]; intros x p; [discriminate|]. cbn [Network.forward].
  destruct (affine l x) as [z|] eqn:A; [|discriminate]. cbn [bind]. apply affine_lengths in A. destruct A as [A _].
  destruct ls as [|l' ls'].
  - destruct (output_activation (fst l) z) as [q|] eqn:Q; [|discriminate]. intros H. injection H as <-. unfold outputs. cbn [fst last].
    unfold output_activation in Q. destruct (length (fst l) =? 1)%nat; [|eapply softmax_lengths; eauto].
    injection Q as <-. apply Forall_map. eapply Forall_impl; [|exact A]. intros r. now rewrite map_length.
  - destruct (Network.forward (l' :: ls') (mmap relu z)) as [q|] eqn:Q; [|discriminate]. intros H. injection H as <-. cbn [fst].
    exact (IH _ _ Q).
Qed.
Lemma shape_squeeze l : shape (squeeze l) = if (length l =? 1)%nat then [] else [length l].
Proof. destruct l as [|a [|b l]]; reflexivity. Qed.
Definition vectored (f : numeric) : bool := match f with FLogistic _ | FLda _ | FRbf _ | FBp _ => false | _ => true end.
Lemma vectored_out f w m o : vectored f = true -> predict_array f (Rows w m) = Ok o -> exists l, o = Vector l.
Proof.
  destruct f; simpl; try discriminate; intros _ H.
  - unfold svc_array in H. destruct (mapM _ _); [|discriminate]. injection H as <-. eauto.
  - unfold km_array in H. cbn [as_rows] in H. destruct (compatible w d); [|discriminate]. destruct (get_cluster _); [|discriminate]. injection H as <-. eauto.
  - unfold gm_array in H. cbn [as_rows] in H. destruct (w =? d)%nat; [|discriminate]. destruct (Gmm.gm_predict _ _ _ _); [|discriminate]. injection H as <-. eauto.
  - unfold bag_array in H. destruct (mapM _ _); [|discriminate]. injection H as <-. eauto.
  - unfold ada_array in H. destruct (mapM _ _); [|discriminate]. cbn [bind] in H. destruct (_ && _)%bool; [discriminate|]. injection H as <-. eauto.
Qed.
Lemma vector_values l : length (values (Vector l)) = length l /\ Forall (fun v => length v = 1%nat) (values (Vector l)).
Proof. simpl. rewrite map_length. split; auto. apply Forall_map. apply Forall_forall. reflexivity. Qed.
Lemma squeeze_widths l : Forall (fun v => length v = 1%nat) (values (squeeze l)).
Proof. rewrite values_squeeze. apply Forall_map. apply Forall_forall. reflexivity. Qed.

Lemma shape_main f w m o : rectangular w m -> predict_array f (Rows w m) = Ok o ->
  shape o = expected_shape f (length m) /\ Forall (fun v => length v = answer_width f) (values o).
Proof.
  intros Hr Ho. destruct (each_row_main f w m o Hr Ho) as [L _]. destruct (vectored f) eqn:V.
  - destruct (vectored_out f w m o V Ho) as [l ->]. destruct (vector_values l) as [A B]. rewrite A in L.
    destruct f; try discriminate; cbn [shape expected_shape answer_width]; rewrite L; auto.
  - destruct f; try discriminate; cbn [expected_shape answer_width]; cbn [predict_array] in Ho.
    + unfold lr_array in Ho. destruct (length beta =? S w)%nat; [|discriminate]. injection Ho as <-. rewrite shape_squeeze.
      unfold Logistic.forward at 1 2. rewrite map_length. split; auto. apply squeeze_widths.
    + unfold lda_array in Ho. cbn [as_rows] in Ho. destruct (w =? _)%nat; [|discriminate]. injection Ho as <-. rewrite shape_squeeze, map_length.
      split; auto. apply squeeze_widths.
    + unfold rbf_array in Ho. destruct (forallb _ _); [|discriminate]. destruct (Rbf.rbf_predict p m) as [v|]; [|discriminate]. injection Ho as <-.
      cbn [values shape] in *. rewrite L. split; auto. apply Forall_map. apply Forall_forall. reflexivity.
    + unfold bp_array in Ho. cbn [as_rows] in Ho. destruct (chain w ls); [|discriminate]. destruct (Network.forward ls m) as [p|] eqn:F; [|discriminate].
      injection Ho as <-. cbn [values shape] in *. rewrite L. split; [reflexivity|]. exact (forward_widths ls m p F).
Qed.

(** ** Batches one after the other *)
Lemma mapM_app {A B} (f : A -> result B) l m : mapM f (l ++ m) = (a <- mapM f l ;; b <- mapM f m ;; Ok (a ++ b)).
Proof.
  induction l as [|x l IH]; cbn [mapM app bind]; [now destruct (mapM f m)|]. destruct (f x); cbn [bind]; auto. rewrite IH.
  destruct (mapM f l); cbn [bind]; auto. now destruct (mapM f m).
Qed.
Lemma append_main f w m1 m2 : rectangular w m1 -> rectangular w m2 -> m1 <> [] -> m2 <> [] ->
  forall v, (exists o, predict_array f (Rows w (m1 ++ m2)) = Ok o /\ values o = v) <->
  (exists o1 o2, predict_array f (Rows w m1) = Ok o1 /\ predict_array f (Rows w m2) = Ok o2 /\ v = values o1 ++ values o2).
Proof.
  intros R1 R2 N1 N2 v. destruct (all_rows f w) as [H _].
  assert (H1 := H m1 R1 N1). assert (H2 := H m2 R2 N2).
  assert (H3 := H (m1 ++ m2) (proj2 (Forall_app _ _ _) (conj R1 R2)) ltac:(destruct m1; [congruence|discriminate])).
  clear H. cbv beta in *. rewrite mapM_app in H3.
  destruct (predict_array f (Rows w m1)) as [o1|], (mapM (answer_row f w) m1) as [a1|]; cbn [bind same] in *; try tauto;
  destruct (predict_array f (Rows w m2)) as [o2|], (mapM (answer_row f w) m2) as [a2|]; cbn [bind same] in *; try tauto;
  destruct (predict_array f (Rows w (m1 ++ m2))) as [o|]; cbn [bind same] in *; try tauto; subst.
  - split.
    + intros (o' & E & V). injection E as <-. exists o1, o2. rewrite <- V. auto.
    + intros (p1 & p2 & E1 & E2 & ->). injection E1 as <-. injection E2 as <-. eauto.
  - split; [intros (o' & E & _)|intros (p1 & p2 & E1 & E2 & _)]; discriminate.
  - split; [intros (o' & E & _)|intros (p1 & p2 & E1 & E2 & _)]; discriminate.
  - split; [intros (o' & E & _)|intros (p1 & p2 & E1 & E2 & _)]; discriminate.
Qed.

(** ** The models of single rows *)
Lemma stretch_same {A} (n : nat) (v : list A) : length v = n -> stretch n v = v.
Proof. destruct v as [|a [|b v]]; simpl; intros <-; reflexivity. Qed.
Lemma svc_link k K d sv m : kernel_fun k = Ok K -> rectangular d (support_vector sv) ->
  length (support_vector sv) = length (support_alpha sv) -> rectangular d m ->
  predict_array (FSvc k d sv) (Rows d m) = Ok (Vector (map (fun r => IZR (svc_predict K sv r)) m)).
Proof.
  intros HK Rs Ls Rm. cbn [predict_array]. unfold svc_array. cbn [samples]. rewrite mapM_map_in.
  rewrite (mapM_total _ (fun r => map (fun c => K r c) (support_vector sv))).
  2:{ intros r Hr. unfold rectangular in Rm. rewrite Forall_forall in Rm. specialize (Rm r Hr). unfold kernel_values. rewrite HK. cbn [bind].
      unfold compatible. rewrite Rm, Nat.eqb_refl. cbn [orb]. destruct (subtracts k); [|reflexivity]. f_equal. apply map_ext_in. intros c Hc.
      unfold rectangular in Rs. rewrite Forall_forall in Rs. specialize (Rs c Hc). now rewrite !stretch_same by congruence. }
  cbn [bind]. do 2 f_equal. rewrite map_map. apply map_ext. intros r. unfold svc_label, svc_predict, svc_decision.
  replace (rsum (map (fun p => fst (fst p) * snd (fst p) * snd p) (combine (combine (support_alpha sv) (support_y sv)) (map (fun c => K r c) (support_vector sv)))))
    with (rsum (map (fun p => fst (fst p) * snd (fst p) * K r (snd p)) (combine (combine (support_alpha sv) (support_y sv)) (support_vector sv)))).
  - destruct (Rltb _ 0); reflexivity.
  - f_equal. generalize (combine (support_alpha sv) (support_y sv)) as a. generalize (support_vector sv) as b.
    induction b as [|y b IH]; intros [|x a]; cbn [combine map]; auto. f_equal. apply IH.
Qed.
Lemma km_link d c m : Forall (fun o => match o with Some v => length v = d | None => True end) c -> rectangular d m ->
  predict_array (FKMeans d c) (Rows d m) = (l <- km_predict c m ;; Ok (Vector (map INR l))).
Proof.
  intros Hc Hm. cbn [predict_array]. unfold km_array. cbn [as_rows]. unfold compatible. rewrite Nat.eqb_refl. cbn [orb].
  unfold km_predict, calculate_euclidean_distance. erewrite map_ext_in; [reflexivity|]. intros r Hr. apply map_ext_in. intros o Ho.
  unfold rectangular in Hm. rewrite Forall_forall in Hm, Hc. specialize (Hm r Hr). specialize (Hc o Ho). destruct o as [v|]; [|reflexivity].
  unfold km_distance, distance. now rewrite !stretch_same by congruence.
Qed.
Lemma sum_IZR {A} (h : A -> Z) l : rsum (map (fun a => IZR (h a)) l) = IZR (fold_right Z.add 0%Z (map h l)).
Proof. induction l as [|a l IH]; simpl; auto. rewrite plus_IZR, <- IH. reflexivity. Qed.
Lemma mapM_agree {A B} (f g : A -> result B) l x : mapM f l = Ok x -> (forall a, In a l -> forall b, f a = Ok b -> g a = Ok b) -> mapM g l = Ok x.
Proof.
  revert x. induction l as [|a l IH]; intros x H K; cbn [mapM] in *; auto. destruct (f a) as [b|] eqn:F; [|discriminate].
  rewrite (K a (or_introl eq_refl) b F). cbn [bind] in *. destruct (mapM f l) as [y|]; [|discriminate]. erewrite IH; eauto. intros c Hc. apply K. now right.
Qed.
Lemma bag_link b w m o : predict_array (FBagging (Ensemble.bag_stumps b)) (Rows w m) = Ok o ->
  exists l, Ensemble.bag_predict b m = Ok l /\ o = Vector (map IZR l).
Proof.
  cbn [predict_array]. unfold bag_array, Ensemble.bag_predict. destruct (mapM _ (Ensemble.bag_stumps b)) as [x|] eqn:M; [|discriminate].
  cbn [bind]. intros H. injection H as <-. rewrite (mapM_agree _ (fun s => stump_predict s m) _ _ M).
  - cbn [bind]. eexists. split; [reflexivity|]. f_equal. cbn [first_dimension]. rewrite map_map. apply map_ext. intros i. rewrite sum_IZR.
    set (z := fold_right Z.add 0%Z _). unfold Rleb. destruct (Rle_dec 0 (IZR z)) as [H|H], (0 <=? z)%Z eqn:Z0; auto.
    + apply le_IZR in H. lia.
    + destruct H. apply IZR_le. lia.
  - intros s _ l. destruct s as [[[j t] mo]|]; simpl; [destruct (j <? w)%nat; [auto|discriminate]|discriminate].
Qed.
Lemma tl_link t r z : tl_sample t (Row r) = Ok z -> z = tl_predict t r.
Proof.
  revert z. induction t as [l|j p u IU l IL]; intros z; cbn [tl_sample tl_predict]; [congruence|]. unfold get_at, feat.
  destruct (nth_error r j) as [v|] eqn:N; [|discriminate]. cbn [bind]. rewrite (nth_error_nth _ _ _ N). destruct (Rleb p v); auto.
Qed.
Lemma ada_link b w m o : Forall (fun r => length r = w) m -> predict_array (FAda (Ensemble.members tltree b)) (Rows w m) = Ok o ->
  exists l, mapM (Ensemble.ada_predict tltree tl_predict b) m = Ok l /\ o = Vector (map IZR l).
Proof.
  intros Hr Ho. destruct (each_row_main _ _ _ _ Hr Ho) as [L N].
  destruct (vectored_out (FAda (Ensemble.members tltree b)) w m o eq_refl Ho) as [v ->]. destruct (vector_values v) as [A _]. rewrite A in L.
  assert (Q : Forall2 (fun r u => exists z, Ensemble.ada_predict tltree tl_predict b r = Ok z /\ u = IZR z) m v).
  { clear Ho A. revert v L N Hr. induction m as [|r m IH]; intros [|u v] L N Hr; try discriminate; constructor.
    - destruct (N 0%nat ltac:(simpl; lia)) as (o1 & P & V). cbn [nth] in P. inversion Hr; subst.
      assert (E : answer_row (FAda (Ensemble.members tltree b)) (length r) r = Ok [u]) by (apply single_row; [reflexivity|exists o1; split; [exact P|exact V]]).
      cbn [answer_row] in E. unfold Ensemble.ada_predict.
      destruct (forallb (fun h => tl_fits (fst h) r) (Ensemble.members tltree b)) eqn:F; [|discriminate].
      destruct (Reqb (rsum (map snd (Ensemble.members tltree b))) 0); [discriminate|]. cbn [andb negb] in E. injection E as <-.
      eexists. split; [reflexivity|]. unfold ada_vote.
      rewrite (map_ext_in (fun h => snd h * IZR (tl_answer (fst h) r)) (fun h => snd h * IZR (tl_predict (fst h) r))).
      + destruct (Rleb 0 _); reflexivity.
      + intros h Hh. rewrite forallb_forall in F. specialize (F h Hh). unfold tl_fits, tl_answer in *.
        destruct (tl_sample (fst h) (Row r)) eqn:S; [|discriminate]. now rewrite (tl_link _ _ _ S).
    - apply IH; [simpl in L; lia| |now inversion Hr]. intros i Hi. apply (N (S i)). simpl. lia. }
  clear -Q. assert (E : exists l, mapM (Ensemble.ada_predict tltree tl_predict b) m = Ok l /\ v = map IZR l); [|destruct E as (l & A & ->); eauto].
  induction Q as [|r u m v (z & A & ->) Q (l & B & ->)]; [exists []; auto|]. exists (z :: l). cbn [mapM]. rewrite A. cbn [bind]. rewrite B. auto.
Qed.

(** ** Arrays with one dimension *)
Lemma svc_flat k d sv l : subtracts k = true -> rectangular d (support_vector sv) ->
  predict_array (FSvc k d sv) (Flat l) = predict_array (FSvc k d sv) (Rows d (map (fun v => repeat v d) l)).
Proof.
  intros S R. cbn [predict_array]. unfold svc_array. cbn [samples]. f_equal. rewrite map_map, !mapM_map_in. apply mapM_ext. intros v _.
  unfold kernel_values. rewrite S. destruct (kernel_fun k) as [K|]; [|reflexivity]. cbn [bind]. unfold compatible. rewrite repeat_length, Nat.eqb_refl. cbn [orb].
  f_equal. apply map_ext_in. intros c Hc. unfold rectangular in R. rewrite Forall_forall in R. specialize (R c Hc).
  rewrite !stretch_same by (rewrite ?repeat_length; congruence). reflexivity.
Qed.
Lemma svc_column k d sv l : subtracts k = true -> rectangular d (support_vector sv) ->
  predict_array (FSvc k d sv) (Rows 1 (map (fun v => [v]) l)) = predict_array (FSvc k d sv) (Rows d (map (fun v => repeat v d) l)).
Proof.
  intros S R. cbn [predict_array]. unfold svc_array. cbn [samples]. f_equal. rewrite !map_map, !mapM_map_in. apply mapM_ext. intros v _.
  unfold kernel_values. rewrite S. destruct (kernel_fun k) as [K|]; [|reflexivity]. cbn [bind]. unfold compatible. rewrite repeat_length, (Nat.eqb_refl d).
  change (length [v]) with 1%nat. rewrite (Nat.eqb_refl 1), !orb_true_r. cbn [orb].
  f_equal. apply map_ext_in. intros c Hc. unfold rectangular in R. rewrite Forall_forall in R. specialize (R c Hc).
  rewrite (stretch_same (length c) (repeat v d)), (stretch_same d c) by (rewrite ?repeat_length; congruence). cbn [stretch]. rewrite R.
  f_equal. destruct c as [|a [|b c]]; reflexivity.
Qed.
Lemma km_column d c l : Forall (fun o => match o with Some v => length v = d | None => True end) c ->
  predict_array (FKMeans d c) (Rows 1 (map (fun v => [v]) l)) = predict_array (FKMeans d c) (Rows d (map (fun v => repeat v d) l)).
Proof.
  intros Hc. cbn [predict_array]. unfold km_array. cbn [as_rows]. unfold compatible. rewrite !Nat.eqb_refl, !orb_true_r. cbn [orb].
  rewrite !map_map. erewrite map_ext; [reflexivity|]. intros v. apply map_ext_in. intros o Ho. rewrite Forall_forall in Hc. specialize (Hc o Ho).
  destruct o as [c'|]; [|reflexivity]. unfold km_distance. rewrite (stretch_same (length c') (repeat v d)), (stretch_same (length (repeat v d)) c') by (rewrite ?repeat_length; congruence).
  change (stretch (length c') [v]) with (repeat v (length c')). rewrite Hc. do 3 f_equal. destruct c' as [|a [|b c']]; reflexivity.
Qed.
Lemma km_narrow w c m : rectangular w m ->
  predict_array (FKMeans 1 (map (option_map (fun v => [v])) c)) (Rows w m) = predict_array (FKMeans w (map (option_map (fun v => repeat v w)) c)) (Rows w m).
Proof.
  intros Hm. cbn [predict_array]. unfold km_array. cbn [as_rows]. unfold compatible. rewrite !Nat.eqb_refl, !orb_true_r. cbn [orb].
  erewrite map_ext_in; [reflexivity|]. intros r Hr. rewrite !map_map. apply map_ext. intros o. unfold rectangular in Hm. rewrite Forall_forall in Hm. specialize (Hm r Hr).
  destruct o as [v|]; [|reflexivity]. cbn [option_map km_distance]. rewrite repeat_length, (stretch_same w r), (stretch_same (length r) (repeat v w)) by (rewrite ?repeat_length; congruence).
  change (stretch (length r) [v]) with (repeat v (length r)). rewrite Hm. do 3 f_equal. destruct r as [|a [|b r]]; reflexivity.
Qed.
Lemma svc_flat_err k d sv l : subtracts k = false -> l <> [] -> exists e, predict_array (FSvc k d sv) (Flat l) = Err e.
Proof.
  intros S N. destruct l as [|v l]; [congruence|]. cbn [predict_array]. unfold svc_array. cbn [samples map mapM]. unfold kernel_values at 1. rewrite S.
  destruct (kernel_fun k); simpl; eauto.
Qed.
Lemma rbf_flat p l o : predict_array (FRbf p) (Flat l) = Ok o ->
  exists v, Rbf.rbf_predict p [l] = Ok [v] /\ o = Matrix 1 (repeat [v] (length l)).
Proof.
  cbn [predict_array]. unfold rbf_array, Rbf.rbf_predict, Rbf.rbf_forward. cbn [mapM]. destruct (Rbf.forward_row p l) as [t|]; [|discriminate].
  cbn [bind map]. intros H. injection H as <-. eauto.
Qed.
Lemma bag_flat ss l : ss <> [] -> predict_array (FBagging ss) (Flat l) = Err IndexError.
Proof. destruct ss; [congruence|reflexivity]. Qed.
Lemma ada_flat j p u t a hs l : l <> [] -> predict_array (FAda ((TNode j p u t, a) :: hs)) (Flat l) = Err IndexError.
Proof. destruct l; [congruence|reflexivity]. Qed.

(** ** Scores *)
Lemma binary_exact p y n : p <> [] -> length p = length y -> (forall l, In l y -> (l = 0 \/ l = 1 \/ l = -1)%Z) ->
  how_many (fun q => right_side (fst q) (snd q)) (combine p y) n -> binary_accuracy p y = Ok (INR n / INR (length p)).
Proof. intros N L Y H. destruct (binary_total p y N) as [a A]. rewrite A. f_equal. eapply binary_main; eauto. Qed.
Lemma column_map (l : list R) : map (fun r => nth 0 r 0) (map (fun v => [v]) l) = l.
Proof. rewrite map_map. apply map_id. Qed.
Lemma how_many_map {A B} (P : B -> Prop) (h : A -> B) l n : how_many (fun a => P (h a)) l n -> how_many P (map h l) n.
Proof. induction 1; simpl; constructor; auto. Qed.
Lemma score_of_width1 o y : shape o <> [] -> Forall (fun v => length v = 1%nat) (values o) -> nth 1 (shape o) 1%nat = 1%nat ->
  score_of o (Labels y) = binary_accuracy (map (fun v => nth 0 v 0) (values o)) y.
Proof.
  destruct o as [v|l|w m]; cbn [shape values score_of nth]; intros S F W; [congruence|reflexivity|]. subst w. reflexivity.
Qed.
Lemma score_main f w m y o n : clustering f = false -> rectangular w m -> predict_array f (Rows w m) = Ok o -> answer_width f = 1%nat ->
  m <> [] -> (squeezed f = true -> length m <> 1%nat) -> length y = length m -> (forall l, In l y -> (l = 0 \/ l = 1 \/ l = -1)%Z) ->
  how_many (fun q => right_side (nth 0 (fst q) 0) (snd q)) (combine (values o) y) n ->
  score_array f (Rows w m) (Labels y) = Ok (INR n / INR (length m)).
Proof.
  intros C R P W N Q L Y H. destruct (shape_main f w m o R P) as [S V]. destruct (each_row_main f w m o R P) as [LV _].
  assert (E : score_array f (Rows w m) (Labels y) = score_of o (Labels y)).
  { unfold score_array. destruct f; try discriminate; rewrite P; reflexivity. }
  rewrite E, score_of_width1.
  - assert (N' : map (fun v => nth 0 v 0) (values o) <> []).
    { intros M. apply map_eq_nil in M. rewrite M in LV. destruct m; [congruence|discriminate]. }
    assert (L' : length (map (fun v => nth 0 v 0) (values o)) = length y) by (rewrite map_length; congruence).
    rewrite (binary_exact _ y n N' L' Y); [now rewrite map_length, LV|].
    revert H. clear. replace (combine (map (fun v => nth 0 v 0) (values o)) y) with (map (fun q : list R * Z => (nth 0 (fst q) 0, snd q)) (combine (values o) y)).
    + intros H. apply (how_many_map (fun q => right_side (fst q) (snd q))). exact H.
    + generalize (values o) as a. revert y. induction y as [|b y IH]; intros [|x a]; simpl; auto. now rewrite IH.
  - rewrite S. destruct f; cbn [expected_shape]; try discriminate; destruct (Nat.eqb_spec (length m) 1); try discriminate; exfalso; now apply Q.
  - now rewrite W in V.
  - rewrite S. destruct f; cbn [expected_shape nth]; try reflexivity; try (destruct (length m =? 1)%nat; reflexivity). exact W.
Qed.
Lemma categorical_exact m t n : length m = length t -> m <> [] -> (forall r, In r m -> r <> []) -> (forall r, In r t -> r <> []) ->
  how_many (fun q => same_first_max (fst q) (snd q)) (combine m t) n -> categorical_accuracy m t = Ok (INR n / INR (length m)).
Proof. intros L N A B H. destruct (categorical_total m t L N A B) as [a E]. rewrite E. f_equal. eapply categorical_main; eauto. Qed.
Lemma score_rows_main ls w m t o n : rectangular w m -> predict_array (FBp ls) (Rows w m) = Ok o -> answer_width (FBp ls) <> 1%nat ->
  m <> [] -> length t = length m -> (forall r, In r t -> r <> []) ->
  how_many (fun q => same_first_max (fst q) (snd q)) (combine (values o) t) n ->
  score_array (FBp ls) (Rows w m) (OneHot t) = Ok (INR n / INR (length m)).
Proof.
  intros R P W N L T H. destruct (shape_main _ w m o R P) as [S V]. destruct (each_row_main _ w m o R P) as [LV _].
  cbn [score_array]. rewrite P. cbn [bind]. cbn [predict_array] in P. unfold bp_array in P. cbn [as_rows] in P.
  destruct (chain w ls); [|discriminate]. destruct (Network.forward ls m) as [p|] eqn:F; [|discriminate]. injection P as <-.
  cbn [score_of values shape] in *. unfold accuracy. change (answer_width (FBp ls)) with (outputs ls) in *.
  destruct (Nat.eqb_spec (outputs ls) 1) as [Z|Z]; [contradiction|]. rewrite (categorical_exact _ t n); rewrite ?LV; auto.
  - intros E. rewrite E in LV. destruct m; [congruence|discriminate].
  - intros r Hr E. subst r. rewrite Forall_forall in V. specialize (V [] Hr). simpl in V.
    (* the last layer has no neurons: softmax of nothing *)
    clear -F V Hr. revert m p F Hr. induction ls as [|l ls IH]; intros m p F Hr; [discriminate|]. cbn [Network.forward] in F.
    destruct (affine l m) as [z|] eqn:A; [|discriminate]. cbn [bind] in F. destruct ls as [|l' ls'].
    + unfold outputs in V. cbn [last fst] in V. unfold output_activation in F. rewrite <- V in F. cbn [Nat.eqb] in F.
      apply affine_lengths in A. destruct A as [A _]. rewrite <- V in A. unfold softmax, matrix_max in F.
      assert (E : List.concat z = []). { clear -A. induction A as [|a z Ha A IH]; auto. destruct a; [exact IH|discriminate]. }
      rewrite E in F. discriminate.
    + destruct (Network.forward (l' :: ls') (mmap relu z)) as [q|] eqn:Q; [|discriminate]. injection F as <-. eapply (IH V); eauto.
Qed.
Lemma score_one_row f w r y o : squeezed f = true -> length r = w -> predict_array f (Rows w [r]) = Ok o -> score_array f (Rows w [r]) y = Err IndexError.
Proof.
  intros S L P. destruct (shape_main f w [r] o (Forall_cons _ L (Forall_nil _)) P) as [E _].
  destruct f; try discriminate; cbn [score_array expected_shape length Nat.eqb] in *; rewrite P; cbn [bind]; destruct o; try discriminate; reflexivity.
Qed.
Lemma score_empty f w y o : clustering f = false -> predict_array f (Rows w []) = Ok o -> answer_width f = 1%nat ->
  score_array f (Rows w []) (Labels y) = Err ZeroDivisionError.
Proof.
  intros C P W. destruct (shape_main f w [] o (Forall_nil _) P) as [S V]. destruct (each_row_main f w [] o (Forall_nil _) P) as [LV _].
  assert (E : score_array f (Rows w []) (Labels y) = score_of o (Labels y)) by (unfold score_array; destruct f; try discriminate; rewrite P; reflexivity).
  rewrite E, score_of_width1; [| |now rewrite W in V|].
  - destruct (values o); [reflexivity|discriminate].
  - rewrite S. destruct f; discriminate.
  - rewrite S. destruct f; try reflexivity. exact W.
Qed.
Lemma combine_both {A B} (a c : list A) (b d : list B) : length a = length b -> combine (a ++ c) (b ++ d) = combine a b ++ combine c d.
Proof. revert b. induction a as [|x a IH]; intros [|y b] L; try discriminate; simpl; auto. rewrite IH; auto. Qed.
Lemma score_append f w m1 m2 y1 y2 a a1 a2 : clustering f = false -> rectangular w m1 -> rectangular w m2 -> answer_width f = 1%nat ->
  length y1 = length m1 -> length y2 = length m2 ->
  score_array f (Rows w m1) (Labels y1) = Ok a1 -> score_array f (Rows w m2) (Labels y2) = Ok a2 ->
  score_array f (Rows w (m1 ++ m2)) (Labels (y1 ++ y2)) = Ok a ->
  a * INR (length (m1 ++ m2)) = a1 * INR (length m1) + a2 * INR (length m2).
Proof.
  assert (D : forall m y a, clustering f = false -> rectangular w m -> answer_width f = 1%nat -> score_array f (Rows w m) (Labels y) = Ok a ->
            exists o, predict_array f (Rows w m) = Ok o /\ binary_accuracy (map (fun v => nth 0 v 0) (values o)) y = Ok a /\ m <> [] /\ length (values o) = length m).
  { intros m y b C R W H. unfold score_array in H.
    assert (E : exists o, predict_array f (Rows w m) = Ok o /\ score_of o (Labels y) = Ok b).
    { destruct f; try discriminate; apply bind_Ok in H; destruct H as (o & P & H); eauto. }
    destruct E as (o & P & E). destruct (shape_main f w m o R P) as [S V]. destruct (each_row_main f w m o R P) as [LV _]. exists o. split; auto.
    rewrite score_of_width1 in E.
    - split; auto. split; auto. intros ->. destruct (values o); [discriminate|discriminate].
    - intros Z. destruct o; try discriminate.
    - now rewrite W in V.
    - rewrite S. destruct f; cbn [expected_shape nth]; try reflexivity; try (destruct (length m =? 1)%nat; reflexivity). exact W. }
  intros C R1 R2 W L1 L2 S1 S2 S3.
  destruct (D m1 y1 a1 C R1 W S1) as (o1 & P1 & B1 & N1 & V1). destruct (D m2 y2 a2 C R2 W S2) as (o2 & P2 & B2 & N2 & V2).
  destruct (D (m1 ++ m2) (y1 ++ y2) a C (proj2 (Forall_app _ _ _) (conj R1 R2)) W S3) as (o & P & B & _ & V).
  destruct (proj1 (append_main f w m1 m2 R1 R2 N1 N2 (values o))) as (p1 & p2 & E1 & E2 & E); [eauto|].
  rewrite P1 in E1. rewrite P2 in E2. injection E1 as <-. injection E2 as <-. rewrite E, map_app in B.
  assert (Z : forall p y b, binary_accuracy p y = Ok b -> b * INR (length p) = INR (length p) - INR (count (fun q => counted_wrong (fst q) (snd q)) (combine p y))).
  { intros p y b H. assert (N : p <> []) by (intros ->; discriminate).
    assert (E' : b = (INR (length p) - INR (count (fun q => counted_wrong (fst q) (snd q)) (combine p y))) / INR (length p)).
    { destruct p; [congruence|]. unfold binary_accuracy in H. congruence. }
    rewrite E'. assert (K : INR (length p) <> 0) by (apply not_0_INR; destruct p; [congruence|discriminate]).
    unfold Rdiv. rewrite Rmult_assoc, Rinv_l, Rmult_1_r by assumption. reflexivity. }
  apply Z in B, B1, B2. rewrite !map_length in *. rewrite !app_length, !map_length in B. rewrite app_length.
  rewrite V1, V2 in *. rewrite B, B1, B2. rewrite combine_both by (rewrite map_length; lia). unfold count. rewrite filter_app, app_length, !plus_INR. lra.
Qed.
