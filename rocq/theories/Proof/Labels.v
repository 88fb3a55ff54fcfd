(** Lemmas for C108: the two classes exchanged. *)
From Coq Require Import List ZArith Reals Bool Arith Lia Lra.
From Verif.Model Require Import Base Activations Matrix Logistic Lda Bayes.
From Verif.Spec Require Import BayesUnits Labels.
From Verif.Proof Require Import BaseLemmas Counting Kernels.
Import ListNotations.
Local Open Scope R_scope.
Local Notation length := List.length.

(** Logistic regression. *)
Lemma sigmoid_opp z : sigmoid (- z) = 1 - sigmoid z.
Proof. unfold sigmoid. rewrite Ropp_involutive, exp_Ropp. pose proof (exp_pos z). field. lra. Qed.
Lemma dot_negated a b : dot a (negated b) = - dot a b.
Proof. unfold negated. revert b. induction a as [|x a IH]; intros [|y b]; cbn [dot map]; try lra. rewrite IH. lra. Qed.
Lemma negated_dot a b : dot (negated a) b = - dot a b.
Proof. now rewrite dot_comm, dot_negated, dot_comm. Qed.
Lemma rsum_negated {A} (g : A -> R) l : rsum (map (fun a => - g a) l) = - rsum (map g l).
Proof. induction l as [|a l IH]; cbn [map rsum fold_right]; [lra|]. unfold rsum in IH. rewrite IH. lra. Qed.
Lemma vsub_negated a b : vsub (negated a) (negated b) = negated (vsub a b).
Proof. unfold vsub, negated. revert b. induction a as [|x a IH]; intros [|y b]; try reflexivity. cbn [map combine fst snd]. rewrite IH. f_equal. lra. Qed.
Lemma vscale_negated c a : vscale c (negated a) = negated (vscale c a).
Proof. unfold vscale, negated. rewrite !map_map. apply map_ext. intros x. lra. Qed.
Lemma vsub_swapped a b : vsub b a = negated (vsub a b).
Proof. unfold vsub, negated. revert b. induction a as [|x a IH]; intros [|y b]; try reflexivity. cbn [map combine fst snd]. rewrite IH. f_equal. lra. Qed.
Lemma forward_negated x b : forward x (negated b) = map (fun v => 1 - v) (forward x b).
Proof. unfold forward. rewrite map_map. apply map_ext. intros r. unfold forward_row. now rewrite dot_negated, sigmoid_opp. Qed.
Lemma backward_exchanged d p y xh : backward d (map (fun v => 1 - v) p) (map IZR (map exchanged y)) xh = negated (backward d p (map IZR y) xh).
Proof.
  unfold backward, negated. rewrite (map_map _ Ropp). apply map_ext. intros j.
  revert y xh. induction p as [|v p IH]; intros [|l y] [|r xh]; cbn [map combine rsum fold_right]; try lra. unfold rsum in IH. rewrite IH. cbn [fst snd]. unfold exchanged. rewrite minus_IZR. lra.
Qed.
Lemma hessian_exchanged d p xh : hessian d (map (fun v => 1 - v) p) xh = hessian d p xh.
Proof.
  unfold hessian. apply map_ext. intros j. apply map_ext. intros k. revert xh. induction p as [|v p IH]; intros [|r xh]; try reflexivity. cbn [map combine rsum fold_right].
  unfold rsum in IH. rewrite IH. cbn [fst snd]. lra.
Qed.
Lemma gradient_exchanged d x y b : gradient_at d x (map exchanged y) (negated b) = negated (gradient_at d x y b).
Proof. unfold gradient_at. now rewrite forward_negated, backward_exchanged. Qed.
Lemma step_exchanged o d x y b : opt_step o d x (map exchanged y) (negated b) = (w <- opt_step o d x y b ;; Ok (negated w)).
Proof.
  destruct o as [rate|]; unfold opt_step.
  - cbn [bind]. unfold gd_step. now rewrite gradient_exchanged, vscale_negated, vsub_negated.
  - unfold newton_step, hessian_at. rewrite forward_negated, hessian_exchanged. destruct (inverse _ _) as [inv|]; cbn [bind]; [|reflexivity].
    rewrite gradient_exchanged, <- vsub_negated. do 2 f_equal. unfold negated at 2. rewrite map_map. apply map_ext. intros r. apply dot_negated.
Qed.
Lemma run_exchanged o n d x y : forall b, opt_run o n d x (map exchanged y) (negated b) = (w <- opt_run o n d x y b ;; Ok (negated w)).
Proof.
  induction n as [|n IH]; intros b; [reflexivity|]. cbn [opt_run]. rewrite step_exchanged. destruct (opt_step o d x y b) as [w|]; cbn [bind]; [apply IH|reflexivity].
Qed.
Lemma lr_fit_exchanged o init n d x y m : lr_fit o (negated init) n d x (map exchanged y) (opposite m) = (m' <- lr_fit o init n d x y m ;; Ok (opposite m')).
Proof.
  unfold lr_fit. cbn [opposite lr_loaded lr_beta]. destruct (lr_loaded m); [destruct (lr_beta m) as [b|]; [|reflexivity]|]; cbn [option_map bind]; rewrite run_exchanged; destruct (opt_run _ _ _ _ _ _); reflexivity.
Qed.
Lemma lr_predict_exchanged q m : lr_predict q (opposite m) = (p <- lr_predict q m ;; Ok (map (fun v => 1 - v) p)).
Proof.
  unfold lr_predict. cbn [opposite lr_loaded lr_beta lr_trained]. destruct (_ && _); [reflexivity|]. destruct (lr_beta m) as [b|]; cbn [option_map bind]; [|reflexivity]. now rewrite forward_negated.
Qed.

(** Linear discriminant analysis. *)
Lemma eqb_exchanged a l : Z.eqb (exchanged a) l = Z.eqb a (exchanged l).
Proof. unfold exchanged. destruct (Z.eqb_spec (1 - a) l), (Z.eqb_spec a (1 - l)); try reflexivity; lia. Qed.
Lemma with_label_exchanged l x y : with_label l x (map exchanged y) = with_label (exchanged l) x y.
Proof.
  unfold with_label. revert y. induction x as [|r x IH]; intros [|a y]; try reflexivity. cbn [map combine filter snd]. rewrite eqb_exchanged. destruct (Z.eqb a (exchanged l)); cbn [map]; now rewrite IH.
Qed.
Lemma vadd_comm a b : vadd a b = vadd b a.
Proof. unfold vadd. revert b. induction a as [|x a IH]; intros [|y b]; try reflexivity. cbn [map combine fst snd]. rewrite IH. f_equal. lra. Qed.
Lemma scatter_comm d x0 x1 mu0 mu1 : within_class_scatter d x0 x1 mu0 mu1 = within_class_scatter d x1 x0 mu1 mu0.
Proof.
  unfold within_class_scatter. generalize (scatter_of d x0 mu0), (scatter_of d x1 mu1). intros a. induction a as [|x a IH]; intros [|y b]; try reflexivity. cbn [map combine fst snd]. now rewrite IH, vadd_comm.
Qed.
Lemma get_w_exchanged svd d s mu0 mu1 : get_w_v2 svd d s mu1 mu0 = (w <- get_w_v2 svd d s mu0 mu1 ;; Ok (negated w)).
Proof.
  unfold get_w_v2. destruct (svd s) as [[U S] V]. destruct (inverse d (diag d S)) as [inv|]; cbn [bind]; [|reflexivity]. f_equal. unfold negated. rewrite map_map. apply map_ext. intros r. rewrite vsub_swapped. apply dot_negated.
Qed.
Definition mirrored (m : lda) : lda := {| lda_w := negated (lda_w m); lda_mu0 := lda_mu1 m; lda_mu1 := lda_mu0 m |}.
Lemma lda_fit_exchanged svd d x y : lda_fit svd d x (map exchanged y) = (m <- lda_fit svd d x y ;; Ok (mirrored m)).
Proof.
  unfold lda_fit. rewrite map_length. destruct (negb _); [reflexivity|]. rewrite !with_label_exchanged. change (exchanged 0) with 1%Z. change (exchanged 1) with 0%Z. cbv zeta.
  assert (E : forall x e, mean_row d x = Err e -> e = NotANumber) by (intros [|]; cbn; intros; congruence).
  destruct (mean_row d (with_label 0 x y)) as [mu0|e0] eqn:E0, (mean_row d (with_label 1 x y)) as [mu1|e1] eqn:E1; cbn [bind]; try reflexivity.
  - rewrite scatter_comm, (get_w_exchanged svd d _ mu0 mu1). destruct (get_w_v2 _ _ _ _ _); reflexivity.
  - now rewrite (E _ _ E0), (E _ _ E1).
Qed.
Lemma lda_predict_exchanged m r : (equally_far m r -> lda_predict m r = 0%Z /\ lda_predict (mirrored m) r = 0%Z) /\
  (~ equally_far m r -> lda_predict (mirrored m) r = exchanged (lda_predict m r)).
Proof.
  unfold lda_predict, equally_far. cbn [mirrored lda_w lda_mu0 lda_mu1]. cbv zeta. rewrite dot_negated, !negated_dot.
  set (c := dot r (lda_w m)). set (c0 := dot (lda_w m) (lda_mu0 m)). set (c1 := dot (lda_w m) (lda_mu1 m)).
  replace (- c - - c0) with (- (c - c0)) by lra. replace (- c - - c1) with (- (c - c1)) by lra. rewrite !Rabs_Ropp.
  generalize (Rabs (c - c0)), (Rabs (c - c1)). intros u v. unfold Rltb. split; intros H; destruct (Rlt_dec u v), (Rlt_dec v u); try (exfalso; lra); try reflexivity. now split.
Qed.

(** Naive Bayes. *)
Section NB.
Context {A : Type} (O : TotalOrder A).
Variable num : A -> R.
Variable continuous : list A -> bool.
Variable vc : list A -> list A.
Variable rnd : R -> R.

Lemma of_class_exchanged y c (col : list A) : of_class (map exchanged y) c col = of_class y (exchanged c) col.
Proof.
  unfold of_class. revert y. induction col as [|r x IH]; intros [|a y]; try reflexivity. cbn [map combine filter snd]. rewrite eqb_exchanged. destruct (Z.eqb a (exchanged c)); cbn [map]; now rewrite IH.
Qed.
Definition info_swapped (i : @nb_info A) : nb_info :=
  match i with NBCont s0 s1 => NBCont s1 s0 | NBDisc d0 d1 n0 n1 k => NBDisc d1 d0 n1 n0 k end.
Lemma attribute_exchanged y col : nb_attribute O num continuous vc (map exchanged y) col = (i <- nb_attribute O num continuous vc y col ;; Ok (info_swapped i)).
Proof.
  unfold nb_attribute. rewrite !of_class_exchanged. change (exchanged 0) with 1%Z. change (exchanged 1) with 0%Z. destruct (continuous col); [reflexivity|]. cbv zeta. destruct (_ =? 1)%nat; reflexivity.
Qed.
Lemma attributes_exchanged y cols : mapM (nb_attribute O num continuous vc (map exchanged y)) cols = (l <- mapM (nb_attribute O num continuous vc y) cols ;; Ok (map info_swapped l)).
Proof.
  induction cols as [|col cols IH]; [reflexivity|]. cbn [mapM]. rewrite attribute_exchanged, IH. destruct (nb_attribute O num continuous vc y col); cbn [bind]; [|reflexivity]. now destruct (mapM (nb_attribute O num continuous vc y) cols).
Qed.
Lemma counts_exchanged y : Forall (fun l => l = 0%Z \/ l = 1%Z) y -> (count (fun c => (c =? 0)%Z) y + count (fun c => (c =? 0)%Z) (map exchanged y))%nat = length y.
Proof.
  intros H. induction y as [|l y IH]; [reflexivity|]. inversion H as [|? ? Hl Hy]. specialize (IH Hy). cbn [map]. rewrite !count_cons'. cbn [length]. destruct Hl as [->| ->]; cbn [exchanged Z.sub Z.eqb Z.add Z.opp Pos.compare]; cbn; lia.
Qed.
Lemma two_distinct y : Forall (fun l => l = 0%Z \/ l = 1%Z) y -> In 0%Z y -> In 1%Z y -> length (nodup Z.eq_dec y) = 2%nat.
Proof.
  intros H I0 I1. rewrite <- (Permutation.Permutation_length (l := [0; 1]%Z)); [reflexivity|]. apply Permutation.NoDup_Permutation.
  - constructor; [intros [E|[]]; discriminate|]. constructor; [intros []|constructor].
  - apply NoDup_nodup.
  - intros l. rewrite nodup_In. split; [intros [<-|[<-|[]]]; auto|]. intros I. rewrite Forall_forall in H. destruct (H l I) as [->| ->]; simpl; auto.
Qed.
Lemma in_exchanged l y : In l (map exchanged y) <-> In (exchanged l) y.
Proof.
  rewrite in_map_iff. split; [intros (a & <- & I); replace (exchanged (exchanged a)) with a by (unfold exchanged; lia); exact I|]. intros I. exists (exchanged l). split; [unfold exchanged; lia|auto].
Qed.
Lemma prior_exchanged y s : two_classes y s -> get_prior_probability (length (map exchanged y)) (map exchanged y) s = (p <- get_prior_probability (length y) y s ;; Ok (crossed p)).
Proof.
  intros [H S]. pose proof (counts_exchanged y H) as C. unfold get_prior_probability. rewrite map_length. cbv zeta. destruct s.
  - destruct (S eq_refl) as [I0 I1]. rewrite (two_distinct y H I0 I1), (two_distinct (map exchanged y)).
    + destruct (length y + 2 =? 0)%nat eqn:E; [apply Nat.eqb_eq in E; lia|]. cbn [bind crossed fst snd]. f_equal.
      rewrite !plus_INR. rewrite <- C, plus_INR. simpl INR. pose proof (pos_INR (count (fun c => (c =? 0)%Z) y)). pose proof (pos_INR (count (fun c => (c =? 0)%Z) (map exchanged y))).
      unfold crossed; cbn [fst snd]. f_equal; field; lra.
    + apply Forall_forall. intros l I. apply in_exchanged in I. rewrite Forall_forall in H. destruct (H _ I) as [E|E]; unfold exchanged in E; lia.
    + now apply in_exchanged.
    + now apply in_exchanged.
  - destruct (length y =? 0)%nat eqn:E; [reflexivity|]. apply Nat.eqb_neq in E. cbn [bind]. unfold crossed; cbn [fst snd].
    assert (INR (length y) <> 0) by (apply not_0_INR; auto). rewrite <- C, plus_INR in *. f_equal. f_equal; field; lra.
Qed.
Definition model_swapped (m : @nb_model A) : nb_model := {| nb_p0 := nb_p1 m; nb_p1 := nb_p0 m; nb_pi := map info_swapped (nb_pi m); nb_smoothing := nb_smoothing m |}.
Lemma nb_fit_exchanged cols y s : two_classes y s -> nb_fit O num continuous vc cols (map exchanged y) s = (m <- nb_fit O num continuous vc cols y s ;; Ok (model_swapped m)).
Proof.
  intros H. unfold nb_fit. rewrite (prior_exchanged y s H), attributes_exchanged. destruct (get_prior_probability _ _ _) as [p|]; cbn [bind]; [|reflexivity]. destruct (mapM (nb_attribute O num continuous vc y) cols); reflexivity.
Qed.
Lemma term_swapped s i v : nb_term O num rnd s (info_swapped i) v = (t <- nb_term O num rnd s i v ;; Ok (crossed t)).
Proof.
  destruct i as [s0 s1|d0 d1 n0 n1 k]; [reflexivity|]. cbn [info_swapped nb_term]. unfold dict_lookup. destruct (dict_get O d0 v), (dict_get O d1 v); reflexivity.
Qed.
Lemma enumerate_map {X Y} (g : X -> Y) l : enumerate (map g l) = map (fun p => (fst p, g (snd p))) (enumerate l).
Proof. unfold enumerate. rewrite map_length. generalize 0%nat. induction l as [|a l IH]; intros k; [reflexivity|]. cbn [map length seq combine fst snd]. now rewrite IH. Qed.
Lemma scores_swapped m q : nb_scores O num rnd (model_swapped m) q = (s <- nb_scores O num rnd m q ;; Ok (crossed s)).
Proof.
  unfold nb_scores. cbn [model_swapped nb_pi nb_p0 nb_p1 nb_smoothing]. rewrite enumerate_map.
  change (elog (Some (nb_p1 m)), elog (Some (nb_p0 m))) with (crossed (elog (Some (nb_p0 m)), elog (Some (nb_p1 m)))). generalize (elog (Some (nb_p0 m)), elog (Some (nb_p1 m))).
  induction (enumerate (nb_pi m)) as [|[j i] l IH]; intros st; [reflexivity|]. cbn [map foldM fst snd]. destruct (get_at q j) as [v|]; cbn [bind]; [|reflexivity]. rewrite term_swapped.
  destruct (nb_term O num rnd (nb_smoothing m) i v) as [t|]; cbn [bind]; [|reflexivity]. exact (IH (eadd (fst st) (fst t), eadd (snd st) (snd t))).
Qed.
End NB.

Lemma egt_tied s : tied s -> egt (fst s) (snd s) = false /\ egt (snd s) (fst s) = false.
Proof.
  destruct s as [a b]. unfold tied. cbn [fst snd]. intros [->|[->| ->]]; [|now destruct b|now destruct a]. destruct b; try (split; reflexivity). cbn. unfold Rltb. destruct (Rlt_dec r r); [lra|split; reflexivity].
Qed.
Lemma egt_untied s : ~ tied s -> egt (snd s) (fst s) = negb (egt (fst s) (snd s)).
Proof.
  destruct s as [[a| |] [b| |]]; unfold tied; cbn [fst snd egt]; intros H; try reflexivity; try (exfalso; apply H; auto; fail).
  unfold Rltb. destruct (Rlt_dec b a), (Rlt_dec a b); try reflexivity; exfalso; [lra|]. apply H. left. f_equal. lra.
Qed.
Lemma label_swapped s : answers_exchanged s (nb_label s) (nb_label (crossed s)).
Proof.
  split; intros T; unfold nb_label, crossed; cbn [fst snd].
  - destruct (egt_tied s T) as [-> ->]. auto.
  - rewrite (egt_untied s T). now destruct (egt (fst s) (snd s)).
Qed.
Lemma pair_swapped s : nb_pair (crossed s) = option_map crossed (nb_pair s).
Proof. destruct s as [[a| |] [b| |]]; try reflexivity. unfold crossed. cbn [fst snd nb_pair]. rewrite (Rplus_comm b a). now destruct (Reqb (a + b) 0). Qed.
