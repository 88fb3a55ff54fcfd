(** The hidden units of a radial basis function network in another order (C114). *)
From Coq Require Import List ZArith Reals Lra Lia Bool Arith Permutation.
From Verif.Model Require Import Base Activations Rbf.
From Verif.Spec Require Import Common Smo Network Units Columns HiddenOrder.
From Verif.Proof Require Import BaseLemmas Gmm UnitsMore Columns ColumnsNet Twins HiddenOrder HiddenOrderRun.
Import ListNotations.
Local Open Scope R_scope.

(** Weights, centres and widths are moved together. *)
Definition rbf_moved (s : list nat) (p : rbf_params) : rbf_params :=
  {| rw := reordered s (rw p); rb := rb p; rc := rows_in_order s (rc p); rbeta := reordered s (rbeta p) |}.
Definition units (h : nat) (p : rbf_params) : Prop := length (rw p) = h /\ length (rc p) = h /\ length (rbeta p) = h.

Section Rbf.
Variables (h : nat) (s : list nat).
Hypothesis Hs : new_order h s.
Notation re := (reordered s).
Notation sel := (rows_in_order s).
Definition row_moved (t : R * list R * list R) : R * list R * list R := (fst (fst t), re (snd (fst t)), re (snd t)).

Lemma x_ci_moved cs x : length cs = h -> x_ci_row (sel cs) x = (r <- x_ci_row cs x ;; Ok (re r)).
Proof.
  intros L. unfold x_ci_row, rows_in_order. rewrite mapM_map.
  transitivity (r <- mapM (fun c => d <- broadcast_sub x c ;; Ok (sqnorm d)) (map (fun i => nth i cs []) (seq 0 h)) ;; Ok (re r)); [|now rewrite (rows_all h s)].
  rewrite mapM_map. unfold reordered. apply (sel_mapM h s Hs 0 _ ValueError). intros i e. destruct (broadcast_sub x (nth i cs [])) as [v|e'] eqn:E; cbn [bind]; [discriminate|].
  intros K. injection K as <-. unfold broadcast_sub in E. destruct (_ =? _)%nat; [discriminate|]. destruct x as [|? [|]], (nth i cs []) as [|? [|]]; congruence.
Qed.
Lemma row_forward p x : units h p -> Rbf.forward_row (rbf_moved s p) x = (t <- Rbf.forward_row p x ;; Ok (row_moved t)).
Proof.
  intros (W & C & B). unfold Rbf.forward_row, rbf_moved. cbn [rw rb rc rbeta]. rewrite (sel_length h s Hs), !(re_length h s Hs), W, C, B, Nat.eqb_refl. cbn [andb negb].
  rewrite x_ci_moved by auto. destruct (x_ci_row (rc p) x) as [xci|] eqn:E; [|reflexivity]. cbn [bind]. unfold x_ci_row in E. apply mapM_length in E.
  assert (Q : rho_row (re (rbeta p)) (re xci) = re (rho_row (rbeta p) xci)) by (apply (zip2_re h s Hs); lia). rewrite Q. unfold row_moved. cbn [fst snd]. do 4 f_equal.
  apply (dot_re h s Hs); auto. unfold rho_row. rewrite zip2_len. lia.
Qed.
Lemma rbf_forward_moved p x : units h p -> rbf_forward (rbf_moved s p) x = (t <- rbf_forward p x ;; Ok (map row_moved t)).
Proof. intros U. unfold rbf_forward. rewrite <- mapM_follow. apply mapM_ext_in. intros r _. now apply row_forward. Qed.
Lemma combine_map_l {A B C} (f : A -> B) (a : list A) (b : list C) : combine (map f a) b = map (fun q => (f (fst q), snd q)) (combine a b).
Proof. revert b. induction a as [|x a IH]; intros [|y b]; cbn; auto. now rewrite IH. Qed.
Definition grad_moved (g : rbf_grad) : rbf_grad := {| dw := re (dw g); db := db g; dbeta := re (dbeta g) |}.
Lemma rbf_backward_moved rows y w : rbf_backward h (map row_moved rows) y (re w) = (g <- rbf_backward h rows y w ;; Ok (grad_moved g)).
Proof.
  unfold rbf_backward. rewrite map_length. destruct (negb _); [reflexivity|]. destruct (_ =? _)%nat; [reflexivity|]. cbn [bind]. unfold grad_moved. cbn [dw db dbeta].
  rewrite combine_map_l, !map_map. do 2 f_equal.
  - apply (seq_re h s Hs). intros j Hj. rewrite map_map. do 2 f_equal. apply map_ext. intros q. cbn [fst snd row_moved]. now rewrite (nth_re h s Hs).
  - apply (seq_re h s Hs). intros j Hj. rewrite map_map. do 2 f_equal. apply map_ext. intros q. cbn [fst snd row_moved]. now rewrite !(nth_re h s Hs).
Qed.
Lemma rbf_backward_units rows y w g : rbf_backward h rows y w = Ok g -> length (dw g) = h /\ length (dbeta g) = h.
Proof. unfold rbf_backward. destruct (negb _); [discriminate|]. destruct (_ =? _)%nat; [discriminate|]. intros E. injection E as <-. cbn. now rewrite !map_length, !seq_length. Qed.
Lemma rbf_epoch_moved rate x y p : units h p ->
  rbf_epoch rate x y (rbf_moved s p) = (r <- rbf_epoch rate x y p ;; Ok (rbf_moved s (fst r), snd r)) /\ forall r, rbf_epoch rate x y p = Ok r -> units h (fst r).
Proof.
  intros U. unfold rbf_epoch. rewrite rbf_forward_moved by auto. destruct (rbf_forward p x) as [rows|]; [|split; [reflexivity|discriminate]]. cbn [bind].
  destruct U as (W & C & B).
  replace (length (rc (rbf_moved s p))) with h by (cbn; symmetry; apply (sel_length h s Hs)). replace (rw (rbf_moved s p)) with (re (rw p)) by reflexivity. rewrite C, map_length, map_map.
  replace (map (fun t => fst (fst (row_moved t))) rows) with (map (fun t : R * list R * list R => fst (fst t)) rows) by reflexivity.
  assert (G : forall y, (g <- rbf_backward h (map row_moved rows) y (re (rw p)) ;; l <- mean_squared_error (length rows) (map (fun t => fst (fst t)) rows) y ;; Ok (rbf_update rate (rbf_moved s p) g, l)) =
     (r <- (g <- rbf_backward h rows y (rw p) ;; l <- mean_squared_error (length rows) (map (fun t => fst (fst t)) rows) y ;; Ok (rbf_update rate p g, l)) ;; Ok (rbf_moved s (fst r), snd r)) /\
     forall r, (g <- rbf_backward h rows y (rw p) ;; l <- mean_squared_error (length rows) (map (fun t => fst (fst t)) rows) y ;; Ok (rbf_update rate p g, l)) = Ok r -> units h (fst r)).
  { intros y0. rewrite rbf_backward_moved. destruct (rbf_backward h rows y0 (rw p)) as [g|] eqn:E; [|split; [reflexivity|discriminate]]. cbn [bind]. apply rbf_backward_units in E as (D1 & D2).
    destruct (mean_squared_error _ _ _) as [l|]; [|split; [reflexivity|discriminate]]. cbn [bind fst snd]. split.
    - do 2 f_equal. unfold rbf_update, rbf_moved, grad_moved. cbn [rw rb rc rbeta dw db dbeta]. now rewrite !(zip2_re h s Hs) by auto.
    - intros r Er. injection Er as <-. unfold units, rbf_update. cbn [fst rw rc rbeta]. rewrite !zip2_len. lia. }
  destruct y as [y|[|v [|v' y]]]; auto. split; [reflexivity|discriminate].
Qed.
Lemma rbf_run_moved rate x y epochs : forall p, units h p ->
  rbf_run rate x y epochs (rbf_moved s p) = (r <- rbf_run rate x y epochs p ;; Ok (rbf_moved s (fst r), snd r)) /\ forall r, rbf_run rate x y epochs p = Ok r -> units h (fst r).
Proof.
  induction epochs as [|k IH]; intros p U; cbn [rbf_run]; [split; [reflexivity|]; intros r E; now injection E as <-|].
  destruct (rbf_epoch_moved rate x y p U) as [E K]. rewrite E. destruct (rbf_epoch rate x y p) as [r|]; [|split; [reflexivity|discriminate]]. cbn [bind fst snd]. specialize (K r eq_refl).
  destruct (IH (fst r) K) as [E' K']. rewrite E'. destruct (rbf_run rate x y k (fst r)) as [t|]; [|split; [reflexivity|discriminate]]. cbn [bind fst snd]. split; [reflexivity|].
  intros q Eq. injection Eq as <-. cbn [fst]. auto.
Qed.
Lemma rbf_predict_moved p x : units h p -> rbf_predict (rbf_moved s p) x = rbf_predict p x.
Proof. intros U. unfold rbf_predict. rewrite rbf_forward_moved by auto. destruct (rbf_forward p x) as [rows|]; [|reflexivity]. cbn [bind]. now rewrite map_map. Qed.
End Rbf.
