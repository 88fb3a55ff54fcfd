From Coq Require Import List Reals Bool Arith Lia Lra.
From Verif.Model Require Import Base Activations Rbf.
From Verif.Spec Require Import Common Smo KMeans Logistic Rbf.
From Verif.Proof Require Import BaseLemmas Smo Kernels Gmm Activations Logistic Network.
Import ListNotations.
Local Open Scope R_scope.

(** One entry for each centre, and centres with [d] features. *)
Definition rbf_shape (d : nat) (p : rbf_params) : Prop :=
  length (rw p) = length (rc p) /\ length (rbeta p) = length (rc p) /\ Forall (fun c => length c = d) (rc p).

Lemma sqnorm_sub a b : sqnorm (vsub a b) = sq_dist a b.
Proof.
  unfold sq_dist. change total with rsum. revert b. induction a as [|u a IH]; intros [|v b]; try reflexivity.
  unfold vsub in *. cbn [zip2 combine map]. unfold sqnorm in *. simpl. rewrite IH. simpl. ring.
Qed.
Lemma x_ci_value d cs r : Forall (fun c => length c = d) cs -> length r = d -> x_ci_row cs r = Ok (map (sq_dist r) cs).
Proof.
  intros F L. unfold x_ci_row. induction F as [|c cs H F IH]; [reflexivity|]. cbn [mapM map]. unfold broadcast_sub at 1.
  rewrite L, H, Nat.eqb_refl. cbn [bind]. rewrite IH. cbn [bind]. now rewrite sqnorm_sub.
Qed.
Lemma rho_nth beta cs r u : length beta = length cs -> (u < length cs)%nat ->
  nth u (rho_row beta (map (sq_dist r) cs)) 0 = bump (nth u beta 0) (nth u cs []) r.
Proof.
  intros L Hu. unfold rho_row. rewrite nth_zip2 by (rewrite ?map_length; lia). unfold bump. rewrite (nth_map_in _ _ _ _ []) by auto. reflexivity.
Qed.
Lemma rho_length beta cs r : length beta = length cs -> length (rho_row beta (map (sq_dist r) cs)) = length cs.
Proof. intros L. unfold rho_row. rewrite zip2_length; rewrite ?map_length; auto. Qed.
Definition row_of (p : rbf_params) (r : list R) : R * list R * list R :=
  (rbf_output (rw p) (rb p) (rc p) (rbeta p) r, rho_row (rbeta p) (map (sq_dist r) (rc p)), map (sq_dist r) (rc p)).
Lemma forward_row_value d p r : rbf_shape d p -> length r = d -> forward_row p r = Ok (row_of p r).
Proof.
  intros (L1 & L2 & F) L. unfold forward_row. rewrite L1, L2, !Nat.eqb_refl. cbn [andb negb]. rewrite (x_ci_value d) by auto. cbn [bind]. unfold row_of.
  f_equal. f_equal. f_equal. unfold rbf_output. f_equal. rewrite (dot_sum (length (rc p))) by (auto; rewrite rho_length; auto).
  apply sum_below_ext. intros u Hu. rewrite rho_nth by auto. ring.
Qed.
Lemma forward_value d p x : rbf_shape d p -> Forall (fun r => length r = d) x -> rbf_forward p x = Ok (map (row_of p) x).
Proof.
  intros S F. unfold rbf_forward. induction F as [|r x H F IH]; [reflexivity|]. cbn [mapM map]. rewrite (forward_row_value d), IH by auto. reflexivity.
Qed.

Lemma nth_with_param b u t k : (u < length b)%nat -> nth k (with_param u t b) 0 = if Nat.eq_dec k u then t else nth k b 0.
Proof.
  revert u k. induction b as [|v b IH]; intros u k H; simpl in H; [lia|]. unfold with_param in *. destruct u as [|u], k as [|k]; simpl; auto.
  rewrite IH by lia. destruct (Nat.eq_dec k u), (Nat.eq_dec (S k) (S u)); auto; lia.
Qed.
Lemma sum_change n u (f g : nat -> R) : (u < n)%nat -> (forall k, (k < n)%nat -> k <> u -> g k = f k) -> sum_below n g = sum_below n f + (g u - f u).
Proof.
  intros Hu H. assert (E : sum_below n (fun k => g k - f k) = g u - f u). { apply (sum_below_one n u (fun k => g k - f k)); auto. intros m Hm N. rewrite H by auto. lra. }
  rewrite sum_below_minus in E. lra.
Qed.
Lemma output_weight w b cs beta r u t : length w = length cs -> (u < length cs)%nat ->
  rbf_output (with_param u t w) b cs beta r = rbf_output w b cs beta r + (t - nth u w 0) * bump (nth u beta 0) (nth u cs []) r.
Proof.
  intros L Hu. unfold rbf_output. rewrite (sum_change _ u (fun k => nth k w 0 * bump (nth k beta 0) (nth k cs []) r)); auto.
  - rewrite nth_with_param by lia. destruct (Nat.eq_dec u u); [|congruence]. ring.
  - intros k Hk N. rewrite nth_with_param by lia. destruct (Nat.eq_dec k u); [congruence|]. reflexivity.
Qed.
Lemma output_width w b cs beta r u t : length beta = length cs -> (u < length cs)%nat ->
  rbf_output w b cs (with_param u t beta) r = rbf_output w b cs beta r - nth u w 0 * bump (nth u beta 0) (nth u cs []) r + nth u w 0 * bump t (nth u cs []) r.
Proof.
  intros L Hu. unfold rbf_output. rewrite (sum_change _ u (fun k => nth k w 0 * bump (nth k beta 0) (nth k cs []) r)); auto.
  - rewrite nth_with_param by lia. destruct (Nat.eq_dec u u); [|congruence]. ring.
  - intros k Hk N. rewrite nth_with_param by lia. destruct (Nat.eq_dec k u); [congruence|]. reflexivity.
Qed.

Lemma square_deriv f f' a y : derivable_pt_lim f a f' -> derivable_pt_lim (fun t => (f t - y) ^ 2) a (2 * (f a - y) * f').
Proof.
  intros H. assert (H1 : derivable_pt_lim (fun t => f t - y) a (f' - 0)). { apply (derivable_pt_lim_minus f (fun _ => y)); auto. apply derivable_pt_lim_const. }
  replace (2 * (f a - y) * f') with ((f' - 0) * (f a - y) + (f a - y) * (f' - 0)) by ring.
  apply derivable_pt_lim_ext with (fun t => (f t - y) * (f t - y)); [intros; ring|].
  exact (derivable_pt_lim_mult (fun t => f t - y) (fun t => f t - y) a _ _ H1 H1).
Qed.
(** The derivative of half a mean of squares. *)
Lemma half_mean_deriv {A} (l : list A) (n : nat) (f : A -> R -> R) (f' g : A -> R) a : n <> 0%nat ->
  (forall q, In q l -> derivable_pt_lim (f q) a (f' q)) ->
  derivable_pt_lim (fun t => rsum (map (fun q => (f q t - g q) ^ 2) l) / (2 * INR n)) a (rsum (map (fun q => (f q a - g q) * f' q) l) / INR n).
Proof.
  intros Hn H. assert (Pn : 0 < INR n) by (apply lt_0_INR; lia).
  apply derivable_pt_lim_ext with (fun t => / (2 * INR n) * rsum (map (fun q => (f q t - g q) ^ 2) l)); [intros; unfold Rdiv; ring|].
  replace (rsum (map (fun q => (f q a - g q) * f' q) l) / INR n) with (/ (2 * INR n) * rsum (map (fun q => 2 * (f q a - g q) * f' q) l)).
  - apply derivable_pt_lim_scal. apply (deriv_sum (fun q t => (f q t - g q) ^ 2) (fun q => 2 * (f q a - g q) * f' q)). intros q Hq. now apply square_deriv, H.
  - replace (rsum (map (fun q => 2 * (f q a - g q) * f' q) l)) with (2 * rsum (map (fun q => (f q a - g q) * f' q) l)).
    + field. lra.
    + clear. induction l as [|q l IH]; simpl; [unfold rsum; simpl; lra|]. unfold rsum in *. simpl. rewrite <- IH. ring.
Qed.
Lemma bump_deriv c r be : derivable_pt_lim (fun t => bump t c r) be (- sq_dist r c * bump be c r).
Proof.
  unfold bump. set (q := sq_dist r c). rewrite Rmult_comm.
  apply (derivable_pt_lim_comp (fun t => - t * q) exp); [|apply derivable_pt_lim_exp].
  apply derivable_pt_lim_ext with (fun t => 0 + (t - 0) * (- q)); [intros; ring|]. apply deriv_line.
Qed.

Section Grad.
  Variables (d : nat) (p : rbf_params) (x : list (list R)) (y : list R).
  Hypothesis S : rbf_shape d p.
  Hypothesis Fx : Forall (fun r => length r = d) x.
  Hypothesis Hx : x <> [].
  Hypothesis Ly : length y = length x.
  Let h := length (rc p).

  Lemma backward_value : rbf_backward h (map (row_of p) x) y (rw p) = Ok
    {| dw := map (fun u => rsum (map (fun q => (rbf_output (rw p) (rb p) (rc p) (rbeta p) (fst q) - snd q) * bump (nth u (rbeta p) 0) (nth u (rc p) []) (fst q)) (combine x y)) / INR (length x)) (seq 0 h);
       db := rsum (map (fun q => rbf_output (rw p) (rb p) (rc p) (rbeta p) (fst q) - snd q) (combine x y)) / INR (length x);
       dbeta := map (fun u => rsum (map (fun r => rbf_output (rw p) (rb p) (rc p) (rbeta p) r * (nth u (rw p) 0 * (- sq_dist r (nth u (rc p) []) * bump (nth u (rbeta p) 0) (nth u (rc p) []) r))) x) / INR (length x)) (seq 0 h) |}.
  Proof.
    destruct S as (L1 & L2 & F). unfold rbf_backward. rewrite map_length, Ly, Nat.eqb_refl. cbn [negb].
    replace (length x =? 0)%nat with false by (symmetry; apply Nat.eqb_neq; destruct x; [congruence|discriminate]).
    assert (C : combine (map (row_of p) x) y = map (fun q => (row_of p (fst q), snd q)) (combine x y)).
    { clear. revert y. induction x as [|u l IH]; intros [|v z]; simpl; auto. now rewrite IH. }
    rewrite C. f_equal. f_equal.
    - apply map_ext_in. intros u Hu. apply in_seq in Hu. rewrite map_map. f_equal. f_equal. apply map_ext. intros q. cbn [fst snd row_of]. rewrite rho_nth by (auto; unfold h in *; lia). reflexivity.
    - rewrite map_map. reflexivity.
    - apply map_ext_in. intros u Hu. apply in_seq in Hu. rewrite map_map. f_equal.
      assert (E : forall (f : list R -> R), map (fun q => f (fst q)) (combine x y) = map f x).
      { intros f. clear - Ly. revert y Ly. induction x as [|v l IH]; intros [|v' z] H; simpl in *; try lia; auto. rewrite IH; auto. }
      rewrite <- E. f_equal. apply map_ext. intros q. cbn [fst snd row_of]. rewrite rho_nth by (auto; unfold h in *; lia).
      rewrite (nth_map_in _ _ _ _ []) by (unfold h in *; lia). ring.
  Qed.

  Lemma rbf_gradient : exists rows g, rbf_forward p x = Ok rows /\ map (fun t => fst (fst t)) rows = map (rbf_output (rw p) (rb p) (rc p) (rbeta p)) x /\
    rbf_backward h rows y (rw p) = Ok g /\ length (dw g) = h /\ length (dbeta g) = h /\
    (forall u, (u < h)%nat -> derivable_pt_lim (fun t => half_error x y (with_param u t (rw p)) (rb p) (rc p) (rbeta p)) (nth u (rw p) 0) (nth u (dw g) 0)) /\
    derivable_pt_lim (fun t => half_error x y (rw p) t (rc p) (rbeta p)) (rb p) (db g) /\
    (forall u, (u < h)%nat -> derivable_pt_lim (fun t => half_mean_square x (rw p) (rb p) (rc p) (with_param u t (rbeta p))) (nth u (rbeta p) 0) (nth u (dbeta g) 0)).
  Proof.
    assert (N : length x <> 0%nat) by (destruct x; [congruence|discriminate]).
    exists (map (row_of p) x). eexists. split; [now apply (forward_value d)|]. split; [rewrite map_map; reflexivity|]. split; [apply backward_value|]. cbn [dw db dbeta].
    destruct S as (L1 & L2 & F). fold h in L1, L2.
    split; [rewrite map_length; apply seq_length|]. split; [rewrite map_length; apply seq_length|]. split; [|split].
    - intros u Hu. rewrite (nth_map_in _ _ u _ 0%nat) by now rewrite seq_length. rewrite seq_nth by auto. cbn [plus].
      set (f := fun (q : list R * R) t => rbf_output (with_param u t (rw p)) (rb p) (rc p) (rbeta p) (fst q)).
      assert (f0 : forall q, f q (nth u (rw p) 0) = rbf_output (rw p) (rb p) (rc p) (rbeta p) (fst q)). { intros q. unfold f. now rewrite with_param_self by lia. }
      pose proof (half_mean_deriv (combine x y) (length x) f (fun q => bump (nth u (rbeta p) 0) (nth u (rc p) []) (fst q)) snd (nth u (rw p) 0) N) as D.
      erewrite map_ext in D by (intros q; rewrite f0; reflexivity). apply D. intros q _. unfold f.
      eapply derivable_pt_lim_ext; [intros t; symmetry; apply output_weight; auto|]. apply deriv_line.
    - set (f := fun (q : list R * R) t => rbf_output (rw p) t (rc p) (rbeta p) (fst q)).
      pose proof (half_mean_deriv (combine x y) (length x) f (fun _ => 1) snd (rb p) N) as D. unfold f in D at 3. erewrite map_ext in D by (intros q; rewrite Rmult_1_r; reflexivity). apply D. intros q _. unfold f, rbf_output.
      match goal with |- derivable_pt_lim (fun t => ?a + t) _ _ => apply derivable_pt_lim_ext with (fun t => a + (t - 0) * 1); [intros; ring|apply deriv_line] end.
    - intros u Hu. rewrite (nth_map_in _ _ u _ 0%nat) by now rewrite seq_length. rewrite seq_nth by auto. cbn [plus].
      set (f := fun (r : list R) t => rbf_output (rw p) (rb p) (rc p) (with_param u t (rbeta p)) r).
      assert (f0 : forall r, f r (nth u (rbeta p) 0) = rbf_output (rw p) (rb p) (rc p) (rbeta p) r). { intros q. unfold f. now rewrite with_param_self by lia. }
      pose proof (half_mean_deriv x (length x) f (fun r => nth u (rw p) 0 * (- sq_dist r (nth u (rc p) []) * bump (nth u (rbeta p) 0) (nth u (rc p) []) r)) (fun _ => 0) (nth u (rbeta p) 0) N) as D.
      erewrite (map_ext (fun q => (f q (nth u (rbeta p) 0) - 0) * _)) in D by (intros q; rewrite f0, Rminus_0_r; reflexivity).
      eapply derivable_pt_lim_ext; [|apply D].
      + intros t. unfold half_mean_square. f_equal. change total with rsum. f_equal. apply map_ext. intros r. unfold f. ring.
      + intros r _. unfold f. eapply derivable_pt_lim_ext; [intros t; symmetry; apply output_width; auto|].
        match goal with |- derivable_pt_lim (fun t => ?a + ?b * _) _ (_ * ?e) => replace (b * e) with (0 + b * e) by ring end.
        apply (derivable_pt_lim_plus (fun _ => _)); [apply derivable_pt_lim_const|]. apply derivable_pt_lim_scal, bump_deriv.
  Qed.
  (** The derivative of the error with respect to the widths. *)
  Lemma true_width_derivative u : (u < h)%nat ->
    derivable_pt_lim (fun t => half_error x y (rw p) (rb p) (rc p) (with_param u t (rbeta p))) (nth u (rbeta p) 0)
      (rsum (map (fun q => (rbf_output (rw p) (rb p) (rc p) (rbeta p) (fst q) - snd q) * (nth u (rw p) 0 * (- sq_dist (fst q) (nth u (rc p) []) * bump (nth u (rbeta p) 0) (nth u (rc p) []) (fst q)))) (combine x y)) / INR (length x)).
  Proof.
    intros Hu. assert (N : length x <> 0%nat) by (destruct x; [congruence|discriminate]). destruct S as (L1 & L2 & F). fold h in L1, L2.
    set (f := fun (r : list R * R) t => rbf_output (rw p) (rb p) (rc p) (with_param u t (rbeta p)) (fst r)).
    assert (f0 : forall r, f r (nth u (rbeta p) 0) = rbf_output (rw p) (rb p) (rc p) (rbeta p) (fst r)). { intros q. unfold f. now rewrite with_param_self by lia. }
    pose proof (half_mean_deriv (combine x y) (length x) f (fun q => nth u (rw p) 0 * (- sq_dist (fst q) (nth u (rc p) []) * bump (nth u (rbeta p) 0) (nth u (rc p) []) (fst q))) snd (nth u (rbeta p) 0) N) as D.
    erewrite (map_ext (fun q => (f q (nth u (rbeta p) 0) - snd q) * _)) in D by (intros q; rewrite f0; reflexivity). apply D.
    intros r _. unfold f. eapply derivable_pt_lim_ext; [intros t; symmetry; apply output_width; auto|].
    match goal with |- derivable_pt_lim (fun t => ?a + ?b * _) _ (_ * ?e) => replace (b * e) with (0 + b * e) by ring end.
    apply (derivable_pt_lim_plus (fun _ => _)); [apply derivable_pt_lim_const|]. apply derivable_pt_lim_scal, bump_deriv.
  Qed.
End Grad.

Lemma mse_rows (f : list R -> R) x y : length y = length x -> zip2 Rminus (map f x) y = map (fun q => f (fst q) - snd q) (combine x y).
Proof.
  intros L. unfold zip2. revert y L. induction x as [|r x IH]; intros [|v y] L; simpl in *; try lia; auto. f_equal. apply IH. lia.
Qed.
Section Run.
  Variables (rate : R) (d : nat) (x : list (list R)) (y : list R).
  Hypothesis Fx : Forall (fun r => length r = d) x.
  Hypothesis Hx : x <> [].
  Hypothesis Ly : length y = length x.
  Definition shown_loss (p : rbf_params) : R :=
    rsum (map (fun q => rbf_output (rw p) (rb p) (rc p) (rbeta p) (fst q) - snd q) (combine x y)) ^ 2 / (2 * INR (length x)).
  Lemma epoch_value p : rbf_shape d p -> exists g, rbf_backward (length (rc p)) (map (row_of p) x) y (rw p) = Ok g /\
    rbf_epoch rate x (Column y) p = Ok (rbf_update rate p g, shown_loss p) /\ rbf_shape d (rbf_update rate p g).
  Proof.
    intros S. assert (N : length x <> 0%nat) by (destruct x; [congruence|discriminate]).
    pose proof (backward_value d p x y S Fx Hx Ly) as B. eexists. split; [exact B|]. split.
    - unfold rbf_epoch. rewrite (forward_value d) by auto. cbn [bind label_list]. rewrite B. cbn [bind].
      unfold mean_squared_error. rewrite map_length. replace (length x =? 0)%nat with false by (symmetry; now apply Nat.eqb_neq). cbn [bind].
      rewrite map_map. cbn [row_of fst]. rewrite mse_rows by auto. reflexivity.
    - destruct S as (L1 & L2 & F). unfold rbf_shape, rbf_update. cbn [rw rb rc rbeta dw dbeta].
      split; [|split]; auto; rewrite zip2_length; auto; rewrite map_length, seq_length; auto.
  Qed.
  Lemma run_value : forall n p, rbf_shape d p -> exists p' ls, rbf_run rate x (Column y) n p = Ok (p', ls) /\ length ls = n /\ rc p' = rc p /\ rbf_shape d p' /\
    forall k, (k < n)%nat -> exists pk lk, rbf_run rate x (Column y) k p = Ok (pk, lk) /\ rbf_shape d pk /\ nth k ls 0 = shown_loss pk.
  Proof.
    induction n as [|n IH]; intros p S.
    - exists p, []. split; [reflexivity|]. repeat (split; [auto|]). intros; lia.
    - destruct (epoch_value p S) as (g & _ & E & S'). destruct (IH _ S') as (p' & ls & R & L & C & Sp & H).
      exists p', (shown_loss p :: ls). cbn [rbf_run]. rewrite E. cbn [bind fst snd]. rewrite R. cbn [bind fst snd].
      split; [reflexivity|]. split; [simpl; lia|]. split; [exact C|]. split; [exact Sp|]. intros k Hk. destruct k as [|k].
      + exists p, []. repeat split; auto; apply S.
      + destruct (H k ltac:(lia)) as (pk & lk & Rk & Sk & V). exists pk, (shown_loss p :: lk). cbn [rbf_run]. rewrite E. cbn [bind fst snd]. rewrite Rk. cbn [bind fst snd]. auto.
  Qed.
End Run.
Lemma flat_error rate x y p n rows : (2 <= length y)%nat -> rbf_forward p x = Ok rows -> rbf_run rate x (Flat y) (S n) p = Err ValueError.
Proof. intros L E. cbn [rbf_run]. unfold rbf_epoch. rewrite E. cbn [bind]. destruct y as [|a [|b y]]; simpl in L; try lia. reflexivity. Qed.

Lemma one_feature p v : Forall (fun c => length c = 2%nat) (rc p) -> forward_row p [v] = forward_row p [v; v].
Proof.
  intros F. unfold forward_row. destruct (negb _); [reflexivity|]. replace (x_ci_row (rc p) [v]) with (x_ci_row (rc p) [v; v]); [reflexivity|].
  unfold x_ci_row. induction F as [|c cs H F IH]; [reflexivity|]. cbn [mapM]. rewrite IH. destruct c as [|c1 [|c2 [|c3 c]]]; try discriminate. reflexivity.
Qed.
Lemma three_features p r x : Forall (fun c => length c = 2%nat) (rc p) -> rc p <> [] -> (3 <= length r)%nat -> rbf_predict p (r :: x) = Err ValueError.
Proof.
  intros F N L. unfold rbf_predict, rbf_forward. cbn [mapM]. assert (E : forward_row p r = Err ValueError).
  { unfold forward_row. destruct (negb _); [reflexivity|]. destruct (rc p) as [|c cs]; [congruence|]. inversion F; subst. unfold x_ci_row. cbn [mapM]. unfold broadcast_sub at 1.
    destruct c as [|c1 [|c2 [|c3 c]]]; try discriminate. destruct r as [|r1 [|r2 [|r3 r]]]; simpl in L; try lia. reflexivity. }
  now rewrite E.
Qed.
