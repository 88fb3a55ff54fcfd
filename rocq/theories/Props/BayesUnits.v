(** C106: Bayes classifiers of a table written with other names and units. *)
From Coq Require Import List ZArith Reals Lra Lia Bool.
From Verif.Model Require Import Base Bayes.
From Verif.Spec Require Import Common Bayes BayesUnits.
From Verif.Proof Require Import BaseLemmas BayesUnits.
From Verif.Props Require Import Bayes.
Import ListNotations.
Local Open Scope R_scope.

(** Naive Bayes: the discrete columns are renamed, each in its own way, and the zero
    points of the measured columns are moved. *)
Theorem C106_naive_bayes_other_names : forall A B (O : TotalOrder A) (O' : TotalOrder B) num cont vc num' cont' vc' rnd fs cols y smoothing,
  Forall2 (rewritten num cont vc num' cont' vc') fs cols ->
  both (fun m m' => forall q, nb_predict O' num' rnd m' (sample_in fs q) = nb_predict O num rnd m q)
    (nb_fit O num cont vc cols y smoothing) (nb_fit O' num' cont' vc' (table_in fs cols) y smoothing).
Proof. intros. now apply nb_main. Qed.
Print Assumptions C106_naive_bayes_other_names.

(** One super parent: the order of the values by frequency does not matter. *)
Theorem C106_super_parent_other_names : forall A B (O : TotalOrder A) (O' : TotalOrder B) num cont num' cont' rnd fs cols y smoothing k,
  Forall2 (fun f col => one_to_one f /\ cont' (map f col) = cont col /\
                        (cont col = true -> exists t, forall v, num' (f v) = num v + t)) fs cols ->
  both (fun st st' => forall q, sp_predict O' num' rnd st' (sample_in fs q) = sp_predict O num rnd st q)
    (sp_fit O num cont [] cols y smoothing k) (sp_fit O' num' cont' [] (table_in fs cols) y smoothing k).
Proof. intros. now apply sp_main. Qed.
Print Assumptions C106_super_parent_other_names.

(** Averaged super parents: when all columns are renamed in the same way. *)
Theorem C106_averaged_common_names : forall A B (O : TotalOrder A) (O' : TotalOrder B) num cont num' cont' rnd (f : A -> B) cols y smoothing m,
  one_to_one f ->
  (forall col, In col cols -> cont' (map f col) = cont col /\ (cont col = true -> exists t, forall v, num' (f v) = num v + t)) ->
  both (fun t t' => forall q, ao_predict O' num' rnd (snd t') (map f q) = ao_predict O num rnd (snd t) q)
    (ao_fit O num cont [] cols y smoothing m) (ao_fit O' num' cont' [] (map (map f) cols) y smoothing m).
Proof. intros. now apply ao_main. Qed.
Print Assumptions C106_averaged_common_names.

(** Renaming one column only, from 3 and 2 to 1 and 0, changes the label. *)
Definition ao_c0 : list Z := [0; 0; 1; 0]%Z.
Definition ao_c1 : list Z := [3; 3; 3; 2]%Z.
Definition ao_f (v : Z) : Z := (v - 2)%Z.
Theorem C106_averaged_own_names_refuted : exists t t',
  one_to_one ao_f /\
  ao_fit ZOrder IZR (fun _ => false) [] [ao_c0; ao_c1] [0; 0; 1; 1]%Z false 0 = Ok t /\
  ao_fit ZOrder IZR (fun _ => false) [] [ao_c0; map ao_f ao_c1] [0; 0; 1; 1]%Z false 0 = Ok t' /\
  ao_predict ZOrder IZR (fun r => r) (snd t) [0; 3]%Z = Ok 0%Z /\
  ao_predict ZOrder IZR (fun r => r) (snd t') [0; ao_f 3]%Z = Ok 1%Z.
Proof.
  do 2 eexists. split; [intros u v E; unfold ao_f in E; lia|]. split; [reflexivity|]. split; [reflexivity|].
  assert (P : forall a b, (0 < a)%nat -> (0 < b)%nat -> elog (Some (INR a / INR b)) = Fin (ln (INR a / INR b))).
  { intros a b Ha Hb. unfold elog, Rltb. destruct (Rlt_dec _ _) as [|N]; auto. exfalso. apply N. apply Rdiv_lt_0_compat; apply lt_0_INR; auto. }
  assert (N : forall b, elog (Some (INR 0 / INR b)) = NegInf).
  { intros b. change (INR 0) with 0. unfold Rdiv. rewrite Rmult_0_l. unfold elog, Rltb, Reqb. destruct (Rlt_dec _ _); [exfalso; lra|]. destruct (Req_EM_T _ _); [reflexivity|exfalso; lra]. }
  split; unfold ao_predict, ao_scores; cbn -[elog INR Rdiv]; rewrite ?N, ?(P 2%nat 4%nat), ?(P 2%nat 2%nat), ?(P 1%nat 4%nat), ?(P 1%nat 1%nat) by lia; reflexivity.
Qed.
Print Assumptions C106_averaged_own_names_refuted.

(** In other units, not only with another zero point, naive Bayes may answer
    differently: the same measurements in units three times as small. *)
Lemma density_positive x m v : 0 < v -> 0 < 1 / (sqrt (2 * PI) * v) * exp (- (x - m) ^ 2 / (2 * v ^ 2)).
Proof.
  intros V. apply Rmult_lt_0_compat; [|apply exp_pos]. apply Rdiv_lt_0_compat; [lra|]. apply Rmult_lt_0_compat; auto.
  apply sqrt_lt_R0. pose proof PI_RGT_0. lra.
Qed.
Lemma density_value x m v : 0 < v -> get_probability_density (fun r => r) x m v = Some (1 / (sqrt (2 * PI) * v) * exp (- (x - m) ^ 2 / (2 * v ^ 2))).
Proof.
  intros V. unfold get_probability_density, Reqb. destruct (Req_EM_T v 0); [exfalso; lra|].
  destruct (Req_EM_T _ 0) as [E|]; [|reflexivity]. pose proof (density_positive x m v V). exfalso. lra.
Qed.
Theorem C106_other_units_refuted : exists m m',
  nb_fit ZOrder (fun z => IZR z / 2) (fun _ => true) (fun l => l) [[-1; 3; 3; 11]%Z] [0; 0; 1; 1]%Z false = Ok m /\
  nb_fit ZOrder (fun z => 3 * (IZR z / 2)) (fun _ => true) (fun l => l) [[-1; 3; 3; 11]%Z] [0; 0; 1; 1]%Z false = Ok m' /\
  nb_predict ZOrder (fun z => IZR z / 2) (fun r => r) m [5%Z] = Ok 1%Z /\
  nb_predict ZOrder (fun z => 3 * (IZR z / 2)) (fun r => r) m' [5%Z] = Ok 0%Z.
Proof.
  do 2 eexists. split; [reflexivity|]. split; [reflexivity|].
  assert (S : 0 < sqrt (2 * PI)) by (apply sqrt_lt_R0; pose proof PI_RGT_0; lra).
  assert (I : 0 < / sqrt (2 * PI)) by now apply Rinv_0_lt_compat.
  split.
  - rewrite (C69_label_compares_products _ _ _ _ _ _
      [(1 / (sqrt (2 * PI) * 1) * exp (- (5 / 2 - 1 / 2) ^ 2 / (2 * 1 ^ 2)), 1 / (sqrt (2 * PI) * 4) * exp (- (5 / 2 - 7 / 2) ^ 2 / (2 * 4 ^ 2)))]).
    + cbn [nb_p0 nb_p1 map fst snd product]. destruct (Rlt_dec _ _) as [L|]; auto. exfalso. cbn in L.
      replace (- ((5 / 2 - 1 / 2) * ((5 / 2 - 1 / 2) * 1)) / (2 * (1 * (1 * 1)))) with (- 2) in L by lra.
      replace (- ((5 / 2 - 7 / 2) * ((5 / 2 - 7 / 2) * 1)) / (2 * (4 * (4 * 1)))) with (- / 32) in L by lra.
      assert (E1 : exp (- 2) < 1 / 5).
      { assert (exp (1 / 2) > 3 / 2) by (pose proof (exp_ineq1 (1 / 2)); lra).
        assert (exp 1 > 9 / 4). { replace 1 with (1 / 2 + 1 / 2) by lra. rewrite exp_plus. nra. }
        assert (exp 2 > 5). { replace 2 with (1 + 1) by lra. rewrite exp_plus. nra. }
        change (-2) with (Ropp 2). rewrite exp_Ropp. unfold Rdiv. rewrite Rmult_1_l. apply Rinv_lt_contravar; [nra|lra]. }
      assert (E2 : exp (- / 32) > 31 / 32) by (pose proof (exp_ineq1 (- / 32)); lra).
      unfold Rdiv in L. rewrite !Rinv_mult in L. set (k := / sqrt (2 * PI)) in *. nra.
    + reflexivity.
    + cbn. lra.
    + cbn. lra.
    + constructor; [|constructor]. cbn [fst snd]. split; [apply density_positive; lra|]. split; [apply density_positive; lra|].
      rewrite <- !density_value by lra. cbn -[elog get_probability_density]. unfold rvar, rmean. cbn -[elog get_probability_density].
      f_equal. f_equal; f_equal; f_equal; lra.
  - rewrite (C69_label_compares_products _ _ _ _ _ _
      [(1 / (sqrt (2 * PI) * 9) * exp (- (15 / 2 - 3 / 2) ^ 2 / (2 * 9 ^ 2)), 1 / (sqrt (2 * PI) * 36) * exp (- (15 / 2 - 21 / 2) ^ 2 / (2 * 36 ^ 2)))]).
    + cbn [nb_p0 nb_p1 map fst snd product]. destruct (Rlt_dec _ _) as [|L]; auto. exfalso. apply L. cbn.
      replace (- ((15 / 2 - 3 / 2) * ((15 / 2 - 3 / 2) * 1)) / (2 * (9 * (9 * 1)))) with (- (2 / 9)) by lra.
      assert (E1 : exp (- (2 / 9)) > 7 / 9) by (pose proof (exp_ineq1 (- (2 / 9))); lra).
      assert (E2 : exp (- ((15 / 2 - 21 / 2) * ((15 / 2 - 21 / 2) * 1)) / (2 * (36 * (36 * 1)))) < 1).
      { apply Rlt_le_trans with (exp 0); [apply exp_increasing; lra|rewrite exp_0; lra]. }
      set (e2 := exp (_ / (2 * (36 * (36 * 1))))) in *. set (e1 := exp _) in *.
      unfold Rdiv. rewrite !Rinv_mult. set (k := / sqrt (2 * PI)) in *. nra.
    + reflexivity.
    + cbn. lra.
    + cbn. lra.
    + constructor; [|constructor]. cbn [fst snd]. split; [apply density_positive; lra|]. split; [apply density_positive; lra|].
      rewrite <- !density_value by lra. cbn -[elog get_probability_density]. unfold rvar, rmean. cbn -[elog get_probability_density].
      f_equal. f_equal; f_equal; f_equal; lra.
Qed.
Print Assumptions C106_other_units_refuted.

(** A table with a renamed column and a column whose zero point moves. *)
Example C106_naive_bayes_example :
  let cont := fun l => match l with v :: _ => (100 <=? v)%Z | [] => false end in
  Forall2 (rewritten IZR cont (fun l => unique ZOrder l) IZR cont (fun l => unique ZOrder l))
    [(fun v => 7 - v)%Z; (fun v => v + 273)%Z] [[1; 2; 2; 1]; [120; 130; 125; 150]]%Z /\
  table_in [(fun v => 7 - v)%Z; (fun v => v + 273)%Z] [[1; 2; 2; 1]; [120; 130; 125; 150]]%Z = [[6; 5; 5; 6]; [393; 403; 398; 423]]%Z /\
  exists m, nb_fit ZOrder IZR cont (fun l => unique ZOrder l) [[1; 2; 2; 1]; [120; 130; 125; 150]]%Z [0; 0; 1; 1]%Z true = Ok m.
Proof.
  split; [|split; [reflexivity|eexists; reflexivity]]. constructor; [|constructor; [|constructor]].
  - split; [intros u v E; lia|]. split; [reflexivity|]. split; [reflexivity|discriminate].
  - split; [intros u v E; lia|]. split; [reflexivity|]. split; [discriminate|]. intros _. exists 273. intros v. now rewrite plus_IZR.
Qed.
Example C106_super_parent_example : exists st, sp_fit ZOrder IZR (fun _ => false) [] [ao_c0; ao_c1] [0; 0; 1; 1]%Z false 1 = Ok st /\ length st = 4%nat.
Proof. eexists. split; reflexivity. Qed.
Example C106_averaged_example : exists t, ao_fit ZOrder IZR (fun _ => false) [] [ao_c0; ao_c1] [0; 0; 1; 1]%Z true 0 = Ok t /\ length (snd t) = 2%nat.
Proof. eexists. split; reflexivity. Qed.
