(** Proofs about losses, densities and metrics in floating point. *)
From Coq Require Import List Reals ZArith Bool Lia Lra Permutation.
From Flocq Require Import Core.
From Verif.Model Require Import Base Ops Float FloatOps.
From Verif.Spec Require Import Float.
From Verif.Proof Require Import BaseLemmas Float FloatAct FloatAct2.
Import ListNotations.
Local Open Scope R_scope.

Section Loss.
Variable f : format.
Hypothesis G : good f.
Variable lg : R -> R.
Hypothesis lg_ok : log_ok f lg.
Variable sum : list num -> num.
Hypothesis sums : forall l, summed f l (sum l).


Lemma log_0 : flog f lg (Num 0) = Inf true.
Proof. unfold flog, Rltb, Reqb. destruct (Rlt_dec 0 0); [lra|]. destruct (Req_EM_T 0 0); [reflexivity|lra]. Qed.
Lemma log_pos x : fits f x -> 0 < x <= 1 -> exists r, flog f lg (Num x) = Num r /\ r <= 0 /\ fits f r.
Proof.
  intros F H. destruct (lg_ok x F H) as (r & E & R0). unfold flog, Rltb, Reqb.
  destruct (Rlt_dec x 0); [lra|]. destruct (Req_EM_T x 0); [lra|]. exists r. split; [exact E|]. split; [exact R0|].
  unfold make, Rltb in E. destruct (Rlt_dec _ _) as [L|L]; [|discriminate]. injection E as <-. now apply (fits_rnd f G).
Qed.
Lemma mul_1 r : fits f r -> fmul f (Num 1) (Num r) = Num r.
Proof. intros F. cbn. rewrite Rmult_1_l. now apply make_fits. Qed.
Lemma mul_0 r : fmul f (Num 0) (Num r) = Num 0.
Proof. cbn. rewrite Rmult_0_l. apply make_0. Qed.
Lemma mul_0_inf : fmul f (Num 0) (Inf true) = NaN.
Proof. cbn. unfold Reqb. destruct (Req_EM_T 0 0); [reflexivity|lra]. Qed.
Lemma mul_1_inf : fmul f (Num 1) (Inf true) = Inf true.
Proof. cbn. unfold Reqb, Rltb. destruct (Req_EM_T 1 0); [lra|]. destruct (Rlt_dec 1 0); [lra|reflexivity]. Qed.
Lemma one_minus x : fits f x -> 0 <= x <= 1 -> exists y, fsub f (Num 1) (Num x) = Num y /\ fits f y /\ 0 <= y <= 1 /\ (y = 0 <-> x = 1).
Proof.
  intros [F _] H. change (fsub f (Num 1) (Num x)) with (make f (1 - x)).
  destruct (make_unit f G (1 - x) ltac:(lra)) as [-> B]. exists (rnd f (1 - x)). split; [reflexivity|].
  split. { apply (fits_rnd f G). rewrite Rabs_pos_eq by lra. pose proof (emax_gt_1 f G). lra. }
  split; [exact B|]. split.
  - intros Z. destruct (Req_EM_T x 1) as [E|N]; [exact E|]. exfalso. revert Z. apply (rnd_minus_neq f G); [apply (format_1 f G)|exact F|]. lra.
  - intros ->. replace (1 - 1) with 0 by ring. apply rnd_0.
Qed.
Lemma one_minus_0 : fsub f (Num 1) (Num 0) = Num 1.
Proof. change (fsub f (Num 1) (Num 0)) with (make f (1 + - 0)). replace (1 + - 0) with 1 by ring. apply (make_1 f G). Qed.
Lemma one_minus_1 : fsub f (Num 1) (Num 1) = Num 0.
Proof. change (fsub f (Num 1) (Num 1)) with (make f (1 + - 1)). replace (1 + - 1) with 0 by ring. apply make_0. Qed.

(** ** One term *)
Definition term (q : num * num) : num := fmul f (fst q) (flog f lg (snd q)).
Definition term' (q : num * num) : num := fmul f (fsub f (Num 1) (fst q)) (flog f lg (fsub f (Num 1) (snd q))).

Lemma term_cases y p : label y -> prob f p ->
  (y = Num 0 /\ p = Num 0 /\ term (y, p) = NaN) \/
  (y = Num 1 /\ p = Num 0 /\ term (y, p) = Inf true) \/
  (p <> Num 0 /\ exists r, term (y, p) = Num r /\ r <= 0 /\ fits f r).
Proof.
  intros L (x & -> & F & B). unfold term. cbn [fst snd]. destruct (Req_EM_T x 0) as [-> |N].
  - rewrite log_0. destruct L as [-> | ->]; [left|right; left]; repeat split; [apply mul_0_inf|apply mul_1_inf].
  - right. right. split; [intros H; injection H; lra|]. destruct (log_pos x F ltac:(lra)) as (r & -> & R0 & Fr).
    destruct L as [-> | ->].
    + exists 0. split; [apply mul_0|]. split; [lra|apply fits_0].
    + exists r. split; [now apply mul_1|]. auto.
Qed.
Lemma term'_cases y p : label y -> prob f p ->
  (y = Num 1 /\ p = Num 1 /\ term' (y, p) = NaN) \/
  (y = Num 0 /\ p = Num 1 /\ term' (y, p) = Inf true) \/
  (p <> Num 1 /\ exists r, term' (y, p) = Num r /\ r <= 0 /\ fits f r).
Proof.
  intros L (x & -> & F & B). unfold term'. cbn [fst snd]. destruct (one_minus x F B) as (z & -> & Fz & Bz & Z).
  destruct (Req_EM_T z 0) as [-> |N].
  - assert (X : x = 1) by now apply Z. subst x. rewrite log_0.
    destruct L as [-> | ->]; rewrite ?one_minus_0, ?one_minus_1; [right; left|left]; repeat split; [apply mul_1_inf|apply mul_0_inf].
  - right. right. split; [intros H; injection H; tauto|]. destruct (log_pos z Fz ltac:(lra)) as (r & -> & R0 & Fr).
    destruct L as [-> | ->]; rewrite ?one_minus_0, ?one_minus_1.
    + exists r. split; [now apply mul_1|]. auto.
    + exists 0. split; [apply mul_0|]. split; [lra|apply fits_0].
Qed.

(** ** Quotients *)
Lemma mean_nan n : fdiv f (fneg NaN) (Num n) = NaN. Proof. reflexivity. Qed.
Lemma mean_inf n : 0 < n -> fdiv f (fneg (Inf true)) (Num n) = Inf false.
Proof. intros H. cbn. unfold Rltb. destruct (Rlt_dec n 0); [lra|reflexivity]. Qed.
Lemma mean_down v n : 0 < n -> down f v -> up f (fdiv f (fneg v) (Num n)).
Proof.
  intros H D. destruct v as [x|s|]; cbn in D; [|subst s; rewrite mean_inf by exact H; reflexivity|contradiction].
  unfold fneg, fdiv, Reqb. destruct (Req_EM_T n 0); [lra|]. apply (up_make f G).
  apply Rmult_le_pos; [lra|apply Rlt_le, Rinv_0_lt_compat; lra].
Qed.

(** ** Binary loss *)
Definition certain_right (q : num * num) : Prop := label (fst q) /\ snd q = fst q.
Definition certain_wrong (q : num * num) : Prop := (fst q = Num 0 /\ snd q = Num 1) \/ (fst q = Num 1 /\ snd q = Num 0).

Lemma combine_in (y p : list num) q : Forall label y -> Forall (prob f) p -> In q (combine y p) -> label (fst q) /\ prob f (snd q).
Proof.
  intros L P I. destruct q as [a b]. rewrite Forall_forall in L, P. split; cbn.
  - apply L. now apply in_combine_l in I.
  - apply P. now apply in_combine_r in I.
Qed.

Lemma crossentropy_unfold y p : crossentropy_float f lg sum y p =
  fdiv f (fneg (fadd f (sum (map term (combine y p))) (sum (map term' (combine y p))))) (Num (INR (length y))).
Proof. reflexivity. Qed.

Lemma num_0_1 : Num 0 <> Num 1. Proof. intros H. injection H. lra. Qed.

Lemma crossentropy_nan y p : Forall label y -> Forall (prob f) p -> y <> [] -> length y = length p ->
  (crossentropy_float f lg sum y p = NaN <-> exists q, In q (combine y p) /\ certain_right q).
Proof.
  intros L P NE LEN. rewrite crossentropy_unfold. split.
  - intros E.
    destruct (Exists_dec (fun q => term q = NaN \/ term' q = NaN) (combine y p)) as [X|X].
    { intros q. destruct (term q); [|auto|auto]; destruct (term' q); auto; right; intros [?|?]; discriminate. }
    + apply Exists_exists in X as ([a b] & I & X). destruct (combine_in y p _ L P I) as [La Pb]. cbn in La, Pb.
      exists (a, b). split; [exact I|]. split; cbn; [exact La|].
      destruct X as [X|X].
      * destruct (term_cases a b La Pb) as [(-> & -> & _)|[(_ & _ & Q)|(_ & r & Q & _)]]; [reflexivity|congruence|congruence].
      * destruct (term'_cases a b La Pb) as [(-> & -> & _)|[(_ & _ & Q)|(_ & r & Q & _)]]; [reflexivity|congruence|congruence].
    + exfalso. assert (D : Forall (down f) (map term (combine y p)) /\ Forall (down f) (map term' (combine y p))).
      { rewrite !Forall_forall. split; intros v I; apply in_map_iff in I as ([a b] & <- & I); destruct (combine_in y p _ L P I) as [La Pb]; cbn in La, Pb.
        - destruct (term_cases a b La Pb) as [(_ & _ & Q)|[(_ & _ & Q)|(_ & r & Q & B & F)]]; [|rewrite Q; reflexivity|rewrite Q; split; auto].
          exfalso. apply X, Exists_exists. exists (a, b). auto.
        - destruct (term'_cases a b La Pb) as [(_ & _ & Q)|[(_ & _ & Q)|(_ & r & Q & B & F)]]; [|rewrite Q; reflexivity|rewrite Q; split; auto].
          exfalso. apply X, Exists_exists. exists (a, b). auto. }
      destruct D as [D1 D2]. pose proof (sum_down f G _ _ (sums _) D1) as S1. pose proof (sum_down f G _ _ (sums _) D2) as S2.
      pose proof (mean_down _ (INR (length y)) ltac:(apply lt_0_INR; destruct y; [contradiction|cbn; lia]) (down_add f G _ _ S1 S2)) as U.
      rewrite E in U. exact U.
  - intros ([a b] & I & La & E). cbn in La, E. subst b. destruct (combine_in y p _ L P I) as [_ Pb]. cbn in Pb.
    destruct (term_cases a a La Pb) as [(-> & _ & Q)|[(-> & E & _)|(_ & T)]].
    + rewrite (sum_nan f _ _ (sums (map term (combine y p)))); [reflexivity|]. rewrite <- Q. now apply in_map.
    + exfalso. now apply num_0_1.
    + destruct (term'_cases a a La Pb) as [(-> & _ & Q)|[(-> & E & _)|(N & _)]].
      * rewrite (sum_nan f _ _ (sums (map term' (combine y p)))); [now rewrite nan_add_r|]. rewrite <- Q. now apply in_map.
      * exfalso. now apply num_0_1.
      * exfalso. destruct La as [-> | ->]; [|now apply N].
        destruct T as (r & T & _). unfold term in T. cbn [fst snd] in T. rewrite log_0, mul_0_inf in T. discriminate.
Qed.

Lemma crossentropy_up y p : Forall label y -> Forall (prob f) p -> y <> [] ->
  (forall q, In q (combine y p) -> ~ certain_right q) ->
  up f (crossentropy_float f lg sum y p) /\
  ((exists q, In q (combine y p) /\ certain_wrong q) -> crossentropy_float f lg sum y p = Inf false).
Proof.
  intros L P NE N. rewrite crossentropy_unfold.
  assert (N0 : 0 < INR (length y)) by (apply lt_0_INR; destruct y; [contradiction|cbn; lia]).
  assert (D : Forall (down f) (map term (combine y p)) /\ Forall (down f) (map term' (combine y p))).
  { rewrite !Forall_forall. split; intros v I; apply in_map_iff in I as ([a b] & <- & I); destruct (combine_in y p _ L P I) as [La Pb]; cbn in La, Pb.
    - destruct (term_cases a b La Pb) as [(-> & -> & Q)|[(_ & _ & Q)|(_ & r & Q & B & F)]]; [|rewrite Q; reflexivity|rewrite Q; split; auto].
      exfalso. apply (N _ I). split; [now left|reflexivity].
    - destruct (term'_cases a b La Pb) as [(-> & -> & Q)|[(_ & _ & Q)|(_ & r & Q & B & F)]]; [|rewrite Q; reflexivity|rewrite Q; split; auto].
      exfalso. apply (N _ I). split; [now right|reflexivity]. }
  destruct D as [D1 D2]. pose proof (sum_down f G _ _ (sums _) D1) as S1. pose proof (sum_down f G _ _ (sums _) D2) as S2.
  split; [apply (mean_down _ _ N0), (down_add f G _ _ S1 S2)|].
  intros ([a b] & I & W). destruct (combine_in y p _ L P I) as [La Pb]. cbn in La, Pb.
  rewrite (down_add_inf f _ _ S1 S2); [now apply mean_inf|].
  destruct W as [[Ea Eb]|[Ea Eb]]; cbn in Ea, Eb; subst a b.
  - right. apply (sum_down_inf f G _ _ (sums _) D2). replace (Inf true) with (term' (Num 0, Num 1)); [now apply in_map|].
    destruct (term'_cases (Num 0) (Num 1) La Pb) as [(E & _)|[(_ & _ & Q)|(E & _)]]; [now apply num_0_1 in E|exact Q|contradiction].
  - left. apply (sum_down_inf f G _ _ (sums _) D1). replace (Inf true) with (term (Num 1, Num 0)); [now apply in_map|].
    destruct (term_cases (Num 1) (Num 0) La Pb) as [(E & _)|[(_ & _ & Q)|(E & _)]]; [symmetry in E; now apply num_0_1 in E|exact Q|contradiction].
Qed.

(** ** Categorical loss *)
Lemma categorical_unfold n y p : categorical_float f lg sum n y p = fdiv f (fneg (sum (map term (combine y p)))) (Num (INR n)).
Proof. reflexivity. Qed.
Lemma categorical_nan n y p : Forall label y -> Forall (prob f) p -> (0 < n)%nat ->
  (categorical_float f lg sum n y p = NaN <-> In (Num 0, Num 0) (combine y p)).
Proof.
  intros L P N. rewrite categorical_unfold. split.
  - intros E. destruct (Exists_dec (fun q => term q = NaN) (combine y p)) as [X|X].
    { intros q. destruct (term q); [right; discriminate|right; discriminate|now left]. }
    + apply Exists_exists in X as ([a b] & I & X). destruct (combine_in y p _ L P I) as [La Pb]. cbn in La, Pb.
      destruct (term_cases a b La Pb) as [(-> & -> & _)|[(_ & _ & Q)|(_ & r & Q & _)]]; [exact I|congruence|congruence].
    + exfalso. assert (D : Forall (down f) (map term (combine y p))).
      { rewrite Forall_forall. intros v I; apply in_map_iff in I as ([a b] & <- & I); destruct (combine_in y p _ L P I) as [La Pb]; cbn in La, Pb.
        destruct (term_cases a b La Pb) as [(_ & _ & Q)|[(_ & _ & Q)|(_ & r & Q & B & F)]]; [|rewrite Q; reflexivity|rewrite Q; split; auto].
        exfalso. apply X, Exists_exists. exists (a, b). auto. }
      pose proof (mean_down _ (INR n) ltac:(apply lt_0_INR; exact N) (sum_down f G _ _ (sums _) D)) as U. rewrite E in U. exact U.
  - intros I. rewrite (sum_nan f _ _ (sums _)); [reflexivity|]. apply in_map_iff. exists (Num 0, Num 0). split; [|exact I].
    unfold term. cbn [fst snd]. now rewrite log_0, mul_0_inf.
Qed.
Lemma categorical_up n y p : Forall label y -> Forall (prob f) p -> (0 < n)%nat -> ~ In (Num 0, Num 0) (combine y p) ->
  up f (categorical_float f lg sum n y p) /\
  (In (Num 1, Num 0) (combine y p) -> categorical_float f lg sum n y p = Inf false).
Proof.
  intros L P N X. rewrite categorical_unfold.
  assert (D : Forall (down f) (map term (combine y p))).
  { rewrite Forall_forall. intros v I; apply in_map_iff in I as ([a b] & <- & I); destruct (combine_in y p _ L P I) as [La Pb]; cbn in La, Pb.
    destruct (term_cases a b La Pb) as [(-> & -> & Q)|[(_ & _ & Q)|(_ & r & Q & B & F)]]; [contradiction|rewrite Q; reflexivity|rewrite Q; split; auto]. }
  split; [apply mean_down; [apply lt_0_INR; exact N|exact (sum_down f G _ _ (sums _) D)]|].
  intros I. pose proof (sum_down_inf f G _ _ (sums _) D) as Q. rewrite Q.
  - apply mean_inf, lt_0_INR, N.
  - apply in_map_iff. exists (Num 1, Num 0). split; [|exact I]. unfold term. cbn [fst snd]. now rewrite log_0, mul_1_inf.
Qed.
End Loss.
