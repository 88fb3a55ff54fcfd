(** C35 - C39, C69: Bayes classifiers. *)
From Coq Require Import List ZArith Reals Lra Lia Sorted.
From Verif.Model Require Import Base Bayes.
From Verif.Spec Require Import Common Bayes.
From Verif.Proof Require Import BaseLemmas Counting Bayes BayesMain BayesNan.
Import ListNotations.
Local Open Scope R_scope.

(** ** C35 *)
Theorem C35_priors : forall y smoothing p0 p1, get_prior_probability (length y) y smoothing = Ok (p0, p1) ->
  p0 + p1 = 1 /\ 0 <= p0 /\ 0 <= p1 /\
  forall n0 k, how_many (fun c => c = 0%Z) y n0 -> num_distinct y k ->
    p0 = if smoothing then (INR n0 + 1) / (INR (length y) + INR k) else INR n0 / INR (length y).
Proof. exact prior_spec. Qed.
Print Assumptions C35_priors.

Theorem C35_priors_exist : forall y smoothing, y <> [] ->
  exists p0 p1, get_prior_probability (length y) y smoothing = Ok (p0, p1).
Proof. exact prior_total. Qed.
Print Assumptions C35_priors_exist.

Theorem C35_smoothed_priors : forall y p0 p1 c, get_prior_probability (length y) y true = Ok (p0, p1) ->
  In c y -> c <> 0%Z -> 0 < p0 < 1 /\ 0 < p1 < 1.
Proof. exact prior_smoothed. Qed.
Print Assumptions C35_smoothed_priors.

(** Without a second class smoothing does not help. *)
Theorem C35_smoothed_priors_one_class_refuted : forall y, y <> [] -> Forall (fun c => c = 0%Z) y ->
  get_prior_probability (length y) y true = Ok (1, 0).
Proof. exact prior_single_class. Qed.
Print Assumptions C35_smoothed_priors_one_class_refuted.

Theorem C35_conditionals : forall A (O : TotalOrder A) num continuous vc rnd y col d0 d1 n0 n1 k smoothing,
  length col = length y -> col <> [] -> frequency_order col (vc col) ->
  nb_attribute O num continuous vc y col = Ok (NBDisc d0 d1 n0 n1 k) ->
  smoothing = true \/ (In 0%Z y /\ In 1%Z y) ->
  exists P0 P1 : A -> R,
    (forall v, In v col ->
       nb_term O num rnd smoothing (NBDisc d0 d1 n0 n1 k) v = Ok (elog (Some (P0 v)), elog (Some (P1 v)))) /\
    (forall v, 0 <= P0 v /\ 0 <= P1 v /\ (smoothing = true -> 0 < P0 v /\ 0 < P1 v)) /\
    forall u, NoDup u -> (forall v, In v u <-> In v col) -> total (map P0 u) = 1 /\ total (map P1 u) = 1.
Proof. intros A. exact (@nb_conditionals A). Qed.
Print Assumptions C35_conditionals.

Theorem C35_dependent_priors : forall A (O : TotalOrder A) num continuous cols y smoothing parent t,
  length parent = length y -> Forall (fun c => c = 0%Z \/ c = 1%Z) y -> In 0%Z y -> In 1%Z y ->
  sp_table O num continuous cols y smoothing parent = Ok t ->
  total (map p_c_xi t) = 1 /\ Forall (fun e => 0 <= p_c_xi e /\ (smoothing = true -> 0 < p_c_xi e)) t.
Proof. intros A O num continuous. exact (dep_priors_sum O num continuous (fun r => r)). Qed.
Print Assumptions C35_dependent_priors.

Theorem C35_dependent_conditionals : forall A (O : TotalOrder A) num continuous rnd y smoothing c sel col,
  smoothing = true \/ (0 < length (pick sel col))%nat -> col <> [] -> continuous col = false ->
  exists P : A -> R,
    (forall v, In v col ->
       sp_info_log O num rnd (sp_attribute O num continuous y smoothing c sel col) v = Ok (elog (Some (P v)))) /\
    (forall v, 0 <= P v /\ (smoothing = true -> 0 < P v)) /\
    forall u, NoDup u -> (forall v, In v u <-> In v col) -> total (map P u) = 1.
Proof. intros A. exact (@entry_conditionals A). Qed.
Print Assumptions C35_dependent_conditionals.

(** ** C36 *)
(** The count stored under the i-th most frequent value is the count of the i-th
    value to appear in the column. *)
Theorem C36_counts_are_positional : forall A (O : TotalOrder A) num continuous vc y col d0 d1 n0 n1 k u,
  frequency_order col (vc col) -> nb_attribute O num continuous vc y col = Ok (NBDisc d0 d1 n0 n1 k) ->
  appearance_order col u ->
  length (vc col) = length u /\
  forall i v w, nth_error (vc col) i = Some v -> nth_error u i = Some w ->
    forall a b, how_many (row_is w 0%Z) (combine col y) a -> how_many (row_is w 1%Z) (combine col y) b ->
    dict_lookup O d0 v = Ok a /\ dict_lookup O d1 v = Ok b.
Proof. intros A. exact (@nb_counts_positional A). Qed.
Print Assumptions C36_counts_are_positional.

Theorem C36_counts : forall A (O : TotalOrder A) num continuous vc y col d0 d1 n0 n1 k u,
  length col = length y -> frequency_order col (vc col) ->
  appearance_order col u -> StronglySorted (more_frequent col) u ->
  nb_attribute O num continuous vc y col = Ok (NBDisc d0 d1 n0 n1 k) ->
  (forall v, In v col -> forall a b,
     how_many (row_is v 0%Z) (combine col y) a -> how_many (row_is v 1%Z) (combine col y) b ->
     dict_lookup O d0 v = Ok a /\ dict_lookup O d1 v = Ok b) /\
  how_many (fun z => z = 0%Z) y n0 /\ how_many (fun z => z = 1%Z) y n1 /\ num_distinct col k.
Proof.
  intros A O num continuous vc y col d0 d1 n0 n1 k u L F Hu S H.
  apply (nb_counts_right O num continuous vc y col d0 d1 n0 n1 k L); auto.
  apply appearance_unique. exact (appearance_of_frequency O vc col u F Hu S).
Qed.
Print Assumptions C36_counts.

Theorem C36_super_parent_tables : forall A (O : TotalOrder A) num continuous cols y smoothing parent t,
  length parent = length y -> Forall (fun col => length col = length y) cols ->
  sp_table O num continuous cols y smoothing parent = Ok t ->
  NoDup (map (fun e => (category e, sp_value e)) t) /\
  (forall c v, In (c, v) (map (fun e => (category e, sp_value e)) t) <-> In c y /\ In v parent) /\
  Forall (right_entry O num continuous cols y smoothing parent) t.
Proof. intros A O num continuous. exact (table_entries O num continuous (fun r => r)). Qed.
Print Assumptions C36_super_parent_tables.

(** ** C37 *)
Theorem C37_reported_numbers : forall a b, a < 0 -> b < 0 ->
  exists p q, nb_pair (Fin a, Fin b) = Some (p, q) /\ p + q = 1 /\ 0 < p < 1 /\ 0 < q < 1 /\
    (q < p -> nb_label (Fin a, Fin b) = 1%Z) /\ (p < q -> nb_label (Fin a, Fin b) = 0%Z).
Proof.
  intros a b Ha Hb. destruct (pair_total a b Ha Hb) as (p & q & E). exists p, q. split; auto.
  exact (pair_spec a b p q Ha Hb E).
Qed.
Print Assumptions C37_reported_numbers.

(** ** C38 *)
Theorem C38_density_is_normal : forall x mean var, 0 < var ->
  get_probability_density (fun p => p) x mean var = Some (normal_density mean var x) /\ 0 < normal_density mean var x.
Proof. exact density_shape. Qed.
Print Assumptions C38_density_is_normal.

Theorem C38_density_positive : forall rnd x mean var p, (forall r, 0 <= r -> 0 <= rnd r) -> 0 < var ->
  get_probability_density rnd x mean var = Some p -> 0 < p.
Proof. exact density_positive. Qed.
Print Assumptions C38_density_positive.

Theorem C38_density_symmetric : forall rnd mean var t,
  get_probability_density rnd (mean + t) mean var = get_probability_density rnd (mean - t) mean var.
Proof. exact density_symmetric. Qed.
Print Assumptions C38_density_symmetric.

Theorem C38_density_decreases : forall mean var x z, 0 < var -> Rabs (x - mean) < Rabs (z - mean) ->
  normal_density mean var z < normal_density mean var x /\ normal_density mean var x <= normal_density mean var mean.
Proof. intros mean var x z H E. split; [now apply normal_closer|now apply normal_max]. Qed.
Print Assumptions C38_density_decreases.

(** What is stored for a continuous column: mean and variance of the rows of the
    class. *)
Theorem C38_stored_statistics : forall A (O : TotalOrder A) num continuous vc y col s0 s1,
  nb_attribute O num continuous vc y col = Ok (NBCont s0 s1) ->
  continuous col = true /\ forall c s, (c, s) = (0%Z, s0) \/ (c, s) = (1%Z, s1) ->
  exists rows, selection (fun r => snd r = c) (combine col y) rows /\ statistics (map (fun r => num (fst r)) rows) s.
Proof. intros A. exact (@nb_statistics A). Qed.
Print Assumptions C38_stored_statistics.

Example C38_witness : normal_density 0 2 3 < normal_density 0 2 1 /\
  exists s0 s1, nb_attribute ZOrder IZR (fun _ => true) (fun c => c) [0; 1; 0; 1]%Z [2; 5; 4; 9]%Z = Ok (NBCont s0 s1) /\
  s0 = Some (3, 1) /\ s1 = Some (7, 4).
Proof.
  split; [apply C38_density_decreases; [lra|]; rewrite !Rabs_right by lra; lra|].
  do 2 eexists. split; [reflexivity|]. unfold mean_var, rvar, rmean, rsum. cbn. split; do 2 f_equal; lra.
Qed.

(** ** C39 *)
Theorem C39_labels : forall A (O : TotalOrder A) num rnd st lists q l,
  (sp_predict O num rnd st q = Ok l -> l = 0%Z \/ l = 1%Z) /\
  (ao_predict O num rnd lists q = Ok l -> l = 0%Z \/ l = 1%Z).
Proof. intros. split; [apply sp_predict_binary|apply ao_predict_binary]. Qed.
Print Assumptions C39_labels.

(** After any history of fits the table is the concatenation of the tables the
    fits would have produced on fresh estimators. *)
Theorem C39_refits_accumulate : forall A (O : TotalOrder A) num continuous fs st st',
  foldM (do_fit O num continuous) fs st = Ok st' ->
  exists ts, Forall2 (fun f t => do_fit O num continuous [] f = Ok t) fs ts /\ st' = st ++ concat ts.
Proof. intros A. exact (@sp_history A). Qed.
Print Assumptions C39_refits_accumulate.

(** Fitting again on the same data does not change any prediction. *)
Theorem C39_refit_on_same_data : forall A (O : TotalOrder A) num continuous rnd cols y s i t k st,
  sp_fit O num continuous [] cols y s i = Ok t ->
  foldM (do_fit O num continuous) (repeat (cols, y, s, i) (S k)) [] = Ok st ->
  forall q l, sp_predict O num rnd t q = Ok l -> sp_predict O num rnd st q = Ok l.
Proof. intros A. exact (@refit_same_data A). Qed.
Print Assumptions C39_refit_on_same_data.

(** The label compares products over all entries of a class, whatever value the
    query has at the super parent. *)
Theorem C39_label_uses_every_entry : forall A (O : TotalOrder A) num rnd q st fs,
  Forall2 (fun e f => 0 < f /\ sp_entry_log O num rnd q e = Ok (Fin (ln f))) st fs ->
  sp_predict O num rnd st q =
    Ok (if Rlt_dec (product (map snd (filter (fun p => (category (fst p) =? 1)%Z) (combine st fs))))
                   (product (map snd (filter (fun p => (category (fst p) =? 0)%Z) (combine st fs))))
        then 0%Z else 1%Z).
Proof. intros A O num. exact (sp_product O num (fun _ => true)). Qed.
Print Assumptions C39_label_uses_every_entry.

Theorem C39_averaged_shares_one_table : forall A (O : TotalOrder A) num continuous st cols y s m final lists,
  ao_fit O num continuous st cols y s m = Ok (final, lists) ->
  Forall (fun l => l = final) lists /\
  exists parents ts, length lists = length parents /\
    (forall i, In i parents <-> exists col, nth_error cols i = Some col /\ continuous col = false /\
       forall v n, In v col -> how_many (fun w => w = v) col n -> (m < n)%nat) /\
    Forall2 (fun i t => sp_fit O num continuous [] cols y s i = Ok t) parents ts /\ final = st ++ concat ts.
Proof.
  intros A O num continuous st cols y s m final lists H. apply ao_fit_shared in H.
  destruct H as (F & parents & ts & L & I & G & E). split; auto. exists parents, ts. split; auto. split; auto.
  intros i. rewrite I. split; intros (col & Hn & El); exists col; (split; [exact Hn|]); now apply (ao_eligible_spec O).
Qed.
Print Assumptions C39_averaged_shares_one_table.

Theorem C39_no_super_parent : forall A (O : TotalOrder A) num rnd q, ao_predict O num rnd [] q = Ok 1%Z.
Proof. intros. apply ao_nothing. Qed.
Print Assumptions C39_no_super_parent.

Theorem C39_averaged_one_parent : forall A (O : TotalOrder A) num rnd t v q,
  ao_predict O num rnd [t] (v :: q) = sp_predict O num rnd (filter (fun e => eqb O (sp_value e) v) t) (v :: q).
Proof. intros. apply ao_single. Qed.
Print Assumptions C39_averaged_one_parent.

(** Three fits on one estimator succeed. *)
Example C39_witness : exists t st, let f := ([[0; 0; 1; 0]; [2; 3; 2; 3]], [0; 1; 0; 1], true, 0%nat)%Z in
  do_fit ZOrder IZR (fun _ => false) [] f = Ok t /\ foldM (do_fit ZOrder IZR (fun _ => false)) [f; f; f] [] = Ok st /\
  st = t ++ t ++ t /\ t <> [].
Proof. do 2 eexists. split; [reflexivity|]. split; [reflexivity|]. split; [reflexivity|discriminate]. Qed.

(** ** C69 *)
Theorem C69_label_is_most_probable_class : forall A (O : TotalOrder A) num continuous vc rnd cols y,
  Forall (fun c => c = 0%Z \/ c = 1%Z) y -> In 0%Z y -> In 1%Z y ->
  Forall (fun col => length col = length y /\ continuous col = false /\ ~ num_distinct col 1 /\
                     appearance_order col (vc col)) cols ->
  exists m, nb_fit O num continuous vc cols y true = Ok m /\
  forall q r0 r1 n0 n1, Forall2 (fun v col => In v col) q cols ->
    likelihood y 0 cols q r0 -> likelihood y 1 cols q r1 ->
    how_many (fun c => c = 0%Z) y n0 -> how_many (fun c => c = 1%Z) y n1 ->
    nb_predict O num rnd m q =
      Ok (if Rlt_dec ((INR n1 + 1) / (INR (length y) + 2) * r1) ((INR n0 + 1) / (INR (length y) + 2) * r0)
          then 0%Z else 1%Z).
Proof. intros A. exact (@nb_textbook A). Qed.
Print Assumptions C69_label_is_most_probable_class.

Theorem C69_label_compares_products : forall A (O : TotalOrder A) num rnd m q fs,
  length q = length (nb_pi m) -> 0 < nb_p0 m -> 0 < nb_p1 m ->
  Forall2 (fun p f => 0 < fst f /\ 0 < snd f /\
    nb_term O num rnd (nb_smoothing m) (fst p) (snd p) = Ok (elog (Some (fst f)), elog (Some (snd f))))
    (combine (nb_pi m) q) fs ->
  nb_predict O num rnd m q =
    Ok (if Rlt_dec (nb_p1 m * product (map snd fs)) (nb_p0 m * product (map fst fs)) then 0%Z else 1%Z).
Proof. intros A O num rnd. exact (predict_product O num (fun _ => true) (fun l => l) rnd). Qed.
Print Assumptions C69_label_compares_products.

Theorem C69_unseen_value_fails : forall A (O : TotalOrder A) num rnd m q i d0 d1 n0 n1 k v,
  (forall j, (j < i)%nat -> exists e w t, nth_error (nb_pi m) j = Some e /\
    nth_error q j = Some w /\ nb_term O num rnd (nb_smoothing m) e w = Ok t) ->
  nth_error (nb_pi m) i = Some (NBDisc d0 d1 n0 n1 k) -> nth_error q i = Some v -> dict_get O d0 v = None ->
  length q = length (nb_pi m) -> nb_predict O num rnd m q = Err KeyError.
Proof. intros A. exact (@unseen_value A). Qed.
Print Assumptions C69_unseen_value_fails.

(** A continuous column that has one number [a] in all rows of a class (one row is
    enough, and so is a class without rows for naive Bayes): the score of that class is
    NaN, and every answer is class 1, whatever is asked. *)
Theorem C38_constant_in_class : forall A (O : TotalOrder A) num continuous vc rnd cols y smoothing m q l col c a,
  nb_fit O num continuous vc cols y smoothing = Ok m -> In col cols -> continuous col = true -> c = 0%Z \/ c = 1%Z ->
  (forall k v, nth_error col k = Some v -> nth_error y k = Some c -> num v = a) ->
  nb_predict O num rnd m q = Ok l -> l = 1%Z.
Proof. intros A O num continuous vc rnd cols y smoothing m q l col c a H1 H2 H3 H4 H5; exact (nb_flat O num continuous vc rnd cols y smoothing m q l col c H1 H2 H3 H4 (ex_intro _ a H5)). Qed.
Print Assumptions C38_constant_in_class.
Example C38_constant_in_class_witness : forall rnd, exists m,
  nb_fit ZOrder IZR (fun _ => true) (fun l => l) [[1; 2; 9]]%Z [0; 0; 1]%Z true = Ok m /\
  exists l, nb_predict ZOrder IZR rnd m [1]%Z = Ok l.
Proof. intros rnd; eexists; split; [ reflexivity |]; eexists; reflexivity. Qed.
(** The estimator with a super parent: a class that occurs. *)
Theorem C38_constant_in_class_super_parent : forall A (O : TotalOrder A) num continuous rnd state cols y smoothing index l q r col parent c a,
  sp_fit O num continuous state cols y smoothing index = Ok l -> nth_error cols index = Some parent -> parent <> [] ->
  In c y -> c = 0%Z \/ c = 1%Z -> In col cols -> continuous col = true ->
  (forall k v, nth_error col k = Some v -> nth_error y k = Some c -> num v = a) ->
  sp_predict O num rnd l q = Ok r -> r = 1%Z.
Proof.
  intros A O num continuous rnd state cols y smoothing index l q r col parent c a H1 H2 H3 H4 H5 H6 H7 H8.
  exact (sp_flat O num continuous rnd state cols y smoothing index l q r col parent c H1 H2 H3 H4 H5 H6 H7 (ex_intro _ a H8)).
Qed.
Print Assumptions C38_constant_in_class_super_parent.
Example C38_super_parent_witness : forall rnd, exists l,
  sp_fit ZOrder IZR (fun c => Nat.eqb (count (Z.eqb 9) c) 1) [] [[1; 2; 9]; [4; 4; 3]]%Z [0; 0; 1]%Z true 1 = Ok l /\
  exists r, sp_predict ZOrder IZR rnd l [1; 4]%Z = Ok r.
Proof. intros rnd; eexists; split; [ reflexivity |]; eexists; reflexivity. Qed.

(** ** Concrete cases *)
Lemma as_frequent_occ {A} (O : TotalOrder A) l a b : (occurrences O b l <= occurrences O a l)%nat -> as_frequent l a b.
Proof.
  intros H na nb Ha Hb. now rewrite (hm_unique _ _ _ _ Ha (occ_hm O a l)), (hm_unique _ _ _ _ Hb (occ_hm O b l)).
Qed.
Lemma more_frequent_occ {A} (O : TotalOrder A) l a b : (occurrences O b l < occurrences O a l)%nat -> more_frequent l a b.
Proof.
  intros H na nb Ha Hb. now rewrite (hm_unique _ _ _ _ Ha (occ_hm O a l)), (hm_unique _ _ _ _ Hb (occ_hm O b l)).
Qed.

(** A column whose values appear in order of frequency. *)
Definition good_col : list Z := [1; 1; 0]%Z.
Definition good_y : list Z := [1; 1; 0]%Z.
Definition appear (l : list Z) : list Z := unique ZOrder l.

Lemma good_frequency : frequency_order good_col (appear good_col).
Proof.
  split; [apply unique_NoDup|]. split; [apply unique_In|].
  change (appear good_col) with [1%Z; 0%Z].
  constructor; [constructor; [constructor|constructor]|]. constructor; [|constructor].
  apply (as_frequent_occ ZOrder). vm_compute. lia.
Qed.

Example C35_conditionals_example : exists d0 d1 n0 n1 k,
  nb_attribute ZOrder IZR (fun _ => false) appear good_y good_col = Ok (NBDisc d0 d1 n0 n1 k) /\
  frequency_order good_col (appear good_col) /\ In 0%Z good_y /\ In 1%Z good_y.
Proof. do 5 eexists. split; [reflexivity|]. split; [apply good_frequency|]. simpl; auto. Qed.

Example C35_dependent_example : exists t,
  sp_table ZOrder IZR (fun _ => false) [good_col] good_y true good_col = Ok t /\ length t = 4%nat /\
  map p_c_xi t = [INR 1 / INR 7; INR 2 / INR 7; INR 3 / INR 7; INR 1 / INR 7].
Proof. eexists. split; [reflexivity|]. split; reflexivity. Qed.

Example C36_counts_example : exists d0 d1 n0 n1 k,
  nb_attribute ZOrder IZR (fun _ => false) appear good_y good_col = Ok (NBDisc d0 d1 n0 n1 k) /\
  appearance_order good_col (appear good_col) /\ StronglySorted (more_frequent good_col) (appear good_col) /\
  d0 = [(1, 0%nat); (0, 1%nat)]%Z /\ d1 = [(1, 2%nat); (0, 0%nat)]%Z.
Proof.
  do 5 eexists. split; [reflexivity|]. split; [apply unique_appearance|]. split.
  - change (appear good_col) with [1%Z; 0%Z].
    constructor; [constructor; [constructor|constructor]|]. constructor; [|constructor].
    apply (more_frequent_occ ZOrder). vm_compute. lia.
  - split; reflexivity.
Qed.

Example C69_example : exists m, nb_fit ZOrder IZR (fun _ => false) appear [good_col] good_y true = Ok m /\
  nb_predict ZOrder IZR (fun r => r) m [0%Z] = Ok 0%Z /\ nb_predict ZOrder IZR (fun r => r) m [1%Z] = Ok 1%Z.
Proof.
  destruct (C69_label_is_most_probable_class Z ZOrder IZR (fun _ => false) appear (fun r => r) [good_col] good_y)
    as (m & Hm & P).
  - unfold good_y. repeat (apply Forall_cons; [auto|]). apply Forall_nil.
  - simpl; auto.
  - simpl; auto.
  - constructor; [|constructor]. split; [reflexivity|]. split; [reflexivity|]. split; [|apply unique_appearance].
    intros H. apply (unique_length ZOrder) in H. discriminate.
  - exists m. split; auto.
    assert (K : num_distinct good_col 2).
    { exists (appear good_col). split; [apply unique_NoDup|]. split; [reflexivity|]. apply unique_In. }
    assert (L : forall c v, likelihood good_y c [good_col] [v]
       ((INR (occurrences ZOrder v (of_class good_y c good_col)) + 1) / (INR (length (of_class good_y c good_col)) + INR 2) * 1)).
    { intros c v. constructor; [apply of_class_occ|now apply of_class_length|exact K|constructor]. }
    split; (erewrite P; [|constructor; [simpl; auto|constructor]|apply L|apply L|
                          apply (of_class_length good_y 0 good_col); reflexivity|
                          apply (of_class_length good_y 1 good_col); reflexivity]).
    + f_equal. destruct (Rlt_dec _ _) as [|N]; auto. exfalso. apply N. cbn. lra.
    + f_equal. destruct (Rlt_dec _ _) as [N|]; auto. exfalso. revert N. cbn. lra.
Qed.

(** The first value to appear is the rarer one: the stored counts are swapped
    and every training row is given the wrong label. *)
Definition swapped (l : list Z) : list Z := [1; 0]%Z.
Theorem C36_wrong_labels_refuted : exists m,
  frequency_order [0; 1; 1]%Z (swapped [0; 1; 1]%Z) /\
  nb_fit ZOrder IZR (fun _ => false) swapped [[0; 1; 1]%Z] [0; 1; 1]%Z true = Ok m /\
  nb_predict ZOrder IZR (fun r => r) m [0%Z] = Ok 1%Z /\ nb_predict ZOrder IZR (fun r => r) m [1%Z] = Ok 0%Z.
Proof.
  eexists. split; [|split; [reflexivity|]].
  - split; [repeat constructor; simpl; intuition discriminate|]. split; [intros v; simpl; tauto|].
    constructor; [constructor; [constructor|constructor]|]. constructor; [|constructor].
    apply (as_frequent_occ ZOrder). vm_compute. lia.
  - split.
    + rewrite (C69_label_compares_products _ _ _ _ _ _ [(1 / 3, 3 / 4)]).
      * cbn. destruct (Rlt_dec _ _) as [N|]; auto. exfalso. lra.
      * reflexivity.
      * cbn. lra.
      * cbn. lra.
      * constructor; [|constructor]. cbn -[elog]. split; [lra|]. split; [lra|]. repeat first [lra | f_equal].
    + rewrite (C69_label_compares_products _ _ _ _ _ _ [(2 / 3, 1 / 4)]).
      * cbn. destruct (Rlt_dec _ _) as [|N]; auto. exfalso. lra.
      * reflexivity.
      * cbn. lra.
      * cbn. lra.
      * constructor; [|constructor]. cbn -[elog]. split; [lra|]. split; [lra|]. repeat first [lra | f_equal].
Qed.
Print Assumptions C36_wrong_labels_refuted.

Example C37_example : nb_pair (Fin (-1), Fin (-3)) = Some (1 / 4, 3 / 4) /\ nb_label (Fin (-1), Fin (-3)) = 0%Z.
Proof.
  unfold nb_pair, nb_label, egt, Rltb, Reqb. cbn [fst snd].
  destruct (Req_EM_T _ _); [exfalso; lra|]. destruct (Rlt_dec _ _); [|exfalso; lra].
  split; auto. f_equal. f_equal; lra.
Qed.

(** Three of the five rows with value 0 have class 0.  The entries of value 0
    alone, as the method is described, give class 0; the estimator answers 1. *)
Definition sp_x : list Z := [0; 0; 0; 0; 0; 1; 1]%Z.
Definition sp_y : list Z := [0; 0; 0; 1; 1; 1; 1]%Z.
Ltac entry_factor fs :=
  let H := fresh in
  match goal with
  | |- 0 < ?f /\ sp_entry_log ?O ?n ?r ?q ?e = Ok (Fin (ln ?f)) =>
      destruct (entry_product O n r q e fs) as [H _];
      [reflexivity | cbn; lra
      |constructor; [|constructor]; cbn -[elog]; split; [lra|]; repeat first [lra | f_equal]
      |split; [lra|rewrite H; cbn; repeat first [lra | f_equal]]]
  end.
Theorem C39_super_parent_ignored_refuted : exists t,
  sp_fit ZOrder IZR (fun _ => false) [] [sp_x] sp_y true 0 = Ok t /\
  sp_predict ZOrder IZR (fun r => r) t [0%Z] = Ok 1%Z /\
  sp_predict ZOrder IZR (fun r => r) (filter (fun e => eqb ZOrder (sp_value e) 0%Z) t) [0%Z] = Ok 0%Z /\
  ao_predict ZOrder IZR (fun r => r) [t] [0%Z] = Ok 0%Z.
Proof.
  eexists. split; [reflexivity|].
  match goal with |- _ /\ ?X /\ _ => assert (E : X) end.
  - cbn [filter sp_value eqb leb ZOrder andb Z.leb Z.compare].
    rewrite (C39_label_uses_every_entry _ _ _ _ _ _ [4 / 11 * (4 / 5); 3 / 11 * (3 / 4)]).
    + f_equal. cbn. destruct (Rlt_dec _ _) as [|N]; auto. exfalso. lra.
    + constructor; [|constructor; [|constructor]].
      * entry_factor [4 / 5].
      * entry_factor [3 / 4].
  - split; [|split; [exact E|]].
    + rewrite (C39_label_uses_every_entry _ _ _ _ _ _ [4 / 11 * (4 / 5); 1 / 11 * (1 / 2); 3 / 11 * (3 / 4); 3 / 11 * (1 / 4)]).
      * f_equal. cbn. destruct (Rlt_dec _ _) as [N|]; auto. exfalso. lra.
      * constructor; [|constructor; [|constructor; [|constructor; [|constructor]]]].
        { entry_factor [4 / 5]. } { entry_factor [1 / 2]. } { entry_factor [3 / 4]. } { entry_factor [1 / 4]. }
    + rewrite C39_averaged_one_parent. exact E.
Qed.
Print Assumptions C39_super_parent_ignored_refuted.

(** A discrete column with one value only cannot be trained on. *)
Theorem C69_constant_column_fails : forall A (O : TotalOrder A) num continuous vc y smoothing v before after n,
  y <> [] -> Forall (fun col => exists i, nb_attribute O num continuous vc y col = Ok i) before ->
  (0 < n)%nat -> continuous (repeat v n) = false ->
  nb_fit O num continuous vc (before ++ repeat v n :: after) y smoothing = Err IndexError.
Proof.
  intros A O num continuous vc y smoothing v before after n Hy B Hn C. unfold nb_fit.
  destruct (prior_total y smoothing Hy) as (p0 & p1 & ->). cbn [bind].
  assert (E : nb_attribute O num continuous vc y (repeat v n) = Err IndexError).
  { unfold nb_attribute. rewrite C. rewrite (unique_length O (repeat v n) 1); auto.
    exists [v]. split; [constructor; [simpl; tauto|constructor]|]. split; auto.
    intros w. simpl. split; [intros [<-|[]]; destruct n; [lia|simpl; auto]|]. intros H. left. symmetry. eapply repeat_spec; eauto. }
  assert (M : mapM (nb_attribute O num continuous vc y) (before ++ repeat v n :: after) = Err IndexError).
  { induction B as [|col cols (i & Hi) B IH]; cbn [app mapM]; [now rewrite E|]. rewrite Hi. cbn [bind]. now rewrite IH. }
  now rewrite M.
Qed.
Print Assumptions C69_constant_column_fails.
