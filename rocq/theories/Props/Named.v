(** C95 - C97: column names. *)
From Coq Require Import List ZArith Reals Bool Arith Lia Lra String Permutation.
From Verif.Model Require Import Base Bayes Tree Pruner Named.
From Verif.Spec Require Import Named.
From Verif.Proof Require Import BaseLemmas Pruner Named.
Import ListNotations.
Local Notation length := List.length.
Local Open Scope string_scope.

(** ** C95: naive Bayes *)
(** Whatever was learned before, with distinct names that are texts or 0, 1, 2, ... an
    array is used column by column, and the smoothing of the last [compile] is used. *)
Theorem C95_arrays_by_position : forall A (O : TotalOrder A) num continuous vc rnd (o : naive_bayes (A := A)) l r y,
  n_names o = Some l -> NoDup l -> usual_names l ->
  match nb_fit O num continuous vc (columns (length l) r) y (n_smoothing o) with
  | Err e => fit_nb O num continuous vc (Array (length l) r) y o = Err e
  | Ok m => exists o', fit_nb O num continuous vc (Array (length l) r) y o = Ok o' /\
      forall q, predict_nb O num rnd o' (Array (length l) q) = mapM (nb_predict O num rnd m) q /\
        forall s, predict_nb O num rnd (compile_nb s o') (Array (length l) q) =
          mapM (nb_predict O num rnd {| nb_p0 := nb_p0 m; nb_p1 := nb_p1 m; nb_pi := nb_pi m; nb_smoothing := s |}) q
  end.
Proof.
  intros A O num continuous vc rnd o l r y Hn N U; pose proof (fit_nb_array O num continuous vc o l r y Hn N) as H.
  destruct (nb_fit O num continuous vc (columns (length l) r) y (n_smoothing o)) as [m|e]; [|exact H].
  destruct H as (pi & H1 & H2 & H3 & H4); eexists; split; [exact H1|]; intros q; rewrite <- H2; split; [now apply predict_nb_array|]; intros s.
  exact (predict_nb_array O num rnd {| nb_p0 := nb_p0 m; nb_p1 := nb_p1 m; nb_pi := nb_pi m; nb_smoothing := s |} _ pi l q U H3 eq_refl H4).
Qed.
Print Assumptions C95_arrays_by_position.

(** A DataFrame is used by name: the order of its columns is of no effect. *)
Theorem C95_frames_by_name : forall A (O : TotalOrder A) num continuous vc rnd (o : naive_bayes (A := A)) l f g y,
  n_names o = Some l -> same_table f g -> incl l (labels f) ->
  fit_nb O num continuous vc (Frame f) y o = fit_nb O num continuous vc (Frame g) y o /\
  predict_nb O num rnd o (Frame f) = predict_nb O num rnd o (Frame g).
Proof.
  intros A O num continuous vc rnd o l f g y Hn S I; unfold fit_nb, predict_nb; rewrite Hn, (with_names_same l f g S I); split; reflexivity.
Qed.
Print Assumptions C95_frames_by_name.

(** A DataFrame with the values of an array under the names is used as the array. *)
Theorem C95_frames_as_arrays : forall A (O : TotalOrder A) num continuous vc rnd (o : naive_bayes (A := A)) l f r y,
  n_names o = Some l -> same_table f {| labels := l; rows := r |} ->
  fit_nb O num continuous vc (Frame f) y o = fit_nb O num continuous vc (Array (length l) r) y o /\
  predict_nb O num rnd o (Frame f) = predict_nb O num rnd o (Array (length l) r).
Proof.
  intros A O num continuous vc rnd o l f r y Hn S.
  assert (I : incl l (labels f)) by (destruct S as (_ & _ & P & _); cbn [labels] in P; intros x Hx; exact (Permutation_in x (Permutation_sym P) Hx)).
  assert (E : with_names (Some l) (Frame f) = with_names (Some l) (Array (length l) r)).
  { rewrite (with_names_same l f _ S I), with_names_array; unfold with_names; cbn [labels]; destruct (list_eq_dec name_eq_dec l l); [reflexivity|contradiction]. }
  unfold fit_nb, predict_nb; rewrite Hn, E; split; reflexivity.
Qed.
Print Assumptions C95_frames_as_arrays.

(** Without names training succeeds and every prediction raises, also after loading. *)
Theorem C95_no_names : forall A (O : TotalOrder A) num continuous vc rnd (o : naive_bayes (A := A)) x y o' saved q,
  n_names o = None -> some_row q ->
  (fit_nb O num continuous vc x y o = Ok o' -> predict_nb O num rnd o' q = Err TypeError) /\
  predict_nb O num rnd (load_nb saved o) q = Err TypeError.
Proof.
  intros A O num continuous vc rnd o x y o' saved q Hn Hq.
  assert (G : forall p : naive_bayes (A := A), n_names p = None -> n_ready p = true -> predict_nb O num rnd p q = Err TypeError).
  { intros p E1 E2; unfold predict_nb; rewrite E2, E1; destruct q as [d [|r rs]|[l [|r rs]]]; cbn in Hq; try congruence; cbn [with_names bind rows mapM]; unfold scores_nb; now rewrite E1. }
  split; [|apply G; [exact Hn|reflexivity]].
  unfold fit_nb; destruct (with_names (n_names o) x) as [f|]; cbn [bind]; [|discriminate].
  destruct (get_prior_probability (length y) y (n_smoothing o)) as [p|]; cbn [bind]; [|discriminate].
  destruct (foldM _ _ (n_pi o)) as [pi|]; cbn [bind]; [|discriminate]; intros H; injection H as <-; apply G; [exact Hn|reflexivity].
Qed.
Print Assumptions C95_no_names.

(** A file loaded into an object with the same names in any order answers
    DataFrames as the saved object did. *)
Theorem C95_loaded_names_in_any_order : forall A (O : TotalOrder A) num rnd (saved o : naive_bayes (A := A)) l l' f,
  n_names saved = Some l -> n_ready saved = true -> n_names o = Some l' -> Permutation l l' -> Forall (fun n => exists s, n = Text s) l ->
  is_table f -> incl l (labels f) -> predict_nb O num rnd (load_nb saved o) (Frame f) = predict_nb O num rnd saved (Frame f).
Proof.
  intros A O num rnd saved o l l' f H1 H2 H3 P F T I; apply (predict_nb_order O num rnd saved (load_nb saved o) l l'); auto.
Qed.
Print Assumptions C95_loaded_names_in_any_order.

(** Data for the counterexamples. *)
Definition ab : list name := [Text "a"; Text "b"].
Definition ba : list name := [Text "b"; Text "a"].
Definition two_rows : list (list Z) := [[0; 5]; [1; 6]; [0; 6]; [1; 5]; [0; 5]]%Z.
Definition two_labels : list Z := [0; 1; 0; 1; 1]%Z.
Definition trained_nb (names : list name) : result (naive_bayes (A := Z)) :=
  fit_nb ZOrder IZR (fun _ => false) (unique ZOrder) (Array 2 two_rows) two_labels (compile_nb true (new_naive_bayes (Some names))).
Definition answers {X} (r : result X) : Prop := exists x, r = Ok x.

(** With arrays the order of the names matters after loading. *)
Theorem C95_loaded_names_on_arrays_refuted : exists saved, trained_nb ab = Ok saved /\
  answers (predict_nb ZOrder IZR (fun r => r) (load_nb saved (new_naive_bayes (Some ab))) (Array 2 [[0; 5]]%Z)) /\
  predict_nb ZOrder IZR (fun r => r) (load_nb saved (new_naive_bayes (Some ba))) (Array 2 [[0; 5]]%Z) = Err KeyError.
Proof. eexists; split; [reflexivity|]; split; [eexists; reflexivity|reflexivity]. Qed.
Print Assumptions C95_loaded_names_on_arrays_refuted.

(** Numbers as names in another order select other columns of an array. *)
Theorem C95_number_names_refuted : exists o m, trained_nb [Number 1; Number 0] = Ok o /\
  nb_fit ZOrder IZR (fun _ => false) (unique ZOrder) (columns 2 two_rows) two_labels true = Ok m /\
  answers (mapM (nb_predict ZOrder IZR (fun r => r) m) [[0; 5]]%Z) /\
  predict_nb ZOrder IZR (fun r => r) o (Array 2 [[0; 5]]%Z) = Err KeyError.
Proof. do 2 eexists; split; [reflexivity|]; split; [reflexivity|]; split; [eexists; reflexivity|reflexivity]. Qed.
Print Assumptions C95_number_names_refuted.

(** With equal names the last column is kept for all of them. *)
Theorem C95_equal_names_refuted : exists o m, trained_nb [Text "a"; Text "a"] = Ok o /\
  nb_fit ZOrder IZR (fun _ => false) (unique ZOrder) (columns 2 two_rows) two_labels true = Ok m /\
  answers (mapM (nb_predict ZOrder IZR (fun r => r) m) [[0; 5]]%Z) /\
  predict_nb ZOrder IZR (fun r => r) o (Array 2 [[0; 5]]%Z) = Err KeyError.
Proof. do 2 eexists; split; [reflexivity|]; split; [reflexivity|]; split; [eexists; reflexivity|reflexivity]. Qed.
Print Assumptions C95_equal_names_refuted.

Definition as_ab : frame Z := {| labels := ab; rows := [[0; 5]; [1; 6]]%Z |}.
Definition as_ba : frame Z := {| labels := ba; rows := [[5; 0]; [6; 1]]%Z |}.
Lemma ab_distinct : NoDup ab.
Proof. repeat constructor; cbn; intuition discriminate. Qed.
Lemma same_ab : same_table as_ab as_ba.
Proof.
  split; [split; [exact ab_distinct|repeat constructor]|]; split; [split; [repeat constructor; cbn; intuition discriminate|repeat constructor]|].
  split; [apply perm_swap|]; cbn; repeat constructor; intros n; cbn; destruct (name_eq_dec n (Text "a")), (name_eq_dec n (Text "b")); congruence.
Qed.
Example C95_witness : n_names (compile_nb true (new_naive_bayes (A := Z) (Some ab))) = Some ab /\ NoDup ab /\ usual_names ab /\
  same_table as_ab as_ba /\ incl ab (labels as_ab) /\ same_table as_ba {| labels := ab; rows := rows as_ab |} /\
  usual_names [Number 0; Number 1; Number 2] /\ some_row (Frame as_ab) /\ Permutation ab ba /\
  answers (trained_nb ab) /\ answers (fit_nb ZOrder IZR (fun _ => false) (unique ZOrder) (Array 2 two_rows) two_labels (new_naive_bayes None)).
Proof.
  split; [reflexivity|]; split; [exact ab_distinct|]; split; [left; repeat constructor; eexists; reflexivity|]; split; [exact same_ab|].
  split; [apply incl_refl|]; split.
  { destruct same_ab as (H1 & H2 & H3 & H4); split; [exact H2|]; split; [exact H1|]; split; [exact (Permutation_sym H3)|].
    cbn; repeat constructor; intros n; cbn; destruct (name_eq_dec n (Text "a")), (name_eq_dec n (Text "b")); congruence. }
  split; [right; reflexivity|]; split; [discriminate|]; split; [apply perm_swap|]; split; eexists; reflexivity.
Qed.

(** ** C96: one-dependent estimators *)
(** Any number of trainings on arrays: the super parent is the column with its
    name.  The file answers arrays in an object with any other usual names, or
    none. *)
Theorem C96_super_parent_by_name : forall A (O : TotalOrder A) num continuous rnd names d parent sm k history,
  length (names_of names d) = d -> usual_names (names_of names d) -> NoDup (names_of names d) ->
  ~ In (Text "p_c_xi") (names_of names d) -> nth_error (names_of names d) k = Some parent ->
  match foldM (fun st h => sp_fit O num continuous st (columns d (fst h)) (snd h) sm k) history [] with
  | Err e => foldM (fun o h => fit_sp O num continuous (Array d (fst h)) (snd h) o) history (compile_sp parent sm (new_estimator names)) = Err e
  | Ok st => exists o, foldM (fun o h => fit_sp O num continuous (Array d (fst h)) (snd h) o) history (compile_sp parent sm (new_estimator names)) = Ok o /\
      (history <> [] -> forall q, predict_sp O num rnd o (Array d q) = mapM (sp_predict O num rnd st) q /\
        forall o', length (names_of (e_names o') d) = d -> usual_names (names_of (e_names o') d) ->
          predict_sp O num rnd (load_sp o o') (Array d q) = mapM (sp_predict O num rnd st) q)
  end.
Proof. intros A O num continuous rnd names d parent sm k history; apply sp_history. Qed.
Print Assumptions C96_super_parent_by_name.

(** Likewise for the averaged estimator. *)
Theorem C96_averaged_by_name : forall A (O : TotalOrder A) num continuous rnd names d sm m history,
  length (names_of names d) = d -> usual_names (names_of names d) -> NoDup (names_of names d) ->
  ~ In (Text "p_c_xi") (names_of names d) ->
  match foldM (fun s h => ao_fit O num continuous (fst s) (columns d (fst h)) (snd h) sm m) history ([], []) with
  | Err e => foldM (fun o h => fit_ao O num continuous (Array d (fst h)) (snd h) o) history (compile_ao sm m (new_estimator names)) = Err e
  | Ok s => exists o, foldM (fun o h => fit_ao O num continuous (Array d (fst h)) (snd h) o) history (compile_ao sm m (new_estimator names)) = Ok o /\
      (history <> [] -> forall q, is_array d q -> predict_ao O num rnd o (Array d q) = mapM (ao_predict O num rnd (snd s)) q /\
        forall o', length (names_of (e_names o') d) = d -> usual_names (names_of (e_names o') d) ->
          predict_ao O num rnd (load_ao o o') (Array d q) = mapM (ao_predict O num rnd (snd s)) q)
  end.
Proof. intros A O num continuous rnd names d sm m history; apply ao_history. Qed.
Print Assumptions C96_averaged_by_name.

(** With names given, DataFrames are used by name. *)
Theorem C96_frames_by_name : forall A (O : TotalOrder A) num continuous rnd (o : estimator (A := A)) l f g y,
  e_names o = Some l -> same_table f g -> incl l (labels f) ->
  fit_sp O num continuous (Frame f) y o = fit_sp O num continuous (Frame g) y o /\
  predict_sp O num rnd o (Frame f) = predict_sp O num rnd o (Frame g) /\
  fit_ao O num continuous (Frame f) y o = fit_ao O num continuous (Frame g) y o /\
  predict_ao O num rnd o (Frame f) = predict_ao O num rnd o (Frame g).
Proof.
  intros A O num continuous rnd o l f g y Hn S I; unfold predict_sp, predict_ao, fit_sp, fit_ao; rewrite Hn, (with_names_same l f g S I); repeat split; reflexivity.
Qed.
Print Assumptions C96_frames_by_name.

(** Without names a DataFrame is answered by position, whatever its columns are
    called. *)
Theorem C96_frames_without_names : forall A (O : TotalOrder A) num rnd (o : estimator (A := A)) f l,
  e_names o = None -> Forall (fun n => exists s, n = Text s) (labels f) -> Forall (fun n => exists s, n = Text s) l ->
  predict_sp O num rnd o (Frame f) = predict_sp O num rnd o (Frame {| labels := l; rows := rows f |}) /\
  predict_ao O num rnd o (Frame f) = predict_ao O num rnd o (Frame {| labels := l; rows := rows f |}).
Proof.
  intros A O num rnd o f l Hn F1 F2.
  assert (G : forall m, Forall (fun n => exists s, n = Text s) m -> existsb is_number m = false).
  { intros m F; apply not_true_is_false; intros X; apply existsb_exists in X; destruct X as (n & Hm & X).
    rewrite Forall_forall in F; destruct (F n Hm) as (s & ->); discriminate. }
  unfold predict_sp, predict_ao; rewrite Hn; destruct (e_ready o); [|split; reflexivity]; cbn [with_names bind labels rows].
  split; apply mapM_same; intros r _.
  - unfold group_step, group_log, item; now rewrite !G.
  - unfold scores_ao, group_step, group_log, item; now rewrite !G.
Qed.
Print Assumptions C96_frames_without_names.

Theorem C96_frames_without_names_refuted : exists o, fit_sp ZOrder IZR (fun _ => false)
    (Frame {| labels := ab; rows := two_rows |}) two_labels (compile_sp (Text "a") true (new_estimator None)) = Ok o /\
  same_table as_ab as_ba /\ answers (predict_sp ZOrder IZR (fun r => r) o (Frame as_ab)) /\
  predict_sp ZOrder IZR (fun r => r) o (Frame as_ba) = Err KeyError.
Proof. eexists; split; [reflexivity|]; split; [exact same_ab|]; split; [eexists; reflexivity|reflexivity]. Qed.
Print Assumptions C96_frames_without_names_refuted.

(** A super parent that is no column: the first training raises; after a training
    with a known one it silently keeps that column. *)
Theorem C96_unknown_super_parent : forall A (O : TotalOrder A) num continuous names x f y n sm,
  with_names names x = Ok f -> ~ In n (labels f) -> y <> [] ->
  fit_sp O num continuous x y (compile_sp n sm (new_estimator names)) = Err ValueError.
Proof. intros A O num continuous names x f y n sm W Hn Hy; now apply (unknown_parent O num continuous _ x y f n). Qed.
Print Assumptions C96_unknown_super_parent.

Theorem C96_unknown_super_parent_keeps_column : forall A (O : TotalOrder A) num continuous rnd (o : estimator (A := A)) x f y n old k sm,
  with_names (e_names o) x = Ok f -> NoDup (labels f) -> ~ In n (labels f) -> e_index o = Some k -> nth_error (labels f) k = Some old ->
  match fit_sp O num continuous x y (compile_sp old sm o), fit_sp O num continuous x y (compile_sp n sm o) with
  | Ok a, Ok b => forall q, predict_sp O num rnd b q = predict_sp O num rnd a q
  | Err a, Err b => a = b
  | _, _ => False
  end.
Proof.
  intros A O num continuous rnd o x f y n old k sm W N Hn Hi Hk.
  pose proof (fit_sp_parent O num continuous (compile_sp old sm o) (compile_sp n sm o) x y f W eq_refl eq_refl eq_refl) as H.
  specialize (H ltac:(unfold parent_index; cbn [e_parent e_index compile_sp]; now rewrite (last_place_nth _ _ _ N Hk), (last_place_none _ _ Hn))).
  destruct (fit_sp O num continuous x y (compile_sp old sm o)), (fit_sp O num continuous x y (compile_sp n sm o)); try exact H.
  destruct H as (H1 & H2 & H3 & _); intros q; unfold predict_sp; now rewrite H1, H2, H3.
Qed.
Print Assumptions C96_unknown_super_parent_keeps_column.

(** A column with the name that the code uses for the prior: training succeeds and
    every prediction raises. *)
Theorem C96_column_p_c_xi : forall A (O : TotalOrder A) num continuous rnd names x f parent sm y o q fq,
  with_names names x = Ok f -> In (Text "p_c_xi") (labels f) -> Forall (fun r => length r = length (labels f)) (rows f) ->
  rows f <> [] -> In 0%Z y \/ In 1%Z y ->
  fit_sp O num continuous x y (compile_sp parent sm (new_estimator names)) = Ok o ->
  with_names names q = Ok fq -> rows fq <> [] -> predict_sp O num rnd o q = Err TypeError.
Proof. exact @key_column. Qed.
Print Assumptions C96_column_p_c_xi.

(** Training after loading: the super-parent estimator goes on from the file; the
    averaged estimator starts again. *)
Theorem C96_training_after_loading : forall A (O : TotalOrder A) num continuous rnd (saved : estimator (A := A)) names x f y parent,
  e_names saved = names -> e_parent saved = Some parent -> with_names names x = Ok f -> In parent (labels f) ->
  match fit_sp O num continuous x y saved, fit_sp O num continuous x y (load_sp saved (new_estimator names)) with
  | Ok a, Ok b => forall q, predict_sp O num rnd b q = predict_sp O num rnd a q
  | Err a, Err b => a = b
  | _, _ => False
  end /\
  fit_ao O num continuous x y (load_ao saved (new_estimator names)) =
  fit_ao O num continuous x y (compile_ao (e_smoothing saved) (e_m saved) (new_estimator names)).
Proof.
  intros A O num continuous rnd saved names x f y parent En Ep W I; split; [|apply fit_ao_loaded].
  pose proof (fit_sp_parent O num continuous saved (load_sp saved (new_estimator names)) x y f) as H.
  rewrite En in H; specialize (H W eq_refl eq_refl eq_refl).
  assert (E : exists k, last_place (labels f) parent = Some k).
  { clear - I; induction (labels f) as [|a l IH]; [destruct I|]; cbn; destruct (last_place l parent); [eauto|].
    destruct I as [->|I]; [rewrite same_name_refl; eauto|]; destruct (IH I) as (k & X); discriminate. }
  destruct E as (k & E); specialize (H ltac:(unfold parent_index; cbn [load_sp e_parent]; now rewrite Ep, E)).
  destruct (fit_sp O num continuous x y saved), (fit_sp O num continuous x y (load_sp saved (new_estimator names))); try exact H.
  destruct H as (H1 & H2 & H3 & _); intros q; unfold predict_sp; now rewrite H1, H2, H3.
Qed.
Print Assumptions C96_training_after_loading.

(** The saved averaged estimator itself goes on, so that the two differ. *)
Definition averaged (x : list (list Z)) (o : estimator (A := Z)) : result (estimator (A := Z)) :=
  fit_ao ZOrder IZR (fun _ => false) (Array 2 x) [0; 1]%Z o.
Theorem C96_averaged_training_after_loading_refuted : exists saved a b,
  averaged [[0; 5]; [1; 6]]%Z (compile_ao true 0 (new_estimator (Some ab))) = Ok saved /\
  averaged [[0; 7]; [1; 8]]%Z saved = Ok a /\ averaged [[0; 7]; [1; 8]]%Z (load_ao saved (new_estimator (Some ab))) = Ok b /\
  predict_ao ZOrder IZR (fun r => r) a (Array 2 [[0; 7]]%Z) = Err KeyError /\ answers (predict_ao ZOrder IZR (fun r => r) b (Array 2 [[0; 7]]%Z)).
Proof.
  eexists; eexists; eexists.
  split; [lazy -[INR Rdiv IZR eadd elog]; reflexivity|]; split; [lazy -[INR Rdiv IZR eadd elog]; reflexivity|].
  split; [lazy -[INR Rdiv IZR eadd elog]; reflexivity|]; split; [lazy -[INR Rdiv IZR eadd elog]; reflexivity|].
  unfold answers; lazy -[INR Rdiv IZR eadd elog nb_label answers]; eexists; reflexivity.
Qed.
Print Assumptions C96_averaged_training_after_loading_refuted.

Example C96_witness : length (names_of (Some ab) 2) = 2%nat /\ length (names_of None 2) = 2%nat /\ usual_names (names_of None 2) /\
  NoDup ab /\ ~ In (Text "p_c_xi") ab /\ nth_error ab 1 = Some (Text "b") /\
  (exists st, foldM (fun st h => sp_fit ZOrder IZR (fun _ => false) st (columns 2 (fst h)) (snd h) true 1) [(two_rows, two_labels); (two_rows, two_labels)] [] = Ok st /\ length st = 8%nat) /\
  (exists s, foldM (fun s h => ao_fit ZOrder IZR (fun _ => false) (fst s) (columns 2 (fst h)) (snd h) true 0) [(two_rows, two_labels)] ([], []) = Ok s /\ length (snd s) = 2%nat) /\
  (exists o, fit_sp ZOrder IZR (fun _ => false) (Array 2 two_rows) two_labels (compile_sp (Text "a") true (new_estimator (Some [Text "a"; Text "p_c_xi"]))) = Ok o) /\
  (exists o, fit_sp ZOrder IZR (fun _ => false) (Array 2 two_rows) two_labels (compile_sp (Text "a") true (new_estimator (Some ab))) = Ok o /\
     e_index o = Some 0%nat /\ e_parent o = Some (Text "a")) /\ ~ In (Text "c") ab.
Proof.
  split; [reflexivity|]; split; [reflexivity|]; split; [right; reflexivity|]; split; [exact ab_distinct|]; split; [cbn; intuition discriminate|].
  split; [reflexivity|]; split; [eexists; split; reflexivity|]; split; [eexists; split; reflexivity|]; split; [eexists; reflexivity|].
  split; [eexists; repeat split; reflexivity|cbn; intuition discriminate].
Qed.

(** ** C97: decision trees *)
(** Training arranges the columns of DataFrames, also those of the validation, by
    name. *)
Theorem C97_training_by_name : forall top rnd c how l f g y v w yv,
  same_table f g -> incl l (labels f) -> same_table v w -> incl l (labels v) ->
  fit_named_tree top rnd c how (Some l) (Frame f) y (Some (Frame v, yv)) = fit_named_tree top rnd c how (Some l) (Frame g) y (Some (Frame w, yv)) /\
  fit_named_tree top rnd c how (Some l) (Frame f) y None = fit_named_tree top rnd c how (Some l) (Frame g) y None.
Proof.
  intros top rnd c how l f g y v w yv H1 H2 H3 H4; unfold fit_named_tree; rewrite (with_names_same l f g H1 H2), (with_names_same l v w H3 H4); split; reflexivity.
Qed.
Print Assumptions C97_training_by_name.

(** Training on a DataFrame is training on the array with the values in the order of
    the names. *)
Theorem C97_training_as_array : forall top rnd c how l f r y, same_table f {| labels := l; rows := r |} ->
  fit_named_tree top rnd c how (Some l) (Frame f) y None = fit_pruned top rnd c how (length l) (combine r y) None /\
  fit_named_tree top rnd c how (Some l) (Array (length l) r) y None = fit_pruned top rnd c how (length l) (combine r y) None.
Proof.
  intros top rnd c how l f r y S.
  assert (I : incl l (labels f)) by (destruct S as (_ & _ & P & _); cbn [labels] in P; intros x Hx; exact (Permutation_in x (Permutation_sym P) Hx)).
  unfold fit_named_tree; rewrite (with_names_same l f _ S I), with_names_array; split; [|reflexivity].
  unfold with_names; cbn [labels]; destruct (list_eq_dec name_eq_dec l l); [reflexivity|contradiction].
Qed.
Print Assumptions C97_training_as_array.

(** Prediction reads the columns by position: right when the DataFrame has its
    columns in the order of training, ... *)
Theorem C97_prediction_in_training_order : forall t f l r, same_table f {| labels := l; rows := r |} -> labels f = l ->
  predict_named_tree t (Frame f) = predict_named_tree t (Array (length l) r).
Proof. intros t f l r S E; cbn; now rewrite (same_labels_same_rows f _ S E). Qed.
Print Assumptions C97_prediction_in_training_order.

(** ... and wrong otherwise. *)
Definition box_frame (l : list name) (r : list (list cell)) : frame cell := {| labels := l; rows := r |}.
Theorem C97_prediction_by_name_refuted : forall top rnd, exists t,
  fit_named_tree top rnd Gini NoPruning (Some ab) (Frame (box_frame ba (map (fun p => rev (fst p)) boxes))) (map snd boxes) None = Ok t /\
  same_table (box_frame ab [[Txt "b"; Txt "y"]]) (box_frame ba [[Txt "y"; Txt "b"]]) /\
  predict_named_tree t (Frame (box_frame ab [[Txt "b"; Txt "y"]])) = Ok [1%Z] /\
  predict_named_tree t (Frame (box_frame ba [[Txt "y"; Txt "b"]])) <> Ok [1%Z].
Proof.
  intros top rnd; destruct (boxes_tree top rnd) as (v0 & v1 & E); eexists; split; [|split; [|split]].
  - unfold fit_named_tree; cbn -[fit_pruned]; unfold fit_pruned.
    match goal with |- context [fit_tree top rnd Gini 2 ?b] => change b with boxes end; rewrite E; reflexivity.
  - split; [split; [exact ab_distinct|repeat constructor]|]; split; [split; [repeat constructor; cbn; intuition discriminate|repeat constructor]|].
    split; [apply perm_swap|]; cbn; repeat constructor; intros n; cbn; destruct (name_eq_dec n (Text "a")), (name_eq_dec n (Text "b")); congruence.
  - reflexivity.
  - cbn; discriminate.
Qed.
Print Assumptions C97_prediction_by_name_refuted.

Example C97_witness : same_table as_ab as_ba /\ incl ab (labels as_ab) /\ same_table as_ab {| labels := ab; rows := rows as_ab |}.
Proof.
  split; [exact same_ab|]; split; [apply incl_refl|]; destruct same_ab as (H1 & _ & _ & _); split; [exact H1|]; split; [exact H1|]; split; [apply Permutation_refl|].
  cbn; repeat constructor; intros n; reflexivity.
Qed.

(** ** Objects that are not trained, and names in the wrong number *)
(** Before training, compiled or not, no prediction is answered; training without
    [compile] is training without smoothing and, for the averaged estimator, with a
    threshold of zero. *)
Theorem C95_new_object : forall A (O : TotalOrder A) num continuous vc rnd names q sm x y,
  predict_nb O num rnd (new_naive_bayes (A := A) names) q = Err ValueError /\
  predict_nb O num rnd (compile_nb sm (new_naive_bayes names)) q = Err ValueError /\
  fit_nb O num continuous vc x y (new_naive_bayes names) = fit_nb O num continuous vc x y (compile_nb false (new_naive_bayes names)).
Proof. repeat split. Qed.
Print Assumptions C95_new_object.
Theorem C96_new_object : forall A (O : TotalOrder A) num continuous rnd names q parent sm m x y,
  predict_sp O num rnd (new_estimator (A := A) names) q = Err ValueError /\
  predict_sp O num rnd (compile_sp parent sm (new_estimator names)) q = Err ValueError /\
  predict_ao O num rnd (new_estimator (A := A) names) q = Err ValueError /\
  predict_ao O num rnd (compile_ao sm m (new_estimator names)) q = Err ValueError /\
  fit_ao O num continuous x y (new_estimator names) = fit_ao O num continuous x y (compile_ao false 0 (new_estimator names)).
Proof. repeat split. Qed.
Print Assumptions C96_new_object.
(** Names in another number than the columns of an array. *)
Theorem C95_number_of_names : forall A (O : TotalOrder A) num continuous vc rnd (o : naive_bayes (A := A)) l d r y,
  n_names o = Some l -> length l <> d ->
  fit_nb O num continuous vc (Array d r) y o = Err ValueError /\ predict_nb O num rnd o (Array d r) = Err ValueError.
Proof.
  intros A O num continuous vc rnd o l d r y Hn Hd; unfold fit_nb, predict_nb; rewrite Hn; cbn [with_names]; destruct (Nat.eqb_spec (length l) d) as [E|_]; [contradiction|].
  split; [reflexivity|]; now destruct (n_ready o).
Qed.
Print Assumptions C95_number_of_names.
Theorem C96_number_of_names : forall A (O : TotalOrder A) num continuous rnd (o : estimator (A := A)) l d r y,
  e_names o = Some l -> length l <> d ->
  fit_sp O num continuous (Array d r) y o = Err ValueError /\ predict_sp O num rnd o (Array d r) = Err ValueError /\
  fit_ao O num continuous (Array d r) y o = Err ValueError /\ predict_ao O num rnd o (Array d r) = Err ValueError.
Proof.
  intros A O num continuous rnd o l d r y Hn Hd; unfold fit_sp, predict_sp, fit_ao, predict_ao; rewrite Hn; cbn [with_names]; destruct (Nat.eqb_spec (length l) d) as [E|_]; [contradiction|].
  repeat split; try reflexivity; now destruct (e_ready o).
Qed.
Print Assumptions C96_number_of_names.
Theorem C97_number_of_names : forall top rnd c how l d r y v, length l <> d -> fit_named_tree top rnd c how (Some l) (Array d r) y v = Err ValueError.
Proof. intros top rnd c how l d r y v Hd; unfold fit_named_tree; cbn [with_names]; destruct (Nat.eqb_spec (length l) d) as [E|_]; [contradiction|reflexivity]. Qed.
Print Assumptions C97_number_of_names.
