(** Lemmas for C108: the one-dependence estimators with the two classes exchanged. *)
From Coq Require Import List ZArith Reals Bool Arith Lia Lra.
From Verif.Model Require Import Base Bayes.
From Verif.Spec Require Import BayesUnits Labels.
From Verif.Proof Require Import BaseLemmas Counting Labels BayesMain.
Import ListNotations.
Local Open Scope R_scope.
Local Notation length := List.length.

Section SP.
Context {A : Type} (O : TotalOrder A).
Variable num : A -> R.
Variable continuous : list A -> bool.
Variable rnd : R -> R.

Lemma selected_exchanged y c v (p : list A) : selected O (map exchanged y) c v p = selected O y (exchanged c) v p.
Proof.
  unfold selected. revert y. induction p as [|a p IH]; intros [|l y]; try reflexivity. cbn [map combine fst snd]. now rewrite eqb_exchanged, IH.
Qed.
Lemma sp_attribute_exchanged y s c sel col : sp_attribute O num continuous (map exchanged y) s c sel col = sp_attribute O num continuous y s (exchanged c) sel col.
Proof. unfold sp_attribute. now rewrite of_class_exchanged. Qed.

(** One entry of the table. *)
Definition prior_of (y : list Z) s (parent : list A) cv : R :=
  match get_dependent_prior_probability (count (fun b => b) (selected O y (fst cv) (snd cv) parent)) (length y) (length (unique O parent)) s with Ok p => p | Err _ => 0 end.
Definition entry_of cols y s parent (cv : Z * A) : sp_entry :=
  {| category := fst cv; sp_value := snd cv; p_c_xi := prior_of y s parent cv;
     infos := map (sp_attribute O num continuous y s (fst cv) (selected O y (fst cv) (snd cv) parent)) cols |}.
Definition pairs_of (y : list Z) (parent : list A) : list (Z * A) := flat_map (fun c => map (fun v => (c, v)) (unique O parent)) (zsort y).
Lemma mapM_total {X Y} (g : X -> result Y) (h : X -> Y) l : (forall a, In a l -> g a = Ok (h a)) -> mapM g l = Ok (map h l).
Proof. induction l as [|a l IH]; intros H; [reflexivity|]. cbn [mapM map]. rewrite H by now left. rewrite IH by (intros; apply H; now right). reflexivity. Qed.
Lemma prior_total k n v s : n <> 0%nat -> get_dependent_prior_probability k n v s = Ok (match get_dependent_prior_probability k n v s with Ok p => p | Err _ => 0 end).
Proof. intros N. unfold get_dependent_prior_probability. destruct s; [destruct (n + 2 * v =? 0)%nat eqn:E; [apply Nat.eqb_eq in E; lia|reflexivity]|]. destruct (n =? 0)%nat eqn:E; [apply Nat.eqb_eq in E; lia|reflexivity]. Qed.
Lemma table_total cols y s parent : sp_table O num continuous cols y s parent = Ok (map (entry_of cols y s parent) (pairs_of y parent)).
Proof.
  unfold sp_table. fold (pairs_of y parent). apply mapM_total. intros cv I. cbv zeta. destruct y as [|l y]; [destruct I|].
  rewrite prior_total by (simpl; lia). reflexivity.
Qed.
Definition renamed (e : @sp_entry A) : sp_entry := {| category := exchanged (category e); sp_value := sp_value e; p_c_xi := p_c_xi e; infos := infos e |}.
Lemma entry_exchanged cols y s parent c v : entry_of cols (map exchanged y) s parent (c, v) = renamed (entry_of cols y s parent (exchanged c, v)).
Proof.
  unfold entry_of, renamed, prior_of. cbn [fst snd category sp_value p_c_xi infos]. rewrite selected_exchanged, map_length. f_equal; [unfold exchanged; lia|].
  apply map_ext. intros col. apply sp_attribute_exchanged.
Qed.
(** The entries of one class. *)
Definition of_category (c : Z) (l : list (@sp_entry A)) := filter (fun e => Z.eqb (category e) c) l.
Lemma filter_flat c (vs : list A) l : NoDup l -> filter (fun cv : Z * A => Z.eqb (fst cv) c) (flat_map (fun c => map (fun v => (c, v)) vs) l) = if in_dec Z.eq_dec c l then map (fun v => (c, v)) vs else [].
Proof.
  assert (F : forall a, filter (fun cv : Z * A => Z.eqb (fst cv) c) (map (fun v => (a, v)) vs) = if Z.eq_dec a c then map (fun v => (a, v)) vs else []).
  { intros a. induction vs as [|v vs IH]; [now destruct (Z.eq_dec a c)|]. cbn [map filter fst]. rewrite IH. destruct (Z.eqb_spec a c), (Z.eq_dec a c); congruence. }
  induction l as [|a l IH]; intros N; [reflexivity|]. inversion N as [|? ? Ha Hl]. cbn [flat_map]. rewrite filter_app, F, (IH Hl).
  destruct (Z.eq_dec a c) as [E|E].
  - rewrite E in *. destruct (in_dec Z.eq_dec c l); [contradiction|]. destruct (in_dec Z.eq_dec c (c :: l)) as [_|Q]; [apply app_nil_r|exfalso; apply Q; now left].
  - destruct (in_dec Z.eq_dec c l) as [I|I], (in_dec Z.eq_dec c (a :: l)) as [J|J]; try reflexivity; [exfalso; apply J; now right|destruct J; [congruence|contradiction]].
Qed.
Lemma filter_map {X Y} (p : Y -> bool) (g : X -> Y) l : filter p (map g l) = map g (filter (fun x => p (g x)) l).
Proof. induction l as [|a l IH]; [reflexivity|]. cbn [map filter]. destruct (p (g a)); cbn [map]; now rewrite IH. Qed.
Lemma category_table c cols y s parent : of_category c (map (entry_of cols y s parent) (pairs_of y parent)) =
  if in_dec Z.eq_dec c y then map (fun v => entry_of cols y s parent (c, v)) (unique O parent) else [].
Proof.
  unfold of_category. rewrite filter_map. cbn [entry_of category]. unfold pairs_of. rewrite filter_flat by apply zsort_NoDup.
  destruct (in_dec Z.eq_dec c (zsort y)) as [I|I], (in_dec Z.eq_dec c y) as [J|J]; try reflexivity.
  - now rewrite map_map.
  - exfalso. apply J, zsort_In, I.
  - exfalso. apply I, zsort_In, J.
Qed.
Lemma category_exchanged c cols y s parent :
  of_category c (map (entry_of cols (map exchanged y) s parent) (pairs_of (map exchanged y) parent)) =
  map renamed (of_category (exchanged c) (map (entry_of cols y s parent) (pairs_of y parent))).
Proof.
  rewrite !category_table. destruct (in_dec Z.eq_dec c (map exchanged y)) as [I|I], (in_dec Z.eq_dec (exchanged c) y) as [J|J]; try reflexivity.
  - rewrite map_map. apply map_ext. intros v. apply entry_exchanged.
  - exfalso. apply J. now apply in_exchanged.
  - exfalso. apply I. now apply in_exchanged.
Qed.

(** The exceptions of an entry depend on the table and the sample only. *)
Definition checked (q : list A) (cols : list (list A)) : result unit :=
  foldM (fun (_ : unit) p => v <- get_at q (fst p) ;; if continuous (snd p) then Ok tt else if mem O v (unique O (snd p)) then Ok tt else Err KeyError) (enumerate cols) tt.
Definition behaves (r : result unit) (x : result ext) : Prop := match r with Ok _ => exists t, x = Ok t | Err e => x = Err e end.
Lemma lookup_keys (g : A -> nat) u v : dict_lookup O (map (fun v => (v, g v)) u) v = if mem O v u then dict_lookup O (map (fun v => (v, g v)) u) v else Err KeyError.
Proof.
  destruct (mem O v u) eqn:E; [reflexivity|]. unfold dict_lookup. replace (dict_get O (map (fun v => (v, g v)) u) v) with (@None nat); [reflexivity|]. symmetry.
  induction u as [|a u IH]; [reflexivity|]. unfold mem in E. cbn [existsb] in E. apply orb_false_iff in E as [E1 E2]. cbn [map dict_get]. rewrite E1. now apply IH.
Qed.
Lemma lookup_found (g : A -> nat) u v : mem O v u = true -> exists n, dict_lookup O (map (fun v => (v, g v)) u) v = Ok n.
Proof.
  intros E. unfold dict_lookup. induction u as [|a u IH]; [discriminate|]. unfold mem in E. cbn [existsb] in E. cbn [map dict_get]. destruct (eqb O v a); [eauto|]. now apply IH.
Qed.
Lemma log_behaves y s c sel col v : behaves (if continuous col then Ok tt else if mem O v (unique O col) then Ok tt else Err KeyError) (sp_info_log O num rnd (sp_attribute O num continuous y s c sel col) v).
Proof.
  unfold sp_attribute. cbv zeta. destruct (continuous col).
  - unfold behaves, sp_info_log. destruct (mean_var _) as [[m w]|]; eauto.
  - unfold behaves, sp_info_log. destruct (mem O v (unique O col)) eqn:E.
    + destruct (lookup_found (fun v => occurrences O v (pick sel col)) _ _ E) as (n & ->). cbn [bind]. eauto.
    + rewrite lookup_keys, E. reflexivity.
Qed.
Lemma entry_behaves q cols y s parent cv : behaves (checked q cols) (sp_entry_log O num rnd q (entry_of cols y s parent cv)).
Proof.
  unfold sp_entry_log, checked. cbn [infos entry_of p_c_xi]. rewrite enumerate_map. generalize (elog (Some (prior_of y s parent cv))).
  induction (enumerate cols) as [|[j col] l IH]; intros st; [cbn; eauto|]. cbn [map foldM fst snd]. destruct (get_at q j) as [v|]; cbn [bind]; [|reflexivity].
  pose proof (log_behaves y s (fst cv) (selected O y (fst cv) (snd cv) parent) col v) as B. destruct (if continuous col then _ else _) as [[]|e]; unfold behaves in B; cbn [bind].
  - destruct B as (t & ->). cbn [bind]. apply IH.
  - rewrite B. reflexivity.
Qed.

(** The score of a list of entries, by classes. *)
Definition log_of q (e : @sp_entry A) : ext := match sp_entry_log O num rnd q e with Ok t => t | Err _ => Nan end.
Definition total q (k : @sp_entry A -> bool) c st (a : ext) : ext := fold_left eadd (map (log_of q) (filter k (of_category c st))) a.
Definition idle (k : @sp_entry A -> bool) c st : bool := match filter k (of_category c st) with [] => true | _ => false end.
Definition scored q (k : @sp_entry A -> bool) st (s : ext * ext) : result (ext * ext) := foldM (fun s e => if k e then sp_step O num rnd q s e else Ok s) st s.
Lemma scored_by_class r q k st : Forall (fun e => behaves r (sp_entry_log O num rnd q e)) st -> forall s, scored q k st s =
  match r with Ok _ => Ok (total q k 0 st (fst s), total q k 1 st (snd s)) | Err e => if idle k 0 st && idle k 1 st then Ok s else Err e end.
Proof.
  unfold scored, total, idle, of_category. induction st as [|e st IH]; intros H s.
  - destruct r; cbn; [now destruct s|reflexivity].
  - inversion H as [|? ? He Hs]. specialize (IH Hs). cbn [foldM filter]. unfold sp_step at 1. destruct (k e) eqn:K.
    + destruct (Z.eqb_spec (category e) 0) as [E0|N0].
      * rewrite E0. cbn [Z.eqb filter]. rewrite K. cbn [map fold_left]. destruct r as [u|er]; cbn [behaves] in He.
        -- destruct He as (t & Et). rewrite Et. cbn [bind]. rewrite IH. assert (Q : log_of q e = t) by (unfold log_of; now rewrite Et). now rewrite Q.
        -- now rewrite He.
      * destruct (Z.eqb_spec (category e) 1) as [E1|N1].
        -- cbn [filter]. rewrite K. cbn [map fold_left]. destruct r as [u|er]; cbn [behaves] in He.
           ++ destruct He as (t & Et). rewrite Et. cbn [bind]. rewrite IH. assert (Q : log_of q e = t) by (unfold log_of; now rewrite Et). now rewrite Q.
           ++ rewrite He. cbn [bind]. now rewrite andb_false_r.
        -- cbn [bind]. apply IH.
    + cbn [bind]. rewrite IH. destruct (Z.eqb (category e) 0), (Z.eqb (category e) 1); cbn [filter]; rewrite ?K; reflexivity.
Qed.
(** Two lists of entries that differ in the names of the classes and in the order of the classes. *)
Definition mirror (st st' : list (@sp_entry A)) : Prop := forall c, of_category c st' = map renamed (of_category (exchanged c) st).
Lemma scored_mirror r q k st st' s : Forall (fun e => behaves r (sp_entry_log O num rnd q e)) st -> Forall (fun e => behaves r (sp_entry_log O num rnd q e)) st' ->
  mirror st st' -> (forall e, k (renamed e) = k e) -> scored q k st' (crossed s) = (t <- scored q k st s ;; Ok (crossed t)).
Proof.
  intros H H' M K. rewrite (scored_by_class r q k st H), (scored_by_class r q k st' H'). unfold total, idle. rewrite !M. change (exchanged 0) with 1%Z. change (exchanged 1) with 0%Z.
  assert (F : forall l, filter k (map renamed l) = map renamed (filter k l)) by (intros l; rewrite filter_map; f_equal; apply filter_ext; exact K).
  rewrite !F, !map_map. destruct r; [reflexivity|]. destruct (filter k (of_category 0 st)), (filter k (of_category 1 st)); reflexivity.
Qed.
Lemma mirror_app a a' b b' : mirror a a' -> mirror b b' -> mirror (a ++ b) (a' ++ b').
Proof. intros Ma Mb c. unfold of_category. rewrite !filter_app, map_app. f_equal; [apply Ma|apply Mb]. Qed.
Lemma mirror_nil : mirror [] [].
Proof. intros c. reflexivity. Qed.

(** The tables of both estimators. *)
Definition made (cols : list (list A)) (st st' : list (@sp_entry A)) : Prop :=
  mirror st st' /\ forall q, Forall (fun e => behaves (checked q cols) (sp_entry_log O num rnd q e)) st /\ Forall (fun e => behaves (checked q cols) (sp_entry_log O num rnd q e)) st'.
Lemma made_nil cols : made cols [] [].
Proof. split; [apply mirror_nil|]. intros q. split; constructor. Qed.
Lemma sp_fit_exchanged cols y s i st st' : made cols st st' -> both (made cols) (sp_fit O num continuous st cols y s i) (sp_fit O num continuous st' cols (map exchanged y) s i).
Proof.
  intros [M B]. unfold sp_fit. destruct (get_at cols i) as [parent|]; cbn [bind]; [|reflexivity]. rewrite !table_total. cbn [bind both]. split.
  - apply mirror_app; [exact M|]. intros c. apply category_exchanged.
  - intros q. destruct (B q) as [B1 B2]. split; apply Forall_app; split; auto; apply Forall_forall; intros e I; apply in_map_iff in I as (cv & <- & _); apply entry_behaves.
Qed.
Lemma ao_fit_exchanged cols y s m st st' : made cols st st' ->
  both (fun f f' => made cols (fst f) (fst f') /\ Forall2 (made cols) (snd f) (snd f')) (ao_fit O num continuous st cols y s m) (ao_fit O num continuous st' cols (map exchanged y) s m).
Proof.
  unfold ao_fit. set (parents := filter _ (enumerate cols)). clearbody parents. intros M.
  assert (G : forall (ps : list (nat * list A)) st st', made cols st st' -> both (made cols) (foldM (fun st p => sp_fit O num continuous st cols y s (fst p)) ps st) (foldM (fun st p => sp_fit O num continuous st cols (map exchanged y) s (fst p)) ps st')).
  { clear. induction ps as [|p ps IH]; intros st st' M; [exact M|]. cbn [foldM]. pose proof (sp_fit_exchanged cols y s (fst p) st st' M) as B.
    destruct (sp_fit O num continuous st cols y s (fst p)), (sp_fit O num continuous st' cols (map exchanged y) s (fst p)); cbn [both bind] in *; auto; try contradiction. }
  specialize (G parents st st' M). destruct (foldM (fun st p => sp_fit O num continuous st cols y s (fst p)) parents st), (foldM (fun st p => sp_fit O num continuous st cols (map exchanged y) s (fst p)) parents st'); cbn [both bind] in *; try contradiction; auto.
  split; [exact G|]. clear M. cbn [snd]. induction parents; constructor; auto.
Qed.
Lemma sp_scores_exchanged cols st st' q : made cols st st' -> sp_scores O num rnd st' q = (s <- sp_scores O num rnd st q ;; Ok (crossed s)).
Proof.
  intros [M B]. destruct (B q) as [B1 B2]. exact (scored_mirror (checked q cols) q (fun _ => true) st st' (Fin 0, Fin 0) B1 B2 M (fun _ => eq_refl)).
Qed.
Lemma ao_scores_exchanged cols l l' q : Forall2 (made cols) l l' -> ao_scores O num rnd l' q = (s <- ao_scores O num rnd l q ;; Ok (crossed s)).
Proof.
  intros F. unfold ao_scores, enumerate. set (step := fun (s : ext * ext) (p : nat * list sp_entry) => _ : result (ext * ext)).
  enough (G : forall n s0, foldM step (combine (seq n (length l')) l') (crossed s0) = (s <- foldM step (combine (seq n (length l)) l) s0 ;; Ok (crossed s))) by exact (G 0%nat (Fin 0, Fin 0)).
  induction F as [|st st' l l' [M B] F IH]; intros n s0; [reflexivity|]. cbn [length seq combine foldM]. unfold step at 1 3. cbn [fst snd]. destruct (get_at q n) as [v|]; cbn [bind]; [|reflexivity].
  destruct (B q) as [B1 B2]. pose proof (scored_mirror (checked q cols) q (fun e => eqb O (sp_value e) v) st st' (Fin 0, Fin 0) B1 B2 M (fun _ => eq_refl)) as E. unfold scored in E.
  change (crossed (Fin 0, Fin 0)) with (Fin 0, Fin 0) in E. rewrite E. clear E. destruct (foldM (fun s e => if eqb O (sp_value e) v then sp_step O num rnd q s e else Ok s) st (Fin 0, Fin 0)) as [t|]; cbn [bind]; [|reflexivity].
  exact (IH (S n) (eadd (fst s0) (fst t), eadd (snd s0) (snd t))).
Qed.
End SP.
