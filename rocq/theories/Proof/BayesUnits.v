(** Lemmas for C106: Bayes classifiers of a table written with other values. *)
From Coq Require Import List ZArith Reals Bool Arith Lia Lra.
From Verif.Model Require Import Base Bayes.
From Verif.Spec Require Import BayesUnits.
From Verif.Proof Require Import BaseLemmas UnitsMore.
Import ListNotations.
Local Open Scope R_scope.

Section Renaming.
Context {A B : Type} (O : TotalOrder A) (O' : TotalOrder B).
Variables (num : A -> R) (cont : list A -> bool) (vc : list A -> list A).
Variables (num' : B -> R) (cont' : list B -> bool) (vc' : list B -> list B).
Variable rnd : R -> R.

Section One.
Variable f : A -> B.
Hypothesis inj : one_to_one f.
Lemma eqb_f u v : eqb O' (f u) (f v) = eqb O u v.
Proof.
  apply eq_true_iff_eq. rewrite !BaseLemmas.eqb_true. split; [apply inj|congruence].
Qed.
Lemma mem_f v l : mem O' (f v) (map f l) = mem O v l.
Proof. unfold mem. induction l as [|a l IH]; simpl; auto. now rewrite eqb_f, IH. Qed.
Lemma unique_from_f l : forall seen, unique_from O' (map f seen) (map f l) = map f (unique_from O seen l).
Proof.
  induction l as [|a l IH]; intros seen; simpl; auto. rewrite mem_f. destruct (mem O a seen); auto.
  simpl. f_equal. apply (IH (a :: seen)).
Qed.
Lemma unique_f l : unique O' (map f l) = map f (unique O l).
Proof. apply (unique_from_f l []). Qed.
Lemma occurrences_f v l : occurrences O' (f v) (map f l) = occurrences O v l.
Proof. unfold occurrences, count. induction l as [|a l IH]; simpl; auto. rewrite eqb_f. destruct (eqb O v a); simpl; auto. Qed.
Lemma of_class_f y c col : of_class y c (map f col) = map f (of_class y c col).
Proof.
  unfold of_class. revert y. induction col as [|a col IH]; intros [|b y]; simpl; auto. destruct (b =? c)%Z; simpl; now rewrite IH.
Qed.
Lemma pick_f sel col : pick sel (map f col) = map f (pick sel col).
Proof. unfold pick. revert sel. induction col as [|a col IH]; intros [|b sel]; simpl; auto. destruct b; simpl; now rewrite IH. Qed.
Lemma dict_get_f {V} (d : dict A V) v : dict_get O' (map (fun p => (f (fst p), snd p)) d) (f v) = dict_get O d v.
Proof. induction d as [|[k w] d IH]; simpl; auto. rewrite eqb_f. destruct (eqb O v k); auto. Qed.
Lemma dict_lookup_f {V} (d : dict A V) v : dict_lookup O' (map (fun p => (f (fst p), snd p)) d) (f v) = dict_lookup O d v.
Proof. unfold dict_lookup. now rewrite dict_get_f. Qed.
Lemma combine_f {V} (l : list A) (w : list V) : combine (map f l) w = map (fun p => (f (fst p), snd p)) (combine l w).
Proof. revert w. induction l as [|a l IH]; intros [|b w]; simpl; auto. now rewrite IH. Qed.
Lemma map_occ_f l c : map (fun v => occurrences O' v (map f c)) (map f l) = map (fun v => occurrences O v c) l.
Proof. rewrite map_map. apply map_ext. intros v. apply occurrences_f. Qed.

Definition shift (t : R) (s : option (R * R)) : option (R * R) := match s with Some (m, v) => Some (m + t, v) | None => None end.
Lemma mean_var_shift t l : (forall v, num' (f v) = num v + t) -> mean_var (map num' (map f l)) = shift t (mean_var (map num l)).
Proof.
  intros H. destruct l as [|a l]; [reflexivity|]. unfold mean_var, shift. cbn [map].
  replace (num' (f a) :: map num' (map f l)) with (map (fun x => 1 * x + t) (map num (a :: l))).
  - rewrite rmean_affine by discriminate. rewrite rvar_affine. f_equal. f_equal; cbn [map]; ring.
  - rewrite !map_map. cbn [map]. f_equal; [rewrite H; ring|]. apply map_ext. intros v. rewrite H. ring.
Qed.
Lemma density_shift t x m v : get_probability_density rnd (x + t) (m + t) v = get_probability_density rnd x m v.
Proof. unfold get_probability_density. replace (x + t - (m + t)) with (x - m) by ring. reflexivity. Qed.
Lemma nb_density_shift t s v : num' (f v) = num v + t -> nb_density num' rnd (shift t s) (f v) = nb_density num rnd s v.
Proof. intros H. destruct s as [[m w]|]; [|reflexivity]. simpl. rewrite H. apply density_shift. Qed.

(** What naive Bayes stores for one attribute. *)
Definition moved (i : nb_info (A := A)) (i' : nb_info (A := B)) : Prop :=
  match i, i' with
  | NBCont s0 s1, NBCont s0' s1' => exists t, (forall v, num' (f v) = num v + t) /\ s0' = shift t s0 /\ s1' = shift t s1
  | NBDisc d0 d1 n0 n1 k, NBDisc d0' d1' n0' n1' k' =>
      d0' = map (fun p => (f (fst p), snd p)) d0 /\ d1' = map (fun p => (f (fst p), snd p)) d1 /\ n0' = n0 /\ n1' = n1 /\ k' = k
  | _, _ => False
  end.
Lemma nb_attribute_f y col : rewritten num cont vc num' cont' vc' f col ->
  both moved (nb_attribute O num cont vc y col) (nb_attribute O' num' cont' vc' y (map f col)).
Proof.
  intros (_ & C & D & S). unfold nb_attribute. rewrite C. destruct (cont col) eqn:E.
  - destruct (S eq_refl) as [t T]. cbn [both moved]. exists t. split; auto. rewrite !of_class_f, !(mean_var_shift t) by auto. auto.
  - rewrite unique_f, map_length. destruct (length (unique O col) =? 1)%nat; [reflexivity|]. cbn [both moved].
    rewrite !of_class_f, !map_length, (D eq_refl), !combine_f, !map_occ_f. auto.
Qed.
Lemma nb_term_f s i i' v : moved i i' -> nb_term O' num' rnd s i' (f v) = nb_term O num rnd s i v.
Proof.
  destruct i as [s0 s1|d0 d1 n0 n1 k], i' as [s0' s1'|d0' d1' n0' n1' k']; simpl; try tauto.
  - intros (t & T & -> & ->). now rewrite !(nb_density_shift t) by auto.
  - intros (-> & -> & -> & -> & ->). now rewrite !dict_lookup_f.
Qed.
(** The same for the estimators with a super parent. *)
Definition sp_moved (i : sp_info (A := A)) (i' : sp_info (A := B)) : Prop :=
  match i, i' with
  | SPCont s, SPCont s' => exists t, (forall v, num' (f v) = num v + t) /\ s' = shift t s
  | SPDisc d n k sm, SPDisc d' n' k' sm' => d' = map (fun p => (f (fst p), snd p)) d /\ n' = n /\ k' = k /\ sm' = sm
  | _, _ => False
  end.
Lemma sp_attribute_f y s c sel col : cont' (map f col) = cont col -> (cont col = true -> exists t, forall v, num' (f v) = num v + t) ->
  sp_moved (sp_attribute O num cont y s c sel col) (sp_attribute O' num' cont' y s c sel (map f col)).
Proof.
  intros C S. unfold sp_attribute. rewrite C. destruct (cont col) eqn:E.
  - destruct (S eq_refl) as [t T]. cbn [sp_moved]. exists t. split; auto. rewrite pick_f, map_length, of_class_f.
    destruct (length (pick sel col) <=? 2)%nat; apply mean_var_shift; auto.
  - cbn [sp_moved]. rewrite unique_f, pick_f, !map_length. split; auto. rewrite !map_map. apply map_ext. intros v. simpl. now rewrite occurrences_f.
Qed.
Lemma sp_info_log_f i i' v : sp_moved i i' -> sp_info_log O' num' rnd i' (f v) = sp_info_log O num rnd i v.
Proof.
  destruct i as [s|d n k sm], i' as [s'|d' n' k' sm']; simpl; try tauto.
  - intros (t & T & ->). destruct s as [[m w]|]; [|reflexivity]. simpl. now rewrite T, density_shift.
  - intros (-> & -> & -> & ->). now rewrite dict_lookup_f.
Qed.
Lemma selected_f y c v parent : selected O' y c (f v) (map f parent) = selected O y c v parent.
Proof. unfold selected. revert y. induction parent as [|a p IH]; intros [|b y]; simpl; auto. now rewrite eqb_f, IH. Qed.
Lemma eligible_f m col : cont' (map f col) = cont col -> ao_eligible O' cont' m (map f col) = ao_eligible O cont m col.
Proof.
  intros C. unfold ao_eligible. rewrite C, unique_f. f_equal. induction (unique O col) as [|v l IH]; simpl; auto. now rewrite occurrences_f, IH.
Qed.
End One.

(** ** Loops over the attributes *)
Lemma foldM_two {X Y S} (P : X -> Y -> Prop) (g : S -> X -> result S) (h : S -> Y -> result S) l l' :
  Forall2 P l l' -> (forall s x y, P x y -> h s y = g s x) -> forall s, foldM h l' s = foldM g l s.
Proof. intros F H. induction F as [|x y l l' p F IH]; intros s; simpl; auto. rewrite (H s x y p). destruct (g s x); simpl; auto. Qed.
Lemma enumerate_two {X Y} (P : X -> Y -> Prop) l l' :
  Forall2 P l l' -> Forall2 (fun p q => fst q = fst p /\ P (snd p) (snd q)) (enumerate l) (enumerate l').
Proof.
  intros F. unfold enumerate. generalize 0%nat. induction F as [|x y l l' p F IH]; intros n; simpl; constructor; simpl; auto.
Qed.
(** Each attribute with its number. *)
Lemma enumerate_at {X Y} (P : nat -> X -> Y -> Prop) l l' :
  length l = length l' -> (forall k x y, nth_error l k = Some x -> nth_error l' k = Some y -> P k x y) ->
  Forall2 (fun p q => fst q = fst p /\ P (fst p) (snd p) (snd q)) (enumerate l) (enumerate l').
Proof.
  unfold enumerate. intros L H. rewrite <- L.
  assert (G : forall n (l : list X) (l' : list Y), length l = length l' -> (forall k x y, nth_error l k = Some x -> nth_error l' k = Some y -> P (n + k)%nat x y) ->
    Forall2 (fun p q => fst q = fst p /\ P (fst p) (snd p) (snd q)) (combine (seq n (length l)) l) (combine (seq n (length l)) l')).
  { clear. intros n l. revert n. induction l as [|x l IH]; intros n [|y l'] L H; try discriminate; simpl; constructor.
    - simpl. split; auto. specialize (H 0%nat x y eq_refl eq_refl). now rewrite Nat.add_0_r in H.
    - apply IH; [simpl in L; lia|]. intros k a b Ha Hb. specialize (H (S k) a b Ha Hb). now rewrite Nat.add_succ_r in H. }
  apply G; auto.
Qed.
Lemma nth_sample fs q k (f : A -> B) : nth_error fs k = Some f -> nth_error (sample_in fs q) k = option_map f (nth_error q k).
Proof.
  unfold sample_in. revert q k. induction fs as [|g fs IH]; intros q [|k] H; simpl in *; try discriminate.
  - injection H as ->. now destruct q.
  - destruct q as [|a q]; simpl; [reflexivity|]. now apply IH.
Qed.
Lemma get_sample fs q k (f : A -> B) : nth_error fs k = Some f -> get_at (sample_in fs q) k = (v <- get_at q k ;; Ok (f v)).
Proof. intros H. unfold get_at. rewrite (nth_sample _ _ _ _ H). now destruct (nth_error q k). Qed.
Lemma table_nth fs cols k (f : A -> B) : nth_error fs k = Some f -> nth_error (table_in fs cols) k = option_map (map f) (nth_error cols k).
Proof.
  unfold table_in. revert cols k. induction fs as [|g fs IH]; intros cols [|k] H; simpl in *; try discriminate.
  - injection H as ->. now destruct cols.
  - destruct cols as [|a cols]; simpl; [reflexivity|]. now apply IH.
Qed.

(** ** Naive Bayes *)
Definition column_ok (fs : list (A -> B)) (cols : list (list A)) : Prop :=
  Forall2 (rewritten num cont vc num' cont' vc') fs cols.
Lemma nb_fit_both fs cols y s : column_ok fs cols ->
  both (fun m m' => nb_p0 m' = nb_p0 m /\ nb_p1 m' = nb_p1 m /\ nb_smoothing m' = nb_smoothing m /\
                    length (nb_pi m) = length fs /\ length (nb_pi m') = length fs /\
                    forall k f i i', nth_error fs k = Some f -> nth_error (nb_pi m) k = Some i -> nth_error (nb_pi m') k = Some i' -> one_to_one f /\ moved f i i')
    (nb_fit O num cont vc cols y s) (nb_fit O' num' cont' vc' (table_in fs cols) y s).
Proof.
  intros F. unfold nb_fit. destruct (get_prior_probability (length y) y s) as [[p0 p1]|e]; [|reflexivity]. cbn [bind].
  assert (G : both (fun pi pi' => length pi = length fs /\ length pi' = length fs /\
      forall k f i i', nth_error fs k = Some f -> nth_error pi k = Some i -> nth_error pi' k = Some i' -> one_to_one f /\ moved f i i')
    (mapM (nb_attribute O num cont vc y) cols) (mapM (nb_attribute O' num' cont' vc' y) (table_in fs cols))).
  { unfold table_in. induction F as [|f col fs cols Hf F IH]; cbn [combine map mapM fst snd].
    - split; auto. split; auto. intros [|k]; discriminate.
    - pose proof (nb_attribute_f f (proj1 Hf) y col Hf) as N.
      destruct (nb_attribute O num cont vc y col) as [i|e], (nb_attribute O' num' cont' vc' y (map f col)) as [i'|e']; cbn [both] in N; try contradiction; [|exact N].
      cbn [bind]. destruct (mapM _ cols) as [pi|e], (mapM _ (map _ _)) as [pi'|e']; cbn [both] in IH; try contradiction; [|exact IH].
      cbn [bind both]. destruct IH as (L & L' & H). split; [simpl; congruence|]. split; [simpl; congruence|].
      intros [|k] g j j' Hg Hj Hj'; simpl in *; [|eauto].
      injection Hg as <-. injection Hj as <-. injection Hj' as <-. split; auto. exact (proj1 Hf). }
  destruct (mapM _ cols) as [pi|e], (mapM _ (table_in fs cols)) as [pi'|e']; cbn [both] in G; try contradiction; [|exact G].
  cbn. destruct G as (G1 & G2 & G3). auto 10.
Qed.
Lemma nb_main fs cols y s : column_ok fs cols ->
  both (fun m m' => forall q, nb_predict O' num' rnd m' (sample_in fs q) = nb_predict O num rnd m q)
    (nb_fit O num cont vc cols y s) (nb_fit O' num' cont' vc' (table_in fs cols) y s).
Proof.
  intros F. pose proof (nb_fit_both fs cols y s F) as G.
  destruct (nb_fit O num cont vc cols y s) as [m|e], (nb_fit O' num' cont' vc' (table_in fs cols) y s) as [m'|e']; cbn [both] in *; try tauto.
  destruct G as (P0 & P1 & S & L & L' & H). intros q. unfold nb_predict, nb_scores. rewrite P0, P1, S.
  rewrite (foldM_two (fun p q => fst q = fst p /\ exists f, nth_error fs (fst p) = Some f /\ one_to_one f /\ moved f (snd p) (snd q))
    (fun s0 p => v <- get_at q (fst p) ;; t <- nb_term O num rnd (nb_smoothing m) (snd p) v ;; Ok (eadd (fst s0) (fst t), eadd (snd s0) (snd t)))
    _ (enumerate (nb_pi m))); [reflexivity| |].
  - apply (enumerate_at (fun k i i' => exists f, nth_error fs k = Some f /\ one_to_one f /\ moved f i i')); [congruence|].
    intros k i i' Hi Hi'. assert (K : (k < length fs)%nat) by (rewrite <- L; apply nth_error_Some; congruence).
    destruct (nth_error fs k) as [f|] eqn:Ef; [|apply nth_error_None in Ef; lia]. exists f. split; auto. eapply H; eauto.
  - intros s0 [k i] [k' i'] (E & f & Ef & J & M). simpl in *. subst k'. rewrite (get_sample _ _ _ _ Ef).
    destruct (get_at q k) as [v|]; [|reflexivity]. cbn [bind]. now rewrite (nb_term_f f J _ _ _ _ M).
Qed.

(** ** Super parents *)
Definition sp_ok (fs : list (A -> B)) (cols : list (list A)) : Prop :=
  Forall2 (fun f col => one_to_one f /\ cont' (map f col) = cont col /\ (cont col = true -> exists t, forall v, num' (f v) = num v + t)) fs cols.
(** One stored entry of a super parent whose values [g] renames. *)
Definition entry_moved (fs : list (A -> B)) (g : A -> B) (e : sp_entry (A := A)) (e' : sp_entry (A := B)) : Prop :=
  category e' = category e /\ sp_value e' = g (sp_value e) /\ p_c_xi e' = p_c_xi e /\ length (infos e) = length fs /\ length (infos e') = length fs /\
  forall k f i i', nth_error fs k = Some f -> nth_error (infos e) k = Some i -> nth_error (infos e') k = Some i' -> one_to_one f /\ sp_moved f i i'.

Lemma mapM_two {X Y U V} (P : X -> Y -> Prop) (Q : U -> V -> Prop) (g : X -> result U) (h : Y -> result V) l l' :
  Forall2 P l l' -> (forall x y, P x y -> both Q (g x) (h y)) -> both (Forall2 Q) (mapM g l) (mapM h l').
Proof.
  intros F H. induction F as [|x y l l' p F IH]; cbn [mapM]; [constructor|]. specialize (H x y p).
  destruct (g x), (h y); cbn [both bind] in *; try tauto. destruct (mapM g l), (mapM h l'); cbn [both bind] in *; try tauto. now constructor.
Qed.
Lemma sp_table_both fs cols y s g parent : sp_ok fs cols -> one_to_one g ->
  both (Forall2 (entry_moved fs g)) (sp_table O num cont cols y s parent) (sp_table O' num' cont' (table_in fs cols) y s (map g parent)).
Proof.
  intros F J. unfold sp_table.
  apply mapM_two with (P := fun cv cv' => fst cv' = fst cv /\ snd cv' = g (snd cv)).
  - rewrite (unique_f g J). induction (zsort y) as [|c l IH]; simpl; [constructor|]. apply Forall2_app; auto.
    clear. induction (unique O parent) as [|v u IH]; simpl; constructor; auto.
  - intros [c v] [c' v'] [E1 E2]. simpl in E1, E2. subst. cbn [fst snd]. rewrite (selected_f g J), (unique_f g J), map_length.
    destruct (get_dependent_prior_probability _ _ _ _) as [p|]; cbn [bind both]; [|reflexivity].
    split; [reflexivity|]. split; [reflexivity|]. split; [reflexivity|]. cbn [infos]. unfold table_in. rewrite !map_length, combine_length.
    assert (L : length fs = length cols) by (clear -F; induction F; simpl; congruence). rewrite L, Nat.min_id. split; [reflexivity|]. split; [reflexivity|].
    intros k f i i' Ef Ei Ei'. rewrite nth_error_map in Ei. destruct (nth_error cols k) as [col|] eqn:Ec; [|discriminate]. injection Ei as <-.
    fold (table_in fs cols) in Ei'. rewrite nth_error_map, (table_nth _ _ _ _ Ef), Ec in Ei'. injection Ei' as <-.
    assert (Hf : one_to_one f /\ cont' (map f col) = cont col /\ (cont col = true -> exists t, forall v, num' (f v) = num v + t)).
    { clear -F Ef Ec. revert k Ef Ec. induction F as [|h c fs cols H F IH]; intros [|k]; simpl; try discriminate; [|apply IH].
      intros E1 E2. injection E1 as ->. injection E2 as ->. exact H. }
    destruct Hf as (J' & C & T). split; auto. apply sp_attribute_f; auto.
Qed.
Lemma sp_entry_log_f fs g q e e' : entry_moved fs g e e' -> sp_entry_log O' num' rnd (sample_in fs q) e' = sp_entry_log O num rnd q e.
Proof.
  intros (_ & _ & P & L & L' & H). unfold sp_entry_log. rewrite P.
  apply foldM_two with (P := fun p q => fst q = fst p /\ exists f, nth_error fs (fst p) = Some f /\ one_to_one f /\ sp_moved f (snd p) (snd q)).
  - apply (enumerate_at (fun k i i' => exists f, nth_error fs k = Some f /\ one_to_one f /\ sp_moved f i i')); [congruence|].
    intros k i i' Hi Hi'. assert (K : (k < length fs)%nat) by (rewrite <- L; apply nth_error_Some; congruence).
    destruct (nth_error fs k) as [f|] eqn:Ef; [|apply nth_error_None in Ef; lia]. exists f. split; auto. eapply H; eauto.
  - intros s [k i] [k' i'] (E & f & Ef & J & M). simpl in *. subst k'. rewrite (get_sample _ _ _ _ Ef).
    destruct (get_at q k) as [v|]; [|reflexivity]. cbn [bind]. now rewrite (sp_info_log_f f J _ _ _ M).
Qed.
Lemma sp_step_f fs g q s e e' : entry_moved fs g e e' -> sp_step O' num' rnd (sample_in fs q) s e' = sp_step O num rnd q s e.
Proof. intros M. unfold sp_step. rewrite (sp_entry_log_f fs g q e e' M). destruct M as (-> & _). reflexivity. Qed.
Lemma sp_predict_f fs q st st' : Forall2 (fun e e' => exists g, entry_moved fs g e e') st st' ->
  sp_predict O' num' rnd st' (sample_in fs q) = sp_predict O num rnd st q.
Proof.
  intros F. unfold sp_predict, sp_scores. erewrite foldM_two; [reflexivity|exact F|]. intros s e e' (g & M). eapply sp_step_f; eauto.
Qed.
Lemma sp_nth fs cols k col : sp_ok fs cols -> nth_error cols k = Some col -> exists f, nth_error fs k = Some f /\ one_to_one f /\ cont' (map f col) = cont col.
Proof.
  intros F. revert k. induction F as [|f c fs cols H F IH]; intros [|k]; simpl; try discriminate; [|apply IH].
  intros E. injection E as ->. exists f. tauto.
Qed.
Lemma sp_none fs cols k : sp_ok fs cols -> nth_error cols k = None -> nth_error (table_in fs cols) k = None.
Proof.
  intros F. unfold table_in. revert k. induction F as [|f c fs cols H F IH]; intros [|k]; simpl; auto; discriminate.
Qed.
Lemma sp_fit_both fs cols y s k st st' : sp_ok fs cols -> Forall2 (fun e e' => exists g, entry_moved fs g e e') st st' ->
  both (Forall2 (fun e e' => exists g, entry_moved fs g e e')) (sp_fit O num cont st cols y s k) (sp_fit O' num' cont' st' (table_in fs cols) y s k).
Proof.
  intros F S. unfold sp_fit, get_at. destruct (nth_error cols k) as [parent|] eqn:E.
  - destruct (sp_nth fs cols k parent F E) as (f & Ef & J & _). rewrite (table_nth _ _ _ _ Ef), E. cbn [option_map bind].
    pose proof (sp_table_both fs cols y s f parent F J) as T.
    destruct (sp_table O num cont cols y s parent), (sp_table O' num' cont' (table_in fs cols) y s (map f parent)); cbn [both bind] in *; try tauto.
    apply Forall2_app; auto. clear -T. induction T; constructor; eauto.
  - rewrite (sp_none fs cols k F E). reflexivity.
Qed.
Lemma sp_main fs cols y s k : sp_ok fs cols ->
  both (fun st st' => forall q, sp_predict O' num' rnd st' (sample_in fs q) = sp_predict O num rnd st q)
    (sp_fit O num cont [] cols y s k) (sp_fit O' num' cont' [] (table_in fs cols) y s k).
Proof.
  intros F. pose proof (sp_fit_both fs cols y s k [] [] F (Forall2_nil _)) as G.
  destruct (sp_fit O num cont [] cols y s k), (sp_fit O' num' cont' [] (table_in fs cols) y s k); cbn [both] in *; try tauto.
  intros q. now apply sp_predict_f.
Qed.

(** ** Averaged estimators: one renaming for all columns *)
Section Common.
Variable f : A -> B.
Hypothesis inj : one_to_one f.
Lemma table_common cols : table_in (repeat f (length cols)) cols = map (map f) cols.
Proof. unfold table_in. induction cols as [|c cols IH]; simpl; auto. now rewrite IH. Qed.
Lemma get_map (q : list A) k : get_at (map f q) k = (v <- get_at q k ;; Ok (f v)).
Proof. unfold get_at. rewrite nth_error_map. now destruct (nth_error q k). Qed.
Lemma entry_log_map n q e e' : entry_moved (repeat f n) f e e' -> sp_entry_log O' num' rnd (map f q) e' = sp_entry_log O num rnd q e.
Proof.
  intros (_ & _ & P & L & L' & H). unfold sp_entry_log. rewrite P.
  apply foldM_two with (P := fun p q => fst q = fst p /\ sp_moved f (snd p) (snd q)).
  - apply (enumerate_at (fun k i i' => sp_moved f i i')); [congruence|].
    intros k i i' Hi Hi'. assert (K : (k < length (repeat f n))%nat) by (rewrite <- L; apply nth_error_Some; congruence).
    destruct (nth_error (repeat f n) k) as [h|] eqn:Ef; [|apply nth_error_None in Ef; lia].
    assert (h = f) by (apply nth_error_In in Ef; now apply repeat_spec in Ef). subst h. eapply H; eauto.
  - intros s [k i] [k' i'] (E & M). simpl in *. subst k'. rewrite get_map.
    destruct (get_at q k) as [v|]; [|reflexivity]. cbn [bind]. now rewrite (sp_info_log_f f inj _ _ _ M).
Qed.
Lemma ao_list_f n q t t' v : Forall2 (entry_moved (repeat f n) f) t t' -> forall s,
  foldM (fun s e => if eqb O' (sp_value e) (f v) then sp_step O' num' rnd (map f q) s e else Ok s) t' s =
  foldM (fun s e => if eqb O (sp_value e) v then sp_step O num rnd q s e else Ok s) t s.
Proof.
  intros F. eapply foldM_two; [exact F|]. intros s e e' M. unfold sp_step. rewrite (entry_log_map n q e e' M).
  destruct M as (-> & -> & _). now rewrite (eqb_f f inj).
Qed.
Lemma ao_scores_f n q ls ls' : Forall2 (Forall2 (entry_moved (repeat f n) f)) ls ls' ->
  ao_scores O' num' rnd ls' (map f q) = ao_scores O num rnd ls q.
Proof.
  intros F. unfold ao_scores.
  apply foldM_two with (P := fun p q => fst q = fst p /\ Forall2 (entry_moved (repeat f n) f) (snd p) (snd q)); [now apply enumerate_two|].
  intros s [k t] [k' t'] [E M]. simpl in *. subst k'. rewrite get_map. destruct (get_at q k) as [v|]; [|reflexivity]. cbn [bind].
  now rewrite (ao_list_f n q t t' v M).
Qed.
Definition common_ok (cols : list (list A)) : Prop :=
  forall col, In col cols -> cont' (map f col) = cont col /\ (cont col = true -> exists t, forall v, num' (f v) = num v + t).
Lemma common_sp cols : common_ok cols -> sp_ok (repeat f (length cols)) cols.
Proof.
  intros H. unfold sp_ok. induction cols as [|c cols IH]; simpl; constructor.
  - split; auto. apply H. now left.
  - apply IH. intros col I. apply H. now right.
Qed.
Lemma eligible_map m cols : common_ok cols ->
  filter (fun p => ao_eligible O' cont' m (snd p)) (enumerate (map (map f) cols)) =
  map (fun p => (fst p, map f (snd p))) (filter (fun p => ao_eligible O cont m (snd p)) (enumerate cols)).
Proof.
  intros H. unfold enumerate. rewrite map_length. generalize 0%nat. induction cols as [|c cols IH]; intros n; simpl; auto.
  rewrite (eligible_f f inj) by (apply H; now left). rewrite IH by (intros col I; apply H; now right).
  destruct (ao_eligible O cont m c); reflexivity.
Qed.
Lemma ao_fold cols y s (ps : list (nat * list A)) : common_ok cols -> forall st st',
  Forall2 (entry_moved (repeat f (length cols)) f) st st' ->
  both (Forall2 (entry_moved (repeat f (length cols)) f))
    (foldM (fun st p => sp_fit O num cont st cols y s (fst p)) ps st)
    (foldM (fun st p => sp_fit O' num' cont' st (map (map f) cols) y s (fst p)) (map (fun p => (fst p, map f (snd p))) ps) st').
Proof.
  intros H. induction ps as [|[k c] ps IH]; intros st st' F; cbn [foldM map fst snd]; [exact F|].
  unfold sp_fit at 1 3, get_at. rewrite nth_error_map. destruct (nth_error cols k) as [parent|]; [|reflexivity]. cbn [option_map bind].
  pose proof (sp_table_both _ _ y s f parent (common_sp cols H) inj) as T. rewrite table_common in T.
  destruct (sp_table O num cont cols y s parent), (sp_table O' num' cont' (map (map f) cols) y s (map f parent)); cbn [both bind] in *; try contradiction; [|exact T].
  apply IH. now apply Forall2_app.
Qed.
Lemma ao_main cols y s m : common_ok cols ->
  both (fun t t' => forall q, ao_predict O' num' rnd (snd t') (map f q) = ao_predict O num rnd (snd t) q)
    (ao_fit O num cont [] cols y s m) (ao_fit O' num' cont' [] (map (map f) cols) y s m).
Proof.
  intros H. unfold ao_fit. rewrite (eligible_map m cols H). set (ps := filter _ (enumerate cols)).
  pose proof (ao_fold cols y s ps H [] [] (Forall2_nil _)) as G.
  destruct (foldM _ ps _) as [t|e], (foldM _ (map _ ps) _) as [t'|e']; cbn [both bind] in *; try contradiction; [|exact G].
  intros q. cbn [snd]. unfold ao_predict. erewrite ao_scores_f; [reflexivity|]. instantiate (1 := length cols).
  clearbody ps. induction ps as [|p ps IH]; simpl; constructor; auto.
Qed.
End Common.
End Renaming.
