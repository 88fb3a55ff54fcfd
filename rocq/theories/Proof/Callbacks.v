(** Proofs for the training loops. *)
From Coq Require Import List String Reals ZArith Bool Arith Lia.
From Verif.Model Require Import Base Network Logistic Rbf Callbacks.
From Verif.Spec Require Import Training.
Import ListNotations.

Lemma record_history : forall cs v w id,
  histories (record_callbacks cs v w) id =
  {| h_loss := h_loss (histories w id) ++ repeat (fst v) (listed id cs);
     h_metric := h_metric (histories w id) ++ repeat (snd v) (listed id cs) |}.
Proof.
  induction cs as [|c cs IH]; intros v w id.
  - cbn. rewrite !app_nil_r. destruct (histories w id); reflexivity.
  - unfold record_callbacks in *. cbn [fold_left]. rewrite IH. destruct c as [j|].
    + unfold listed. cbn [filter]. cbn [call_history histories].
      rewrite (Nat.eqb_sym id j). destruct (j =? id) eqn:E; cbn [List.length repeat].
      * cbn [history_call h_loss h_metric]. rewrite <- !app_assoc. reflexivity.
      * reflexivity.
    + reflexivity.
Qed.
Lemma record_shown : forall cs v w, shown (record_callbacks cs v w) = shown w.
Proof.
  induction cs as [|c cs IH]; intros v w; [reflexivity|].
  unfold record_callbacks in *. cbn [fold_left]. rewrite IH. destruct c; reflexivity.
Qed.
Lemma record_if_history : forall cbs v w id,
  h_loss (histories (record_if cbs v w) id) = h_loss (histories w id) ++ repeat (fst v) (listed_in id cbs) /\
  h_metric (histories (record_if cbs v w) id) = h_metric (histories w id) ++ repeat (snd v) (listed_in id cbs).
Proof.
  intros [cs|] v w id; cbn [record_if listed_in].
  - rewrite record_history. split; reflexivity.
  - cbn. rewrite !app_nil_r. split; reflexivity.
Qed.
Lemma record_if_shown : forall cbs v w, shown (record_if cbs v w) = shown w.
Proof. intros [cs|] v w; [apply record_shown|reflexivity]. Qed.
Lemma show_histories : forall bar e v w, histories (fst (show_if bar e v w)) = histories w.
Proof. intros [[|b]|] e v w; reflexivity. Qed.

Section Run.
Context {St : Type}.
Variable step : nat -> St -> result St.
Variable evaluate : St -> St -> result (R * R).
Variable record_first any_true : bool.
Notation report := (report St evaluate record_first).
Notation loop := (epochs_loop St step evaluate record_first).

(** What a report leaves behind: [true] when the values were recorded. *)
Lemma report_cases : forall bar cbs e s s' w w' r,
  report bar cbs e s s' w = (w', r) ->
  (bar = None /\ cbs = None /\ w' = w /\ r = Ok tt) \/
  (exists x, evaluate s s' = Err x /\ w' = w /\ r = Err x /\ (bar <> None \/ cbs <> None)) \/
  (exists v, evaluate s s' = Ok v /\ r = Ok tt /\ bar <> Some 0 /\ (bar <> None \/ cbs <> None) /\
     (forall id, h_loss (histories w' id) = h_loss (histories w id) ++ repeat (fst v) (listed_in id cbs) /\
                 h_metric (histories w' id) = h_metric (histories w id) ++ repeat (snd v) (listed_in id cbs)) /\
     shown w' = shown w ++ match bar with Some b => [{| at_epoch := e; out_of := b; line_loss := fst v; line_metric := snd v |}] | None => [] end) \/
  (exists v, evaluate s s' = Ok v /\ bar = Some 0 /\ r = Err ZeroDivisionError /\ shown w' = shown w /\
     (if record_first then
        forall id, h_loss (histories w' id) = h_loss (histories w id) ++ repeat (fst v) (listed_in id cbs) /\
                   h_metric (histories w' id) = h_metric (histories w id) ++ repeat (snd v) (listed_in id cbs)
      else w' = w)).
Proof.
  intros bar cbs e s s' w w' r H. unfold Callbacks.report in H.
  assert (Hc : (bar = None /\ cbs = None) \/ (bar <> None \/ cbs <> None)).
  { destruct bar, cbs; [right; left; congruence|right; left; congruence|right; right; congruence|left; split; reflexivity]. }
  destruct Hc as [[-> ->]|Hc].
  { inversion H; subst. left. repeat split; reflexivity. }
  right.
  assert (H' : match evaluate s s' with
    | Err x => (w, Err x)
    | Ok v =>
      if record_first then show_if bar e v (record_if cbs v w)
      else match show_if bar e v w with
           | (w', Ok _) => (record_if cbs v w', Ok tt)
           | (w', Err x) => (w', Err x)
           end
    end = (w', r)).
  { destruct bar; [exact H|]. destruct cbs; [exact H|]. destruct Hc as [Hc|Hc]; congruence. }
  clear H. destruct (evaluate s s') as [v|x] eqn:Ee.
  2:{ inversion H'; subst. left. exists x. repeat split; auto. }
  right. destruct bar as [[|b]|].
  - right. exists v. cbn in H'. destruct record_first.
    + inversion H'; subst. repeat split; auto; [apply record_if_shown|apply record_if_history|apply record_if_history].
    + inversion H'; subst. repeat split; auto.
  - left. exists v. cbn [show_if] in H'. destruct record_first; inversion H'; subst; clear H'.
    + repeat split; auto; try congruence; try apply record_if_history.
      cbn [shown]. rewrite record_if_shown. reflexivity.
    + repeat split; auto; try congruence.
      * apply (record_if_history cbs v {| histories := histories w; shown := _ |} id).
      * apply (record_if_history cbs v {| histories := histories w; shown := _ |} id).
      * rewrite record_if_shown. reflexivity.
  - left. exists v. cbn [show_if] in H'. destruct record_first; inversion H'; subst; clear H'.
    + repeat split; auto; try congruence; try apply record_if_history. rewrite record_if_shown, app_nil_r. reflexivity.
    + repeat split; auto; try congruence; try apply record_if_history. rewrite record_if_shown, app_nil_r. reflexivity.
Qed.


Lemma last_cons : forall (A : Type) (l : list A) a d, last (a :: l) d = last l a.
Proof. induction l as [|b l IH]; intros a d; [reflexivity|]. change (last (b :: l) d = last (b :: l) a). rewrite !IH. reflexivity. Qed.

Lemma reports_cons : forall s s1 l vs v, evaluate s s1 = Ok v -> reports evaluate s1 l vs -> reports evaluate s (s1 :: l) (v :: vs).
Proof.
  intros s s1 l vs v Hv [Hn H]. split; [cbn; congruence|].
  intros [|k] b a Hb Ha.
  - cbn in *. inversion Hb; inversion Ha; subst. exists v. split; auto.
  - cbn [nth_error] in *. exact (H k b a Hb Ha).
Qed.
Lemma reports_nil : forall s, reports evaluate s [] [].
Proof. intros s. split; [reflexivity|]. intros [|k] b a _ Ha; discriminate. Qed.

Lemma loop_ok : forall n e bar cbs s w w' s',
  (bar <> None \/ cbs <> None) ->
  loop n e bar cbs s w = (w', Ok s') ->
  exists l vs, epochs_from step e s l /\ List.length l = n /\ last l s = s' /\
    reports evaluate s l vs /\ (n <> 0 -> bar <> Some 0) /\
    (forall id, grew w w' id (listed_in id cbs) vs) /\
    shown w' = shown w ++ match bar with
        | Some b => map (fun p => {| at_epoch := fst p; out_of := b; line_loss := fst (snd p); line_metric := snd (snd p) |}) (combine (seq e n) vs)
        | None => [] end.
Proof.
  induction n as [|n IH]; intros e bar cbs s w w' s' Hbc H.
  - cbn in H. inversion H; subst. exists [], []. split; [constructor|]. split; [reflexivity|]. split; [reflexivity|].
    split; [apply reports_nil|]. split; [congruence|]. split.
    + intros id. split; cbn; rewrite app_nil_r; reflexivity.
    + destruct bar; cbn; rewrite app_nil_r; reflexivity.
  - cbn [epochs_loop] in H. destruct (step e s) as [s1|x] eqn:Es; [|discriminate].
    destruct (report bar cbs e s s1 w) as [w1 r] eqn:Er. apply report_cases in Er.
    destruct Er as [(Hb & Hc & _)|[(x & _ & _ & Hr & _)|[(v & Hv & Hr & Hb & _ & Hh & Hs)|(v & _ & _ & Hr & _)]]]; [|rewrite Hr in H; try discriminate..].
    { destruct Hbc; congruence. }
    destruct (IH _ _ _ _ _ _ _ Hbc H) as (l & vs & Hl & Hn & Hlast & Hre & _ & Hg & Hsh).
    exists (s1 :: l), (v :: vs). split; [econstructor; eauto|]. split; [cbn; congruence|].
    split; [rewrite last_cons; exact Hlast|]. split; [apply reports_cons; assumption|]. split; [auto|]. split.
    + intros id. destruct (Hh id) as [H1 H2]. destruct (Hg id) as [H3 H4].
      split; cbn [map List.concat]; [rewrite H3, H1|rewrite H4, H2]; rewrite <- app_assoc; reflexivity.
    + rewrite Hsh, Hs. destruct bar as [b|].
      * cbn [seq combine map fst snd]. rewrite <- app_assoc. reflexivity.
      * rewrite !app_nil_r. reflexivity.
Qed.

(** Without bar and callbacks the loop only trains. *)
Lemma loop_quiet : forall n e s w, fst (loop n e None None s w) = w.
Proof.
  induction n as [|n IH]; intros e s w; [reflexivity|]. cbn. destruct (step e s); [apply IH|reflexivity].
Qed.
Lemma quiet_world : forall n e s w w', snd (loop n e None None s w) = snd (loop n e None None s w').
Proof.
  induction n as [|n IH]; intros e s w w'; [reflexivity|]. cbn. destruct (step e s); [apply IH|reflexivity].
Qed.
(** A loop that ends gives what the quiet loop gives. *)
Lemma loop_same : forall n e bar cbs s w w' s' v,
  loop n e bar cbs s w = (w', Ok s') -> snd (loop n e None None s v) = Ok s'.
Proof.
  induction n as [|n IH]; intros e bar cbs s w w' s' v H.
  - cbn in *. congruence.
  - cbn [epochs_loop] in *. destruct (step e s) as [s1|x] eqn:Es; [|discriminate].
    destruct (report bar cbs e s s1 w) as [w1 [u|x]]; [|discriminate]. cbn [Callbacks.report]. eapply IH; eauto.
Qed.
Lemma quiet_epochs : forall n e s w s', snd (loop n e None None s w) = Ok s' ->
  exists l, epochs_from step e s l /\ List.length l = n /\ last l s = s'.
Proof.
  induction n as [|n IH]; intros e s w s' H.
  - cbn in H. inversion H; subst. exists []. repeat split; constructor.
  - cbn [epochs_loop] in H. destruct (step e s) as [s1|x] eqn:Es; [|discriminate]. cbn [Callbacks.report] in H.
    destruct (IH _ _ _ _ H) as (l & Hl & Hn & Hlast). exists (s1 :: l). split; [econstructor; eauto|].
    split; [cbn; congruence|]. rewrite last_cons. exact Hlast.
Qed.
(** Conversely, reports that work do not disturb. *)
Lemma loop_undisturbed : forall n e bar cbs s w s' v,
  snd (loop n e None None s v) = Ok s' -> (bar <> Some 0 \/ n = 0) ->
  (forall l before after k, epochs_from step e s l -> nth_error (s :: l) k = Some before -> nth_error l k = Some after ->
     exists r, evaluate before after = Ok r) ->
  snd (loop n e bar cbs s w) = Ok s'.
Proof.
  induction n as [|n IH]; intros e bar cbs s w s' v H Hb He.
  - exact H.
  - cbn [epochs_loop] in *. destruct (step e s) as [s1|x] eqn:Es; [|exact H]. cbn [Callbacks.report] in H.
    destruct (report bar cbs e s s1 w) as [w1 r] eqn:Er. apply report_cases in Er.
    assert (Hv : exists r, evaluate s s1 = Ok r).
    { apply (He [s1] s s1 0); [econstructor; [exact Es|constructor]|reflexivity|reflexivity]. }
    destruct Hv as [v0 Hv0].
    assert (Hr : r = Ok tt).
    { destruct Er as [(_ & _ & _ & Hr)|[(x & Hx & _)|[(u & _ & Hr & _)|(u & _ & Hz & _)]]]; auto; try congruence.
      destruct Hb; [congruence|discriminate]. }
    rewrite Hr. eapply IH; [exact H|destruct Hb; [auto|discriminate]|].
    intros l b a k Hl Hk Ha. apply (He (s1 :: l) b a (S k)); [econstructor; eauto|exact Hk|exact Ha].
Qed.

(** Any outcome at all: some epochs were recorded, in order. *)
Lemma loop_any : forall n e bar cbs s w w' r,
  (bar <> None \/ cbs <> None) ->
  loop n e bar cbs s w = (w', r) ->
  exists l vs, epochs_from step e s l /\ List.length l <= n /\ reports evaluate s l vs /\
    (forall id, grew w w' id (listed_in id cbs) vs) /\
    (forall s', r = Ok s' -> List.length l = n /\ last l s = s') /\
    (forall x, r = Err x -> (bar <> Some 0 \/ record_first = false) ->
       List.length l < n /\
       (step (e + List.length l) (last l s) = Err x \/
        exists s', step (e + List.length l) (last l s) = Ok s' /\
          (evaluate (last l s) s' = Err x \/ (bar = Some 0 /\ x = ZeroDivisionError)))).
Proof.
  induction n as [|n IH]; intros e bar cbs s w w' r Hbc H.
  - cbn in H. inversion H; subst. exists [], []. split; [constructor|]. split; [cbn; lia|].
    split; [apply reports_nil|]. split.
    + intros id. split; cbn; rewrite app_nil_r; reflexivity.
    + split; [intros s' E; inversion E; subst; split; reflexivity|intros x E; discriminate].
  - assert (Nothing : forall x, w' = w -> r = Err x -> (step e s = Err x \/ exists s', step e s = Ok s' /\ (evaluate s s' = Err x \/ (bar = Some 0 /\ x = ZeroDivisionError))) ->
      exists l vs, epochs_from step e s l /\ List.length l <= S n /\ reports evaluate s l vs /\
    (forall id, grew w w' id (listed_in id cbs) vs) /\
    (forall s', r = Ok s' -> List.length l = S n /\ last l s = s') /\
    (forall x, r = Err x -> (bar <> Some 0 \/ record_first = false) ->
       List.length l < S n /\
       (step (e + List.length l) (last l s) = Err x \/
        exists s', step (e + List.length l) (last l s) = Ok s' /\
          (evaluate (last l s) s' = Err x \/ (bar = Some 0 /\ x = ZeroDivisionError))))).
    { intros x Hw Hr Hx. subst w' r. exists [], []. split; [constructor|]. split; [cbn; lia|].
      split; [apply reports_nil|]. split.
      + intros id. split; cbn; rewrite app_nil_r; reflexivity.
      + split; [intros s' E; discriminate|]. intros y E _. inversion E; subst. split; [cbn; lia|].
        cbn [List.length last]. rewrite Nat.add_0_r. exact Hx. }
    cbn [epochs_loop] in H. destruct (step e s) as [s1|x] eqn:Es.
    2:{ inversion H; subst. eapply Nothing; eauto. }
    destruct (report bar cbs e s s1 w) as [w1 r1] eqn:Er. apply report_cases in Er.
    destruct Er as [(Hb & Hc & _)|[(x & Hx & Hw & Hr & _)|[(v & Hv & Hr & Hb & _ & Hh & Hs)|(v & Hv & Hb & Hr & _ & Hh)]]]; try rewrite Hr in H.
    + destruct Hbc; congruence.
    + inversion H; subst. eapply Nothing; eauto.
    + destruct (IH _ _ _ _ _ _ _ Hbc H) as (l & vs & Hl & Hn & Hre & Hg & Hok & Herr).
      exists (s1 :: l), (v :: vs). split; [econstructor; eauto|]. split; [cbn; lia|].
      split; [apply reports_cons; assumption|]. split.
      * intros id. destruct (Hh id) as [H1 H2]. destruct (Hg id) as [H3 H4].
        split; cbn [map List.concat]; [rewrite H3, H1|rewrite H4, H2]; rewrite <- app_assoc; reflexivity.
      * rewrite last_cons. cbn [List.length]. split.
        -- intros s' E. destruct (Hok s' E). split; [lia|assumption].
        -- intros x E HH. destruct (Herr x E HH) as [H1 H2]. split; [lia|].
           rewrite <- Nat.add_succ_comm. exact H2.
    + destruct record_first eqn:Ef.
      * inversion H; subst. exists [s1], [v]. split; [econstructor; [exact Es|constructor]|]. split; [cbn; lia|].
        split; [apply reports_cons; [assumption|apply reports_nil]|]. split.
        -- intros id. destruct (Hh id) as [H1 H2]. split; cbn [map List.concat]; rewrite app_nil_r; assumption.
        -- split; [intros s' E; discriminate|]. intros x E [HH|HH]; congruence.
      * inversion H; subst. eapply Nothing; eauto. right. exists s1. split; auto.
Qed.
End Run.

Lemma concat_single : forall (A B : Type) (f : A -> B) l, List.concat (map (fun v => repeat (f v) 1) l) = map f l.
Proof. induction l as [|a l IH]; [reflexivity|]. change (f a :: List.concat (map (fun v => repeat (f v) 1) l) = f a :: map f l). rewrite IH. reflexivity. Qed.
Lemma concat_none : forall (A B : Type) (f : A -> B) l, List.concat (map (fun v => repeat (f v) 0) l) = [].
Proof. induction l as [|a l IH]; [reflexivity|]. cbn. exact IH. Qed.
Lemma concat_length : forall (A B : Type) (f : A -> B) c l, List.length (List.concat (map (fun v => repeat (f v) c) l)) = List.length l * c.
Proof. induction l as [|a l IH]; [reflexivity|]. cbn [map List.concat]. rewrite app_length, repeat_length, IH. reflexivity. Qed.

Lemma grew_length : forall w w' id c vs, grew w w' id c vs ->
  List.length (h_loss (histories w' id)) = List.length (h_loss (histories w id)) + List.length vs * c /\
  List.length (h_metric (histories w' id)) = List.length (h_metric (histories w id)) + List.length vs * c.
Proof. intros w w' id c vs [H1 H2]. rewrite H1, H2, !app_length, !concat_length. split; reflexivity. Qed.

Section Entries.
Context {St : Type}.
Variable step : nat -> St -> result St.
Variable evaluate : St -> St -> result (R * R).
Variable record_first any_true : bool.
Notation run := (run St step evaluate record_first any_true).

Lemma epochs_fold : forall l e s, epochs_from step e s l -> forall k t, nth_error (s :: l) k = Some t ->
  foldM (fun s e => step e s) (seq e k) s = Ok t.
Proof.
  induction 1 as [e s|e s s' l Hs Hl IH]; intros k t Hk.
  - destruct k as [|k]; [cbn in *; congruence|]. cbn in Hk. destruct k; discriminate.
  - destruct k as [|k]; [cbn in *; congruence|]. cbn [nth_error] in Hk. cbn [seq foldM]. rewrite Hs. cbn [bind]. apply IH. exact Hk.
Qed.
Lemma last_nth : forall (A : Type) (l : list A) s, nth_error (s :: l) (List.length l) = Some (last l s).
Proof. induction l as [|a l IH]; intros s; [reflexivity|]. rewrite last_cons. exact (IH a). Qed.

(** Everything about the entries of a finished call, epoch by epoch. *)
Lemma entries : forall verbose n cs bar s w bar' w' s',
  run verbose n (Some cs) bar s w = (bar', (w', Ok s')) ->
  foldM (fun s e => step e s) (seq 1 n) s = Ok s' /\
  forall id, listed id cs = 1 -> forall k, k < n ->
  exists before after l m,
    foldM (fun s e => step e s) (seq 1 k) s = Ok before /\
    foldM (fun s e => step e s) (seq 1 (S k)) s = Ok after /\
    evaluate before after = Ok (l, m) /\
    nth_error (h_loss (histories w' id)) (List.length (h_loss (histories w id)) + k) = Some l /\
    nth_error (h_metric (histories w' id)) (List.length (h_metric (histories w id)) + k) = Some m.
Proof.
  intros verbose n cs bar s w bar' w' s' H. unfold Callbacks.run in H. apply (f_equal snd) in H. cbn [snd] in H.
  apply loop_ok in H; [|right; congruence].
  destruct H as (l & vs & Hl & Hn & Hlast & [Hvl Hre] & _ & Hg & _).
  split.
  { rewrite <- Hn. eapply epochs_fold; [exact Hl|]. rewrite <- Hlast. apply last_nth. }
  intros id Hid k Hk.
  destruct (nth_error (s :: l) k) as [b|] eqn:Eb. 2:{ apply nth_error_None in Eb. cbn in Eb. lia. }
  destruct (nth_error l k) as [a|] eqn:Ea. 2:{ apply nth_error_None in Ea. lia. }
  destruct (Hre k b a Eb Ea) as ([l0 m0] & Hv & He).
  destruct (Hg id) as [Hg1 Hg2]. cbn [listed_in] in *. rewrite Hid, concat_single in Hg1, Hg2.
  exists b, a, l0, m0. split; [eapply epochs_fold; eauto|]. split; [eapply epochs_fold; eauto|]. split; [exact He|].
  rewrite Hg1, Hg2, !nth_error_app2 by lia. split.
  - replace (_ + k - _) with k by lia. rewrite nth_error_map, Hv. reflexivity.
  - replace (_ + k - _) with k by lia. rewrite nth_error_map, Hv. reflexivity.
Qed.
End Entries.

Lemma foldM_map : forall (A B S : Type) (g : A -> B) (f : S -> B -> result S) l s,
  foldM f (map g l) s = foldM (fun s a => f s (g a)) l s.
Proof. induction l as [|a l IH]; intros s; [reflexivity|]. cbn. destruct (f s (g a)); [apply IH|reflexivity]. Qed.
Lemma combine_self : forall (A B : Type) (g : A -> B) l, combine l (map g l) = map (fun a => (a, g a)) l.
Proof. induction l as [|a l IH]; [reflexivity|]. cbn. rewrite IH. reflexivity. Qed.

Lemma sgd_fold : forall rate x y draw k ls,
  foldM (fun s e => sgd_epoch rate x y s (draw e)) (seq 1 k) ls = sgd_run rate x y ls (map draw (seq 1 k)).
Proof. intros. unfold sgd_run. rewrite foldM_map. reflexivity. Qed.
Lemma adam_fold : forall o x y draw k ls s,
  foldM (fun s e => adam_epoch o x y s (e, draw e)) (seq 1 k) (adam_init ls) = Ok s ->
  adam_run o x y ls (map draw (seq 1 k)) = Ok (params s).
Proof.
  intros o x y draw k ls s H. unfold adam_run. rewrite map_length, seq_length, combine_self, foldM_map, H. reflexivity.
Qed.
Lemma logistic_fold : forall o d x y k j b,
  foldM (fun s e => opt_step o d x y s) (seq j k) b = opt_run o k d x y b.
Proof.
  induction k as [|k IH]; intros j b; [reflexivity|]. cbn. destruct (opt_step o d x y b); [apply IH|reflexivity].
Qed.
Lemma rbf_fold : forall rate x y k j p q,
  foldM (fun s e => r <- rbf_epoch rate x y s ;; Ok (fst r)) (seq j k) p = Ok q ->
  exists losses, rbf_run rate x y k p = Ok (q, losses).
Proof.
  induction k as [|k IH]; intros j p q H.
  - cbn in *. inversion H; subst. exists []. reflexivity.
  - cbn [seq foldM rbf_run] in *. destruct (rbf_epoch rate x y p) as [[p1 l1]|e]; [|discriminate]. cbn [bind fst snd] in *.
    destruct (IH _ _ _ H) as [ls E]. rewrite E. cbn. eauto.
Qed.
Lemma call_metric_ok : forall X Y (m : option (X -> Y -> result R)) p y v, call_metric m p y = Ok v -> exists f, m = Some f /\ f p y = Ok v.
Proof. intros X Y [f|] p y v H; [exists f; split; auto|discriminate]. Qed.

(** The extra arguments of [run]. *)
Section Arguments.
Variable V : Type.
Variable text : string -> V.
Variable reads : V -> string -> bool.
Definition evolve (kwargs : list (string * V)) (p : V) : V :=
  fold_left (fun p kv => if reads p (fst kv) then snd kv else p) kwargs p.
Lemma keywords_map : forall kwargs ps, fold_left (put_keyword V reads) kwargs ps = map (evolve kwargs) ps.
Proof.
  induction kwargs as [|kv kwargs IH]; intros ps.
  - cbn. symmetry. apply map_id.
  - cbn [fold_left]. rewrite IH. unfold put_keyword. rewrite map_map. reflexivity.
Qed.
Lemma evolve_plain : forall kwargs p, (forall s, reads p s = false) -> evolve kwargs p = p.
Proof. induction kwargs as [|kv kwargs IH]; intros p H; [reflexivity|]. unfold evolve. cbn [fold_left]. rewrite H. apply IH. exact H. Qed.
Lemma evolve_text : forall kwargs s,
  (forall a b, reads (text a) b = String.eqb a b) ->
  (forall k v, In (k, v) kwargs -> forall s, reads v s = false) ->
  evolve kwargs (text s) = match find (fun kv => String.eqb s (fst kv)) kwargs with Some kv => snd kv | None => text s end.
Proof.
  induction kwargs as [|[k v] kwargs IH]; intros s Ht Hv; [reflexivity|].
  unfold evolve. cbn [fold_left find fst snd]. rewrite Ht. destruct (String.eqb s k) eqn:E.
  - apply evolve_plain. apply (Hv k v). left. reflexivity.
  - apply IH; [exact Ht|]. intros k' v' Hin. apply (Hv k' v'). right. exact Hin.
Qed.
Lemma positional_ok : forall args, List.length args <= 4 ->
  put_positional V text args = Ok (args ++ skipn (List.length args) (default_parameters V text)).
Proof.
  intros args H. destruct args as [|a [|b [|c [|d [|e args]]]]]; try reflexivity. cbn in H. lia.
Qed.
Lemma positional_too_many : forall args, 4 < List.length args -> put_positional V text args = Err IndexError.
Proof.
  intros args H. destruct args as [|a [|b [|c [|d [|e args]]]]]; try (cbn in H; lia). reflexivity.
Qed.
End Arguments.
