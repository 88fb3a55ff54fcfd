(** C59-C61, C72: training histories, progress bars, look-up of components and
    the extra arguments of the optimizers. *)
From Coq Require Import List String Ascii Reals ZArith Bool Arith Lia Lra.
From Verif.Model Require Import Base Training Activations Network Logistic Rbf Callbacks ProgressBar.
From Verif.Spec Require Import Training.
From Verif.Proof Require Import Callbacks ProgressBar.
Import ListNotations.

(** * C59: a History object gets one entry per epoch

    [run] is the training loop of any of the five optimizers; [step] is the update
    of one epoch and [evaluate] what the optimizer reports after it. *)

(** A finished call went through [epochs] epochs and every History object got the
    report of each epoch, in order, as often as it stands in the list. *)
Theorem C59_one_entry_per_epoch :
  forall St step evaluate first any verbose epochs cs bar (s s' : St) w bar' w',
  run St step evaluate first any verbose epochs (Some cs) bar s w = (bar', (w', Ok s')) ->
  exists states values,
    epochs_from step 1 s states /\ List.length states = epochs /\ last states s = s' /\
    reports evaluate s states values /\
    forall id, grew w w' id (listed id cs) values.
Proof.
  intros St step evaluate first any verbose epochs cs bar s s' w bar' w' H.
  unfold run in H. apply (f_equal snd) in H. cbn [snd] in H. apply loop_ok in H; [|right; congruence].
  destruct H as (l & vs & H1 & H2 & H3 & H4 & _ & H5 & _). exists l, vs. auto.
Qed.
Print Assumptions C59_one_entry_per_epoch.

Theorem C59_lists_grow_by_the_epochs :
  forall St step evaluate first any verbose epochs cs bar (s s' : St) w bar' w' id,
  run St step evaluate first any verbose epochs (Some cs) bar s w = (bar', (w', Ok s')) ->
  (listed id cs = 1 ->
     (exists added, h_loss (histories w' id) = h_loss (histories w id) ++ added /\ List.length added = epochs) /\
     (exists added, h_metric (histories w' id) = h_metric (histories w id) ++ added /\ List.length added = epochs)) /\
  (listed id cs = 0 -> histories w' id = histories w id).
Proof.
  intros St step evaluate first any verbose epochs cs bar s s' w bar' w' id H.
  destruct (C59_one_entry_per_epoch _ _ _ _ _ _ _ _ _ _ _ _ _ _ H) as (l & vs & _ & Hn & _ & [Hv _] & Hg).
  destruct (Hg id) as [H1 H2]. split; intros Hid; rewrite Hid in *.
  - split; eexists; (split; [eassumption|]); rewrite concat_length; lia.
  - rewrite concat_none, app_nil_r in H1, H2. destruct (histories w' id), (histories w id). cbn in *. congruence.
Qed.
Print Assumptions C59_lists_grow_by_the_epochs.

(** Whatever happens, an exception included, the two lists keep equal length and
    what was there stays. *)
Theorem C59_lists_keep_equal_length :
  forall St step evaluate first any verbose epochs cbs bar (s : St) w bar' w' r id,
  run St step evaluate first any verbose epochs cbs bar s w = (bar', (w', r)) ->
  List.length (h_loss (histories w id)) = List.length (h_metric (histories w id)) ->
  List.length (h_loss (histories w' id)) = List.length (h_metric (histories w' id)) /\
  (exists added, h_loss (histories w' id) = h_loss (histories w id) ++ added) /\
  (exists added, h_metric (histories w' id) = h_metric (histories w id) ++ added).
Proof.
  intros St step evaluate first any verbose epochs cbs bar s w bar' w' r id H Hl.
  unfold run in H. inversion H as [[Hb H']]. clear H. rewrite Hb in H'.
  assert (Hc : (bar' = None /\ cbs = None) \/ (bar' <> None \/ cbs <> None)).
  { destruct bar', cbs; [right; left; congruence|right; left; congruence|right; right; congruence|left; split; reflexivity]. }
  destruct Hc as [[-> ->]|Hc].
  - pose proof (loop_quiet step evaluate first epochs 1 s w) as Hq. rewrite H' in Hq. cbn in Hq. subst w'.
    split; [exact Hl|]. split; exists []; rewrite app_nil_r; reflexivity.
  - apply loop_any in H'; [|exact Hc]. destruct H' as (l & vs & _ & _ & _ & Hg & _).
    destruct (grew_length _ _ _ _ _ (Hg id)) as [H1 H2]. destruct (Hg id) as [H3 H4].
    split; [lia|]. split; eexists; eassumption.
Qed.
Print Assumptions C59_lists_keep_equal_length.

(** A call that fails has recorded exactly the epochs before the failing one: the
    update, the loss or the metric of the next epoch raised the exception. *)
Theorem C59_failed_fit_keeps_finished_epochs :
  forall St step evaluate first any verbose epochs cs bar (s : St) w bar' w' x,
  run St step evaluate first any verbose epochs (Some cs) bar s w = (bar', (w', Err x)) ->
  bar' <> Some 0 ->
  exists states values,
    epochs_from step 1 s states /\ List.length states < epochs /\ reports evaluate s states values /\
    (forall id, grew w w' id (listed id cs) values) /\
    (step (1 + List.length states) (last states s) = Err x \/
     exists s', step (1 + List.length states) (last states s) = Ok s' /\ evaluate (last states s) s' = Err x).
Proof.
  intros St step evaluate first any verbose epochs cs bar s w bar' w' x H Hb0.
  unfold run in H. inversion H as [[Hb H']]. clear H. rewrite Hb in H'.
  apply loop_any in H'; [|right; congruence]. destruct H' as (l & vs & H1 & _ & H2 & H3 & _ & H4).
  destruct (H4 x eq_refl (or_introl Hb0)) as [H5 H6].
  exists l, vs. split; [exact H1|]. split; [exact H5|]. split; [exact H2|]. split; [exact H3|].
  destruct H6 as [H6|(s' & H6 & [H7|[H7 _]])]; [left; exact H6|right; exists s'; auto|congruence].
Qed.
Print Assumptions C59_failed_fit_keeps_finished_epochs.

(** Any number of fits, of any models, with the same History object: its lists
    grow by the total number of epochs it was listed for. *)
Theorem C59_repeated_fits_append :
  forall w calls w', fits w calls w' -> forall id,
  (exists added, h_loss (histories w' id) = h_loss (histories w id) ++ added /\
     List.length added = list_sum (map (fun c => fst c * listed_in id (snd c)) calls)) /\
  (exists added, h_metric (histories w' id) = h_metric (histories w id) ++ added /\
     List.length added = list_sum (map (fun c => fst c * listed_in id (snd c)) calls)).
Proof.
  induction 1 as [w|w w' w'' l St step evaluate first any verbose epochs cbs bar s s' bar' H Hf IH]; intros id.
  - split; exists []; rewrite app_nil_r; split; reflexivity.
  - destruct (IH id) as [(a1 & E1 & L1) (a2 & E2 & L2)].
    assert (G : exists vs, grew w w' id (listed_in id cbs) vs /\ (listed_in id cbs = 0 \/ List.length vs = epochs)).
    { destruct cbs as [cs|].
      - destruct (C59_one_entry_per_epoch _ _ _ _ _ _ _ _ _ _ _ _ _ _ H) as (st & vs & _ & Hn & _ & [Hv _] & Hg).
        exists vs. split; [apply Hg|right; congruence].
      - unfold run in H. inversion H as [[Hb H']]. rewrite Hb in H'. destruct bar' as [b|].
        + apply loop_any in H'; [|left; congruence]. destruct H' as (st & vs & _ & _ & _ & Hg & _).
          exists vs. split; [apply Hg|left; reflexivity].
        + pose proof (loop_quiet step evaluate first epochs 1 s w) as Hq. rewrite H' in Hq. cbn in Hq. subst w'.
          exists []. split; [split; cbn; rewrite app_nil_r; reflexivity|left; reflexivity]. }
    destruct G as (vs & [G1 G2] & G3). cbn [map list_sum fold_right fst snd].
    assert (G4 : List.length vs * listed_in id cbs = epochs * listed_in id cbs) by (destruct G3 as [->| ->]; lia).
    split.
    + eexists. split; [rewrite E1, G1, <- app_assoc; reflexivity|]. rewrite app_length, concat_length, L1, G4. reflexivity.
    + eexists. split; [rewrite E2, G2, <- app_assoc; reflexivity|]. rewrite app_length, concat_length, L2, G4. reflexivity.
Qed.
Print Assumptions C59_repeated_fits_append.

(** Reporting does not change what is learned: a call that finishes gives the
    result of a call without bar and callbacks ... *)
Theorem C59_reporting_does_not_change_training :
  forall St step evaluate first any verbose epochs cbs bar (s s' : St) w bar' w',
  run St step evaluate first any verbose epochs cbs bar s w = (bar', (w', Ok s')) ->
  run St step evaluate first any Falsy epochs None None s w = (None, (w, Ok s')).
Proof.
  intros St step evaluate first any verbose epochs cbs bar s s' w bar' w' H.
  unfold run in *. apply (f_equal snd) in H. cbn [snd] in H. apply loop_same with (v := w) in H. cbn [bar_after].
  f_equal. rewrite (surjective_pairing (epochs_loop _ _ _ _ _ _ _ _ _ _)), H, loop_quiet. reflexivity.
Qed.
Print Assumptions C59_reporting_does_not_change_training.

(** ... and where loss and metric can be computed, reporting cannot make training
    fail, unless the optimizer has kept a bar made for zero epochs. *)
Theorem C59_reporting_does_not_stop_training :
  forall St step evaluate first any verbose epochs cbs bar (s s' : St) w w0,
  run St step evaluate first any Falsy epochs None None s w0 = (None, (w0, Ok s')) ->
  (forall states before after k, epochs_from step 1 s states ->
     nth_error (s :: states) k = Some before -> nth_error states k = Some after -> exists v, evaluate before after = Ok v) ->
  (verbose = Falsy -> bar <> Some 0) -> (verbose = Truthy -> bar <> Some 0) ->
  snd (snd (run St step evaluate first any verbose epochs cbs bar s w)) = Ok s'.
Proof.
  intros St step evaluate first any verbose epochs cbs bar s s' w w0 H He H1 H2.
  unfold run in *. apply (f_equal (fun p => snd (snd p))) in H. cbn [snd bar_after] in H. cbn [snd].
  apply loop_undisturbed with (v := w0); [exact H| |exact He].
  destruct verbose; cbn [bar_after].
  - destruct epochs; [right; reflexivity|left; congruence].
  - destruct any; [destruct epochs; [right; reflexivity|left; congruence]|left; auto].
  - left; auto.
Qed.
Print Assumptions C59_reporting_does_not_stop_training.

(** No list, an empty list, or other objects in it: nothing is recorded. *)
Theorem C59_nothing_without_history :
  forall St step evaluate first any verbose epochs cbs bar (s : St) w bar' w' r,
  run St step evaluate first any verbose epochs cbs bar s w = (bar', (w', r)) ->
  (forall cs, cbs = Some cs -> forall c, In c cs -> c = OtherCallback) ->
  forall id, histories w' id = histories w id.
Proof.
  intros St step evaluate first any verbose epochs cbs bar s w bar' w' r H Hcs id.
  assert (Hl : listed_in id cbs = 0).
  { destruct cbs as [cs|]; [|reflexivity]. specialize (Hcs cs eq_refl). cbn [listed_in]. unfold listed.
    clear H. induction cs as [|c cs IH]; [reflexivity|]. cbn [filter].
    rewrite (Hcs c (or_introl eq_refl)). apply IH. intros c' Hc'. apply Hcs. right. exact Hc'. }
  unfold run in H. inversion H as [[Hb H']]. clear H. rewrite Hb in H'.
  assert (Hc : (bar' = None /\ cbs = None) \/ (bar' <> None \/ cbs <> None)).
  { destruct bar', cbs; [right; left; congruence|right; left; congruence|right; right; congruence|left; split; reflexivity]. }
  destruct Hc as [[-> ->]|Hc].
  - pose proof (loop_quiet step evaluate first epochs 1 s w) as Hq. rewrite H' in Hq. cbn in Hq. subst w'. reflexivity.
  - apply loop_any in H'; [|exact Hc]. destruct H' as (l & vs & _ & _ & _ & Hg & _).
    destruct (Hg id) as [H1 H2]. rewrite Hl, concat_none, app_nil_r in H1, H2.
    destruct (histories w' id), (histories w id). cbn in *. congruence.
Qed.
Print Assumptions C59_nothing_without_history.

(** The layered network: entry number k (from 0) holds loss and metric of the
    predictions for all samples with the parameters after k + 1 epochs. *)
Theorem C59_sgd_entries :
  forall rate x y loss metric draw verbose epochs cs bar ls ls' w bar' w',
  sgd_training rate x y loss metric draw verbose epochs (Some cs) bar ls w = (bar', (w', Ok ls')) ->
  sgd_run rate x y ls (map draw (seq 1 epochs)) = Ok ls' /\
  forall id, listed id cs = 1 -> forall k, k < epochs ->
  exists now pred caches l f m,
    sgd_run rate x y ls (map draw (seq 1 (k + 1))) = Ok now /\
    Network.forward now x = Ok (pred, caches) /\ loss pred y = Ok l /\ metric = Some f /\ f pred y = Ok m /\
    nth_error (h_loss (histories w' id)) (List.length (h_loss (histories w id)) + k) = Some l /\
    nth_error (h_metric (histories w' id)) (List.length (h_metric (histories w id)) + k) = Some m.
Proof.
  intros rate x y loss metric draw verbose epochs cs bar ls ls' w bar' w' H. unfold sgd_training in H.
  apply entries in H. destruct H as [H1 H2]. split; [rewrite <- sgd_fold; exact H1|].
  intros id Hid k Hk. destruct (H2 id Hid k Hk) as (b & a & l & m & _ & Ha & He & Hl & Hm).
  unfold network_report in He. destruct (Network.forward a x) as [[p c]|] eqn:Ef; [|discriminate]. cbn [bind fst] in He.
  destruct (loss p y) as [l0|] eqn:El; [|discriminate]. cbn [bind] in He.
  destruct (call_metric metric p y) as [m0|] eqn:Em; [|discriminate]. cbn [bind] in He. inversion He; subst l0 m0.
  apply call_metric_ok in Em. destruct Em as (f & Hf & Hfm).
  exists a, p, c, l, f, m. rewrite Nat.add_1_r. split; [rewrite <- sgd_fold; exact Ha|]. repeat split; assumption.
Qed.
Print Assumptions C59_sgd_entries.
Theorem C59_adam_entries :
  forall o x y loss metric draw verbose epochs cs bar ls st' w bar' w',
  adam_training o x y loss metric draw verbose epochs (Some cs) bar (adam_init ls) w = (bar', (w', Ok st')) ->
  adam_run o x y ls (map draw (seq 1 epochs)) = Ok (params st') /\
  forall id, listed id cs = 1 -> forall k, k < epochs ->
  exists now pred caches l f m,
    adam_run o x y ls (map draw (seq 1 (k + 1))) = Ok now /\
    Network.forward now x = Ok (pred, caches) /\ loss pred y = Ok l /\ metric = Some f /\ f pred y = Ok m /\
    nth_error (h_loss (histories w' id)) (List.length (h_loss (histories w id)) + k) = Some l /\
    nth_error (h_metric (histories w' id)) (List.length (h_metric (histories w id)) + k) = Some m.
Proof.
  intros o x y loss metric draw verbose epochs cs bar ls st' w bar' w' H. unfold adam_training in H.
  apply entries in H. destruct H as [H1 H2]. split; [apply adam_fold; exact H1|].
  intros id Hid k Hk. destruct (H2 id Hid k Hk) as (b & a & l & m & _ & Ha & He & Hl & Hm).
  unfold network_report in He. destruct (Network.forward (params a) x) as [[p c]|] eqn:Ef; [|discriminate]. cbn [bind fst] in He.
  destruct (loss p y) as [l0|] eqn:El; [|discriminate]. cbn [bind] in He.
  destruct (call_metric metric p y) as [m0|] eqn:Em; [|discriminate]. cbn [bind] in He. inversion He; subst l0 m0.
  apply call_metric_ok in Em. destruct Em as (f & Hf & Hfm).
  exists (params a), p, c, l, f, m. rewrite Nat.add_1_r. split; [apply adam_fold; exact Ha|]. repeat split; assumption.
Qed.
Print Assumptions C59_adam_entries.

(** Logistic regression: the metric of entry k, and the loss unless it is called
    'log_likelihood', belong to the parameters after k epochs, before the update
    of epoch k + 1; the log likelihood belongs to those after k + 1 epochs. *)
Theorem C59_logistic_entries :
  forall o d x y loss metric verbose epochs cs bar b b' w bar' w',
  logistic_training o d x y loss metric verbose epochs (Some cs) bar b w = (bar', (w', Ok b')) ->
  opt_run o epochs d x y b = Ok b' /\
  forall id, listed id cs = 1 -> forall k, k < epochs ->
  exists before after l f m,
    opt_run o k d x y b = Ok before /\ opt_run o (k + 1) d x y b = Ok after /\
    match loss with
    | CalledLogLikelihood ll => ll y after (map with_one x) = Ok l
    | CalledOtherwise g => g (Logistic.forward x before) y = Ok l
    end /\
    metric = Some f /\ f (Logistic.forward x before) y = Ok m /\
    nth_error (h_loss (histories w' id)) (List.length (h_loss (histories w id)) + k) = Some l /\
    nth_error (h_metric (histories w' id)) (List.length (h_metric (histories w id)) + k) = Some m.
Proof.
  intros o d x y loss metric verbose epochs cs bar b b' w bar' w' H. unfold logistic_training in H.
  apply entries in H. destruct H as [H1 H2]. rewrite logistic_fold in H1. split; [exact H1|].
  intros id Hid k Hk. destruct (H2 id Hid k Hk) as (p & a & l & m & Hp & Ha & He & Hl & Hm).
  rewrite logistic_fold in Hp, Ha. unfold logistic_report in He.
  destruct (match loss with CalledLogLikelihood f => f y a (map with_one x) | CalledOtherwise f => f (Logistic.forward x p) y end) as [l0|] eqn:El; [|discriminate].
  cbn [bind] in He. destruct (call_metric metric (Logistic.forward x p) y) as [m0|] eqn:Em; [|discriminate]. cbn [bind] in He.
  inversion He; subst l0 m0. apply call_metric_ok in Em. destruct Em as (f & Hf & Hfm).
  exists p, a, l, f, m. rewrite Nat.add_1_r. repeat split; try assumption.
  destruct loss; exact El.
Qed.
Print Assumptions C59_logistic_entries.

(** Radial basis functions: entry k belongs to the parameters after k epochs. *)
Theorem C59_rbf_entries :
  forall rate x y loss metric verbose epochs cs bar p p' w bar' w',
  rbf_training rate x y loss metric verbose epochs (Some cs) bar p w = (bar', (w', Ok p')) ->
  (exists ls, rbf_run rate x y epochs p = Ok (p', ls)) /\
  forall id, listed id cs = 1 -> forall k, k < epochs ->
  exists before ls pred l f m,
    rbf_run rate x y k p = Ok (before, ls) /\ rbf_predict before x = Ok pred /\ loss pred y = Ok l /\
    metric = Some f /\ f pred y = Ok m /\
    nth_error (h_loss (histories w' id)) (List.length (h_loss (histories w id)) + k) = Some l /\
    nth_error (h_metric (histories w' id)) (List.length (h_metric (histories w id)) + k) = Some m.
Proof.
  intros rate x y loss metric verbose epochs cs bar p p' w bar' w' H. unfold rbf_training in H.
  apply entries in H. destruct H as [H1 H2]. split; [eapply rbf_fold; exact H1|].
  intros id Hid k Hk. destruct (H2 id Hid k Hk) as (b & a & l & m & Hb & _ & He & Hl & Hm).
  unfold rbf_report in He. destruct (rbf_predict b x) as [q|] eqn:Ef; [|discriminate]. cbn [bind] in He.
  destruct (loss q y) as [l0|] eqn:El; [|discriminate]. cbn [bind] in He.
  destruct (call_metric metric q y) as [m0|] eqn:Em; [|discriminate]. cbn [bind] in He. inversion He; subst l0 m0.
  apply call_metric_ok in Em. destruct Em as (f & Hf & Hfm).
  destruct (rbf_fold _ _ _ _ _ _ _ Hb) as [ls Hls].
  exists b, ls, q, l, f, m. repeat split; assumption.
Qed.
Print Assumptions C59_rbf_entries.

(** A metric whose name was unknown is None: with callbacks every call of at least
    one epoch fails, after the first update. *)
Theorem C59_unknown_metric_fails :
  forall rate x y loss draw verbose epochs cs bar ls w,
  0 < epochs -> exists x', snd (snd (sgd_training rate x y loss None draw verbose epochs (Some cs) bar ls w)) = Err x'.
Proof.
  intros rate x y loss draw verbose epochs cs bar ls w He. unfold sgd_training, run. cbn [snd].
  destruct epochs as [|n]; [lia|]. cbn [epochs_loop].
  destruct (sgd_epoch rate x y ls (draw 1)) as [ls1|e] eqn:Es; [|eexists; reflexivity].
  match goal with |- context [report ?St ?ev ?f ?b ?c ?e ?s ?s1 ?w] => destruct (report St ev f b c e s s1 w) as [w1 [u|e1]] eqn:Er end;
    [|eexists; reflexivity].
  exfalso. apply report_cases in Er. unfold network_report in Er.
  destruct Er as [(_ & Hc & _)|[(e1 & _ & _ & Hr & _)|[(v & Hv & _)|(v & _ & _ & Hr & _)]]]; try congruence.
  destruct (Network.forward ls1 x) as [p|]; [|discriminate]. cbn [bind] in Hv.
  destruct (loss (fst p) y); discriminate.
Qed.
Print Assumptions C59_unknown_metric_fails.

(** It is the call of None that fails, before anything is recorded or shown. *)
Theorem C59_unknown_metric_is_a_type_error :
  (forall rate x y loss draw verbose n cs bar ls ls1 p l w,
     sgd_epoch rate x y ls (draw 1) = Ok ls1 -> Network.forward ls1 x = Ok p -> loss (fst p) y = Ok l ->
     snd (sgd_training rate x y loss None draw verbose (S n) (Some cs) bar ls w) = (w, Err TypeError)) /\
  (forall o x y loss draw verbose n cs bar s s1 p l w,
     adam_epoch o x y s (1, draw 1) = Ok s1 -> Network.forward (params s1) x = Ok p -> loss (fst p) y = Ok l ->
     snd (adam_training o x y loss None draw verbose (S n) (Some cs) bar s w) = (w, Err TypeError)) /\
  (forall o d x y loss verbose n cs bar b b1 l w,
     opt_step o d x y b = Ok b1 ->
     match loss with CalledLogLikelihood f => f y b1 (map with_one x) | CalledOtherwise f => f (Logistic.forward x b) y end = Ok l ->
     snd (logistic_training o d x y loss None verbose (S n) (Some cs) bar b w) = (w, Err TypeError)) /\
  (forall rate x y loss verbose n cs bar q q1 p l w,
     rbf_epoch rate x y q = Ok q1 -> rbf_predict q x = Ok p -> loss p y = Ok l ->
     snd (rbf_training rate x y loss None verbose (S n) (Some cs) bar q w) = (w, Err TypeError)).
Proof.
  repeat split.
  - intros rate x y loss draw verbose n cs bar ls ls1 p l w H1 H2 H3. unfold sgd_training, run. cbn [snd epochs_loop].
    rewrite H1. unfold report, network_report. rewrite H2. cbn [bind]. rewrite H3. cbn [bind call_metric]. destruct (bar_after _ _ _ _); reflexivity.
  - intros o x y loss draw verbose n cs bar s s1 p l w H1 H2 H3. unfold adam_training, run. cbn [snd epochs_loop].
    rewrite H1. unfold report, network_report. rewrite H2. cbn [bind]. rewrite H3. cbn [bind call_metric]. destruct (bar_after _ _ _ _); reflexivity.
  - intros o d x y loss verbose n cs bar b b1 l w H1 H2. unfold logistic_training, run. cbn [snd epochs_loop].
    rewrite H1. unfold report, logistic_report. rewrite H2. cbn [bind call_metric]. destruct (bar_after _ _ _ _); reflexivity.
  - intros rate x y loss verbose n cs bar q q1 p l w H1 H2 H3. unfold rbf_training, run. cbn [snd epochs_loop].
    rewrite H1. cbn [bind]. unfold report, rbf_report. rewrite H2. cbn [bind]. rewrite H3. cbn [bind call_metric]. destruct (bar_after _ _ _ _); reflexivity.
Qed.
Print Assumptions C59_unknown_metric_is_a_type_error.

(** A bar made by a call with [epochs=0] makes every later call without [verbose]
    fail in its first epoch.  Gradient descent has recorded that epoch, the other
    optimizers have not. *)
Theorem C59_bar_for_no_epochs :
  (forall rate x y loss metric draw n cs ls ls1 v w,
     sgd_epoch rate x y ls (draw 1) = Ok ls1 -> network_report loss metric x y ls1 = Ok v ->
     sgd_training rate x y loss metric draw Falsy (S n) (Some cs) (Some 0) ls w = (Some 0, (w, Err ZeroDivisionError))) /\
  (forall o x y loss metric draw n cs s s1 v w,
     adam_epoch o x y s (1, draw 1) = Ok s1 -> network_report loss metric x y (params s1) = Ok v ->
     adam_training o x y loss metric draw Falsy (S n) (Some cs) (Some 0) s w = (Some 0, (w, Err ZeroDivisionError))) /\
  (forall rate d x y loss metric n cs b b1 v w,
     opt_step (GradientDescent rate) d x y b = Ok b1 -> logistic_report loss metric x y b b1 = Ok v ->
     exists w', logistic_training (GradientDescent rate) d x y loss metric Falsy (S n) (Some cs) (Some 0) b w = (Some 0, (w', Err ZeroDivisionError)) /\
       (forall id, grew w w' id (listed id cs) [v]) /\ shown w' = shown w) /\
  (forall d x y loss metric n cs b b1 v w,
     opt_step NewtonMethod d x y b = Ok b1 -> logistic_report loss metric x y b b1 = Ok v ->
     logistic_training NewtonMethod d x y loss metric Falsy (S n) (Some cs) (Some 0) b w = (Some 0, (w, Err ZeroDivisionError))) /\
  (forall rate x y loss metric n cs q q1 v w,
     rbf_epoch rate x y q = Ok q1 -> rbf_report loss metric x y q (fst q1) = Ok v ->
     rbf_training rate x y loss metric Falsy (S n) (Some cs) (Some 0) q w = (Some 0, (w, Err ZeroDivisionError))).
Proof.
  split; [|split; [|split; [|split]]].
  - intros rate x y loss metric draw n cs ls ls1 v w H1 H2. unfold sgd_training, run. cbn [bar_after epochs_loop].
    rewrite H1. unfold report. rewrite H2. reflexivity.
  - intros o x y loss metric draw n cs s s1 v w H1 H2. unfold adam_training, run. cbn [bar_after epochs_loop].
    rewrite H1. unfold report. rewrite H2. reflexivity.
  - intros rate d x y loss metric n cs b b1 v w H1 H2. exists (record_callbacks cs v w).
    unfold logistic_training, run. cbn [bar_after epochs_loop]. rewrite H1. unfold report. rewrite H2.
    split; [reflexivity|]. split; [|apply record_shown]. intros id. unfold grew. rewrite record_history. cbn. rewrite !app_nil_r. auto.
  - intros d x y loss metric n cs b b1 v w H1 H2. unfold logistic_training, run. cbn [bar_after epochs_loop].
    rewrite H1. unfold report. rewrite H2. reflexivity.
  - intros rate x y loss metric n cs q q1 v w H1 H2. unfold rbf_training, run. cbn [bar_after epochs_loop].
    rewrite H1. cbn [bind]. unfold report. rewrite H2. reflexivity.
Qed.
Print Assumptions C59_bar_for_no_epochs.

(** [verbose=1] makes a progress bar for Newton's method only; the others ask for the
    object True. *)
Theorem C59_verbose_that_is_not_true : forall epochs cbs bar,
  (forall rate x y loss metric draw ls w, fst (sgd_training rate x y loss metric draw Truthy epochs cbs bar ls w) = bar) /\
  (forall o x y loss metric draw s w, fst (adam_training o x y loss metric draw Truthy epochs cbs bar s w) = bar) /\
  (forall rate d x y loss metric b w, fst (logistic_training (GradientDescent rate) d x y loss metric Truthy epochs cbs bar b w) = bar) /\
  (forall d x y loss metric b w, fst (logistic_training NewtonMethod d x y loss metric Truthy epochs cbs bar b w) = Some epochs) /\
  (forall rate x y loss metric q w, fst (rbf_training rate x y loss metric Truthy epochs cbs bar q w) = bar).
Proof. repeat split. Qed.
Print Assumptions C59_verbose_that_is_not_true.

Definition start : world := {| histories := fun _ => new_history; shown := [] |}.
(** A counter as model: three epochs, the History object 4 twice in the list. *)
Definition counting (e s : nat) : result nat := if (e =? 9)%nat then Err ValueError else Ok (s + e).
Definition halves (b a : nat) : result (R * R) := Ok (INR b, INR a).
Example C59_witness :
  snd (snd (run nat counting halves false false IsTrue 3 (Some [HistoryAt 2; OtherCallback; HistoryAt 4; HistoryAt 4]) None 0 start)) = Ok 6 /\
  listed 2 [HistoryAt 2; OtherCallback; HistoryAt 4; HistoryAt 4] = 1 /\
  listed 4 [HistoryAt 2; OtherCallback; HistoryAt 4; HistoryAt 4] = 2 /\
  h_loss (histories (fst (snd (run nat counting halves false false IsTrue 3 (Some [HistoryAt 2; OtherCallback; HistoryAt 4; HistoryAt 4]) None 0 start))) 4)
    = [INR 0; INR 0; INR 1; INR 1; INR 3; INR 3] /\
  List.length (shown (fst (snd (run nat counting halves false false IsTrue 3 (Some [HistoryAt 2]) None 0 start)))) = 3.
Proof. repeat split. Qed.
(** The ninth epoch fails: eight entries. *)
Example C59_failing_witness :
  snd (snd (run nat counting halves true false Falsy 20 (Some [HistoryAt 2]) None 0 start)) = Err ValueError /\
  List.length (h_loss (histories (fst (snd (run nat counting halves true false Falsy 20 (Some [HistoryAt 2]) None 0 start))) 2)) = 8.
Proof. repeat split. Qed.
(** Two fits of a logistic regression with the log likelihood on the same object. *)
Example C59_logistic_witness :
  exists b w w',
    logistic_training (Logistic.GradientDescent 1) 1 [[1%R]; [(-1)%R]] [1%Z; 0%Z] (CalledLogLikelihood (fun _ _ _ => Ok 1%R))
      (Some (fun _ _ => Ok (1 / 2)%R)) Falsy 2 (Some [HistoryAt 0]) None [0%R; 0%R] start = (None, (w, Ok b)) /\
    fits start [(2, Some [HistoryAt 0]); (2, Some [HistoryAt 0])] w' /\
    h_loss (histories w' 0) = [1%R; 1%R; 1%R; 1%R].
Proof.
  set (T := logistic_training (Logistic.GradientDescent 1) 1 [[1%R]; [(-1)%R]] [1%Z; 0%Z] (CalledLogLikelihood (fun _ _ _ => Ok 1%R))
      (Some (fun _ _ => Ok (1 / 2)%R)) Falsy 2 (Some [HistoryAt 0]) None [0%R; 0%R]).
  assert (H : forall w, exists b, T w = (None, (record_callbacks [HistoryAt 0] (1, 1 / 2)%R (record_callbacks [HistoryAt 0] (1, 1 / 2)%R w), Ok b))).
  { intros w. eexists. reflexivity. }
  destruct (H start) as [b Hb]. destruct (H (record_callbacks [HistoryAt 0] (1, 1 / 2)%R (record_callbacks [HistoryAt 0] (1, 1 / 2)%R start))) as [b' Hb'].
  eexists b, _, _. split; [exact Hb|]. split.
  - econstructor; [exact Hb|]. econstructor; [exact Hb'|]. constructor.
  - reflexivity.
Qed.

(** Such a bar is left by a call with no epochs, and the next call fails. *)
Example C59_no_epochs_witness :
  let T verbose n bar := logistic_training (Logistic.GradientDescent 1) 1 [[1%R]; [(-1)%R]] [1%Z; 0%Z] (CalledLogLikelihood (fun _ _ _ => Ok 1%R))
      (Some (fun _ _ => Ok (1 / 2)%R)) verbose n (Some [HistoryAt 0]) bar [0%R; 0%R] start in
  T IsTrue 0 None = (Some 0, (start, Ok [0%R; 0%R])) /\
  snd (snd (T Falsy 2 (Some 0))) = Err ZeroDivisionError /\
  h_loss (histories (fst (snd (T Falsy 2 (Some 0)))) 0) = [1%R].
Proof. repeat split. Qed.

(** * C60: progress bars *)

(** Python, for every rounding of floats: 25 characters between the brackets, at
    most one arrow, and past the end a full bar. *)
Theorem C60_python_width :
  forall fl, rounding fl -> forall epoch epochs, 1 <= epoch -> 1 <= epochs ->
  exists s done arrow dots, draw_bar fl epoch epochs = Ok s /\ bar_shape done arrow dots s /\
    String.length s = 25 /\ (arrow = false -> done = 25).
Proof.
  intros fl Hfl e E He HE. destruct (draw_shape fl Hfl e E He HE) as (s & H1 & H2 & H3).
  exists s, (done_of fl e E), (negb (at_end fl e E)), (25 - done_of fl e E - (if at_end fl e E then 0 else 1)).
  split; [exact H1|]. split; [exact H2|]. split.
  - rewrite (shape_length _ _ _ _ H2). destruct (at_end fl e E); cbn [negb]; lia.
  - unfold done_of. destruct (at_end fl e E); [reflexivity|discriminate].
Qed.
Print Assumptions C60_python_width.

(** It never moves backwards ... *)
Theorem C60_python_never_backwards :
  forall fl, rounding fl -> forall e1 e2 epochs, 1 <= e1 -> e1 <= e2 -> 1 <= epochs ->
  exists s1 d1 a1 m1 s2 d2 a2 m2,
    draw_bar fl e1 epochs = Ok s1 /\ bar_shape d1 a1 m1 s1 /\
    draw_bar fl e2 epochs = Ok s2 /\ bar_shape d2 a2 m2 s2 /\ d1 <= d2.
Proof.
  intros fl Hfl e1 e2 E H1 H2 HE.
  destruct (draw_shape fl Hfl e1 E H1 HE) as (s1 & D1 & S1 & _).
  destruct (draw_shape fl Hfl e2 E) as (s2 & D2 & S2 & _); [lia|exact HE|].
  do 8 eexists. split; [exact D1|]. split; [exact S1|]. split; [exact D2|]. split; [exact S2|].
  apply done_mono; assumption.
Qed.
Print Assumptions C60_python_never_backwards.

(** ... and is full after the last epoch. *)
Theorem C60_python_full_at_the_end :
  forall fl, rounding fl -> forall epochs, 1 <= epochs -> draw_bar fl epochs epochs = Ok "========================="%string.
Proof. intros fl Hfl E HE. unfold draw_bar. rewrite end_at_end; auto. Qed.
Print Assumptions C60_python_full_at_the_end.

(** Up to 2^46 epochs: full exactly in the last 1/25 of the epochs, before that
    the arrow stands in the column that holds 25 * epoch / epochs. *)
Theorem C60_python_position :
  forall fl, rounding fl -> forall epoch epochs, 1 <= epoch -> 1 <= epochs -> (Z.of_nat epochs <= 2 ^ 46)%Z ->
  exists s done arrow dots, draw_bar fl epoch epochs = Ok s /\ bar_shape done arrow dots s /\
    (arrow = false <-> 24 * epochs < 25 * epoch) /\
    (arrow = true -> done * epochs <= 25 * epoch <= (done + 1) * epochs).
Proof.
  intros fl Hfl e E He HE Hmax. destruct (draw_shape fl Hfl e E He HE) as (s & H1 & H2 & H3).
  exists s, (done_of fl e E), (negb (at_end fl e E)), (25 - done_of fl e E - (if at_end fl e E then 0 else 1)).
  split; [exact H1|]. split; [exact H2|]. pose proof (end_exact fl Hfl e E Hmax) as Hx. split.
  - rewrite <- Hx. destruct (at_end fl e E); cbn; split; congruence.
  - intros Ha. destruct (at_end fl e E) eqn:Ee; [discriminate|]. unfold done_of. rewrite Ee.
    pose proof (arrow_exact fl Hfl e E He HE Hmax Ee). pose proof (arrow_range fl Hfl e E He HE Ee). nia.
Qed.
Print Assumptions C60_python_position.
Example C60_rounding_witness : rounding (fun x => x) /\ rounding double.
Proof. split; [exact exact_rounding|exact double_rounding]. Qed.

(** The exact quotient does not decide ties: in double precision 7 / 25 * 25 is
    more than 7, so the bars of the epochs 7 and 8 of 25 are the same. *)
Lemma seven : arrow double 7 25 = 8%Z.
Proof.
  unfold arrow. replace (INR 7 / INR 25)%R with (7 / 25)%R by (rewrite !INR_IZR_INZ; reflexivity).
  rewrite (double_at (7 / 25) 5044031582654956 (-54)).
  2:{ cbn [Zaux.radix_val Raux.bpow Z.add Z.pos_sub]. cbn. lra. }
  2:{ cbn. apply Rabs_def1; lra. }
  rewrite (double_at _ 7881299347898369 (-50)).
  2:{ cbn. lra. }
  2:{ cbn. apply Rabs_def1; lra. }
  destruct (ceil_bounds (7881299347898369 * Raux.bpow Zaux.radix2 (-50))) as [H1 H2].
  set (c := ceil _) in *. clearbody c. cbn in H1, H2.
  assert (H3 : (IZR 7 < IZR c)%R) by lra. assert (H4 : (IZR c < IZR 9)%R) by lra.
  apply lt_IZR in H3. apply lt_IZR in H4. lia.
Qed.
Lemma eight : arrow double 8 25 = 8%Z.
Proof.
  unfold arrow. replace (INR 8 / INR 25)%R with (8 / 25)%R by (rewrite !INR_IZR_INZ; reflexivity).
  rewrite (double_at (8 / 25) 5764607523034235 (-54)).
  2:{ cbn. lra. }
  2:{ cbn. apply Rabs_def1; lra. }
  rewrite (double_at _ 4503599627370496 (-49)).
  2:{ cbn. lra. }
  2:{ cbn. apply Rabs_def1; lra. }
  destruct (ceil_bounds (4503599627370496 * Raux.bpow Zaux.radix2 (-49))) as [H1 H2].
  set (c := ceil _) in *. clearbody c. cbn in H1, H2.
  assert (H3 : (IZR 7 < IZR c)%R) by lra. assert (H4 : (IZR c < IZR 9)%R) by lra.
  apply lt_IZR in H3. apply lt_IZR in H4. lia.
Qed.
Theorem C60_exact_column_refuted :
  draw_bar double 7 25 = draw_bar double 8 25 /\ draw_bar (fun x => x) 7 25 <> draw_bar (fun x => x) 8 25.
Proof.
  assert (E : forall fl e, rounding fl -> (25 * e <= 24 * 25) -> draw_bar fl e 25 = Ok (with_arrow (arrow fl e 25))).
  { intros fl e Hfl He. unfold draw_bar. destruct (at_end fl e 25) eqn:Ee; [|reflexivity].
    apply (end_exact fl Hfl) in Ee; lia. }
  rewrite !(E double) by (try exact double_rounding; lia). rewrite !(E (fun x => x)) by (try exact exact_rounding; lia).
  split; [rewrite seven, eight; reflexivity|].
  assert (H7 : arrow (fun x => x) 7 25 = 7%Z).
  { unfold arrow. rewrite !INR_IZR_INZ. cbn [Z.of_nat Pos.of_succ_nat Pos.succ]. destruct (ceil_bounds (7 / 25 * 25)) as [H1 H2].
    set (c := ceil _) in *. clearbody c. assert (H3 : (IZR 6 < IZR c)%R) by lra. assert (H4 : (IZR c < IZR 8)%R) by lra.
    apply lt_IZR in H3. apply lt_IZR in H4. lia. }
  assert (H8 : arrow (fun x => x) 8 25 = 8%Z).
  { unfold arrow. rewrite !INR_IZR_INZ. cbn [Z.of_nat Pos.of_succ_nat Pos.succ]. destruct (ceil_bounds (8 / 25 * 25)) as [H1 H2].
    set (c := ceil _) in *. clearbody c. assert (H3 : (IZR 7 < IZR c)%R) by lra. assert (H4 : (IZR c < IZR 9)%R) by lra.
    apply lt_IZR in H3. apply lt_IZR in H4. lia. }
  rewrite H7, H8. discriminate.
Qed.
Print Assumptions C60_exact_column_refuted.

(** C++: until the last 1/25 of the epochs the bar does not move and has 26
    characters; from then on it is full. *)
Theorem C60_cc_bar :
  forall epoch epochs, 1 <= epoch -> epoch <= epochs ->
  (epoch < epochs -> epoch + epochs / 25 <= epochs ->
     exists s, cc_draw_bar epoch epochs = Ok s /\ bar_shape 0 true 25 s /\ String.length s = 26) /\
  (epochs < epoch + epochs / 25 ->
     exists s, cc_draw_bar epoch epochs = Ok s /\ bar_shape 25 false 0 s /\ String.length s = 25).
Proof.
  intros e E He HE. assert (Hd : E / 25 <= E) by (apply Nat.div_le_upper_bound; lia). split.
  - intros H1 H2. exists (String ">" (chars "." 25)). split; [|split; reflexivity]. apply cc_before_end; [exact H1|].
    destruct (cc_at_end e E) eqn:Ee; [|reflexivity]. apply cc_end_iff in Ee. lia.
  - intros H. exists full. split; [|split; reflexivity]. unfold cc_draw_bar.
    assert (Ee : cc_at_end e E = true) by (apply cc_end_iff; lia). rewrite Ee. reflexivity.
Qed.
Print Assumptions C60_cc_bar.
(** With fewer than 25 epochs it is never full: after the last one an arrow
    remains. *)
Theorem C60_cc_few_epochs :
  forall epochs, 1 <= epochs -> epochs < 25 ->
  exists s, cc_draw_bar epochs epochs = Ok s /\ bar_shape 24 true 0 s.
Proof.
  intros E H1 H2. exists (with_arrow 25). split; [|reflexivity]. unfold cc_draw_bar.
  destruct (cc_at_end E E) eqn:Ee.
  - apply cc_end_iff in Ee. rewrite Nat.div_small in Ee by exact H2. lia.
  - destruct E as [|E]; [lia|]. cbn [Nat.eqb]. unfold cc_arrow. rewrite Z.div_same by lia. reflexivity.
Qed.
Print Assumptions C60_cc_few_epochs.
Example C60_cc_witness :
  (10 < 50 /\ 10 + 50 / 25 <= 50) /\ 50 < 49 + 50 / 25 /\
  cc_draw_bar 10 50 = Ok ">........................."%string /\ cc_draw_bar 49 50 = Ok "========================="%string /\
  cc_draw_bar 8 8 = Ok "========================>"%string.
Proof. repeat split; cbn; lia. Qed.

(** The bar belongs to the optimizer object: a later call with verbose=False goes
    on writing a line for each epoch, out of the number of epochs of the earlier
    call. *)
Theorem C60_bar_outlives_its_call :
  forall St step evaluate first any epochs cbs bar (s s1 : St) w bar1 w1 n cbs' (s2 : St) bar2 w2,
  run St step evaluate first any IsTrue epochs cbs bar s w = (bar1, (w1, Ok s1)) ->
  run St step evaluate first any Falsy n cbs' bar1 s1 w1 = (bar2, (w2, Ok s2)) ->
  exists lines, shown w2 = shown w1 ++ lines /\ map at_epoch lines = seq 1 n /\ forall l, In l lines -> out_of l = epochs.
Proof.
  intros St step evaluate first any epochs cbs bar s s1 w bar1 w1 n cbs' s2 bar2 w2 H1 H2.
  unfold run in *. apply (f_equal fst) in H1. cbn [fst bar_after] in H1. subst bar1. apply (f_equal snd) in H2. cbn [snd bar_after] in H2. rename H2 into H2'.
  apply loop_ok in H2'; [|left; congruence]. destruct H2' as (l & vs & _ & Hn & _ & [Hv _] & _ & _ & Hs).
  eexists. split; [exact Hs|]. split.
  - rewrite map_map. cbn [at_epoch]. rewrite <- Hn, <- Hv. generalize 1. clear. induction vs as [|v vs IH]; intros j; [reflexivity|].
    cbn [List.length seq combine map fst]. f_equal. apply IH.
  - intros x Hx. apply in_map_iff in Hx. destruct Hx as (p & <- & _). reflexivity.
Qed.
Print Assumptions C60_bar_outlives_its_call.
(** After a call with verbose=True and zero epochs, no later call with at least
    one epoch succeeds. *)
Theorem C60_bar_of_zero_epochs :
  forall St step evaluate first any cbs bar (s s1 : St) w bar1 w1 n cbs' (s2 : St) bar2 w2,
  run St step evaluate first any IsTrue 0 cbs bar s w = (bar1, (w1, Ok s1)) ->
  1 <= n -> run St step evaluate first any Falsy n cbs' bar1 s1 w1 <> (bar2, (w2, Ok s2)).
Proof.
  intros St step evaluate first any cbs bar s s1 w bar1 w1 n cbs' s2 bar2 w2 H1 Hn H2.
  unfold run in *. apply (f_equal fst) in H1. cbn [fst bar_after] in H1. subst bar1. apply (f_equal snd) in H2. cbn [snd bar_after] in H2. rename H2 into H2'.
  apply loop_ok in H2'; [|left; congruence]. destruct H2' as (l & vs & _ & _ & _ & _ & Hz & _). apply Hz; [lia|reflexivity].
Qed.
Print Assumptions C60_bar_of_zero_epochs.
Example C60_bar_witness :
  exists w1 w2, run nat counting halves false false IsTrue 5 None None 0 start = (Some 5, (w1, Ok 15)) /\
    run nat counting halves false false Falsy 7 None (Some 5) 15 w1 = (Some 5, (w2, Ok 43)) /\
    map at_epoch (shown w2) = [1; 2; 3; 4; 5; 1; 2; 3; 4; 5; 6; 7] /\
    run nat counting halves false false IsTrue 0 None None 0 start = (Some 0, (start, Ok 0)) /\
    run nat counting halves false false Falsy 7 None (Some 0) 0 start = (Some 0, (start, Err ZeroDivisionError)).
Proof. do 2 eexists. repeat split. Qed.

(** * C61: look-up of components *)

Local Open Scope string_scope.
Ltac by_name := intros s; split;
  [ intros (k & Hk); cbn in Hk; repeat (destruct Hk as [Hk|Hk]; [inversion Hk; subst; eexists; repeat split; cbn; auto 20|]); contradiction
  | intros H; cbn;
    repeat match goal with |- context [s =? ?t] =>
      let E := fresh in destruct (s =? t) eqn:E;
      [exfalso; apply H; apply String.eqb_eq in E; rewrite E; eexists; cbn; repeat (first [left; reflexivity|right])|] end; reflexivity ].

(** A documented name gives an object of its class whose own name gives it again;
    every other text is refused. *)
Theorem C61_criterion_names : forall s,
  (documented criterion_names s -> exists c, get_criterion (ByName s) = Ok c /\ means criterion_names s (kind c) /\ get_criterion (ByName (cname c)) = Ok c) /\
  (~ documented criterion_names s -> get_criterion (ByName s) = Err AttributeError).
Proof. by_name. Qed.
Print Assumptions C61_criterion_names.
Theorem C61_initializer_names : forall S (seed : S) s,
  (documented (initializer_names seed) s -> exists c, get_initializer (ByName s) seed = Ok c /\ means (initializer_names seed) s (kind c) /\ get_initializer (ByName (cname c)) seed = Ok c) /\
  (~ documented (initializer_names seed) s -> get_initializer (ByName s) seed = Err AttributeError).
Proof. intros S seed. by_name. Qed.
Print Assumptions C61_initializer_names.
Theorem C61_kernel_names : forall gamma s,
  (documented (kernel_names gamma) s -> exists c, get_kernel (ByName s) gamma = Ok c /\ means (kernel_names gamma) s (kind c) /\ get_kernel (ByName (cname c)) gamma = Ok c) /\
  (~ documented (kernel_names gamma) s -> get_kernel (ByName s) gamma = Err AttributeError).
Proof. intros gamma. by_name. Qed.
Print Assumptions C61_kernel_names.
Theorem C61_optimizer_names : forall s,
  (documented optimizer_names s -> exists c, get_optimizer (ByName s) = Ok c /\ means optimizer_names s (kind c) /\ get_optimizer (ByName (cname c)) = Ok c) /\
  (~ documented optimizer_names s -> get_optimizer (ByName s) = Err AttributeError).
Proof. by_name. Qed.
Print Assumptions C61_optimizer_names.
(** An unknown loss silently becomes the cross entropy, *)
Theorem C61_loss_names : forall s,
  (documented loss_names s -> exists c, get_loss (ByName s) = c /\ means loss_names s (kind c) /\ get_loss (ByName (cname c)) = c) /\
  (~ documented loss_names s -> kind (get_loss (ByName s)) = Crossentropy).
Proof. by_name. Qed.
Print Assumptions C61_loss_names.
(** an unknown metric silently becomes None, *)
Theorem C61_metric_names : forall s,
  (documented metric_names s -> exists c, get_metric (ByName s) = Ok (Some c) /\ means metric_names s (kind c) /\ get_metric (ByName (cname c)) = Ok (Some c)) /\
  (~ documented metric_names s -> get_metric (ByName s) = Ok None).
Proof. by_name. Qed.
Print Assumptions C61_metric_names.
(** and an unknown pruner is refused. *)
Theorem C61_pruner_names : forall s,
  (documented pruner_names s -> exists c, get_pruner (ByName s) = Ok (Some c) /\ means pruner_names s (kind c) /\ get_pruner (ByName (cname c)) = Ok (Some c)) /\
  (~ documented pruner_names s -> get_pruner (ByName s) = Err AttributeError).
Proof. by_name. Qed.
Print Assumptions C61_pruner_names.

(** Each name stands for one class. *)
Theorem C61_names_are_unambiguous : forall gamma seed,
  NoDup (map fst criterion_names) /\ NoDup (map fst (@initializer_names nat seed)) /\ NoDup (map fst (kernel_names gamma)) /\
  NoDup (map fst loss_names) /\ NoDup (map fst metric_names) /\ NoDup (map fst optimizer_names) /\ NoDup (map fst pruner_names).
Proof.
  intros gamma seed. cbn. repeat split; repeat (constructor; [cbn; intuition discriminate|]); constructor.
Qed.
Print Assumptions C61_names_are_unambiguous.

(** Objects come back unchanged; except that pruner objects are refused. *)
Theorem C61_objects_pass_through :
  (forall c, get_criterion (Instance c) = Ok c) /\
  (forall S (seed : S) c, get_initializer (Instance c) seed = Ok c) /\
  (forall gamma c, get_kernel (Instance c) gamma = Ok c) /\
  (forall c, get_loss (Instance c) = c) /\
  (forall c, get_metric (Instance c) = Ok (Some c)) /\
  (forall c, get_optimizer (Instance c) = Ok c) /\
  (forall c, get_pruner (Instance c) = Err AttributeError).
Proof. repeat split. Qed.
Print Assumptions C61_objects_pass_through.

(** Missing arguments. *)
Theorem C61_missing_arguments :
  get_criterion NoArg = Err AttributeError /\
  (forall S (seed : S), get_initializer NoArg seed = get_initializer (ByName "random_normal") seed) /\
  (forall gamma, get_kernel NoArg gamma = Err AttributeError) /\
  get_loss NoArg = get_loss (ByName "crossentropy") /\
  get_metric NoArg = Err AttributeError /\ get_optimizer NoArg = Err AttributeError /\ get_pruner NoArg = Ok None.
Proof. repeat split. Qed.
Print Assumptions C61_missing_arguments.
Example C61_witness :
  documented optimizer_names "sgd" /\ ~ documented metric_names "acc" /\ ~ documented loss_names "" /\
  means (initializer_names 7) "glorot_normal" (XavierNormal 7).
Proof.
  split; [eexists; cbn; auto 20|]. split; [intros (k & H); cbn in H; intuition discriminate|].
  split; [intros (k & H); cbn in H; intuition discriminate|cbn; auto 20].
Qed.

(** * C72: the extra arguments of the optimizers *)

(** Positional arguments come first, then keywords; what is missing is the text
    of its own name.  The values are assumed not to be texts. *)
Theorem C72_arguments :
  forall V (text : string -> V) reads args kwargs,
  (forall a b, reads (text a) b = (a =? b)) ->
  (forall v s, In v args -> reads v s = false) ->
  (forall k v s, In (k, v) kwargs -> reads v s = false) ->
  (List.length args <= 4 -> exists ps, get_optimizer_parameters V text reads args kwargs = Ok ps /\ List.length ps = 4 /\
     forall i name, nth_error ["verbose"; "loss"; "metric"; "callbacks"] i = Some name ->
       (forall v, nth_error args i = Some v -> nth_error ps i = Some v) /\
       (nth_error args i = None ->
          (forall v, In (name, v) kwargs -> NoDup (map fst kwargs) -> nth_error ps i = Some v) /\
          (~ In name (map fst kwargs) -> nth_error ps i = Some (text name)))) /\
  (4 < List.length args -> get_optimizer_parameters V text reads args kwargs = Err IndexError).
Proof.
  intros V text reads args kwargs Ht Ha Hk. unfold get_optimizer_parameters. split.
  2:{ intros H. rewrite positional_too_many by exact H. reflexivity. }
  intros H. rewrite positional_ok by exact H. cbn [bind]. eexists. split; [reflexivity|]. rewrite keywords_map. split.
  { rewrite map_length, app_length, skipn_length. unfold default_parameters. rewrite map_length. cbn [List.length]. lia. }
  intros i name Hi. split.
  - intros v Hv. rewrite nth_error_map, nth_error_app1 by (apply nth_error_Some; congruence). rewrite Hv. cbn. f_equal.
    apply evolve_plain. intros s. apply Ha. eapply nth_error_In; eauto.
  - intros Hn. assert (E : nth_error (map (evolve V reads kwargs) (args ++ skipn (List.length args) (default_parameters V text))) i = Some (evolve V reads kwargs (text name))).
    { rewrite nth_error_map. apply nth_error_None in Hn. rewrite nth_error_app2 by exact Hn.
      assert (E2 : nth_error (skipn (List.length args) (default_parameters V text)) (i - List.length args) = nth_error (default_parameters V text) i).
      { generalize (default_parameters V text) as dp. clear -Hn. revert i Hn. generalize (List.length args) as n. induction n as [|n IH]; intros i Hn dp.
        - rewrite Nat.sub_0_r. reflexivity.
        - destruct i as [|i]; [lia|]. destruct dp as [|d dp]; [cbn; destruct (i - n); reflexivity|]. cbn [skipn Nat.sub nth_error]. apply IH. lia. }
      rewrite E2. unfold default_parameters. rewrite nth_error_map, Hi. reflexivity. }
    rewrite E, (evolve_text V text reads kwargs name Ht (fun k v Hin s => Hk k v s Hin)). split.
    + intros v Hin Hd. f_equal. clear -Hin Hd. induction kwargs as [|[k u] kwargs IH]; [contradiction|].
      cbn [find fst snd]. destruct (name =? k) eqn:E.
      * apply String.eqb_eq in E. subst k. destruct Hin as [Hin|Hin]; [inversion Hin; reflexivity|].
        inversion Hd; subst. exfalso. apply H1. apply (in_map fst) in Hin. exact Hin.
      * destruct Hin as [Hin|Hin]; [inversion Hin; subst; rewrite String.eqb_refl in E; discriminate|].
        inversion Hd; subst. apply IH; assumption.
    + intros Hni. f_equal. destruct (find (fun kv => name =? fst kv) kwargs) as [kv|] eqn:Ef; [|reflexivity].
      apply find_some in Ef. destruct Ef as [H1 H2]. apply String.eqb_eq in H2. exfalso. apply Hni. rewrite H2. apply in_map. exact H1.
Qed.
Print Assumptions C72_arguments.
(** Numbers and texts as objects. *)
Definition is_text (v : nat + string) (s : string) : bool := match v with inl _ => false | inr t => t =? s end.
Example C72_witness :
  get_optimizer_parameters (nat + string) inr is_text [inl 1; inl 2] [("callbacks", inl 3); ("loss", inl 4); ("unknown", inl 5)]
    = Ok [inl 1; inl 2; inr "metric"; inl 3] /\
  get_optimizer_parameters (nat + string) inr is_text [] [] = Ok [inr "verbose"; inr "loss"; inr "metric"; inr "callbacks"].
Proof. split; reflexivity. Qed.
