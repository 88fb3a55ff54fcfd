(** C103: the line a progress bar prints. *)
From Coq Require Import List String Ascii Reals ZArith NArith Bool Arith Lia Lra.
From Verif.Model Require Import Base ProgressBar ProgressText.
From Verif.Spec Require Import ProgressText.
From Verif.Proof Require Import BaseLemmas ProgressText.
Import ListNotations.
Local Open Scope R_scope.

(** ** The line as a whole *)
(** The line begins with a carriage return, so it replaces the last one, and contains
    no other; it ends with a newline in the last round and contains no other. It shows
    the number of the round and of all rounds, and, behind the names, the loss and the
    metric as texts of their own. *)
Theorem C103_line start now current loss_name metric_name fl epoch epochs loss metric t :
  clean loss_name -> clean metric_name -> clean_amount loss -> clean_amount metric ->
  line start now current loss_name metric_name fl epoch epochs loss metric = Ok t ->
  exists u a b bar time,
    t = (carriage_return ++ u ++ (if (epoch =? epochs)%nat then newline else ""))%string /\ clean u /\
    u = ("Epoch " ++ a ++ "/" ++ b ++ " [" ++ bar ++ "]" ++ time ++
         " - " ++ loss_name ++ ": " ++ shown loss ++ " - " ++ metric_name ++ ": " ++ shown metric)%string /\
    read a = Some (INR epoch) /\ read b = Some (INR epochs) /\ draw_bar fl epoch epochs = Ok bar.
Proof.
  intros LN MN L M. unfold line. destruct (draw_bar fl epoch epochs) as [bar | x] eqn:B; [| discriminate].
  cbn [bind]. intros E. injection E as <-.
  exists ("Epoch " ++ decimal (N.of_nat epoch) ++ "/" ++ decimal (N.of_nat epochs) ++ " [" ++ bar ++ "]" ++
          timing start now current fl epoch epochs ++ values loss_name (shown loss) metric_name (shown metric))%string.
  do 4 eexists. split; [| split; [| split; [reflexivity | split; [| split; [| reflexivity]]]]].
  - unfold values, carriage_return. repeat (progress cbn [append] || rewrite append_assoc). reflexivity.
  - apply line_clean; [now apply clean_bar in B | apply clean_timing | apply clean_values; auto using clean_shown].
  - rewrite read_decimal, INR_IZR_INZ, nat_N_Z. reflexivity.
  - rewrite read_decimal, INR_IZR_INZ, nat_N_Z. reflexivity.
Qed.
Print Assumptions C103_line.
Theorem C103_compiled_line start now current loss_name metric_name epoch epochs loss metric t :
  clean loss_name -> clean metric_name -> clean_amount loss -> clean_amount metric ->
  cc_line start now current loss_name metric_name epoch epochs loss metric = Ok t ->
  exists u a b bar time,
    t = (carriage_return ++ u ++ (if (epoch =? epochs)%nat then newline else ""))%string /\ clean u /\
    u = ("Epoch " ++ a ++ "/" ++ b ++ " [" ++ bar ++ "]" ++ time ++
         " - " ++ loss_name ++ ": " ++ cc_shown loss ++ " - " ++ metric_name ++ ": " ++ cc_shown metric)%string /\
    read a = Some (INR epoch) /\ read b = Some (INR epochs) /\ cc_draw_bar epoch epochs = Ok bar.
Proof.
  intros LN MN L M. unfold cc_line. destruct (cc_draw_bar epoch epochs) as [bar | x] eqn:B; [| discriminate].
  cbn [bind]. intros E. injection E as <-.
  exists ("Epoch " ++ decimal (N.of_nat epoch) ++ "/" ++ decimal (N.of_nat epochs) ++ " [" ++ bar ++ "]" ++
          cc_timing start now current epoch epochs ++ values loss_name (cc_shown loss) metric_name (cc_shown metric))%string.
  do 4 eexists. split; [| split; [| split; [reflexivity | split; [| split; [| reflexivity]]]]].
  - unfold values, carriage_return. repeat (progress cbn [append] || rewrite append_assoc). reflexivity.
  - apply line_clean; [now apply clean_cc_bar in B | apply clean_cc_timing | apply clean_values; auto using clean_cc_shown].
  - rewrite read_decimal, INR_IZR_INZ, nat_N_Z. reflexivity.
  - rewrite read_decimal, INR_IZR_INZ, nat_N_Z. reflexivity.
Qed.
Print Assumptions C103_compiled_line.

(** ** The values *)
(** Python shows the nearest number with four digits behind the point. *)
Theorem C103_value r : exists v,
  read (shown (Number r)) = Some v /\ places (shown (Number r)) = Some 4%nat /\ Rabs (v - r) <= 1 / 20000.
Proof.
  destruct (fixed_close 4 r) as (v & E & C). destruct (fixed_read 4 r) as [_ P]. exists v.
  split; [exact E |]. split; [exact P |]. replace (1 / 20000) with (1 / 2 / 10 ^ 4) by field. exact C.
Qed.
Print Assumptions C103_value.
(** The compiled bar rounds to six digits and then cuts to four, so what it shows is
    too near to zero by up to one unit of the last digit. *)
Theorem C103_compiled_value r : exists v,
  read (cc_shown (Number r)) = Some v /\ places (cc_shown (Number r)) = Some 4%nat /\
  Rabs v <= Rabs r + 1 / 2000000 /\ Rabs r - 1 / 10000 - 1 / 2000000 < Rabs v /\ (0 <= r -> 0 <= v) /\ (r < 0 -> v <= 0).
Proof. apply cc_shown_close. Qed.
Print Assumptions C103_compiled_value.
(** NaN and the infinities are shown whole by both. *)
Theorem C103_special_values t : In t ["nan"; "-nan"; "inf"; "-inf"]%string ->
  shown (Special t) = t /\ cc_shown (Special t) = t.
Proof.
  intros H. split; [reflexivity |]. cbn in H. destruct H as [<- | [<- | [<- | [<- | []]]]]; reflexivity.
Qed.
Print Assumptions C103_special_values.
(** An accuracy of 0.99996 is shown as 1.0000 by one and as 0.9999 by the other. *)
Theorem C103_engines_show_the_same_refuted :
  ~ (forall r, shown (Number r) = cc_shown (Number r)) /\
  shown (Number 0.99996) = "1.0000"%string /\ cc_shown (Number 0.99996) = "0.9999"%string.
Proof.
  assert (A : shown (Number 0.99996) = "1.0000"%string).
  { unfold shown, fixed. replace (Rltb 0.99996 0) with false by (symmetry; apply Rltb_false; lra).
    rewrite (nearest_unique (Rabs 0.99996 * 10 ^ 4) 10000); [reflexivity |].
    rewrite (Rabs_right 0.99996) by lra. apply Rabs_def1; lra. }
  assert (B : cc_shown (Number 0.99996) = "0.9999"%string).
  { unfold cc_shown, fixed. replace (Rltb 0.99996 0) with false by (symmetry; apply Rltb_false; lra).
    rewrite (nearest_unique (Rabs 0.99996 * 10 ^ 6) 999960); [reflexivity |].
    rewrite (Rabs_right 0.99996) by lra. apply Rabs_def1; lra. }
  split; [| split; [exact A | exact B]]. intros H. specialize (H 0.99996). rewrite A, B in H. discriminate.
Qed.
Print Assumptions C103_engines_show_the_same_refuted.

(** ** The time left *)
(** From a minute on Python shows minutes and seconds with two digits each; they are
    the time left without its fraction. Below, it shows the nearest second, which can be
    60. *)
Theorem C103_time_left left :
  (60 <= left -> exists m s vm vs,
     eta left = (" ETA: " ++ m ++ ":" ++ s)%string /\ read m = Some (IZR vm) /\ read s = Some (IZR vs) /\
     (2 <= String.length m)%nat /\ String.length s = 2%nat /\ (0 <= vs < 60)%Z /\ IZR (60 * vm + vs) <= left < IZR (60 * vm + vs) + 1) /\
  (left < 60 -> exists t v, eta left = (" ETA: " ++ t ++ "s")%string /\ read t = Some v /\ places t = None /\ Rabs (v - left) <= 1 / 2).
Proof.
  split; [| apply eta_seconds]. intros H. destruct (eta_minutes left H) as (m & s & vm & vs & E & A & B & C & D & F & G).
  exists m, s, vm, vs. split; [exact E |]. split; [exact A |]. split; [exact B |]. split; [exact C |]. split; [exact D |]. split; [exact F |].
  rewrite G. destruct (base_Int_part left). lra.
Qed.
Print Assumptions C103_time_left.
Theorem C103_compiled_time_left left :
  ((60 <= left)%Z -> exists m s vm vs,
     cc_eta left = ("ETA: " ++ m ++ ":" ++ s)%string /\ read m = Some (IZR vm) /\ read s = Some (IZR vs) /\
     (0 <= vs < 60)%Z /\ (60 * vm + vs = left)%Z) /\
  ((left < 60)%Z -> exists t, cc_eta left = ("ETA: " ++ t ++ "s")%string /\ read t = Some (IZR left)).
Proof. split; [apply cc_eta_minutes | apply cc_eta_seconds]. Qed.
Print Assumptions C103_compiled_time_left.
(** The compiled bar does not fill up with zeros, and puts no space in front. *)
Theorem C103_engines_show_the_same_time_refuted :
  eta 65 = " ETA: 01:05"%string /\ cc_eta 65 = "ETA: 1:5"%string /\ eta 59.7 = " ETA: 60s"%string /\ eta 60 = " ETA: 01:00"%string.
Proof.
  assert (I : forall k r, IZR k <= r < IZR k + 1 -> Int_part r = k) by (intros; now apply int_part_unique).
  split; [| split; [reflexivity | split]].
  - unfold eta. replace (Rltb 65 60) with false by (symmetry; apply Rltb_false; lra). rewrite (I 65%Z 65) by lra. reflexivity.
  - unfold eta. replace (Rltb 59.7 60) with true by (symmetry; apply Rltb_true; lra). unfold fixed.
    replace (Rltb 59.7 0) with false by (symmetry; apply Rltb_false; lra).
    rewrite (nearest_unique (Rabs 59.7 * 10 ^ 0) 60); [reflexivity |]. rewrite (Rabs_right 59.7) by lra. apply Rabs_def1; lra.
  - unfold eta. replace (Rltb 60 60) with false by (symmetry; apply Rltb_false; lra). rewrite (I 60%Z 60) by lra. reflexivity.
Qed.
Print Assumptions C103_engines_show_the_same_time_refuted.

(** ** The time used *)
(** In the last rounds the time since the bar was made is shown to the nearest second,
    and divided by the number of all rounds to the nearest millisecond. *)
Theorem C103_time_used start now current fl epoch epochs : (0 < epoch)%nat -> at_end fl epoch epochs = true ->
  exists a b va vb, timing start now current fl epoch epochs = (" " ++ a ++ "s " ++ b ++ "ms/step")%string /\
    read a = Some va /\ read b = Some vb /\ Rabs (va - (now - start)) <= 1 / 2 /\
    Rabs (vb - (now - start) * 1000 / INR epochs) <= 1 / 2.
Proof.
  intros P E. destruct (fixed_close 0 (now - start)) as (va & A & CA).
  destruct (fixed_close 0 ((now - start) * 1000 / INR epochs)) as (vb & B & CB). cbn [pow] in CA, CB.
  do 2 eexists. exists va, vb. split; [| split; [exact A | split; [exact B | split; lra]]].
  unfold timing. replace (epoch =? 0)%nat with false by (symmetry; apply Nat.eqb_neq; lia). rewrite E. reflexivity.
Qed.
Print Assumptions C103_time_used.
(** The compiled bar cuts the milliseconds. *)
Theorem C103_compiled_time_used start now current epoch epochs : (0 < epoch)%nat -> (0 < epochs)%nat -> (start <= now)%Z ->
  cc_at_end epoch epochs = true ->
  exists a b vb, cc_timing start now current epoch epochs = (" " ++ a ++ "s " ++ b ++ "ms/step")%string /\
    read a = Some (IZR (now - start)) /\ read b = Some (IZR vb) /\
    (vb * Z.of_nat epochs <= (now - start) * 1000 < (vb + 1) * Z.of_nat epochs)%Z.
Proof.
  intros P Q T E. do 2 eexists. exists (Z.quot ((now - start) * 1000) (Z.of_nat epochs)).
  split; [| split; [apply read_integer | split; [apply read_integer |]]].
  - unfold cc_timing. replace (epoch =? 0)%nat with false by (symmetry; apply Nat.eqb_neq; lia). rewrite E. reflexivity.
  - rewrite Z.quot_div_nonneg by lia. pose proof (Z.div_mod ((now - start) * 1000) (Z.of_nat epochs) ltac:(lia)).
    pose proof (Z.mod_pos_bound ((now - start) * 1000) (Z.of_nat epochs) ltac:(lia)). nia.
Qed.
Print Assumptions C103_compiled_time_used.

(** Two whole lines of the compiled bar. *)
Example C103_witness :
  cc_line 1000 1003 1002 "binary_crossentropy" "binary_accuracy" 1 66 (Special "nan") (Special "inf") =
  Ok (carriage_return ++ "Epoch 1/66 [>.........................]ETA: 1:5 - binary_crossentropy: nan - binary_accuracy: inf")%string /\
  cc_line 1000 1003 1002 "a" "b" 100 100 (Special "nan") (Special "inf") =
  Ok (carriage_return ++ "Epoch 100/100 [=========================] 3s 30ms/step - a: nan - b: inf" ++ newline)%string /\
  clean "binary_crossentropy" /\ clean_amount (Special "nan").
Proof. split; [reflexivity |]. split; [reflexivity |]. split; now apply clean_literal. Qed.
