(** Proofs about the lines of progress bars. *)
From Coq Require Import List String Ascii Reals ZArith NArith Bool Arith Lia Lra.
From Verif.Model Require Import Base ProgressBar ProgressText.
From Verif.Spec Require Import ProgressText.
From Verif.Proof Require Import BaseLemmas.
Import ListNotations.
Local Open Scope R_scope.

Lemma Rabs_le_inv x y : Rabs x <= y -> - y <= x <= y.
Proof. intros H. pose proof (Rle_abs x). pose proof (Rle_abs (- x)) as K. rewrite Rabs_Ropp in K. lra. Qed.

(** Texts. *)
Lemma append_assoc (a b c : string) : ((a ++ b) ++ c = a ++ (b ++ c))%string.
Proof. induction a as [| x a IH]; cbn; [reflexivity | now rewrite IH]. Qed.
Lemma append_nil (a : string) : (a ++ "" = a)%string.
Proof. induction a as [| x a IH]; cbn; [reflexivity | now rewrite IH]. Qed.
Lemma length_append (a b : string) : String.length (a ++ b) = (String.length a + String.length b)%nat.
Proof. induction a as [| x a IH]; cbn; [reflexivity | now rewrite IH]. Qed.
Lemma has_append c a b : has c (a ++ b) <-> has c a \/ has c b.
Proof.
  unfold has. induction a as [| x a IH]; cbn; [tauto |]. rewrite IH. tauto.
Qed.

(** Digits. *)
Lemma digit_ascii d : (d < 10)%N -> N_of_ascii (ascii_of_N (48 + d)) = (48 + d)%N.
Proof. intros H. apply N_ascii_embedding. lia. Qed.
Lemma digit_is d : (d < 10)%N -> digit_value (ascii_of_N (48 + d)) = Some d.
Proof.
  intros H. unfold digit_value. rewrite digit_ascii by exact H.
  replace (48 <=? 48 + d)%N with true by (symmetry; apply N.leb_le; lia).
  replace (48 + d <=? 57)%N with true by (symmetry; apply N.leb_le; lia). cbn [andb]. f_equal. lia.
Qed.
Lemma digit_other d c : (d < 10)%N -> (N_of_ascii c < 48)%N -> (ascii_of_N (48 + d) =? c)%char = false.
Proof. intros H L. apply Ascii.eqb_neq. intros E. apply (f_equal N_of_ascii) in E. rewrite digit_ascii in E by exact H. lia. Qed.
Lemma mod10 k : (k mod 10 < 10)%N.
Proof. apply N.mod_lt. lia. Qed.

Lemma scan_digits n : forall k rest acc p,
  scan (digits n k ++ rest) acc p = scan rest (acc * 10 ^ N.of_nat n + k mod 10 ^ N.of_nat n) (option_map (Nat.add n) p).
Proof.
  induction n as [| n IH]; intros k rest acc p.
  - cbn [digits append N.of_nat N.pow]. rewrite N.mod_1_r, N.mul_1_r, N.add_0_r. destruct p; reflexivity.
  - cbn [digits]. rewrite append_assoc, IH. unfold digit. cbn [append scan].
    rewrite digit_other by (apply mod10 || reflexivity). rewrite digit_is by apply mod10. f_equal.
    + rewrite Nat2N.inj_succ, N.pow_succ_r'. rewrite (N.mod_mul_r k 10 (10 ^ N.of_nat n)) by (try apply N.pow_nonzero; lia). lia.
    + destruct p; reflexivity.
Qed.
Lemma digits_length n : forall k, String.length (digits n k) = n.
Proof. induction n as [| n IH]; intros k; [reflexivity |]. cbn [digits]. rewrite length_append, IH. cbn. lia. Qed.
Lemma digits_chars n : forall k c, has c (digits n k) -> digit_value c <> None.
Proof.
  induction n as [| n IH]; intros k c H; [destruct H |]. cbn [digits] in H. apply has_append in H as [H | H]; [now apply IH in H |].
  destruct H as [<- | []]. rewrite digit_is by apply mod10. discriminate.
Qed.
Lemma width_enough fuel : forall k, (k < 2 ^ N.of_nat fuel)%N -> (k < 10 ^ N.of_nat (width_of fuel k))%N.
Proof.
  induction fuel as [| fuel IH]; intros k H.
  - cbn in *. lia.
  - cbn [width_of]. destruct (N.ltb_spec k 10) as [L | L]; [cbn; lia |].
    rewrite Nat2N.inj_succ, N.pow_succ_r'. rewrite Nat2N.inj_succ, N.pow_succ_r' in H.
    assert (D : (k / 10 < 2 ^ N.of_nat fuel)%N) by (apply N.div_lt_upper_bound; lia).
    apply IH in D. pose proof (N.div_mod k 10 ltac:(lia)). pose proof (mod10 k). nia.
Qed.
Lemma decimal_width k : (k < 10 ^ N.of_nat (width_of (N.size_nat k) k))%N.
Proof.
  apply width_enough. destruct k as [| p]; [reflexivity |].
  induction p as [p IH | p IH |]; cbn [N.size_nat Pos.size_nat] in *; try reflexivity;
    rewrite Nat2N.inj_succ, N.pow_succ_r'; lia.
Qed.
Lemma scan_decimal k rest acc : exists w, (0 < w)%nat /\
  scan (decimal k ++ rest) acc None = scan rest (acc * 10 ^ N.of_nat w + k) None.
Proof.
  exists (width_of (N.size_nat k) k). split; [destruct (N.size_nat k); cbn; [lia | destruct (k <? 10)%N; lia] |].
  unfold decimal. rewrite scan_digits, N.mod_small by apply decimal_width. reflexivity.
Qed.
Lemma decimal_chars k c : has c (decimal k) -> digit_value c <> None.
Proof. apply digits_chars. Qed.
Lemma decimal_nonempty k : exists c t, decimal k = String c t /\ digit_value c <> None.
Proof.
  assert (L : String.length (decimal k) <> 0%nat).
  { unfold decimal. rewrite digits_length. destruct (N.size_nat k); cbn; [lia | destruct (k <? 10)%N; lia]. }
  pose proof (decimal_chars k) as C. destruct (decimal k) as [| c t]; [cbn in L; lia |]. exists c, t. split; [reflexivity |].
  apply C. now left.
Qed.
Lemma not_minus c : digit_value c <> None -> (c =? "-")%char = false.
Proof. intros H. apply Ascii.eqb_neq. intros ->. apply H. reflexivity. Qed.
(** Nearest integers. *)
Lemma int_part_unique r k : IZR k <= r < IZR k + 1 -> Int_part r = k.
Proof.
  intros [A B]. destruct (base_Int_part r) as [C D].
  assert (L : (Int_part r < k + 1)%Z) by (apply lt_IZR; rewrite plus_IZR; lra).
  assert (U : (k - 1 < Int_part r)%Z) by (apply lt_IZR; rewrite minus_IZR; lra). lia.
Qed.
Lemma nearest_close r : Rabs (IZR (nearest r) - r) <= 1 / 2.
Proof.
  unfold nearest. destruct (base_Int_part r) as [A B].
  destruct (Rltb (r - IZR (Int_part r)) (1 / 2)) eqn:E.
  - apply Rltb_true in E. apply Rabs_le. lra.
  - apply Rltb_false in E. destruct (Rltb (1 / 2) (r - IZR (Int_part r))) eqn:F.
    + rewrite plus_IZR. apply Rabs_le. lra.
    + apply Rltb_false in F. destruct (Z.even _); rewrite ?plus_IZR; apply Rabs_le; lra.
Qed.
Lemma nearest_nonneg r : 0 <= r -> (0 <= nearest r)%Z.
Proof.
  intros H. assert (K : (-1 < nearest r)%Z); [| lia]. apply lt_IZR. pose proof (nearest_close r) as C.
  apply Rabs_le_inv in C. lra.
Qed.
Lemma nearest_unique r k : Rabs (IZR k - r) < 1 / 2 -> nearest r = k.
Proof.
  intros H. apply Rabs_def2 in H. pose proof (nearest_close r) as C. apply Rabs_le_inv in C.
  assert (L : (nearest r < k + 1)%Z) by (apply lt_IZR; rewrite plus_IZR; lra).
  assert (U : (k - 1 < nearest r)%Z) by (apply lt_IZR; rewrite minus_IZR; lra). lia.
Qed.

(** Fixed point numbers. *)
Definition magnitude (n : nat) (r : R) : N := Z.abs_N (nearest (Rabs r * 10 ^ n)).
Lemma magnitude_close n r : Rabs (IZR (Z.of_N (magnitude n r)) / 10 ^ n - Rabs r) <= 1 / 2 / 10 ^ n.
Proof.
  assert (P : 0 < 10 ^ n) by (apply pow_lt; lra). unfold magnitude.
  rewrite N2Z.inj_abs_N, Z.abs_eq
    by (apply nearest_nonneg, Rmult_le_pos; [apply Rabs_pos | lra]).
  pose proof (nearest_close (Rabs r * 10 ^ n)) as C.
  replace (IZR (nearest (Rabs r * 10 ^ n)) / 10 ^ n - Rabs r) with ((IZR (nearest (Rabs r * 10 ^ n)) - Rabs r * 10 ^ n) / 10 ^ n)
    by (field; lra).
  unfold Rdiv at 1. rewrite Rabs_mult, (Rabs_right (/ 10 ^ n)) by (apply Rle_ge, Rlt_le, Rinv_0_lt_compat, P).
  apply Rmult_le_compat_r; [apply Rlt_le, Rinv_0_lt_compat, P | exact C].
Qed.
Lemma scan_fixed n q : exists p,
  scan (decimal (q / 10 ^ N.of_nat n) ++ match n with O => "" | _ => "." ++ digits n (q mod 10 ^ N.of_nat n) end) 0 None
  = Some (q, p) /\ p = match n with O => None | _ => Some n end.
Proof.
  eexists. split; [| reflexivity].
  destruct (scan_decimal (q / 10 ^ N.of_nat n) (match n with O => "" | _ => "." ++ digits n (q mod 10 ^ N.of_nat n) end) 0) as (w & _ & E).
  rewrite E. rewrite N.mul_0_l, N.add_0_l. destruct n as [| n].
  - cbn [scan N.of_nat N.pow]. now rewrite N.div_1_r.
  - cbn [append scan]. cbn [Ascii.eqb Bool.eqb]. rewrite <- (append_nil (digits _ _)), scan_digits. cbn [scan option_map].
    assert (NZ : (10 ^ N.of_nat (S n) <> 0)%N) by (apply N.pow_nonzero; lia).
    rewrite N.mod_mod by exact NZ. rewrite Nat.add_0_r. f_equal. f_equal.
    rewrite (N.div_mod q (10 ^ N.of_nat (S n))) at 3 by exact NZ. lia.
Qed.
Lemma read_sign neg s : (exists c t, s = String c t /\ digit_value c <> None) ->
  read ((if neg : bool then "-" else "") ++ s) = option_map (fun v => if neg then - v else v) (read_unsigned s) /\
  places ((if neg : bool then "-" else "") ++ s) = match scan s 0 None with Some (_, p) => p | None => None end.
Proof.
  intros (c & t & -> & D). destruct neg.
  - split; reflexivity.
  - split.
    + cbn [append read]. rewrite (not_minus _ D). destruct (read_unsigned (String c t)); reflexivity.
    + apply not_minus in D. apply Ascii.eqb_neq in D. unfold places. cbn [append].
      destruct c as [[] [] [] [] [] [] [] []]; try reflexivity. now destruct D.
Qed.
Lemma fixed_read n r : read (fixed n r) =
  Some (if Rltb r 0 then - (IZR (Z.of_N (magnitude n r)) / 10 ^ n) else IZR (Z.of_N (magnitude n r)) / 10 ^ n) /\
  places (fixed n r) = match n with O => None | _ => Some n end.
Proof.
  unfold fixed. fold (magnitude n r). cbv zeta.
  set (s := (decimal _ ++ match n with O => _ | _ => _ end)%string).
  destruct (scan_fixed n (magnitude n r)) as (p & E & Hp). fold s in E.
  destruct (read_sign (Rltb r 0) s) as [A B].
  { destruct (decimal_nonempty (magnitude n r / 10 ^ N.of_nat n)) as (c & t & F & D). unfold s. rewrite F.
    exists c. eexists. split; [reflexivity | exact D]. }
  rewrite A, B. unfold read_unsigned. rewrite E. subst p. split; [| reflexivity]. cbn [option_map].
  destruct n; reflexivity.
Qed.
Lemma fixed_close n r : exists v, read (fixed n r) = Some v /\ Rabs (v - r) <= 1 / 2 / 10 ^ n.
Proof.
  destruct (fixed_read n r) as [E _]. pose proof (magnitude_close n r) as C. eexists. split; [exact E |].
  destruct (Rltb r 0) eqn:S.
  - apply Rltb_true in S. rewrite (Rabs_left r S) in C. rewrite <- Rabs_Ropp. eapply Rle_trans; [| exact C]. right. f_equal. ring.
  - apply Rltb_false in S. rewrite (Rabs_right r) in C by lra. exact C.
Qed.

(** The cut of the compiled bar. *)
Lemma index_point a b : ~ has "." a -> index 0 "." (a ++ "." ++ b) = Some (String.length a).
Proof.
  induction a as [| c a IH]; intros H.
  - cbn [append String.length]. cbn. destruct b; reflexivity.
  - cbn [append String.length]. cbn [index]. cbn [prefix].
    destruct (ascii_dec "." c) as [E | N]; [exfalso; apply H; left; now symmetry |].
    change ("." ++ b)%string with (String "." b) in *. cbn [append] in IH. rewrite IH; [reflexivity |]. intros G. apply H. now right.
Qed.
Lemma substring_append a b k : substring 0 (String.length a + k) (a ++ b) = (a ++ substring 0 k b)%string.
Proof. induction a as [| c a IH]; [reflexivity |]. cbn [append String.length Nat.add substring]. now rewrite IH. Qed.
Lemma substring_zero s : substring 0 0 s = EmptyString.
Proof. destruct s; reflexivity. Qed.
Lemma digit_no_point a : (forall c, has c a -> digit_value c <> None) -> ~ has "." a.
Proof. intros H G. apply (H _ G). reflexivity. Qed.
Lemma cc_shown_is r : cc_shown (Number r) =
  ((if Rltb r 0 then "-" else "") ++ decimal (magnitude 6 r / 10 ^ 6) ++ "." ++ digits 4 (magnitude 6 r mod 10 ^ 6 / 100))%string.
Proof.
  unfold cc_shown, cut. set (q := magnitude 6 r). unfold fixed. fold (magnitude 6 r). fold q. cbv zeta.
  change (N.of_nat 6) with 6%N. set (m := (q mod 10 ^ 6)%N).
  set (a := ((if Rltb r 0 then "-" else "") ++ decimal (q / 10 ^ 6))%string).
  replace ((if Rltb r 0 then "-" else "") ++ decimal (q / 10 ^ 6) ++ "." ++ digits 6 m)%string with (a ++ "." ++ digits 6 m)%string
    by (unfold a; now rewrite append_assoc).
  rewrite index_point.
  - rewrite substring_append. unfold a. rewrite append_assoc. f_equal. f_equal. cbn [append]. cbn [substring]. f_equal.
    change (digits 6 m) with ((digits 4 (m / 10 / 10) ++ digit (m / 10 mod 10)) ++ digit (m mod 10))%string.
    rewrite append_assoc. change 4%nat with (4 + 0)%nat at 1. rewrite <- (digits_length 4 (m / 10 / 10)) at 1.
    rewrite substring_append, substring_zero, append_nil. now rewrite N.div_div by lia.
  - unfold a. rewrite has_append. intros [H | H].
    + destruct (Rltb r 0); [| destruct H]. destruct H as [H | []]. discriminate.
    + apply decimal_chars in H. now apply H.
Qed.
Lemma cc_shown_read r : exists v, read (cc_shown (Number r)) = Some v /\ places (cc_shown (Number r)) = Some 4%nat /\
  Rabs v = IZR (Z.of_N (magnitude 6 r / 100)) / 10 ^ 4 /\ (v = if Rltb r 0 then - Rabs v else Rabs v).
Proof.
  rewrite cc_shown_is. set (q := magnitude 6 r).
  set (s := (decimal (q / 10 ^ 6) ++ "." ++ digits 4 (q mod 10 ^ 6 / 100))%string).
  destruct (scan_fixed 4 (q / 100)) as (p & E & Hp). change (N.of_nat 4) with 4%N in E.
  assert (H1 : (q / 100 / 10 ^ 4 = q / 10 ^ 6)%N) by (rewrite N.div_div; [reflexivity | lia | discriminate]).
  assert (H2 : ((q / 100) mod 10 ^ 4 = q mod 10 ^ 6 / 100)%N).
  { change (10 ^ 6)%N with (100 * 10 ^ 4)%N. rewrite N.mod_mul_r by (try discriminate; lia).
    rewrite N.mul_comm, N.div_add by lia. rewrite (N.div_small (q mod 100)) by (apply N.mod_lt; lia). reflexivity. }
  rewrite H1, H2 in E. fold s in E.
  destruct (read_sign (Rltb r 0) s) as [A B].
  { destruct (decimal_nonempty (q / 10 ^ 6)) as (c & t & F & D). unfold s. rewrite F. exists c. eexists. split; [reflexivity | exact D]. }
  rewrite A, B. unfold read_unsigned. rewrite E. subst p. cbn [option_map].
  assert (P : 0 <= IZR (Z.of_N (q / 100)) / 10 ^ 4).
  { apply Rmult_le_pos; [apply IZR_le, N2Z.is_nonneg | apply Rlt_le, Rinv_0_lt_compat, pow_lt; lra]. }
  eexists. split; [reflexivity |]. split; [reflexivity |].
  destruct (Rltb r 0); rewrite ?Rabs_Ropp, Rabs_right by lra; auto.
Qed.
Lemma cc_shown_close r : exists v, read (cc_shown (Number r)) = Some v /\ places (cc_shown (Number r)) = Some 4%nat /\
  Rabs v <= Rabs r + 1 / 2000000 /\ Rabs r - 1 / 10000 - 1 / 2000000 < Rabs v /\ (0 <= r -> 0 <= v) /\ (r < 0 -> v <= 0).
Proof.
  destruct (cc_shown_read r) as (v & E & P & A & S). exists v. split; [exact E |]. split; [exact P |].
  pose proof (magnitude_close 6 r) as C. apply Rabs_le_inv in C.
  replace (1 / 2 / 10 ^ 6) with (1 / 2000000) in C by field.
  set (q := magnitude 6 r) in *.
  assert (D : (100 * (Z.of_N (q / 100)) <= Z.of_N q < 100 * Z.of_N (q / 100) + 100)%Z).
  { clear. pose proof (N.div_mod q 100 ltac:(discriminate)) as H. pose proof (N.mod_lt q 100 ltac:(discriminate)) as H'.
    revert H H'. generalize (q / 100)%N (q mod 100)%N. clearbody q. intros d m. lia. }
  destruct D as [D1 D2]. apply IZR_le in D1. apply IZR_lt in D2. rewrite plus_IZR, ?mult_IZR in *.
  assert (T : 10 ^ 6 = 1000000) by lra. assert (T4 : 10 ^ 4 = 10000) by lra. rewrite T in C. rewrite T4 in A.
  split; [lra |]. split; [lra |]. pose proof (Rabs_pos v). split; intros H'.
  - replace (Rltb r 0) with false in S by (symmetry; apply Rltb_false; lra). lra.
  - replace (Rltb r 0) with true in S by (symmetry; apply Rltb_true; lra). lra.
Qed.

(** The time left. *)
Lemma int_part_nonneg r : 0 <= r -> (0 <= Int_part r)%Z.
Proof. intros H. assert ((-1 < Int_part r)%Z); [| lia]. apply lt_IZR. destruct (base_Int_part r). lra. Qed.
Lemma read_decimal k : read (decimal k) = Some (IZR (Z.of_N k)).
Proof.
  destruct (decimal_nonempty k) as (c & t & E & D). destruct (read_sign false (decimal k)) as [A _]; [eauto |].
  cbn [append] in A. rewrite A. unfold read_unsigned. rewrite <- (append_nil (decimal k)).
  destruct (scan_decimal k "" 0) as (w & _ & F). rewrite F. cbn [scan option_map]. f_equal. rewrite N.mul_0_l, N.add_0_l. cbn [pow]. lra.
Qed.
Lemma read_digits n k : (0 < n)%nat -> (k < 10 ^ N.of_nat n)%N -> read (digits n k) = Some (IZR (Z.of_N k)).
Proof.
  intros P L. destruct (read_sign false (digits n k)) as [A _].
  { pose proof (digits_length n k) as H. pose proof (digits_chars n k) as C. destruct (digits n k) as [| c t]; [cbn in H; lia |].
    exists c, t. split; [reflexivity |]. apply C. now left. }
  cbn [append] in A. rewrite A. unfold read_unsigned. rewrite <- (append_nil (digits n k)), scan_digits. cbn [scan option_map].
  f_equal. rewrite N.mod_small, N.mul_0_l, N.add_0_l by exact L. cbn [pow]. lra.
Qed.
Lemma read_integer z : read (integer z) = Some (IZR z).
Proof.
  unfold integer. destruct (Z.ltb_spec z 0) as [L | L].
  - destruct (decimal_nonempty (Z.abs_N z)) as (c & t & E & D).
    destruct (read_sign true (decimal (Z.abs_N z))) as [A _]; [eauto |]. rewrite A.
    destruct (read_sign false (decimal (Z.abs_N z))) as [B _]; [eauto |]. cbn [append] in B. rewrite read_decimal in B.
    destruct (read_unsigned _) as [v |]; [| discriminate]. cbn [option_map] in *. injection B as <-. f_equal.
    rewrite <- opp_IZR. f_equal. lia.
  - rewrite read_decimal. f_equal. f_equal. lia.
Qed.
Lemma eta_seconds left : left < 60 -> exists t v, eta left = (" ETA: " ++ t ++ "s")%string /\ read t = Some v /\ places t = None /\ Rabs (v - left) <= 1 / 2.
Proof.
  intros H. destruct (fixed_close 0 left) as (v & E & C). destruct (fixed_read 0 left) as [_ P]. exists (fixed 0 left), v.
  split; [| split; [exact E | split; [exact P |]]].
  - unfold eta. apply Rltb_true in H. now rewrite H.
  - cbn [pow] in C. lra.
Qed.
Lemma eta_minutes left : 60 <= left -> exists m s vm vs,
  eta left = (" ETA: " ++ m ++ ":" ++ s)%string /\ read m = Some (IZR vm) /\ read s = Some (IZR vs) /\
  (2 <= String.length m)%nat /\ String.length s = 2%nat /\ (0 <= vs < 60)%Z /\ (60 * vm + vs = Int_part left)%Z.
Proof.
  intros H. unfold eta. replace (Rltb left 60) with false by (symmetry; apply Rltb_false; lra). cbv zeta.
  pose proof (int_part_nonneg left ltac:(lra)) as N. set (k := Z.abs_N (Int_part left)).
  assert (K : Z.of_N k = Int_part left) by lia.
  pose proof (N.mod_lt k 60 ltac:(lia)) as M. pose proof (N.div_mod k 60 ltac:(lia)) as D.
  do 2 eexists. exists (Z.of_N (k / 60)), (Z.of_N (k mod 60)). split; [reflexivity |].
  split; [destruct (N.ltb_spec (k / 60) 10) as [L | L]; [apply read_digits; cbn; lia | apply read_decimal] |].
  split; [apply read_digits; cbn; lia |].
  split; [| split; [apply digits_length |]].
  2: { rewrite <- K. clear - M D. revert M D. generalize (k / 60)%N (k mod 60)%N. clearbody k. intros d m. lia. }
  destruct (N.ltb_spec (k / 60) 10) as [L | L]; [rewrite digits_length; lia |].
  unfold decimal. rewrite digits_length. destruct (k / 60)%N as [| p] eqn:E; [lia |].
  destruct (N.size_nat (N.pos p)) as [| f] eqn:F; [destruct p; discriminate |]. cbn [width_of].
  replace (N.pos p <? 10)%N with false by (symmetry; apply N.ltb_ge; lia). destruct f; cbn; [lia |]. destruct (_ <? 10)%N; lia.
Qed.
Lemma cc_eta_seconds left : (left < 60)%Z -> exists t, cc_eta left = ("ETA: " ++ t ++ "s")%string /\ read t = Some (IZR left).
Proof. intros H. exists (integer left). unfold cc_eta. apply Z.ltb_lt in H. rewrite H. split; [reflexivity | apply read_integer]. Qed.
Lemma cc_eta_minutes left : (60 <= left)%Z -> exists m s vm vs,
  cc_eta left = ("ETA: " ++ m ++ ":" ++ s)%string /\ read m = Some (IZR vm) /\ read s = Some (IZR vs) /\
  (0 <= vs < 60)%Z /\ (60 * vm + vs = left)%Z.
Proof.
  intros H. unfold cc_eta. replace (left <? 60)%Z with false by (symmetry; apply Z.ltb_ge; lia).
  do 2 eexists. exists (left / 60)%Z, (left mod 60)%Z. split; [reflexivity |]. rewrite !read_integer.
  split; [reflexivity |]. split; [reflexivity |]. split; [apply Z.mod_pos_bound; lia |]. symmetry. apply Z.div_mod. lia.
Qed.

(** Lines. *)
Lemma clean_append a b : clean a -> clean b -> clean (a ++ b).
Proof. intros [A A'] [B B']. split; rewrite has_append; tauto. Qed.
Lemma clean_digits n k : clean (digits n k).
Proof. split; intros H; apply digits_chars in H; now apply H. Qed.
Lemma clean_decimal k : clean (decimal k).
Proof. apply clean_digits. Qed.
Definition clean_text (s : string) : bool :=
  forallb (fun c => negb ((c =? ascii_of_nat 10)%char || (c =? ascii_of_nat 13)%char)) (list_ascii_of_string s).
Lemma clean_literal s : clean_text s = true -> clean s.
Proof.
  unfold clean_text. rewrite forallb_forall. intros H. split; intros I; apply H in I; discriminate.
Qed.
Lemma clean_fixed n r : clean (fixed n r).
Proof.
  unfold fixed. cbv zeta. apply clean_append; [destruct (Rltb r 0); now apply clean_literal |].
  apply clean_append; [apply clean_decimal |]. destruct n; [now apply clean_literal |].
  apply clean_append; [now apply clean_literal | apply clean_digits].
Qed.
Lemma clean_integer z : clean (integer z).
Proof. unfold integer. destruct (z <? 0)%Z; [apply clean_append; [now apply clean_literal |] |]; apply clean_decimal. Qed.
Lemma has_substring c s : forall n m, has c (substring n m s) -> has c s.
Proof.
  induction s as [| x s IH]; intros n m H; [destruct n, m; exact H |].
  destruct n as [| n]; cbn [substring] in H.
  - destruct m; [destruct H |]. destruct H as [<- | H]; [now left | right; now apply IH in H].
  - right. now apply IH in H.
Qed.
Lemma clean_cut s : clean s -> clean (cut s).
Proof. intros [A B]. unfold cut. destruct (index 0 "." s); split; intros H; apply has_substring in H; auto. Qed.
Lemma clean_times c n : clean c -> clean (times c n).
Proof.
  intros H. unfold times. induction (Z.to_nat n) as [| k IH]; [now apply clean_literal |]. cbn [repeat].
  destruct k; cbn [repeat String.concat] in *; [exact H |]. apply clean_append; [exact H |]. cbn [append]. exact IH.
Qed.
Lemma clean_arrow k : clean (with_arrow k).
Proof.
  unfold with_arrow. apply clean_append; [apply clean_times; now apply clean_literal |].
  apply clean_append; [now apply clean_literal | apply clean_times; now apply clean_literal].
Qed.
Lemma clean_bar fl e n b : draw_bar fl e n = Ok b -> clean b.
Proof.
  unfold draw_bar. destruct (at_end fl e n); [intros E; injection E as <-; now apply clean_literal |].
  destruct (n =? 0)%nat; [discriminate |]. intros E. injection E as <-. apply clean_arrow.
Qed.
Lemma clean_cc_bar e n b : cc_draw_bar e n = Ok b -> clean b.
Proof.
  unfold cc_draw_bar. destruct (cc_at_end e n); [intros E; injection E as <-; now apply clean_literal |].
  destruct (n =? 0)%nat; [discriminate |]. intros E. injection E as <-. apply clean_arrow.
Qed.
Ltac tidy := repeat first [apply clean_fixed | apply clean_integer | apply clean_decimal | apply clean_digits
  | (apply clean_literal; reflexivity) | apply clean_append].
Lemma clean_eta l : clean (eta l).
Proof. unfold eta. destruct (Rltb l 60); cbv zeta; [tidy |]. destruct (_ <? 10)%N; tidy. Qed.
Lemma clean_cc_eta l : clean (cc_eta l).
Proof. unfold cc_eta. destruct (l <? 60)%Z; tidy. Qed.
Lemma clean_timing s n c fl e k : clean (timing s n c fl e k).
Proof.
  unfold timing. destruct (e =? 0)%nat; [tidy |]. destruct (at_end fl e k); [| apply clean_eta]. cbv zeta. tidy.
Qed.
Lemma clean_cc_timing s n c e k : clean (cc_timing s n c e k).
Proof.
  unfold cc_timing. destruct (e =? 0)%nat; [tidy |]. destruct (cc_at_end e k); [| apply clean_cc_eta]. cbv zeta. tidy.
Qed.
Lemma clean_shown a : clean_amount a -> clean (shown a).
Proof. destruct a; [intros _; apply clean_fixed | auto]. Qed.
Lemma clean_cc_shown a : clean_amount a -> clean (cc_shown a).
Proof. intros H. apply clean_cut. destruct a; [apply clean_fixed | exact H]. Qed.
Lemma clean_values ln l mn m : clean ln -> clean l -> clean mn -> clean m -> clean (values ln l mn m).
Proof. intros. unfold values. repeat (apply clean_append; [try assumption; now apply clean_literal |] || assumption). Qed.
Lemma line_clean bar time e n vals : clean bar -> clean time -> clean vals ->
  clean ("Epoch " ++ decimal e ++ "/" ++ decimal n ++ " [" ++ bar ++ "]" ++ time ++ vals).
Proof.
  intros A B C. repeat (apply clean_append; [first [assumption | apply clean_decimal | now apply clean_literal] |]). exact C.
Qed.
Lemma cut_short s : (String.length s <= 4)%nat -> ~ has "." s -> cut s = s.
Proof.
  intros L N. unfold cut. destruct (index 0 "." s) as [i |] eqn:E.
  - exfalso. apply N. clear - E. revert i E. induction s as [| c s IH]; intros i E; [discriminate |].
    cbn [index prefix] in E. destruct (ascii_dec "." c) as [D | D]; [left; now symmetry |]. right.
    destruct (index 0 "." s) as [j |]; [now apply (IH j) | discriminate].
  - destruct s as [| a [| b [| c [| d [| e s]]]]]; cbn in L |- *; try reflexivity; lia.
Qed.
