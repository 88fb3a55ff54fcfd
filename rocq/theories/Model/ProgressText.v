(** Model of the whole line a progress bar prints: [_draw_detail] of
    classicML/backend/python/_utils.py and of classicML/backend/cc/_utils/_utils.cc.
    Times and values are exact numbers; negative zero is left out. *)
From Coq Require Import List String Ascii Reals ZArith NArith Bool.
From Verif.Model Require Import Base ProgressBar.
Import ListNotations.
Local Open Scope R_scope.

(** One decimal digit (all the formats of _utils.py 74-118 and [std::to_string] of
    _utils.cc 45-94). *)
Definition digit (d : N) : string := String (ascii_of_N (48 + d)) EmptyString.
(** The last [n] digits of a number, with zeros in front: [{:02d}] of _utils.py 112 and
    the digits behind the point of [{:.4f}] (115). *)
Fixpoint digits (n : nat) (k : N) : string :=
  match n with O => EmptyString | S n => (digits n (k / 10) ++ digit (k mod 10))%string end.
(** How many digits a number has, at most [fuel] more than one. (_utils.py 75). *)
Fixpoint width_of (fuel : nat) (k : N) : nat :=
  match fuel with O => 1%nat | S fuel => if (k <? 10)%N then 1%nat else S (width_of fuel (k / 10)) end.
(** A natural number in decimal: [{}] of _utils.py 75, [std::to_string] of _utils.cc
    45. The number of binary digits bounds that of decimal ones. *)
Definition decimal (k : N) : string := digits (width_of (N.size_nat k) k) k.
(** An integer in decimal: [std::to_string] of an [int64] (_utils.cc 76). *)
Definition integer (z : Z) : string := if (z <? 0)%Z then ("-" ++ decimal (Z.abs_N z))%string else decimal (Z.abs_N z).

(** Nearest integer, ties to the even one: rounding of Python's [format] (_utils.py
    104, 115) and of [printf] behind [std::to_string] (_utils.cc 90). *)
Definition nearest (r : R) : Z :=
  let k := Int_part r in
  if Rltb (r - IZR k) (1 / 2) then k
  else if Rltb (1 / 2) (r - IZR k) then (k + 1)%Z
  else if Z.even k then k else (k + 1)%Z.
(** [{:.nf}]: _utils.py 104, 108, 115; [%f] with [n] = 6: _utils.cc 90, 94. The sign stays
    when the digits are all zero. *)
Definition fixed (n : nat) (r : R) : string :=
  let q := Z.abs_N (nearest (Rabs r * 10 ^ n)) in
  let ten := (10 ^ N.of_nat n)%N in
  ((if Rltb r 0 then "-" else "") ++ decimal (q / ten) ++
   match n with O => "" | _ => "." ++ digits n (q mod ten) end)%string.

(** The loss or metric of a round: a number, or what is printed for NaN and the
    infinities (_utils.py 115; _utils.cc 90). *)
Inductive amount := Number (r : R) | Special (text : string).
(** [{:.4f}] (_utils.py 115). *)
Definition shown (a : amount) : string := match a with Number r => fixed 4 r | Special t => t end.
(** [std::to_string] and [substr(0, find('.') + 4 + 1)] (_utils.cc 90-91, 94-95);
    without a point [find] is the largest [size_t], and adding 5 gives 4. *)
Definition cut (s : string) : string :=
  match index 0 "." s with Some i => substring 0 (i + 5) s | None => substring 0 4 s end.
(** _utils.cc 90-95. *)
Definition cc_shown (a : amount) : string := cut (match a with Number r => fixed 6 r | Special t => t end).

(** _utils.py 118, _utils.cc 100. *)
Definition newline : string := String (ascii_of_nat 10) EmptyString.
(** _utils.py 64, _utils.cc 40. *)
Definition carriage_return : string := String (ascii_of_nat 13) EmptyString.

(** _utils.py 107-112: the time left, from the time since the round began. *)
Definition eta (left : R) : string :=
  if Rltb left 60 then (" ETA: " ++ fixed 0 left ++ "s")%string
  else let s := Z.abs_N (Int_part left) in
       let minutes := (s / 60)%N in
       (" ETA: " ++ (if (minutes <? 10)%N then digits 2 minutes else decimal minutes) ++ ":" ++ digits 2 (s mod 60))%string.
(** _utils.cc 79-85; the times are whole seconds. *)
Definition cc_eta (left : Z) : string :=
  if (left <? 60)%Z then ("ETA: " ++ integer left ++ "s")%string
  else ("ETA: " ++ integer (left / 60) ++ ":" ++ integer (left mod 60))%string.

(** _utils.py 115 and _utils.cc 97. *)
Definition values (loss_name loss metric_name metric : string) : string :=
  (" - " ++ loss_name ++ ": " ++ loss ++ " - " ++ metric_name ++ ": " ++ metric)%string.

Section Lines.
(** [start]: when the bar was made (_utils.py 32); [now]: the time of the call (102,
    106); [current]: the time the caller gives, when the round began. *)
Variables (start now current : R) (loss_name metric_name : string).
(** _utils.py 99-112: the time part. *)
Definition timing (fl : R -> R) (epoch epochs : nat) : string :=
  if (epoch =? 0)%nat then " ETA: 00:00"%string
  else if at_end fl epoch epochs then
    let total := now - start in
    (" " ++ fixed 0 total ++ "s " ++ fixed 0 (total * 1000 / INR epochs) ++ "ms/step")%string
  else eta ((now - current) * (INR epochs - INR epoch)).
(** _utils.py 37-118: what one call writes to the terminal. *)
Definition line (fl : R -> R) (epoch epochs : nat) (loss metric : amount) : result string :=
  bar <- draw_bar fl epoch epochs ;;
  Ok (carriage_return ++ "Epoch " ++ decimal (N.of_nat epoch) ++ "/" ++ decimal (N.of_nat epochs) ++ " [" ++ bar ++ "]" ++
      timing fl epoch epochs ++ values loss_name (shown loss) metric_name (shown metric) ++
      (if (epoch =? epochs)%nat then newline else ""))%string.
End Lines.

Section CcLines.
(** [time(nullptr)] gives whole seconds (_utils.h 49, _utils.cc 74, 78); [current] is cut
    to whole seconds (78). Nothing overflows. *)
Variables (start now current : Z) (loss_name metric_name : string).
(** _utils.cc 71-86. *)
Definition cc_timing (epoch epochs : nat) : string :=
  if (epoch =? 0)%nat then " ETA: 00:00"%string
  else if cc_at_end epoch epochs then
    let total := (now - start)%Z in
    (" " ++ integer total ++ "s " ++ integer (Z.quot (total * 1000) (Z.of_nat epochs)) ++ "ms/step")%string
  else cc_eta ((now - current) * (Z.of_nat epochs - Z.of_nat epoch)).
(** _utils.cc 20-102. *)
Definition cc_line (epoch epochs : nat) (loss metric : amount) : result string :=
  bar <- cc_draw_bar epoch epochs ;;
  Ok (carriage_return ++ "Epoch " ++ decimal (N.of_nat epoch) ++ "/" ++ decimal (N.of_nat epochs) ++ " [" ++ bar ++ "]" ++
      cc_timing epoch epochs ++ values loss_name (cc_shown loss) metric_name (cc_shown metric) ++
      (if (epoch =? epochs)%nat then newline else ""))%string.
End CcLines.
