(** Model of the progress bars: ProgressBar of classicML/backend/python/_utils.py
    and classicML/backend/cc/_utils/_utils.cc. *)
From Coq Require Import List String Reals ZArith Bool Arith.
From Verif.Model Require Import Base.
Import ListNotations.
Local Open Scope R_scope.

(** A text made of [n] times the same text, Python's ['=' * n] (_utils.py 84, 86;
    empty for a negative number) and the loops of _utils.cc 54-60. *)
Definition times (c : string) (n : Z) : string := String.concat "" (repeat c (Z.to_nat n)).
(** Smallest integer not below [r], [np.ceil] (_utils.py 82). *)
Definition ceil (r : R) : Z := (- Int_part (- r))%Z.

(** The 25 characters of _utils.py 78 and _utils.cc 48. *)
Definition full : string := "=========================".
(** _utils.py 84-87 and _utils.cc 54-61: the characters between the brackets for the
    arrow position. *)
Definition with_arrow (arrow : Z) : string := (times "=" (arrow - 1) ++ ">" ++ times "." (25 - arrow))%string.

Section Python.
(** [fl] rounds an exact quotient, difference or product to a float. *)
Variable fl : R -> R.
(** _utils.py 77 and 101: [epoch > (self.epochs - self.epochs / 25)]. *)
Definition at_end (epoch epochs : nat) : bool := Rltb (fl (INR epochs - fl (INR epochs / 25))) (INR epoch).
(** _utils.py 82. *)
Definition arrow (epoch epochs : nat) : Z := ceil (fl (fl (INR epoch / INR epochs) * 25)).
(** _utils.py 68-87 [_draw_bar]: what stands between the brackets. With [epochs] = 0
    line 82 would divide by zero. *)
Definition draw_bar (epoch epochs : nat) : result string :=
  if at_end epoch epochs then Ok full
  else if (epochs =? 0)%nat then Err ZeroDivisionError
  else Ok (with_arrow (arrow epoch epochs)).
End Python.

(** _utils.cc 47 and 73, with the integer division of C++. The numbers are below
    2^32, so nothing overflows. *)
Definition cc_at_end (epoch epochs : nat) : bool := (epochs - epochs / 25 <? epoch)%nat.
(** _utils.cc 52: the division is one of integers, so [ceil] has nothing to round.
    *)
Definition cc_arrow (epoch epochs : nat) : Z := (Z.of_nat epoch / Z.of_nat epochs * 25)%Z.
(** _utils.cc 44-63 [_draw_bar]. Division by zero has no defined result in C++; it
    is an error here. *)
Definition cc_draw_bar (epoch epochs : nat) : result string :=
  if cc_at_end epoch epochs then Ok full
  else if (epochs =? 0)%nat then Err ZeroDivisionError
  else Ok (with_arrow (cc_arrow epoch epochs)).
