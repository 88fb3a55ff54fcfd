(** Reading numbers back from text: the meaning of what a progress bar shows. *)
From Coq Require Import List String Ascii Reals ZArith NArith.
From Verif.Model Require Import ProgressText.
Import ListNotations.
Local Open Scope R_scope.

(** The value of a digit. *)
Definition digit_value (c : ascii) : option N :=
  let n := N_of_ascii c in if ((48 <=? n) && (n <=? 57))%N%bool then Some (n - 48)%N else None.
(** Reads digits with at most one point among them: the digits as one number, and how
    many of them are behind the point if there is one. *)
Fixpoint scan (s : string) (sofar : N) (places : option nat) : option (N * option nat) :=
  match s with
  | EmptyString => Some (sofar, places)
  | String c s =>
      if (c =? ".")%char then match places with None => scan s sofar (Some 0%nat) | Some _ => None end
      else match digit_value c with
           | Some d => scan s (10 * sofar + d) (option_map S places)
           | None => None
           end
  end.
(** The number without a sign, if the text is one. *)
Definition read_unsigned (s : string) : option R :=
  match scan s 0 None with
  | Some (n, places) => Some (IZR (Z.of_N n) / 10 ^ match places with Some k => k | None => 0%nat end)
  | None => None
  end.
(** The number of a text. *)
Definition read (s : string) : option R :=
  match s with
  | EmptyString => None
  | String c t => if (c =? "-")%char then option_map Ropp (read_unsigned t) else read_unsigned s
  end.
(** How many digits are behind the point. *)
Definition places (s : string) : option nat :=
  match scan (match s with String "-" t => t | _ => s end) 0 None with Some (_, p) => p | None => None end.
(** A character occurs in a text. *)
Definition has (c : ascii) (s : string) : Prop := In c (list_ascii_of_string s).
(** No newline and no carriage return. *)
Definition clean (s : string) : Prop := ~ has (ascii_of_nat 10) s /\ ~ has (ascii_of_nat 13) s.
Definition clean_amount (a : amount) : Prop := match a with Number _ => True | Special t => clean t end.
