(** Vocabulary for the floating point statements. *)
From Coq Require Import List Reals ZArith Bool.
From Flocq Require Import Core.
From Verif.Model Require Import Base Float.
Import ListNotations.
Local Open Scope R_scope.

(** Formats with at least two bits and a larger exponent range; both numpy formats are. *)
Definition good (f : format) : Prop := (1 < prec f < emax f)%Z.
(** At least as precise. *)
Definition finer (f g : format) : Prop := (prec f <= prec g)%Z /\ (emax f <= emax g)%Z /\ good g.
(** A finite number of the format. *)
Definition fits (f : format) (x : R) : Prop :=
  generic_format radix2 (fexp f) x /\ Rabs x < bpow radix2 (emax f).
(** The relative error of one rounding and, below the normal numbers, the absolute one. *)
Definition unit_of (f : format) : R := bpow radix2 (- prec f).
Definition tiny_of (f : format) : R := / 2 * bpow radix2 (3 - emax f - prec f).

(** The number, when there is one. *)
Definition value (v : num) : R := match v with Num x => x | _ => 0 end.
(** A finite number at least zero, or plus infinity. *)
Definition not_negative (v : num) : Prop := (exists x, v = Num x /\ 0 <= x) \/ v = Inf false.
Definition prob (f : format) (v : num) : Prop := exists x, v = Num x /\ fits f x /\ 0 <= x <= 1.
Definition label (v : num) : Prop := v = Num 0 \/ v = Num 1.

(** What is asked of the library's exponential and logarithm before their final rounding. *)
Definition exp_ok (ex : R -> R) : Prop :=
  ex 0 = 1 /\ (forall x, 0 <= ex x) /\ forall x y, x <= y -> ex x <= ex y.
Definition log_ok (f : format) (lg : R -> R) : Prop :=
  forall x, fits f x -> 0 < x <= 1 -> exists r, make f (lg x) = Num r /\ r <= 0.

(** The sum of the multipliers with the signs of the labels. *)
Definition balance (y : list Z) (alphas : list R) : R :=
  rsum (map (fun q => IZR (fst q) * snd q) (combine y alphas)).
