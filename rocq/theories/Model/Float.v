(** Floating point numbers of numpy: rounding, overflow, infinities and NaN. The
    other model files compute with exact reals; this file and FloatOps.v give the
    floating point reading of selected functions. A format is the number of digits
    and the smallest exponent (framework/dtypes.py 10-17 names the two formats of
    classicML). Signed zeros are not told apart. *)
From Coq Require Import List Reals ZArith Bool.
From Flocq Require Import Core.
From Verif.Model Require Import Base.
Import ListNotations.
Local Open Scope R_scope.

(** (framework/dtypes.py 10-17). *)
Record format := { prec : Z; emax : Z }.
(** framework/dtypes.py 10-12: numpy's float32. *)
Definition f32 : format := {| prec := 24; emax := 128 |}.
(** framework/dtypes.py 15-17: numpy's float64. *)
Definition f64 : format := {| prec := 53; emax := 1024 |}.

(** The exponents of a format (framework/dtypes.py 10-17), with gradual underflow.
    *)
Definition fexp (f : format) : Z -> Z := FLT_exp (3 - emax f - prec f) (prec f).
(** Rounding to nearest, ties to even (framework/dtypes.py 10-17). *)
Definition rnd (f : format) (x : R) : R := round radix2 (fexp f) ZnearestE x.

(** A number of a format, an infinity or NaN (framework/dtypes.py 10-17). *)
Inductive num := Num (r : R) | Inf (negative : bool) | NaN.

(** The number stored for an exact result: rounded, infinite beyond the range.
    (framework/dtypes.py 10-17). *)
Definition make (f : format) (x : R) : num :=
  let q := rnd f x in
  if Rltb (Rabs q) (bpow radix2 (emax f)) then Num q else Inf (Rltb q 0).

(** [a + b] (numpy's addition, e.g. preprocessing.py 253). *)
Definition fadd (f : format) (a b : num) : num :=
  match a, b with
  | NaN, _ | _, NaN => NaN
  | Num x, Num y => make f (x + y)
  | Inf s, Num _ => Inf s
  | Num _, Inf s => Inf s
  | Inf s, Inf s' => if Bool.eqb s s' then Inf s else NaN
  end.
(** [-a] (numpy's negation, e.g. activations.py 88). *)
Definition fneg (a : num) : num :=
  match a with Num x => Num (- x) | Inf s => Inf (negb s) | NaN => NaN end.
(** [a - b] (numpy's subtraction, e.g. preprocessing.py 239). *)
Definition fsub (f : format) (a b : num) : num := fadd f a (fneg b).
(** [a * b] (numpy's multiplication, e.g. preprocessing.py 253). *)
Definition fmul (f : format) (a b : num) : num :=
  match a, b with
  | NaN, _ | _, NaN => NaN
  | Num x, Num y => make f (x * y)
  | Inf s, Num y => if Reqb y 0 then NaN else Inf (xorb s (Rltb y 0))
  | Num x, Inf s => if Reqb x 0 then NaN else Inf (xorb s (Rltb x 0))
  | Inf s, Inf s' => Inf (xorb s s')
  end.
(** [a / b] (numpy's division, e.g. preprocessing.py 239). *)
Definition fdiv (f : format) (a b : num) : num :=
  match a, b with
  | NaN, _ | _, NaN => NaN
  | Num x, Num y => if Reqb y 0 then (if Reqb x 0 then NaN else Inf (Rltb x 0)) else make f (x / y)
  | Inf s, Num y => Inf (xorb s (Rltb y 0))
  | Num _, Inf _ => Num 0
  | Inf _, Inf _ => NaN
  end.
(** [a < b]; false with NaN. (e.g. metrics.py 92). *)
Definition flt (a b : num) : bool :=
  match a, b with
  | NaN, _ | _, NaN => false
  | Num x, Num y => Rltb x y
  | Inf s, Num _ => s
  | Num _, Inf s => negb s
  | Inf s, Inf s' => s && negb s'
  end.
(** [a == b]; false with NaN. (e.g. metrics.py 92, ops.py 544). *)
Definition feq (a b : num) : bool :=
  match a, b with
  | Num x, Num y => Reqb x y
  | Inf s, Inf s' => Bool.eqb s s'
  | _, _ => false
  end.

(** A function of the mathematical library applied to a float: [ex] is what it
    computes before the final rounding. (activations.py 88, 131). *)
Definition fexp_of (f : format) (ex : R -> R) (a : num) : num :=
  match a with
  | Num x => make f (ex x)
  | Inf true => Num 0
  | Inf false => Inf false
  | NaN => NaN
  end.
(** [np.log]: minus infinity at 0, NaN below. *)
Definition flog (f : format) (lg : R -> R) (a : num) : num :=
  match a with
  | Num x => if Rltb x 0 then NaN else if Reqb x 0 then Inf true else make f (lg x)
  | Inf true => NaN
  | Inf false => Inf false
  | NaN => NaN
  end.
