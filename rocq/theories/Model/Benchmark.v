(** Model of the measuring decorators of classicML/benchmarks/wrapper_utils.py.

    The decorated function is called with the same arguments every time, so it
    is a function of the state it can see and change.  The arguments, the
    rounding of the printed numbers and the text around them are left out. *)
From Coq Require Import List Reals ZArith Bool.
From Verif.Model Require Import Base.
Import ListNotations.
Local Open Scope R_scope.

(** Units of the printed durations. (wrapper_utils.py 27, 29, 31). *)
Inductive unit_name := Seconds | Milliseconds | Microseconds.

(** One message of the logger, wrapper_utils.py 27, 29, 31, 54-56, 106. *)
Inductive line :=
| Spent (amount : R) (u : unit_name)
| Summary (mean std max min : R) (unit1 unit2 unit3 unit4 : unit_name) (runs : Z)
| Megabytes (amount : R).

(** Python's [int] of a float: towards zero. (wrapper_utils.py 26, 28). *)
Definition truncate (r : R) : Z := if Rleb 0 r then Int_part r else (- Int_part (- r))%Z.

(** wrapper_utils.py 26 and 40: [int(t) // 1000 // 1000 > 0]. *)
Definition at_least_seconds (us : R) : bool := (0 <? truncate us / 1000 / 1000)%Z.
(** wrapper_utils.py 28 and 46: [int(t) // 1000 > 0]. *)
Definition at_least_milliseconds (us : R) : bool := (0 <? truncate us / 1000)%Z.

(** wrapper_utils.py 23-31. *)
Definition single_line (start_time end_time : R) : line :=
  let t := (end_time - start_time) * 1000 * 1000 in
  if at_least_seconds t then Spent (t / 1000 / 1000) Seconds
  else if at_least_milliseconds t then Spent (t / 1000) Milliseconds
  else Spent t Microseconds.

(** wrapper_utils.py 32-56; [np.min] refuses an empty array. *)
Definition summary_line (spent : list R) (repeat : Z) : result line :=
  let ts := map (fun t => t * 1000 * 1000) spent in
  let mean := rmean ts in
  let std := sqrt (rvar ts) in
  mn <- np_min ts ;; mx <- np_max ts ;;
  Ok (if at_least_seconds mx
      then Summary (mean / (1000 * 1000)) (std / 1000) (mx / (1000 * 1000)) (mn / (1000 * 1000))
             Seconds Milliseconds Seconds Seconds repeat
      else if at_least_milliseconds mx
      then Summary (mean / 1000) std (mx / 1000) (mn / 1000) Milliseconds Microseconds Milliseconds Milliseconds repeat
      else Summary mean std mx mn Microseconds Microseconds Microseconds Microseconds repeat).

Section Wrappers.
(** What the decorated function can see and change, and what it returns. *)
Variables S V : Type.
(** Successive readings of [time.perf_counter] and of the memory used, in bytes. *)
Variable clock : nat -> R.
Variable memory : S -> R.

(** The state, the number of clock readings so far and the messages so far.
    (wrapper_utils.py 60-124). *)
Record world := { state : S; readings : nat; log : list line }.
(** A call returns or raises, and leaves a state in both cases. The argument [func]
    of wrapper_utils.py 71, 93, 112. *)
Definition function := S -> result V * S.

(** wrapper_utils.py 112-124 [timer]. *)
Definition timer (f : function) (w : world) : result V * world :=
  let start_time := clock (readings w) in
  match f (state w) with
  | (Err e, s) => (Err e, {| state := s; readings := 1 + readings w; log := log w |})
  | (Ok v, s) =>
      let end_time := clock (1 + readings w) in
      (Ok v, {| state := s; readings := 2 + readings w; log := log w ++ [single_line start_time end_time] |})
  end.

(** wrapper_utils.py 73-81: the loop, with the value of the last run and the
    durations so far. *)
Fixpoint measure (f : function) (n : nat) (last : option V) (spent : list R) (w : world)
  : result (option V * list R) * world :=
  match n with
  | O => (Ok (last, spent), w)
  | Datatypes.S m =>
      let start_time := clock (readings w) in
      match f (state w) with
      | (Err e, s) => (Err e, {| state := s; readings := 1 + readings w; log := log w |})
      | (Ok v, s) =>
          let end_time := clock (1 + readings w) in
          measure f m (Some v) (spent ++ [end_time - start_time])
            {| state := s; readings := 2 + readings w; log := log w |}
      end
  end.

(** wrapper_utils.py 60-90 [average_timer]: [range(repeat)] is empty for a
    negative number.  [None] is Python's None. *)
Definition average_timer (repeat : Z) (f : function) (w : world) : result (option V) * world :=
  match measure f (Z.to_nat repeat) None [] w with
  | (Err e, w') => (Err e, w')
  | (Ok (v, spent), w') =>
      match summary_line spent repeat with
      | Err e => (Err e, w')
      | Ok l => (Ok v, {| state := state w'; readings := readings w'; log := log w' ++ [l] |})
      end
  end.

(** wrapper_utils.py 93-109 [memory_monitor]. *)
Definition memory_monitor (f : function) (w : world) : result V * world :=
  match f (state w) with
  | (Err e, s) => (Err e, {| state := s; readings := readings w; log := log w |})
  | (Ok v, s) =>
      (Ok v, {| state := s; readings := readings w; log := log w ++ [Megabytes (memory s / 1024 / 1024)] |})
  end.
End Wrappers.
Arguments state {S} _. Arguments readings {S} _. Arguments log {S} _.
Arguments timer {S V} clock f w.
Arguments measure {S V} clock f n last spent w.
Arguments average_timer {S V} clock repeat f w.
Arguments memory_monitor {S V} memory f w.
