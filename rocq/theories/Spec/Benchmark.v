(** What it means to run a function several times and to print a duration. *)
From Coq Require Import List Reals.
From Verif.Model Require Import Base.
From Verif.Model Require Benchmark.
Import ListNotations.
Local Open Scope R_scope.

(** Consecutive calls, all of which return: their values in order and the state
    after the last. *)
Inductive ran {S V} (f : S -> result V * S) : S -> list V -> S -> Prop :=
| ran_nil s : ran f s [] s
| ran_cons s v s1 vs s2 : f s = (Ok v, s1) -> ran f s1 vs s2 -> ran f s (v :: vs) s2.

(** Seconds in one unit. *)
Definition seconds_in (u : Benchmark.unit_name) : R :=
  match u with Benchmark.Seconds => 1 | Benchmark.Milliseconds => /1000 | Benchmark.Microseconds => /1000000 end.

(** The largest unit not longer than the duration, microseconds at least. *)
Definition readable (seconds : R) (u : Benchmark.unit_name) : Prop :=
  match u with
  | Benchmark.Seconds => 1 <= seconds
  | Benchmark.Milliseconds => /1000 <= seconds < 1
  | Benchmark.Microseconds => seconds < /1000
  end.

(** Durations of [n] runs that start at reading [k] of the clock. *)
Definition durations (clock : nat -> R) (k n : nat) : list R :=
  map (fun i => clock (k + 2 * i + 1)%nat - clock (k + 2 * i)%nat) (seq 0 n).

(** Sum. *)
Definition total (l : list R) : R := fold_right Rplus 0 l.
