(** C79: the measuring decorators do not change what they measure. *)
From Coq Require Import List Reals ZArith Bool Lia Lra.
From Verif.Model Require Import Base Benchmark.
From Verif.Spec Require Import Benchmark.
From Verif.Proof Require Import BaseLemmas Benchmark.
Import ListNotations.
Local Open Scope R_scope.

(** [timer]: the value, the exception and the state are those of the function;
    one message follows a return and none an exception, and the message gives
    the time between the readings around the call in the largest unit that
    fits. *)
Theorem C79_timer {S V} (clock : nat -> R) (f : S -> result V * S) w :
  fst (timer clock f w) = fst (f (state w)) /\ state (snd (timer clock f w)) = snd (f (state w)) /\
  match fst (f (state w)) with
  | Ok _ => exists v u, log (snd (timer clock f w)) = log w ++ [Spent v u] /\
      v * seconds_in u = clock (readings w + 1)%nat - clock (readings w) /\
      readable (clock (readings w + 1)%nat - clock (readings w)) u
  | Err _ => log (snd (timer clock f w)) = log w
  end.
Proof.
  unfold timer. destruct (f (state w)) as [[v|e] s]; cbn [fst snd state log]; [|auto].
  split; [reflexivity|]. split; [reflexivity|].
  replace (1 + readings w)%nat with (readings w + 1)%nat by lia.
  destruct (single_shows (clock (readings w)) (clock (readings w + 1)%nat)) as (a & u & E & A & B).
  exists a, u. now rewrite E.
Qed.
Print Assumptions C79_timer.

(** [memory_monitor] likewise; the message follows the call. *)
Theorem C79_memory_monitor {S V} (memory : S -> R) (f : S -> result V * S) w :
  fst (memory_monitor memory f w) = fst (f (state w)) /\
  state (snd (memory_monitor memory f w)) = snd (f (state w)) /\
  match fst (f (state w)) with
  | Ok _ => exists mb, log (snd (memory_monitor memory f w)) = log w ++ [Megabytes mb] /\
      mb * 1048576 = memory (snd (f (state w)))
  | Err _ => log (snd (memory_monitor memory f w)) = log w
  end.
Proof.
  unfold memory_monitor. destruct (f (state w)) as [[v|e] s]; cbn [fst snd state log]; [|auto].
  split; [reflexivity|]. split; [reflexivity|]. eexists. split; [reflexivity|]. field.
Qed.
Print Assumptions C79_memory_monitor.

(** [average_timer] with a positive number runs the function exactly that many
    times one after the other, returns the last value and adds one message with
    the number of runs, the mean, the standard deviation, the longest and the
    shortest time, each in the unit printed beside it. *)
Theorem C79_average_timer {S V} (clock : nat -> R) (f : S -> result V * S) w vs v s' :
  ran f (state w) (vs ++ [v]) s' ->
  let n := length (vs ++ [v]) in
  let ts := durations clock (readings w) n in
  exists mean std mx mn u1 u2,
    average_timer clock (Z.of_nat n) f w =
      (Ok (Some v), {| state := s'; readings := (readings w + 2 * n)%nat;
                       log := log w ++ [Summary mean std mx mn u1 u2 u1 u1 (Z.of_nat n)] |}) /\
    INR n * (mean * seconds_in u1) = total ts /\
    0 <= std /\
    INR n * ((std * seconds_in u2) * (std * seconds_in u2)) =
      total (map (fun t => (t - mean * seconds_in u1) * (t - mean * seconds_in u1)) ts) /\
    (In (mx * seconds_in u1) ts /\ forall t, In t ts -> t <= mx * seconds_in u1) /\
    (In (mn * seconds_in u1) ts /\ forall t, In t ts -> mn * seconds_in u1 <= t) /\
    readable (mx * seconds_in u1) u1 /\
    u2 = (match u1 with Seconds => Milliseconds | _ => Microseconds end).
Proof.
  intros H n ts. destruct w as [s k lg]. cbn [state readings log] in *.
  unfold average_timer. rewrite Nat2Z.id.
  pose proof (measure_ok clock f _ _ _ H None [] k lg) as M. fold n in M. rewrite M. cbn [app].
  assert (L : match vs ++ [v] with [] => None | a :: t => Some (List.last t a) end = Some v).
  { destruct vs as [|a vs]; [reflexivity|]. cbn [app]. now rewrite last_last. }
  rewrite L. fold ts.
  assert (Hn : length ts = n) by apply durations_length.
  assert (n <> 0%nat) by (unfold n; rewrite app_length; cbn; lia).
  destruct ts as [|x l] eqn:E; [cbn in Hn; congruence|].
  destruct (summary_shows x l (Z.of_nat n)) as (mean & std & mx & mn & u1 & u2 & F & A & B & C & D & G & I & J).
  rewrite F. exists mean, std, mx, mn, u1, u2. split; [reflexivity|].
  assert (P : INR n <> 0) by (apply not_0_INR; assumption).
  rewrite C, D, G, A.
  split; [unfold rmean; rewrite Hn; unfold rsum, total; field; exact P|]. split; [exact B|].
  split; [unfold rvar, rmean at 1; rewrite map_length, Hn; unfold rsum, total; field; exact P|].
  split; [split; [apply rmax1_In|apply rmax1_ge]|]. split; [split; [apply rmin1_In|apply rmin1_le]|]. auto.
Qed.
Print Assumptions C79_average_timer.

(** When a run raises, the exception comes out at once, no further run is made
    and nothing is reported, not even the runs before. *)
Theorem C79_average_timer_raises {S V} (clock : nat -> R) (f : S -> result V * S) w vs s' e s'' n :
  ran f (state w) vs s' -> f s' = (Err e, s'') -> (Z.of_nat (length vs) < n)%Z ->
  average_timer clock n f w =
    (Err e, {| state := s''; readings := (readings w + 2 * length vs + 1)%nat; log := log w |}).
Proof.
  intros H F L. destruct w as [s k lg]. cbn [state readings log] in *. unfold average_timer.
  replace (Z.to_nat n) with (length vs + Datatypes.S (Z.to_nat n - length vs - 1))%nat by lia.
  rewrite (measure_err clock f _ _ _ H e s''); [reflexivity|exact F].
Qed.
Print Assumptions C79_average_timer_raises.

(** These are all cases: with a positive number either every run returns or one
    raises. *)
Theorem C79_average_timer_cases {S V} (f : S -> result V * S) s n : (0 < n)%nat ->
  (exists vs v s', ran f s (vs ++ [v]) s' /\ length (vs ++ [v]) = n) \/
  (exists vs s' e s'', ran f s vs s' /\ f s' = (Err e, s'') /\ (length vs < n)%nat).
Proof.
  intros Hn. destruct (ran_or_raise f n s) as [(vs & s' & H & L)|(vs & s' & e & s'' & H & L & F)].
  - left. destruct (exists_last (l := vs)) as (us & v & E); [intros ->; cbn in L; lia|]. subst vs. eauto.
  - right. eauto 8.
Qed.
Print Assumptions C79_average_timer_cases.

(** With zero or a negative number the function is never called and the summary
    of no runs raises ValueError. *)
Theorem C79_no_runs {S V} (clock : nat -> R) (f : S -> result V * S) w n : (n <= 0)%Z ->
  average_timer clock n f w = (Err ValueError, w).
Proof.
  intros H. unfold average_timer. replace (Z.to_nat n) with 0%nat by lia. destruct w. reflexivity.
Qed.
Print Assumptions C79_no_runs.

(** A function that counts its calls and fails at the fourth. *)
Definition counting (s : nat) : result nat * nat := if (s <? 3)%nat then (Ok (10 + s)%nat, Datatypes.S s) else (Err KeyError, s).
Example C79_ex_runs : ran counting 0%nat ([10; 11] ++ [12])%nat 3%nat /\ counting 3%nat = (Err KeyError, 3%nat).
Proof. split; [|reflexivity]. cbn [app]. repeat (econstructor; [reflexivity|]). constructor. Qed.
Example C79_ex_timer : exists v u, fst (timer (fun k => INR k / 100) counting {| state := 1%nat; readings := 0; log := [] |}) = Ok 11%nat /\
  log (snd (timer (fun k => INR k / 100) counting {| state := 1%nat; readings := 0; log := [] |})) = [Spent v u] /\
  v = 10 /\ u = Milliseconds.
Proof.
  destruct (C79_timer (fun k => INR k / 100) counting {| state := 1%nat; readings := 0; log := [] |}) as (A & B & v & u & C & D & E).
  exists v, u. split; [exact A|]. split; [exact C|]. cbn [readings Nat.add INR] in *.
  destruct u; cbn [seconds_in readable] in *; split; try reflexivity; exfalso + idtac; lra.
Qed.
