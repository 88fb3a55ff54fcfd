(** Lemmas on the permutations that the training of the support vector classifier
    draws (C91). *)
From Coq Require Import List ZArith Reals Lia Bool Arith.
From Verif.Model Require Import Base Ops Smo Training Life Svc.
Import ListNotations.

Section Draws.
Variable K : list R -> list R -> R.
Variable x : list (list R).
Variable y : list R.
Variable C tol : R.
Variables perms perms' : nat -> list nat.
Local Notation up p := (update_parameters K x y C tol p).
Local Notation pass p := (pass K x y C tol p).
Local Notation run_loop p := (run_loop K x y C tol p).
Local Notation run_draws p := (run_draws K x y C tol p).

Lemma up_counts p s d i s' d' b : up p (s, d) i = (s', d', b) -> (d <= d' <= S d)%nat.
Proof.
  unfold update_parameters. cbn zeta. destruct (_ || _); [|intros H; injection H as <- <- <-; lia].
  destruct (if existsb _ _ then _ else None); [intros H; injection H as <- <- <-; lia|].
  destruct (try_pairs _ _ _ _ _ _ _ _); intros H; injection H as <- <- <-; lia.
Qed.
Lemma up_agree s d i s' d' b : up perms (s, d) i = (s', d', b) -> (forall k, (k < d')%nat -> perms k = perms' k) -> up perms' (s, d) i = (s', d', b).
Proof.
  unfold update_parameters. cbn zeta. destruct (_ || _); [|auto].
  destruct (if existsb _ _ then _ else None); [auto|]. intros H A.
  assert (E : perms d = perms' d). { apply A. destruct (try_pairs K x y C s i _ (perms d)); injection H as <- <- <-; lia. }
  rewrite <- E. exact H.
Qed.
Lemma pass_from p idx s d k s' d' k' :
  fold_left (fun acc i => let '(sd, k) := acc in let '(sd', changed) := up p sd i in (sd', if changed : bool then S k else k)) idx (s, d, k) = (s', d', k') ->
  (d <= d' <= d + length idx)%nat.
Proof.
  revert s d k. induction idx as [|i idx IH]; intros s d k H; cbn [fold_left] in H; [injection H as <- <- <-; cbn; lia|].
  destruct (up p (s, d) i) as [[s1 d1] b] eqn:E. apply up_counts in E. apply IH in H. cbn [length]. lia.
Qed.
Lemma pass_counts p idx s d s' d' k : pass p idx (s, d) = (s', d', k) -> (d <= d' <= d + length idx)%nat.
Proof. apply pass_from. Qed.
Lemma pass_agree idx s d s' d' k' : pass perms idx (s, d) = (s', d', k') -> (forall k, (k < d')%nat -> perms k = perms' k) -> pass perms' idx (s, d) = (s', d', k').
Proof.
  unfold Smo.pass. generalize 0%nat as k. revert s d. induction idx as [|i idx IH]; intros s d k H A; cbn [fold_left] in *; [exact H|].
  destruct (up perms (s, d) i) as [[s1 d1] b] eqn:E. pose proof (pass_from _ _ _ _ _ _ _ _ H) as L.
  rewrite (up_agree _ _ _ _ _ _ E) by (intros j Hj; apply A; lia). now apply IH.
Qed.
Lemma loop_counts p fuel : forall epochs epoch entire s d, (d <= run_draws p fuel epochs epoch entire (s, d))%nat.
Proof.
  induction fuel as [|fuel IH]; intros epochs epoch entire s d; cbn [Smo.run_draws snd fst]; [lia|].
  destruct (_ || _); [|lia]. destruct (pass p _ (s, d)) as [[s1 d1] k] eqn:E. apply pass_counts in E.
  destruct entire; [destruct (k =? 0)%nat; cbn [snd]; [lia|]|]; (etransitivity; [|apply IH]); lia.
Qed.
Lemma loop_agree fuel : forall epochs epoch entire s d,
  (forall k, (k < run_draws perms fuel epochs epoch entire (s, d))%nat -> perms k = perms' k) ->
  run_loop perms' fuel epochs epoch entire (s, d) = run_loop perms fuel epochs epoch entire (s, d) /\
  run_draws perms' fuel epochs epoch entire (s, d) = run_draws perms fuel epochs epoch entire (s, d).
Proof.
  induction fuel as [|fuel IH]; intros epochs epoch entire s d A; cbn [Smo.run_draws Smo.run_loop snd fst] in *; [auto|].
  destruct (_ || _); [|auto]. set (idx := if entire then _ else _) in *.
  destruct (pass perms idx (s, d)) as [[s1 d1] k] eqn:E.
  assert (E' : pass perms' idx (s, d) = (s1, d1, k)).
  { apply (pass_agree _ _ _ _ _ _ E). intros j Hj. apply A. destruct entire; [destruct (k =? 0)%nat; cbn [snd]; [exact Hj|]|];
      (eapply Nat.lt_le_trans; [exact Hj|apply loop_counts]). }
  rewrite E'. destruct entire; [destruct (k =? 0)%nat; [auto|]|]; now apply IH.
Qed.
End Draws.

Lemma fit_agree d x y perms perms' fuel epochs o :
  (forall k, (k < draws d x y perms fuel epochs o)%nat -> perms k = perms' k) ->
  fit d x y perms' fuel epochs o = fit d x y perms fuel epochs o /\ draws d x y perms' fuel epochs o = draws d x y perms fuel epochs o.
Proof.
  unfold draws, fit. destruct (resolve_gamma d x (the_gamma o)) as [g|e]; cbn [bind]; [|auto]. cbn [the_kernel].
  destruct (get_kernel (the_kernel o) (coefficient g)) as [k|e]; cbn [bind]; [|auto].
  destruct (kernel_fun (kind k)) as [K|e]; cbn [bind]; [|auto]. intros A.
  unfold svc_fit, smo_run, smo_draws in *. destruct (loop_agree K x y (the_C o) (the_tol o) perms perms' _ _ _ _ _ _ A) as [E1 E2]. rewrite E1, E2. auto.
Qed.
