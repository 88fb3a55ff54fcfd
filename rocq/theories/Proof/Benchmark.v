(** Proofs about the measuring decorators. *)
From Coq Require Import List Reals ZArith Bool Lia Lra.
From Verif.Model Require Import Base Benchmark.
From Verif.Spec Require Import Benchmark.
From Verif.Proof Require Import BaseLemmas.
Import ListNotations.
Local Open Scope R_scope.

Lemma Int_part_ge (k : Z) (r : R) : (k <= Int_part r)%Z <-> IZR k <= r.
Proof.
  destruct (base_Int_part r) as [A B]. split; intros H.
  - apply IZR_le in H. lra.
  - assert (IZR k < IZR (Int_part r + 1)) by (rewrite plus_IZR; lra). apply lt_IZR in H0. lia.
Qed.

Lemma truncate_ge (k : Z) (r : R) : (0 < k)%Z -> (k <= truncate r)%Z <-> IZR k <= r.
Proof.
  intros Hk. unfold truncate, Rleb. destruct (Rle_dec 0 r) as [H|H]; [apply Int_part_ge|].
  split; intros C.
  - assert (0 <= Int_part (- r))%Z by (apply Int_part_ge; lra). lia.
  - apply IZR_lt in Hk. lra.
Qed.

Lemma milliseconds_iff us : at_least_milliseconds us = true <-> 1000 <= us.
Proof.
  unfold at_least_milliseconds. rewrite Z.ltb_lt. rewrite <- (truncate_ge 1000 us) by lia.
  split; intros H.
  - pose proof (Z.mul_div_le (truncate us) 1000 ltac:(lia)). lia.
  - pose proof (Z.div_le_mono 1000 (truncate us) 1000 ltac:(lia) H). change (1000 / 1000)%Z with 1%Z in H0. lia.
Qed.

Lemma seconds_iff us : at_least_seconds us = true <-> 1000000 <= us.
Proof.
  unfold at_least_seconds. rewrite Z.ltb_lt, Z.div_div by lia. change (1000 * 1000)%Z with 1000000%Z.
  rewrite <- (truncate_ge 1000000 us) by lia. split; intros H.
  - pose proof (Z.mul_div_le (truncate us) 1000000 ltac:(lia)). lia.
  - pose proof (Z.div_le_mono 1000000 (truncate us) 1000000 ltac:(lia) H). change (1000000 / 1000000)%Z with 1%Z in H0. lia.
Qed.

Lemma single_shows a b : exists v u, single_line a b = Spent v u /\ v * seconds_in u = b - a /\ readable (b - a) u.
Proof.
  unfold single_line. set (t := (b - a) * 1000 * 1000).
  pose proof (seconds_iff t) as HS. pose proof (milliseconds_iff t) as HM.
  destruct (at_least_seconds t).
  - exists (t / 1000 / 1000), Seconds. destruct HS as [HS _]. specialize (HS eq_refl).
    split; [reflexivity|]. cbn [seconds_in readable]. unfold t in *. split; [field|lra].
  - assert (t < 1000000) by (apply Rnot_le_lt; intros C; apply HS in C; discriminate).
    destruct (at_least_milliseconds t).
    + exists (t / 1000), Milliseconds. destruct HM as [HM _]. specialize (HM eq_refl).
      split; [reflexivity|]. cbn [seconds_in readable]. unfold t in *. split; [field|lra].
    + assert (t < 1000) by (apply Rnot_le_lt; intros C; apply HM in C; discriminate).
      exists t, Microseconds. split; [reflexivity|]. cbn [seconds_in readable]. unfold t in *. split; [field|lra].
Qed.

Lemma fold_min_scale c l : 0 <= c -> forall x, fold_left Rmin (map (fun t => t * c) l) (x * c) = fold_left Rmin l x * c.
Proof.
  intros Hc. induction l as [|y l IH]; intros x; cbn; [reflexivity|].
  rewrite <- IH. f_equal. rewrite <- (Rmult_comm c x), <- (Rmult_comm c y), <- (Rmult_comm c (Rmin x y)).
  unfold Rmin. destruct (Rle_dec (c * x) (c * y)), (Rle_dec x y); try reflexivity.
  - nra.
  - exfalso. nra.
Qed.
Lemma fold_max_scale c l : 0 <= c -> forall x, fold_left Rmax (map (fun t => t * c) l) (x * c) = fold_left Rmax l x * c.
Proof.
  intros Hc. induction l as [|y l IH]; intros x; cbn; [reflexivity|].
  rewrite <- IH. f_equal. rewrite <- (Rmult_comm c x), <- (Rmult_comm c y), <- (Rmult_comm c (Rmax x y)).
  unfold Rmax. destruct (Rle_dec (c * x) (c * y)), (Rle_dec x y); try reflexivity.
  - nra.
  - exfalso. nra.
Qed.

Lemma rsum_scale c l : rsum (map (fun t => t * c) l) = rsum l * c.
Proof. induction l as [|y l IH]; cbn; [lra|]. unfold rsum in IH. rewrite IH. lra. Qed.
Lemma rmean_scale c l : rmean (map (fun t => t * c) l) = rmean l * c.
Proof. unfold rmean. rewrite rsum_scale, map_length. unfold Rdiv. ring. Qed.
Lemma rvar_scale c l : rvar (map (fun t => t * c) l) = rvar l * (c * c).
Proof.
  unfold rvar. rewrite map_map, rmean_scale.
  rewrite (map_ext _ (fun x => (x - rmean l) * (x - rmean l) * (c * c))).
  - rewrite <- (map_map (fun x => (x - rmean l) * (x - rmean l)) (fun y => y * (c * c))). apply rmean_scale.
  - intros x. ring.
Qed.

Lemma rvar_nn l : 0 <= rvar l.
Proof.
  unfold rvar, rmean at 1. destruct l as [|x l]; [unfold rsum; cbn; unfold Rdiv; rewrite Rmult_0_l; lra|].
  apply Rmult_le_pos.
  - generalize (rmean (x :: l)). intros m. induction (x :: l) as [|y t IH]; cbn; [lra|].
    unfold rsum in IH. pose proof (Rle_0_sqr (y - m)) as Q. unfold Rsqr in Q. lra.
  - apply Rlt_le, Rinv_0_lt_compat, lt_0_INR. rewrite map_length. cbn. lia.
Qed.

(** The printed summary of a non-empty list of durations. *)
Lemma summary_shows (x : R) l n :
  exists mean std mx mn u1 u2,
    summary_line (x :: l) n = Ok (Summary mean std mx mn u1 u2 u1 u1 n) /\
    mean * seconds_in u1 = rmean (x :: l) /\
    0 <= std /\ (std * seconds_in u2) * (std * seconds_in u2) = rvar (x :: l) /\
    mx * seconds_in u1 = rmax1 x l /\ mn * seconds_in u1 = rmin1 x l /\
    readable (rmax1 x l) u1 /\ u2 = (match u1 with Seconds => Milliseconds | _ => Microseconds end).
Proof.
  unfold summary_line.
  rewrite (map_ext (fun t : R => t * 1000 * 1000) (fun t => t * 1000000)) by (intros; ring).
  rewrite rmean_scale, rvar_scale. cbn [map np_min np_max bind]. unfold rmin1, rmax1.
  rewrite fold_min_scale, fold_max_scale by lra.
  fold (rmin1 x l). fold (rmax1 x l).
  rewrite sqrt_mult by (try apply rvar_nn; lra). rewrite sqrt_square by lra.
  set (mx := rmax1 x l). set (mn := rmin1 x l). set (sd := sqrt (rvar (x :: l))). set (m := rmean (x :: l)).
  assert (E : sd * sd = rvar (x :: l)) by (apply sqrt_sqrt, rvar_nn).
  assert (P : 0 <= sd) by apply sqrt_pos.
  pose proof (seconds_iff (mx * 1000000)) as HS. pose proof (milliseconds_iff (mx * 1000000)) as HM.
  destruct (at_least_seconds (mx * 1000000)).
  - destruct HS as [HS _]. specialize (HS eq_refl). do 6 eexists. split; [reflexivity|].
    cbn [seconds_in readable].
    split; [field|]. split; [lra|]. split; [rewrite <- E; field|]. split; [field|]. split; [field|]. split; [lra|reflexivity].
  - assert (mx * 1000000 < 1000000) by (apply Rnot_le_lt; intros C; apply HS in C; discriminate).
    destruct (at_least_milliseconds (mx * 1000000)).
    + destruct HM as [HM _]. specialize (HM eq_refl). do 6 eexists. split; [reflexivity|].
      cbn [seconds_in readable].
      split; [field|]. split; [lra|]. split; [rewrite <- E; field|]. split; [field|]. split; [field|]. split; [lra|reflexivity].
    + assert (mx * 1000000 < 1000) by (apply Rnot_le_lt; intros C; apply HM in C; discriminate).
      do 6 eexists. split; [reflexivity|]. cbn [seconds_in readable].
      split; [field|]. split; [lra|]. split; [rewrite <- E; field|]. split; [field|]. split; [field|]. split; [lra|reflexivity].
Qed.

Section Loop.
Context {S V : Type}.
Variable clock : nat -> R.
Variable f : S -> result V * S.

Lemma last_cons (l : list V) : forall a d, List.last (a :: l) d = List.last l a.
Proof.
  induction l as [|b l IH]; intros a d; [reflexivity|].
  change (List.last (a :: b :: l) d) with (List.last (b :: l) d). now rewrite !IH.
Qed.

Lemma durations_cons k n :
  durations clock k (Datatypes.S n) = (clock (k + 1)%nat - clock k) :: durations clock (k + 2) n.
Proof.
  unfold durations. cbn [seq map]. f_equal; [f_equal; f_equal; lia|].
  rewrite <- seq_shift, map_map. apply map_ext. intros i. f_equal; f_equal; lia.
Qed.

Lemma durations_length k n : length (durations clock k n) = n.
Proof. unfold durations. now rewrite map_length, seq_length. Qed.

Lemma measure_ok s vs s' : ran f s vs s' -> forall last spent k lg,
  measure clock f (length vs) last spent {| state := s; readings := k; log := lg |} =
  (Ok (match vs with [] => last | v :: t => Some (List.last t v) end, spent ++ durations clock k (length vs)),
   {| state := s'; readings := (k + 2 * length vs)%nat; log := lg |}).
Proof.
  induction 1 as [s|s v s1 vs s2 E H IH]; intros last spent k lg.
  - cbn. rewrite app_nil_r, Nat.add_0_r. reflexivity.
  - cbn [length measure readings state log]. rewrite E, IH. f_equal; [f_equal; f_equal|].
    + destruct vs as [|w vs]; [reflexivity|]. f_equal. symmetry. apply last_cons.
    + rewrite durations_cons, <- app_assoc. cbn [app]. do 2 f_equal; [|f_equal; lia].
      f_equal. f_equal. lia.
    + f_equal. cbn [length]. lia.
Qed.

Lemma measure_err s vs s' : ran f s vs s' -> forall e s'' m last spent k lg, f s' = (Err e, s'') ->
  measure clock f (length vs + Datatypes.S m) last spent {| state := s; readings := k; log := lg |} =
  (Err e, {| state := s''; readings := (k + 2 * length vs + 1)%nat; log := lg |}).
Proof.
  induction 1 as [s|s v s1 vs s2 E H IH]; intros e s'' m last spent k lg F.
  - cbn [length measure Nat.add readings state log]. rewrite F. do 2 f_equal. lia.
  - cbn [length measure Nat.add readings state log]. rewrite E, (IH _ _ _ _ _ _ _ F). do 2 f_equal. cbn. lia.
Qed.

(** Either all runs return or one of them raises. *)
Lemma ran_or_raise n : forall s,
  (exists vs s', ran f s vs s' /\ length vs = n) \/
  (exists vs s' e s'', ran f s vs s' /\ (length vs < n)%nat /\ f s' = (Err e, s'')).
Proof.
  induction n as [|n IH]; intros s.
  - left. exists [], s. split; [constructor|reflexivity].
  - destruct (f s) as [[v|e] s1] eqn:E.
    + destruct (IH s1) as [(vs & s' & H & L)|(vs & s' & e & s'' & H & L & F)].
      * left. exists (v :: vs), s'. split; [econstructor; eauto|cbn; lia].
      * right. exists (v :: vs), s', e, s''. split; [econstructor; eauto|]. split; [cbn; lia|exact F].
    + right. exists [], s, e, s1. split; [constructor|]. split; [cbn; lia|exact E].
Qed.
End Loop.
