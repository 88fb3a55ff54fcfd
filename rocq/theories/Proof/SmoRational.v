(** Training on rational data can be computed: a copy of the algorithm on rational
    numbers, and the proof that it agrees with the algorithm on the reals. *)
From Coq Require Import List ZArith QArith Qreals Qabs Qminmax Qreduction Reals Bool Arith Lra Lia.
From Verif.Model Require Import Base Ops Kernels Smo.
From Verif.Proof Require Import BaseLemmas.
Import ListNotations.
Local Open Scope R_scope.

Local Notation rows := (map (map Q2R)).
Local Notation vals := (map Q2R).

Definition Qltb (a b : Q) : bool := negb (Qle_bool b a).
Definition Qsum (l : list Q) : Q := fold_right (fun a b => Qred (Qplus a b)) 0%Q l.
Fixpoint Qdot (a b : list Q) : Q :=
  match a, b with u :: a', v :: b' => Qred (u * v + Qdot a' b')%Q | _, _ => 0%Q end.

Lemma ltb_ok a b : Rltb (Q2R a) (Q2R b) = Qltb a b.
Proof.
  unfold Rltb, Qltb. destruct (Rlt_dec (Q2R a) (Q2R b)) as [H|H]; destruct (Qle_bool b a) eqn:E; try reflexivity; exfalso.
  - apply Qle_bool_iff in E. apply Qle_Rle in E. lra.
  - apply H. apply Qlt_Rlt. apply Qnot_le_lt. intros L. apply Qle_bool_iff in L. congruence.
Qed.
Lemma leb_ok a b : Rleb (Q2R a) (Q2R b) = Qle_bool a b.
Proof.
  unfold Rleb. destruct (Rle_dec (Q2R a) (Q2R b)) as [H|H]; destruct (Qle_bool a b) eqn:E; try reflexivity; exfalso.
  - apply Rle_Qle in H. apply Qle_bool_iff in H. congruence.
  - apply Qle_bool_iff in E. apply Qle_Rle in E. contradiction.
Qed.
Lemma eqb_ok a b : Reqb (Q2R a) (Q2R b) = Qeq_bool a b.
Proof.
  unfold Reqb. destruct (Req_EM_T (Q2R a) (Q2R b)) as [H|H]; destruct (Qeq_bool a b) eqn:E; try reflexivity; exfalso.
  - apply eqR_Qeq in H. apply Qeq_bool_iff in H. congruence.
  - apply Qeq_bool_iff in E. apply Qeq_eqR in E. contradiction.
Qed.
Lemma red_ok a : Q2R (Qred a) = Q2R a. Proof. apply Qeq_eqR, Qred_correct. Qed.
Lemma max_ok a b : Q2R (Qmax a b) = Rmax (Q2R a) (Q2R b).
Proof.
  destruct (Q.max_spec a b) as [(L & E)|(L & E)]; rewrite (Qeq_eqR _ _ E); [apply Qlt_Rlt in L|apply Qle_Rle in L];
    unfold Rmax; destruct (Rle_dec _ _); lra.
Qed.
Lemma min_ok a b : Q2R (Qmin a b) = Rmin (Q2R a) (Q2R b).
Proof.
  destruct (Q.min_spec a b) as [(L & E)|(L & E)]; rewrite (Qeq_eqR _ _ E); [apply Qlt_Rlt in L|apply Qle_Rle in L];
    unfold Rmin; destruct (Rle_dec _ _); lra.
Qed.
Lemma abs_ok a : Q2R (Qabs a) = Rabs (Q2R a).
Proof.
  apply Qabs_case; intros H; apply Qle_Rle in H; rewrite RMicromega.Q2R_0 in H.
  - rewrite Rabs_right by lra. reflexivity.
  - rewrite Q2R_opp, Rabs_left1 by lra. reflexivity.
Qed.
Lemma zero_ok : Q2R 0 = 0. Proof. apply RMicromega.Q2R_0. Qed.
Lemma sum_ok l : rsum (vals l) = Q2R (Qsum l).
Proof. induction l as [|a l IH]; [symmetry; apply zero_ok|]. cbn [map Qsum fold_right]. rewrite red_ok, Q2R_plus. fold (Qsum l). rewrite <- IH. reflexivity. Qed.
Lemma dot_ok a : forall b, dot (vals a) (vals b) = Q2R (Qdot a b).
Proof.
  induction a as [|u a IH]; intros [|v b]; cbn [map dot Qdot]; try (symmetry; apply zero_ok).
  rewrite red_ok, Q2R_plus, Q2R_mult, IH. reflexivity.
Qed.
Lemma nth_ok l i : nth i (vals l) 0 = Q2R (nth i l 0%Q).
Proof. rewrite <- zero_ok. apply map_nth. Qed.
Lemma row_ok x i : nth i (rows x) [] = vals (nth i x []).
Proof. change (@nil R) with (vals []). apply map_nth. Qed.
Lemma set_ok l i v : set_nth (vals l) i (Q2R v) = vals (set_nth l i v).
Proof. revert i; induction l as [|a l IH]; intros [|i]; cbn; try reflexivity. rewrite IH. reflexivity. Qed.

Record qsmo := { qalphas : list Q; qnon_bound : list bool; qnon_zero : list bool; qcache : list Q; qbias : Q }.
Definition real (s : qsmo) : smo :=
  {| alphas := vals (qalphas s); non_bound := qnon_bound s; non_zero := qnon_zero s; error_cache := vals (qcache s); bias := Q2R (qbias s) |}.

Section Run.
Variable K : list R -> list R -> R.
Variable Kq : list Q -> list Q -> Q.
Hypothesis HK : forall a b, K (vals a) (vals b) = Q2R (Kq a b).
Variable x : list (list Q).
Variable y : list Q.
Variables C tol : Q.
Variable perms : nat -> list nat.
Let n := length x.

Definition qerror (i : nat) (al : list Q) (nz : list bool) (b : Q) : Q :=
  let fx := if existsb (fun f => f) nz
            then (Qsum (map (fun m => nth m al 0 * nth m y 0 * Kq (nth m x []) (nth i x [])) (nonzero nz)) + b)%Q else b in
  Qred (fx - nth i y 0%Q)%Q.
Lemma error_ok i al nz b : calculate_error K (rows x) (vals y) i (vals al) nz (Q2R b) = Q2R (qerror i al nz b).
Proof.
  unfold calculate_error, qerror. rewrite red_ok, Q2R_minus, nth_ok. f_equal. destruct (existsb _ nz); [|reflexivity].
  rewrite Q2R_plus. f_equal. rewrite <- sum_ok, map_map. f_equal. apply map_ext. intros m.
  rewrite !nth_ok, !row_ok, HK, !Q2R_mult. reflexivity.
Qed.

Definition qupdate_cache (al : list Q) (nb nz : list bool) (b : Q) (cache : list Q) : list Q :=
  fold_left (fun c k => set_nth c k (qerror k al nz b)) (nonzero nb) cache.
Lemma cache_ok al nb nz b cache :
  update_error_cache K (rows x) (vals y) (vals al) nb nz (Q2R b) (vals cache) = vals (qupdate_cache al nb nz b cache).
Proof.
  unfold update_error_cache, qupdate_cache. revert cache. induction (nonzero nb) as [|k l IH]; intros cache; [reflexivity|].
  cbn [fold_left]. rewrite error_ok, set_ok. apply IH.
Qed.

Definition qupdate (s : qsmo) (i j : nat) (error_i error_j : Q) : option qsmo :=
  if (i =? j)%nat then None else
  let ai := nth i (qalphas s) 0%Q in
  let aj := nth j (qalphas s) 0%Q in
  let yi := nth i y 0%Q in
  let yj := nth j y 0%Q in
  let low := if Qeq_bool yi yj then Qmax 0 (ai + aj - C) else Qmax 0 (aj - ai) in
  let high := if Qeq_bool yi yj then Qmin C (ai + aj) else Qmin C (C + aj - ai) in
  if Qeq_bool low high then None else
  let xi := nth i x [] in
  let xj := nth j x [] in
  let eta := Qred (Kq xi xi + Kq xj xj - inject_Z 2 * Kq xi xj)%Q in
  if Qle_bool eta 0 then None else
  let v := Qred (aj + yj * (error_i - error_j) / eta)%Q in
  let aj' := if Qltb high v then high else if Qltb v low then low else v in
  if Qltb (Qabs (aj' - aj)) (1 # 100000) then None else
  let ai' := Qred (ai + yi * yj * (aj - aj'))%Q in
  let b_i := (- error_i - yi * Kq xi xi * (ai' - ai) - yj * Kq xj xi * (aj' - aj) + qbias s)%Q in
  let b_j := (- error_j - yi * Kq xi xj * (ai' - ai) - yj * Kq xj xj * (aj' - aj) + qbias s)%Q in
  let b := Qred ((b_i + b_j) / inject_Z 2)%Q in
  let al := set_nth (set_nth (qalphas s) i ai') j aj' in
  Some {| qalphas := al;
          qnon_bound := set_nth (set_nth (qnon_bound s) i (Qltb 0 ai' && Qltb ai' C)) j (Qltb 0 aj' && Qltb aj' C);
          qnon_zero := set_nth (set_nth (qnon_zero s) i (Qltb 0 ai')) j (Qltb 0 aj');
          qcache := qupdate_cache al (qnon_bound s) (qnon_zero s) b (qcache s);
          qbias := b |}.

Lemma two_ok : Q2R (inject_Z 2) = 2. Proof. unfold Q2R. cbn. lra. Qed.
Lemma small_ok : Q2R (1 # 100000) = 1 / 100000. Proof. unfold Q2R. cbn. lra. Qed.
Lemma two_nz : ~ (inject_Z 2 == 0)%Q. Proof. discriminate. Qed.
Lemma if_ok (b : bool) p q : Q2R (if b then p else q) = if b then Q2R p else Q2R q. Proof. destruct b; reflexivity. Qed.

Lemma update_ok s i j ei ej :
  update_alpha K (rows x) (vals y) (Q2R C) (real s) i j (Q2R ei) (Q2R ej) = option_map real (qupdate s i j ei ej).
Proof.
  unfold update_alpha, qupdate. destruct (i =? j)%nat; [reflexivity|].
  cbn [real alphas non_bound non_zero error_cache bias]. cbv zeta. rewrite !nth_ok, !row_ok, !HK.
  set (ai := nth i (qalphas s) 0%Q). set (aj := nth j (qalphas s) 0%Q). set (yi := nth i y 0%Q). set (yj := nth j y 0%Q).
  rewrite eqb_ok.
  set (low := if Qeq_bool yi yj then Qmax 0 (ai + aj - C) else Qmax 0 (aj - ai)).
  set (high := if Qeq_bool yi yj then Qmin C (ai + aj) else Qmin C (C + aj - ai)).
  replace (if Qeq_bool yi yj then Rmax 0 (Q2R ai + Q2R aj - Q2R C) else Rmax 0 (Q2R aj - Q2R ai)) with (Q2R low)
    by (unfold low; rewrite if_ok, !max_ok, zero_ok, !Q2R_minus, Q2R_plus; reflexivity).
  replace (if Qeq_bool yi yj then Rmin (Q2R C) (Q2R ai + Q2R aj) else Rmin (Q2R C) (Q2R C + Q2R aj - Q2R ai)) with (Q2R high)
    by (unfold high; rewrite if_ok, !min_ok, !Q2R_minus, !Q2R_plus; reflexivity).
  rewrite eqb_ok. destruct (Qeq_bool low high); [reflexivity|].
  set (kii := Kq (nth i x []) (nth i x [])). set (kjj := Kq (nth j x []) (nth j x [])).
  set (kij := Kq (nth i x []) (nth j x [])). set (kji := Kq (nth j x []) (nth i x [])).
  set (eta := Qred (kii + kjj - inject_Z 2 * kij)%Q).
  replace (Q2R kii + Q2R kjj - 2 * Q2R kij) with (Q2R eta)
    by (unfold eta; rewrite red_ok, Q2R_minus, Q2R_plus, Q2R_mult, two_ok; reflexivity).
  rewrite <- zero_ok at 1. rewrite leb_ok. destruct (Qle_bool eta 0) eqn:E0; [reflexivity|].
  assert (Hn : ~ (eta == 0)%Q). { intros Z. assert (L : (eta <= 0)%Q) by (rewrite Z; apply Qle_refl). apply Qle_bool_iff in L. congruence. }
  set (v := Qred (aj + yj * (ei - ej) / eta)%Q).
  replace (Q2R aj + Q2R yj * (Q2R ei - Q2R ej) / Q2R eta) with (Q2R v)
    by (unfold v; rewrite red_ok, Q2R_plus, Q2R_div, Q2R_mult, Q2R_minus by exact Hn; reflexivity).
  unfold clip_alpha. rewrite !ltb_ok.
  set (aj' := if Qltb high v then high else if Qltb v low then low else v).
  replace (if Qltb high v then Q2R high else if Qltb v low then Q2R low else Q2R v) with (Q2R aj')
    by (unfold aj'; rewrite !if_ok; reflexivity).
  rewrite <- small_ok, <- Q2R_minus, <- abs_ok, ltb_ok. destruct (Qltb (Qabs (aj' - aj)) (1 # 100000)); [reflexivity|].
  set (ai' := Qred (ai + yi * yj * (aj - aj'))%Q).
  replace (Q2R ai + Q2R yi * Q2R yj * (Q2R aj - Q2R aj')) with (Q2R ai')
    by (unfold ai'; rewrite red_ok, Q2R_plus, !Q2R_mult, Q2R_minus; reflexivity).
  set (b := Qred ((- ei - yi * kii * (ai' - ai) - yj * kji * (aj' - aj) + qbias s + (- ej - yi * kij * (ai' - ai) - yj * kjj * (aj' - aj) + qbias s)) / inject_Z 2)%Q).
  match goal with |- context [update_error_cache _ _ _ _ _ _ ?e _] => replace e with (Q2R b) end.
  2:{ unfold b. rewrite red_ok, Q2R_div, two_ok by exact two_nz. repeat rewrite ?Q2R_plus, ?Q2R_minus, ?Q2R_mult, ?Q2R_opp. reflexivity. }
  cbn [option_map]. unfold real. cbn [qalphas qnon_bound qnon_zero qcache qbias].
  rewrite !set_ok, cache_ok. rewrite <- zero_ok at 1 2 3 4. rewrite !ltb_ok. reflexivity.
Qed.

Fixpoint qtry (s : qsmo) (i : nat) (ei : Q) (js : list nat) : option qsmo :=
  match js with
  | [] => None
  | j :: js' => match qupdate s i j ei (qerror j (qalphas s) (qnon_zero s) (qbias s)) with Some s' => Some s' | None => qtry s i ei js' end
  end.
Lemma try_ok s i ei js : try_pairs K (rows x) (vals y) (Q2R C) (real s) i (Q2R ei) js = option_map real (qtry s i ei js).
Proof.
  induction js as [|j js IH]; [reflexivity|]. cbn [try_pairs qtry]. cbn [alphas non_zero bias real]. rewrite error_ok.
  change {| alphas := vals (qalphas s); non_bound := qnon_bound s; non_zero := qnon_zero s; error_cache := vals (qcache s); bias := Q2R (qbias s) |} with (real s).
  rewrite update_ok. destruct (qupdate _ _ _ _ _); [reflexivity|]. exact IH.
Qed.

Definition qselect (e : Q) (cache : list Q) (nb : list bool) : result (nat * Q) :=
  let idx := nonzero nb in
  es <- mapM (get_at cache) idx ;;
  k <- argmin (fun a b => Qltb b a) (map (fun c => Qabs (e - c)) es) ;;
  i <- get_at idx k ;; c <- get_at cache i ;; Ok (i, c).
Lemma get_ok l i : get_at (vals l) i = match get_at l i with Ok a => Ok (Q2R a) | Err e => Err e end.
Proof. unfold get_at. rewrite nth_error_map. destruct (nth_error l i); reflexivity. Qed.
Lemma mapM_ok l idx : mapM (get_at (vals l)) idx = match mapM (get_at l) idx with Ok v => Ok (vals v) | Err e => Err e end.
Proof.
  induction idx as [|i idx IH]; [reflexivity|]. cbn [mapM]. rewrite get_ok. destruct (get_at l i); [|reflexivity].
  cbn [bind]. rewrite IH. destruct (mapM (get_at l) idx); reflexivity.
Qed.
Lemma argmin_ok l : argmin (fun a b => Rltb b a) (vals l) = argmin (fun a b => Qltb b a) l.
Proof.
  destruct l as [|a l]; [reflexivity|]. cbn [argmin map]. f_equal. generalize 0%nat, 1%nat. revert a.
  induction l as [|c l IH]; intros a ib i; [reflexivity|]. cbn [map argmin_from]. rewrite ltb_ok.
  destruct (Qltb a c); apply IH.
Qed.
Lemma select_ok e cache nb : select_second_alpha (Q2R e) (vals cache) nb =
  match qselect e cache nb with Ok (j, ej) => Ok (j, Q2R ej) | Err er => Err er end.
Proof.
  unfold select_second_alpha, qselect. rewrite mapM_ok. destruct (mapM (get_at cache) (nonzero nb)) as [es|]; [|reflexivity].
  cbn [bind]. rewrite map_map.
  rewrite (map_ext _ (fun c => Q2R (Qabs (e - c)))) by (intros c; rewrite abs_ok, Q2R_minus; reflexivity).
  rewrite <- (map_map (fun c => Qabs (e - c)) Q2R), argmin_ok. destruct (argmin _ _) as [k|]; [|reflexivity]. cbn [bind].
  destruct (get_at (nonzero nb) k); [|reflexivity]. cbn [bind]. rewrite get_ok. destruct (get_at cache a); reflexivity.
Qed.

Definition qparameters (sd : qsmo * nat) (i : nat) : qsmo * nat * bool :=
  let '(s, d) := sd in
  let a := nth i (qalphas s) 0%Q in
  let ei := if nth i (qnon_bound s) false then nth i (qcache s) 0%Q else qerror i (qalphas s) (qnon_zero s) (qbias s) in
  let r := (nth i y 0 * ei)%Q in
  if (Qltb r (- tol) && Qltb a C) || (Qltb tol r && Qltb 0 a) then
    let first := if existsb (fun f => f) (qnon_bound s) then
                   match qselect ei (qcache s) (qnon_bound s) with Ok (j, ej) => qupdate s i j ei ej | Err _ => None end
                 else None in
    match first with
    | Some s' => (s', d, true)
    | None => match qtry s i ei (perms d) with Some s' => (s', S d, true) | None => (s, S d, false) end
    end
  else (s, d, false).
Lemma parameters_ok s d i : update_parameters K (rows x) (vals y) (Q2R C) (Q2R tol) perms (real s, d) i =
  let '(s', d', b) := qparameters (s, d) i in (real s', d', b).
Proof.
  unfold update_parameters, qparameters. cbn [real alphas non_bound non_zero error_cache bias]. rewrite !nth_ok, error_ok.
  set (ei := if nth i (qnon_bound s) false then nth i (qcache s) 0%Q else qerror i (qalphas s) (qnon_zero s) (qbias s)).
  replace (if nth i (qnon_bound s) false then Q2R (nth i (qcache s) 0%Q) else Q2R (qerror i (qalphas s) (qnon_zero s) (qbias s)))
    with (Q2R ei) by (unfold ei; rewrite if_ok; reflexivity).
  rewrite <- Q2R_mult, <- Q2R_opp, !ltb_ok. rewrite <- zero_ok, ltb_ok.
  destruct (_ || _); [|reflexivity].
  change {| alphas := vals (qalphas s); non_bound := qnon_bound s; non_zero := qnon_zero s; error_cache := vals (qcache s); bias := Q2R (qbias s) |} with (real s).
  rewrite select_ok.
  set (first := if existsb (fun f : bool => f) (qnon_bound s) then
     match qselect ei (qcache s) (qnon_bound s) with Ok (j, ej) => qupdate s i j ei ej | Err _ => None end else None).
  match goal with |- context [match ?e with Some _ => _ | None => match try_pairs _ _ _ _ _ _ _ _ with _ => _ end end] =>
    replace e with (option_map real first) end.
  2:{ unfold first. destruct (existsb _ _); [|reflexivity]. destruct (qselect _ _ _) as [[j ej]|]; [|reflexivity]. symmetry. apply update_ok. }
  destruct first; [reflexivity|]. cbn [option_map]. rewrite try_ok. destruct (qtry s i ei (perms d)); reflexivity.
Qed.

Definition qpass (idx : list nat) (sd : qsmo * nat) : qsmo * nat * nat :=
  fold_left (fun acc i => let '(sd, k) := acc in let '(sd', changed) := qparameters sd i in
    (sd', if changed : bool then S k else k)) idx (sd, 0%nat).
Lemma pass_ok idx s d : pass K (rows x) (vals y) (Q2R C) (Q2R tol) perms idx (real s, d) =
  let '(s', d', k) := qpass idx (s, d) in (real s', d', k).
Proof.
  unfold pass, qpass. generalize 0%nat. revert s d. induction idx as [|i idx IH]; intros s d k; [reflexivity|].
  cbn [fold_left]. rewrite parameters_ok. destruct (qparameters (s, d) i) as [[s1 d1] b]. apply IH.
Qed.

Fixpoint qloop (fuel : nat) (epochs epoch : Z) (entire : bool) (sd : qsmo * nat) : result qsmo :=
  match fuel with
  | O => Err StopFuel
  | S fuel' =>
      if (epochs =? -1)%Z || (epoch <? epochs)%Z then
        let idx := if entire then seq 0 n else nonzero (qnon_bound (fst sd)) in
        let '(sd', changed) := qpass idx sd in
        if entire then
          if (changed =? 0)%nat then Ok (fst sd') else qloop fuel' epochs (epoch + 1) false sd'
        else qloop fuel' epochs (epoch + 1) (changed =? 0)%nat sd'
      else Ok (fst sd)
  end.
Lemma loop_ok fuel epochs : forall epoch entire s d,
  run_loop K (rows x) (vals y) (Q2R C) (Q2R tol) perms fuel epochs epoch entire (real s, d) =
  match qloop fuel epochs epoch entire (s, d) with Ok s' => Ok (real s') | Err e => Err e end.
Proof.
  induction fuel as [|fuel IH]; intros epoch entire s d; [reflexivity|]. cbn [run_loop qloop]. rewrite map_length. fold n.
  destruct (_ || _); [|reflexivity]. cbn [fst real non_bound].
  change {| alphas := vals (qalphas s); non_bound := qnon_bound s; non_zero := qnon_zero s; error_cache := vals (qcache s); bias := Q2R (qbias s) |} with (real s).
  rewrite pass_ok. destruct (qpass _ (s, d)) as [[s1 d1] k]. cbn [fst].
  destruct entire; [destruct (k =? 0)%nat; [reflexivity|]|]; apply IH.
Qed.

Definition qrun (fuel : nat) (epochs : Z) : result qsmo :=
  qloop fuel epochs 0 true ({| qalphas := repeat 0%Q n; qnon_bound := repeat false n; qnon_zero := repeat false n; qcache := repeat 0%Q n; qbias := 0%Q |}, 0%nat).
Lemma vals_repeat k : vals (repeat 0%Q k) = repeat 0 k.
Proof. induction k as [|k IH]; [reflexivity|]. cbn [repeat map]. rewrite IH, zero_ok. reflexivity. Qed.
Lemma run_ok fuel epochs : smo_run K (rows x) (vals y) (Q2R C) (Q2R tol) perms fuel epochs =
  match qrun fuel epochs with Ok s => Ok (real s) | Err e => Err e end.
Proof.
  unfold smo_run, qrun. rewrite <- loop_ok. f_equal. unfold real, smo_init. cbn [qalphas qnon_bound qnon_zero qcache qbias].
  rewrite map_length, !vals_repeat, zero_ok. reflexivity.
Qed.

(** The classifier and its decision. *)
Definition qsvc (s : qsmo) : svc :=
  {| support := nonzero (qnon_zero s); support_vector := map (fun m => vals (nth m x [])) (nonzero (qnon_zero s));
     support_alpha := vals (map (fun m => nth m (qalphas s) 0%Q) (nonzero (qnon_zero s)));
     support_y := vals (map (fun m => nth m y 0%Q) (nonzero (qnon_zero s))); svc_b := Q2R (qbias s) |}.
Lemma fit_ok fuel epochs s : qrun fuel epochs = Ok s ->
  svc_fit K (rows x) (vals y) (Q2R C) (Q2R tol) perms fuel epochs = Ok (qsvc s).
Proof.
  intros E. unfold svc_fit. rewrite run_ok, E. cbn [bind]. f_equal. unfold svc_of, qsvc, real. cbn [non_zero alphas bias].
  rewrite !map_map. f_equal; apply map_ext; intros m; [apply row_ok|apply nth_ok|apply nth_ok].
Qed.
Definition qdecision (s : qsmo) (q : list Q) : Q :=
  (Qsum (map (fun m => nth m (qalphas s) 0 * nth m y 0 * Kq q (nth m x []))%Q (nonzero (qnon_zero s))) + qbias s)%Q.
Lemma decision_ok s q : svc_decision K (qsvc s) (vals q) = Q2R (qdecision s q).
Proof.
  unfold svc_decision, qdecision, qsvc. cbn [support_alpha support_y support_vector svc_b]. rewrite Q2R_plus. f_equal.
  rewrite <- sum_ok, map_map. f_equal. induction (nonzero (qnon_zero s)) as [|m l IH]; [reflexivity|].
  cbn [map combine fst snd]. rewrite IH, HK, !Q2R_mult. reflexivity.
Qed.
Definition qpredict (s : qsmo) (q : list Q) : Z := if Qltb (qdecision s q) 0 then (-1)%Z else 1%Z.
Lemma predict_ok s q : svc_predict K (qsvc s) (vals q) = qpredict s q.
Proof. unfold svc_predict, qpredict. rewrite decision_ok. rewrite <- zero_ok at 1. rewrite ltb_ok. reflexivity. Qed.
End Run.

Lemma linear_ok a b : linear (vals a) (vals b) = Q2R (Qdot b a). Proof. apply dot_ok. Qed.

