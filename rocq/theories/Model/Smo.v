(** Model of classicML/backend/python/optimizers.py 869-1108
    [SequentialMinimalOptimization], ops.py 184-222 [calculate_error] and
    classicML/api/models/support_vector_machine/support_vector_classifier.py
    87-157.  Floats are exact reals; labels are reals (-1 and 1 in use); the
    kernel is a function of two vectors; [perms d] is the result of the [d]-th
    call of [np.random.permutation(number_of_sample)]. *)
From Coq Require Import List ZArith Reals Bool Arith.
From Verif.Model Require Import Base Ops.
Import ListNotations.
Local Open Scope R_scope.

(** optimizers.py 901-905: the fields that change during a run. *)
Record smo := { alphas : list R; non_bound : list bool; non_zero : list bool;
                error_cache : list R; bias : R }.

Section Run.
Variable K : list R -> list R -> R.
Variable x : list (list R).
Variable y : list R.
Variables C tol : R.
Variable perms : nat -> list nat.
Let n := length x.

(** ops.py 184-222 [calculate_error]. *)
Definition calculate_error (i : nat) (al : list R) (nz : list bool) (b : R) : R :=
  let fx := if existsb (fun f => f) nz
            then rsum (map (fun m => nth m al 0 * nth m y 0 * K (nth m x []) (nth i x [])) (nonzero nz)) + b
            else b in
  fx - nth i y 0.

(** optimizers.py 1090-1098 [_update_error_cache]. *)
Definition update_error_cache (al : list R) (nb nz : list bool) (b : R) (cache : list R) : list R :=
  fold_left (fun c k => set_nth c k (calculate_error k al nz b)) (nonzero nb) cache.

(** optimizers.py 1020-1088 [_update_alpha] with 1100-1108 [_update_alpha_cache];
    [None] is [False]. The error cache is refreshed before the flags are. *)
Definition update_alpha (s : smo) (i j : nat) (error_i error_j : R) : option smo :=
  if (i =? j)%nat then None else
  let ai := nth i (alphas s) 0 in
  let aj := nth j (alphas s) 0 in
  let yi := nth i y 0 in
  let yj := nth j y 0 in
  let low := if Reqb yi yj then Rmax 0 (ai + aj - C) else Rmax 0 (aj - ai) in
  let high := if Reqb yi yj then Rmin C (ai + aj) else Rmin C (C + aj - ai) in
  if Reqb low high then None else
  let xi := nth i x [] in
  let xj := nth j x [] in
  let eta := K xi xi + K xj xj - 2 * K xi xj in
  if Rleb eta 0 then None else
  let aj' := clip_alpha (aj + yj * (error_i - error_j) / eta) low high in
  if Rltb (Rabs (aj' - aj)) (1 / 100000) then None else
  let ai' := ai + yi * yj * (aj - aj') in
  let b_i := - error_i - yi * K xi xi * (ai' - ai) - yj * K xj xi * (aj' - aj) + bias s in
  let b_j := - error_j - yi * K xi xj * (ai' - ai) - yj * K xj xj * (aj' - aj) + bias s in
  let b := (b_i + b_j) / 2 in
  let al := set_nth (set_nth (alphas s) i ai') j aj' in
  let cache := update_error_cache al (non_bound s) (non_zero s) b (error_cache s) in
  Some {| alphas := al;
          non_bound := set_nth (set_nth (non_bound s) i (Rltb 0 ai' && Rltb ai' C)) j (Rltb 0 aj' && Rltb aj' C);
          non_zero := set_nth (set_nth (non_zero s) i (Rltb 0 ai')) j (Rltb 0 aj');
          error_cache := cache;
          bias := b |}.

(** optimizers.py 1013-1016: the first sample of the permutation that can be paired.
    *)
Fixpoint try_pairs (s : smo) (i : nat) (error_i : R) (js : list nat) : option smo :=
  match js with
  | [] => None
  | j :: js' =>
      match update_alpha s i j error_i (calculate_error j (alphas s) (non_zero s) (bias s)) with
      | Some s' => Some s'
      | None => try_pairs s i error_i js'
      end
  end.

(** optimizers.py 980-1018 [_update_parameters]; [d] counts the permutations drawn
    so far. [select_second_alpha] does not fail here because a flag is set. *)
Definition update_parameters (sd : smo * nat) (i : nat) : smo * nat * bool :=
  let '(s, d) := sd in
  let alpha_i := nth i (alphas s) 0 in
  let error_i := if nth i (non_bound s) false then nth i (error_cache s) 0
                 else calculate_error i (alphas s) (non_zero s) (bias s) in
  let r := nth i y 0 * error_i in
  if (Rltb r (- tol) && Rltb alpha_i C) || (Rltb tol r && Rltb 0 alpha_i) then
    let first := if existsb (fun f => f) (non_bound s) then
                   match select_second_alpha error_i (error_cache s) (non_bound s) with
                   | Ok (j, error_j) => update_alpha s i j error_i error_j
                   | Err _ => None
                   end
                 else None in
    match first with
    | Some s' => (s', d, true)
    | None =>
        match try_pairs s i error_i (perms d) with
        | Some s' => (s', S d, true)
        | None => (s, S d, false)
        end
    end
  else (s, d, false).

(** optimizers.py 950-956: one pass over the given samples, counting updates. *)
Definition pass (idx : list nat) (sd : smo * nat) : smo * nat * nat :=
  fold_left (fun acc i =>
    let '(sd, k) := acc in
    let '(sd', changed) := update_parameters sd i in
    (sd', if changed : bool then S k else k)) idx (sd, 0%nat).

(** optimizers.py 946-978: the training loop; [epochs = -1] means no limit, so the
    model takes fuel and reports [StopFuel] when it runs out. *)
Fixpoint run_loop (fuel : nat) (epochs epoch : Z) (entire : bool) (sd : smo * nat) : result smo :=
  match fuel with
  | O => Err StopFuel
  | S fuel' =>
      if (epochs =? -1)%Z || (epoch <? epochs)%Z then
        let idx := if entire then seq 0 n else nonzero (non_bound (fst sd)) in
        let '(sd', changed) := pass idx sd in
        if entire then
          if (changed =? 0)%nat then Ok (fst sd')
          else run_loop fuel' epochs (epoch + 1) false sd'
        else run_loop fuel' epochs (epoch + 1) (changed =? 0)%nat sd'
      else Ok (fst sd)
  end.

(** optimizers.py 933-944: the initial state. *)
Definition smo_init : smo :=
  {| alphas := repeat 0 n; non_bound := repeat false n; non_zero := repeat false n;
     error_cache := repeat 0 n; bias := 0 |}.

(** The same loop: the number of permutations drawn when it ends (optimizers.py
    946-978, 1013). *)
Fixpoint run_draws (fuel : nat) (epochs epoch : Z) (entire : bool) (sd : smo * nat) : nat :=
  match fuel with
  | O => snd sd
  | S fuel' =>
      if (epochs =? -1)%Z || (epoch <? epochs)%Z then
        let idx := if entire then seq 0 n else nonzero (non_bound (fst sd)) in
        let '(sd', changed) := pass idx sd in
        if entire then
          if (changed =? 0)%nat then snd sd'
          else run_draws fuel' epochs (epoch + 1) false sd'
        else run_draws fuel' epochs (epoch + 1) (changed =? 0)%nat sd'
      else snd sd
  end.
(** optimizers.py 912-978. *)
Definition smo_draws (fuel : nat) (epochs : Z) : nat := run_draws fuel epochs 0 true (smo_init, 0%nat).
(** optimizers.py 912-978 [run]. *)
Definition smo_run (fuel : nat) (epochs : Z) : result smo := run_loop fuel epochs 0 true (smo_init, 0%nat).
End Run.

(** What [run] returns (optimizers.py 962-967, 973-978) and
    support_vector_classifier.py keeps (120-121). *)
Record svc := { support : list nat; support_vector : list (list R); support_alpha : list R;
                support_y : list R; svc_b : R }.

(** optimizers.py 962-967, 973-978. *)
Definition svc_of (x : list (list R)) (y : list R) (s : smo) : svc :=
  let idx := nonzero (non_zero s) in
  {| support := idx; support_vector := map (fun m => nth m x []) idx;
     support_alpha := map (fun m => nth m (alphas s) 0) idx;
     support_y := map (fun m => nth m y 0) idx; svc_b := bias s |}.

(** support_vector_classifier.py 119-124 of [fit] (92-126); the resolution of
    [gamma] and of the kernel (110-117) is modelled in Svc.v. *)
Definition svc_fit (K : list R -> list R -> R) (x : list (list R)) (y : list R) (C tol : R)
  (perms : nat -> list nat) (fuel : nat) (epochs : Z) : result svc :=
  s <- smo_run K x y C tol perms fuel epochs ;; Ok (svc_of x y s).

(** support_vector_classifier.py 149-150 of [predict] (128-154), one row. *)
Definition svc_decision (K : list R -> list R -> R) (m : svc) (q : list R) : R :=
  rsum (map (fun p => fst (fst p) * snd (fst p) * K q (snd p))
            (combine (combine (support_alpha m) (support_y m)) (support_vector m))) + svc_b m.
(** support_vector_classifier.py 146, 151-152, one row. *)
Definition svc_predict (K : list R -> list R -> R) (m : svc) (q : list R) : Z :=
  if Rltb (svc_decision K m q) 0 then (-1)%Z else 1%Z.
