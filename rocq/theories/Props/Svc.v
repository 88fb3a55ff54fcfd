(** C88 and C89: the kernel coefficient of the support vector classifier, and what
    its training depends on. *)
From Coq Require Import List ZArith Reals Lra Lia Permutation String.
From Verif.Model Require Import Base Kernels Smo Training Life Svc.
From Verif.Spec Require Import Common Smo Svc.
From Verif.Proof Require Import Svc SvcSym SvcShift.
Import ListNotations.
Local Open Scope R_scope.
Local Notation length := List.length.

(** ** C88 *)
Theorem C88_first_fit : forall d x y perms fuel epochs C s g tol o c K,
  coefficient_for d x g c -> named_kernel c s K ->
  let '(o', r) := fit d x y perms fuel epochs (compile C (ByName s) g tol o) in
  the_gamma o' = Coefficient c /\
  match svc_fit K x y C tol perms fuel epochs with
  | Ok m => r = None /\ model o' = Some m /\ forall q, predict o' q = Ok (svc_predict K m q)
  | Err e => r = Some e /\ model o' = model o /\ trained o' = trained o
  end.
Proof. exact first_fit. Qed.
Print Assumptions C88_first_fit.

Theorem C88_coefficient_positive : forall d x g c, coefficient_for d x g c -> (forall r, g <> Coefficient r) -> 0 < c.
Proof. exact coefficient_positive. Qed.
Print Assumptions C88_coefficient_positive.

Theorem C88_no_coefficient : forall d x y perms fuel epochs C k tol o,
  (d = 0%nat -> fit d x y perms fuel epochs (compile C k Auto tol o) = (compile C k Auto tol o, Some ZeroDivisionError)) /\
  (List.concat x <> [] -> (forall a b, In a (List.concat x) -> In b (List.concat x) -> a = b) ->
   fit d x y perms fuel epochs (compile C k Scale tol o) = (compile C k Scale tol o, Some NotANumber)).
Proof. exact no_coefficient. Qed.
Print Assumptions C88_no_coefficient.

(** A second [fit] without [compile] trains with the kernel of the first one. *)
Theorem C88_refit : forall d x y perms fuel epochs o o1, fit d x y perms fuel epochs o = (o1, None) ->
  exists k K, the_kernel o1 = Instance k /\ kernel_fun (kind k) = Ok K /\
  forall d' x' y' perms' fuel' epochs',
    let '(o2, r) := fit d' x' y' perms' fuel' epochs' o1 in
    the_gamma o2 = the_gamma o1 /\ the_kernel o2 = the_kernel o1 /\
    match svc_fit K x' y' (the_C o) (the_tol o) perms' fuel' epochs' with
    | Ok m => r = None /\ model o2 = Some m /\ forall q, predict o2 q = Ok (svc_predict K m q)
    | Err e => r = Some e /\ o2 = o1
    end.
Proof. exact refit. Qed.
Print Assumptions C88_refit.

Theorem C88_refits : forall d x y perms fuel epochs o o1 o2, fit d x y perms fuel epochs o = (o1, None) -> refitted o1 o2 ->
  the_gamma o2 = the_gamma o1 /\ the_kernel o2 = the_kernel o1.
Proof. exact refits. Qed.
Print Assumptions C88_refits.

(** So training a used object is not training a new one: 'auto' stays at the number
    of features of the first data. *)
Theorem C88_refit_is_new_fit_refuted : exists C tol x1 x2 y o1 o2 o3,
  (forall perms fuel, (1 < fuel)%nat -> fit 1 x1 y perms fuel 0 (compile C (ByName "rbf") Auto tol new_classifier) = (o1, None)) /\
  (forall perms fuel, (1 < fuel)%nat -> fit 2 x2 y perms fuel 0 o1 = (o2, None)) /\
  (forall perms fuel, (1 < fuel)%nat -> fit 2 x2 y perms fuel 0 (compile C (ByName "rbf") Auto tol new_classifier) = (o3, None)) /\
  the_gamma o2 = Coefficient 1 /\ the_gamma o3 = Coefficient (/ 2).
Proof. exact refit_differs. Qed.
Print Assumptions C88_refit_is_new_fit_refuted.

Theorem C88_kernel_object : forall d x y perms fuel epochs C k K g tol o c,
  coefficient_for d x g c -> kernel_fun (kind k) = Ok K ->
  let '(o', r) := fit d x y perms fuel epochs (compile C (Instance k) g tol o) in
  the_gamma o' = Coefficient c /\ the_kernel o' = Instance k /\
  match svc_fit K x y C tol perms fuel epochs with
  | Ok m => r = None /\ model o' = Some m /\ forall q, predict o' q = Ok (svc_predict K m q)
  | Err e => r = Some e /\ model o' = model o /\ trained o' = trained o
  end.
Proof. exact fit_instance. Qed.
Print Assumptions C88_kernel_object.

(** An unknown name is reported, after the coefficient has been replaced. *)
Theorem C88_unknown_kernel : forall d x y perms fuel epochs C s g tol o c,
  coefficient_for d x g c -> (forall K, ~ named_kernel c s K) ->
  fit d x y perms fuel epochs (compile C (ByName s) g tol o) = (compile C (ByName s) (Coefficient c) tol o, Some AttributeError).
Proof. exact fit_unknown. Qed.
Print Assumptions C88_unknown_kernel.

Theorem C88_not_compiled : forall d x y perms fuel epochs,
  fit d x y perms fuel epochs new_classifier = (new_classifier, Some AttributeError).
Proof. exact fit_new. Qed.
Print Assumptions C88_not_compiled.

(** Before the training [predict] refuses; after a new [compile] with a name, and no
    new training, it fails. *)
Theorem C88_predict_states : forall o C k g tol q, (trained o = false -> predict o q = Err ValueError) /\
  (trained o = true -> (forall i, k <> Instance i) -> predict (compile C k g tol o) q = Err TypeError).
Proof. exact predict_states. Qed.
Print Assumptions C88_predict_states.

Theorem C88_text_coefficient : forall d x y perms fuel epochs C s tol o, In s ["rbf"; "gaussian"; "poly"; "sigmoid"]%string ->
  let '(o', r) := fit d x y perms fuel epochs (compile C (ByName s) OtherText tol o) in
  r = Some TypeError /\ model o' = model o /\ trained o' = trained o /\ (exists k, the_kernel o' = Instance k) /\
  forall d' x' y' perms' fuel' epochs', fit d' x' y' perms' fuel' epochs' o' = (o', Some TypeError).
Proof. exact fit_text. Qed.
Print Assumptions C88_text_coefficient.

Theorem C88_linear_ignores_the_coefficient : forall d x y perms fuel epochs C g tol o m, g <> Auto -> g <> Scale ->
  svc_fit linear x y C tol perms fuel epochs = Ok m ->
  let '(o', r) := fit d x y perms fuel epochs (compile C (ByName "linear") g tol o) in
  r = None /\ model o' = Some m /\ the_gamma o' = g.
Proof. exact fit_text_linear. Qed.
Print Assumptions C88_linear_ignores_the_coefficient.

Example C88_witness_auto : coefficient_for 2 [[0; 0]; [2; 2]] Auto (/ 2).
Proof. replace 2 with (INR 2) at 3 by (cbn; lra). constructor. lia. Qed.
Example C88_witness_scale : coefficient_for 2 [[0; 0]; [4; 4]] Scale (/ 8).
Proof.
  replace 8 with (INR 2 * 4) by (cbn; lra). apply for_scale; [lia|discriminate| |lra].
  exists 2. unfold mean_of, total. cbn. split; lra.
Qed.
Example C88_witness_unknown : forall K, ~ named_kernel 1 "RBF" K.
Proof. intros K H. inversion H. Qed.

(** ** C89 *)
(** The samples enter only through the kernel; swapping the labels ([sg = -1])
    only changes signs. *)
Theorem C89_only_the_kernel : forall K K' f sg x y C tol perms fuel epochs,
  sg = 1 \/ sg = -1 -> permutations_of (length x) perms ->
  (forall a b, In a x -> In b x -> K' (f a) (f b) = K a b) ->
  match svc_fit K x y C tol perms fuel epochs, svc_fit K' (map f x) (map (Rmult sg) y) C tol perms fuel epochs with
  | Ok m, Ok m' => support m' = support m /\ support_alpha m' = support_alpha m /\
      support_vector m' = map f (support_vector m) /\ support_y m' = map (Rmult sg) (support_y m) /\ svc_b m' = sg * svc_b m /\
      forall q q', (forall a, In a x -> K' q' (f a) = K q a) -> svc_decision K' m' q' = sg * svc_decision K m q
  | Err e, Err e' => e' = e
  | _, _ => False
  end.
Proof. exact only_kernel. Qed.
Print Assumptions C89_only_the_kernel.

(** The order of the columns does not matter, whatever the kernel and the
    coefficient. *)
Theorem C89_columns : forall d p a g x y C tol perms fuel epochs o,
  features d x -> permutations_of (length x) perms -> Permutation p (seq 0 d) ->
  let '(o1, r1) := fit d x y perms fuel epochs (compile C a g tol o) in
  let '(o2, r2) := fit d (map (reorder p) x) y perms fuel epochs (compile C a g tol o) in
  r2 = r1 /\ (r1 = None -> forall q, length q = d -> predict o2 (reorder p q) = predict o1 q).
Proof. exact columns. Qed.
Print Assumptions C89_columns.

(** Rotations and reflections do not matter. *)
Theorem C89_isometry : forall d f a g x y C tol perms fuel epochs o,
  features d x -> permutations_of (length x) perms -> g <> Scale -> keeps_inner d f -> keeps_distance d f ->
  let '(o1, r1) := fit d x y perms fuel epochs (compile C a g tol o) in
  let '(o2, r2) := fit d (map f x) y perms fuel epochs (compile C a g tol o) in
  r2 = r1 /\ (r1 = None -> forall q, length q = d -> predict o2 (f q) = predict o1 q).
Proof. exact isometry. Qed.
Print Assumptions C89_isometry.

Theorem C89_rbf_distances : forall d f a g x y C tol perms fuel epochs o, (a = ByName "rbf" \/ a = ByName "gaussian") ->
  features d x -> permutations_of (length x) perms -> g <> Scale -> keeps_distance d f ->
  let '(o1, r1) := fit d x y perms fuel epochs (compile C a g tol o) in
  let '(o2, r2) := fit d (map f x) y perms fuel epochs (compile C a g tol o) in
  r2 = r1 /\ (r1 = None -> forall q, length q = d -> predict o2 (f q) = predict o1 q).
Proof. exact rbf_distance. Qed.
Print Assumptions C89_rbf_distances.

(** With the rbf kernel, moving all samples does not matter. *)
Theorem C89_rbf_translation : forall d t a g x y C tol perms fuel epochs o, (a = ByName "rbf" \/ a = ByName "gaussian") ->
  features d x -> permutations_of (length x) perms -> g <> Scale -> length t = d ->
  let '(o1, r1) := fit d x y perms fuel epochs (compile C a g tol o) in
  let '(o2, r2) := fit d (map (shift t) x) y perms fuel epochs (compile C a g tol o) in
  r2 = r1 /\ (r1 = None -> forall q, length q = d -> predict o2 (shift t q) = predict o1 q).
Proof. exact translation. Qed.
Print Assumptions C89_rbf_translation.

(** With the linear kernel it does, although the best separating line only moves
    along: the training works with stale errors (see C26). *)
Theorem C89_linear_translation_refuted : exists x y q t m m', features 1 x /\ pm_labels y /\ length y = length x /\
  permutations_of (length x) (fun _ => [0; 2; 1]%nat) /\ length q = 1%nat /\ length t = 1%nat /\
  svc_fit linear x y 1 (/ 1000) (fun _ => [0; 2; 1]%nat) 1001 1000 = Ok m /\
  svc_fit linear (map (shift t) x) y 1 (/ 1000) (fun _ => [0; 2; 1]%nat) 1001 1000 = Ok m' /\
  svc_predict linear m q = (-1)%Z /\ svc_predict linear m' (shift t q) = 1%Z.
Proof. exact linear_shift. Qed.
Print Assumptions C89_linear_translation_refuted.

(** A column of zeros does not matter when the coefficient is a number. *)
Theorem C89_zero_column : forall d a c x y C tol perms fuel epochs o,
  features d x -> permutations_of (length x) perms ->
  let '(o1, r1) := fit d x y perms fuel epochs (compile C a (Coefficient c) tol o) in
  let '(o2, r2) := fit (S d) (map (fun r => r ++ [0]) x) y perms fuel epochs (compile C a (Coefficient c) tol o) in
  r2 = r1 /\ (r1 = None -> forall q, length q = d -> predict o2 (q ++ [0]) = predict o1 q).
Proof. exact zero_column. Qed.
Print Assumptions C89_zero_column.

(** With the rbf kernel and 'scale', neither the unit nor the origin of the features
    matters. *)
Theorem C89_scale_unit_free : forall d c t a x y C tol perms fuel epochs o, (a = ByName "rbf" \/ a = ByName "gaussian") ->
  features d x -> permutations_of (length x) perms -> c <> 0 ->
  let f := map (fun u => c * u + t) in
  let '(o1, r1) := fit d x y perms fuel epochs (compile C a Scale tol o) in
  let '(o2, r2) := fit d (map f x) y perms fuel epochs (compile C a Scale tol o) in
  r2 = r1 /\ (r1 = None -> forall q, length q = d -> predict o2 (f q) = predict o1 q).
Proof. exact scale_invariant. Qed.
Print Assumptions C89_scale_unit_free.

(** Exchanging the two classes exchanges the predictions, except on the boundary,
    which is always the class 1. *)
Theorem C89_exchanged_labels : forall K x y C tol perms fuel epochs m, permutations_of (length x) perms ->
  svc_fit K x y C tol perms fuel epochs = Ok m ->
  exists m', svc_fit K x (map Ropp y) C tol perms fuel epochs = Ok m' /\ support m' = support m /\ support_alpha m' = support_alpha m /\
    forall q, svc_decision K m' q = - svc_decision K m q /\
      (svc_decision K m q <> 0 -> svc_predict K m' q = (- svc_predict K m q)%Z) /\
      (svc_decision K m q = 0 -> svc_predict K m' q = 1%Z /\ svc_predict K m q = 1%Z).
Proof. exact flipped. Qed.
Print Assumptions C89_exchanged_labels.

(** A rotation by 90 degrees meets the conditions of [C89_isometry]. *)
Definition quarter_turn (r : list R) : list R := match r with [u; v] => [- v; u] | _ => r end.
Example C89_witness_isometry : keeps_inner 2 quarter_turn /\ keeps_distance 2 quarter_turn.
Proof.
  split; intros [|u [|v [|w a]]] [|u' [|v' [|w' b]]] Ha Hb; try discriminate; cbn; ring.
Qed.
Example C89_witness_columns : features 2 [[0; 1]; [2; 3]] /\ Permutation [1; 0]%nat (seq 0 2) /\
  permutations_of 2 (fun _ => [1; 0]%nat).
Proof. split; [repeat constructor|]. split; [|intros k]; apply perm_swap. Qed.
