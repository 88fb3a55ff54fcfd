(** Proofs for C89. *)
From Coq Require Import List ZArith Reals Bool Arith Lra Lia Permutation String.
From Verif.Model Require Import Base Ops Kernels Smo Training Life Svc.
From Verif.Spec Require Import Common Smo Svc.
From Verif.Proof Require Import BaseLemmas Smo Kernels Preprocessing Benchmark SmoSymmetry Svc.
Import ListNotations.
Local Open Scope R_scope.
Local Notation length := List.length.

Lemma only_kernel K K' f sg x y C tol perms fuel epochs :
  sg = 1 \/ sg = -1 -> permutations_of (length x) perms ->
  (forall a b, In a x -> In b x -> K' (f a) (f b) = K a b) ->
  match svc_fit K x y C tol perms fuel epochs, svc_fit K' (map f x) (map (Rmult sg) y) C tol perms fuel epochs with
  | Ok m, Ok m' => support m' = support m /\ support_alpha m' = support_alpha m /\
      support_vector m' = map f (support_vector m) /\ support_y m' = map (Rmult sg) (support_y m) /\ svc_b m' = sg * svc_b m /\
      forall q q', (forall a, In a x -> K' q' (f a) = K q a) -> svc_decision K' m' q' = sg * svc_decision K m q
  | Err e, Err e' => e' = e
  | _, _ => False
  end.
Proof.
  intros S P H.
  assert (H1 : forall i j, (i < length x)%nat -> (j < length x)%nat -> K' (f (nth i x [])) (f (nth j x [])) = K (nth i x []) (nth j x [])).
  { intros i j Hi Hj. apply H; apply nth_In; assumption. }
  rewrite (fit_sym K K' f sg x y C tol perms S H1 P).
  destruct (svc_fit K x y C tol perms fuel epochs) as [m|e] eqn:E; [|reflexivity].
  repeat split. intros q q' Hq.
  apply (decision_sym K K' f sg x y C tol perms S H1 P m q q' fuel epochs E).
  intros i Hi. apply Hq, nth_In, Hi.
Qed.

Lemma map_one (l : list R) : map (Rmult 1) l = l.
Proof. rewrite (map_ext _ (fun a => a)) by (intros; ring). apply map_id. Qed.

Lemma svc_same K K' f d x y C tol perms fuel epochs :
  features d x -> permutations_of (length x) perms ->
  (forall a b, length a = d -> length b = d -> K' (f a) (f b) = K a b) ->
  match svc_fit K x y C tol perms fuel epochs, svc_fit K' (map f x) y C tol perms fuel epochs with
  | Ok m, Ok m' => forall q, length q = d -> svc_predict K' m' (f q) = svc_predict K m q
  | Err e, Err e' => e' = e
  | _, _ => False
  end.
Proof.
  intros F P H. unfold features in F. rewrite Forall_forall in F.
  pose proof (only_kernel K K' f 1 x y C tol perms fuel epochs (or_introl eq_refl) P) as G. rewrite map_one in G.
  specialize (G (fun a b Ha Hb => H a b (F a Ha) (F b Hb))).
  destruct (svc_fit K x y C tol perms fuel epochs), (svc_fit K' (map f x) y C tol perms fuel epochs); try exact G; rename a into m.
  intros q Hq. unfold svc_predict. destruct G as (_ & _ & _ & _ & _ & G). rewrite (G q (f q)); [|intros b Hb; apply H; auto].
  rewrite Rmult_1_l. reflexivity.
Qed.

Lemma object_same f d d' a g x y C tol perms fuel epochs o :
  features d x -> permutations_of (length x) perms ->
  resolve_gamma d' (map f x) g = resolve_gamma d x g ->
  (forall g0 k K, get_kernel a (coefficient g0) = Ok k -> kernel_fun (kind k) = Ok K ->
     forall u v, length u = d -> length v = d -> K (f u) (f v) = K u v) ->
  let '(o1, r1) := fit d x y perms fuel epochs (compile C a g tol o) in
  let '(o2, r2) := fit d' (map f x) y perms fuel epochs (compile C a g tol o) in
  r2 = r1 /\ (r1 = None -> forall q, length q = d -> predict o2 (f q) = predict o1 q).
Proof.
  intros F P RG H. unfold fit. cbn [compile the_C the_kernel the_gamma the_tol model trained]. rewrite RG.
  destruct (resolve_gamma d x g) as [g0|]; [|split; [reflexivity|discriminate]].
  destruct (get_kernel a (coefficient g0)) as [k|] eqn:G; [|split; [reflexivity|discriminate]].
  destruct (kernel_fun (kind k)) as [K|] eqn:EK; [|split; [reflexivity|discriminate]]. cbn [bind].
  pose proof (svc_same K K f d x y C tol perms fuel epochs F P (H g0 k K G EK)) as E.
  destruct (svc_fit K x y C tol perms fuel epochs), (svc_fit K (map f x) y C tol perms fuel epochs); try contradiction.
  - split; [reflexivity|]. intros _ q Hq. unfold predict. cbn. rewrite EK. cbn. rewrite E by exact Hq. reflexivity.
  - subst. split; [reflexivity|discriminate].
Qed.

(** * Maps that keep inner products and distances *)
Lemma inner_dot a : forall b, inner a b = dot a b.
Proof. induction a as [|u a IH]; intros [|v b]; cbn; [reflexivity..|]. rewrite IH. reflexivity. Qed.
Lemma distance_dot a : forall b, distance2 a b = sqnorm (vsub b a).
Proof.
  unfold sqnorm, vsub. induction a as [|u a IH]; intros [|v b]; cbn [distance2 combine map dot fst snd]; [reflexivity..|].
  rewrite IH. ring.
Qed.

Lemma kernel_kept f d k K : keeps_inner d f -> keeps_distance d f -> kernel_fun k = Ok K ->
  forall u v, length u = d -> length v = d -> K (f u) (f v) = K u v.
Proof.
  intros A B E u v Hu Hv.
  assert (A' : dot (f v) (f u) = dot v u) by (rewrite <- !inner_dot; apply A; assumption).
  assert (B' : sqnorm (vsub (f v) (f u)) = sqnorm (vsub v u)) by (rewrite <- !distance_dot; apply B; assumption).
  destruct k as [|[g|] n|[g|]|[g|]|[g|] be th]; inversion E; subst; unfold linear, polynomial, rbf, sigmoid_kernel;
    rewrite ?A', ?B'; reflexivity.
Qed.

Lemma reorder_inner d p : Permutation p (seq 0 d) -> keeps_inner d (reorder p).
Proof.
  intros P a b Ha Hb. rewrite (inner_dot (reorder p a)), (inner_dot a). rewrite (dot_sum d a b Ha Hb). unfold sum_below. change total with rsum.
  rewrite <- (rsum_perm _ _ (Permutation_map (fun k => nth k a 0 * nth k b 0) P)).
  clear P. unfold reorder. induction p as [|j p IH]; [reflexivity|]. cbn [map dot]. rewrite IH. reflexivity.
Qed.

Lemma inner_distance d f : (exists d', forall a, length a = d -> length (f a) = d') -> keeps_inner d f -> keeps_distance d f.
Proof.
  intros (d' & L) H a b Ha Hb. rewrite !distance_dot. rewrite !sqnorm_vsub by (rewrite ?L; congruence).
  rewrite <- !inner_dot. rewrite !H by assumption. reflexivity.
Qed.
Lemma reorder_distance d p : Permutation p (seq 0 d) -> keeps_distance d (reorder p).
Proof.
  intros P. apply inner_distance; [|apply reorder_inner; exact P]. exists (length p). intros a _. apply map_length.
Qed.

Lemma rmean_perm a b : Permutation a b -> rmean a = rmean b.
Proof. intros P. unfold rmean. rewrite (rsum_perm _ _ P), (Permutation_length P). reflexivity. Qed.
Lemma rvar_perm a b : Permutation a b -> rvar a = rvar b.
Proof. intros P. unfold rvar. rewrite (rmean_perm _ _ P). apply rmean_perm, Permutation_map, P. Qed.

Lemma map_nth_seq (r : list R) : map (fun j => nth j r 0) (seq 0 (length r)) = r.
Proof.
  induction r as [|a r IH]; [reflexivity|]. cbn [length seq map nth]. f_equal. rewrite <- IH at 2.
  rewrite <- seq_shift, map_map. reflexivity.
Qed.
Lemma reorder_concat d p x : features d x -> Permutation p (seq 0 d) -> Permutation (List.concat (map (reorder p) x)) (List.concat x).
Proof.
  intros F P. induction F as [|r x Hr F IH]; [constructor|]. cbn [map List.concat]. apply Permutation_app; [|exact IH].
  rewrite <- (map_nth_seq r) at 2. rewrite Hr. apply Permutation_map, P.
Qed.

Lemma columns d p a g x y C tol perms fuel epochs o :
  features d x -> permutations_of (length x) perms -> Permutation p (seq 0 d) ->
  let '(o1, r1) := fit d x y perms fuel epochs (compile C a g tol o) in
  let '(o2, r2) := fit d (map (reorder p) x) y perms fuel epochs (compile C a g tol o) in
  r2 = r1 /\ (r1 = None -> forall q, length q = d -> predict o2 (reorder p q) = predict o1 q).
Proof.
  intros F P Hp. apply object_same; auto.
  - unfold resolve_gamma. rewrite (rvar_perm _ _ (reorder_concat d p x F Hp)). reflexivity.
  - intros g0 k K _ E. apply (kernel_kept _ _ (kind k) K); auto using reorder_inner, reorder_distance.
Qed.

Lemma isometry d f a g x y C tol perms fuel epochs o :
  features d x -> permutations_of (length x) perms -> g <> Scale -> keeps_inner d f -> keeps_distance d f ->
  let '(o1, r1) := fit d x y perms fuel epochs (compile C a g tol o) in
  let '(o2, r2) := fit d (map f x) y perms fuel epochs (compile C a g tol o) in
  r2 = r1 /\ (r1 = None -> forall q, length q = d -> predict o2 (f q) = predict o1 q).
Proof.
  intros F P N A B. apply object_same; auto.
  - destruct g; try reflexivity. congruence.
  - intros g0 k K _ E. apply (kernel_kept _ _ (kind k) K); auto.
Qed.

Lemma rbf_distance d f a g x y C tol perms fuel epochs o : (a = ByName "rbf" \/ a = ByName "gaussian") ->
  features d x -> permutations_of (length x) perms -> g <> Scale -> keeps_distance d f ->
  let '(o1, r1) := fit d x y perms fuel epochs (compile C a g tol o) in
  let '(o2, r2) := fit d (map f x) y perms fuel epochs (compile C a g tol o) in
  r2 = r1 /\ (r1 = None -> forall q, length q = d -> predict o2 (f q) = predict o1 q).
Proof.
  intros Ha F P N B. apply object_same; auto.
  - destruct g; try reflexivity. congruence.
  - intros g0 k K G E u v Hu Hv.
    assert (B' : sqnorm (vsub (f v) (f u)) = sqnorm (vsub v u)) by (rewrite <- !distance_dot; apply B; assumption).
    destruct Ha; subst a; inversion G; subst k; cbn in E; destruct (coefficient g0); inversion E; subst K; unfold rbf; rewrite B'; reflexivity.
Qed.

Lemma shift_distance d t : length t = d -> keeps_distance d (shift t).
Proof.
  intros <- . unfold shift. induction t as [|w t IH]; intros a b Ha Hb.
  - destruct a, b; cbn in *; try discriminate. reflexivity.
  - destruct a as [|u a], b as [|v b]; try discriminate. cbn [combine map distance2 fst snd].
    rewrite IH by (cbn in *; lia). ring.
Qed.

Lemma translation d t a g x y C tol perms fuel epochs o : (a = ByName "rbf" \/ a = ByName "gaussian") ->
  features d x -> permutations_of (length x) perms -> g <> Scale -> length t = d ->
  let '(o1, r1) := fit d x y perms fuel epochs (compile C a g tol o) in
  let '(o2, r2) := fit d (map (shift t) x) y perms fuel epochs (compile C a g tol o) in
  r2 = r1 /\ (r1 = None -> forall q, length q = d -> predict o2 (shift t q) = predict o1 q).
Proof. intros Ha F P N L. apply rbf_distance; auto. apply shift_distance, L. Qed.

(** * A zero column *)
Lemma zero_inner d : keeps_inner d (fun r => r ++ [0]).
Proof. intros a b Ha Hb. rewrite (inner_dot (a ++ [0])), (inner_dot a), dot_app by congruence. cbn. ring. Qed.
Lemma zero_distance d : keeps_distance d (fun r => r ++ [0]).
Proof. apply inner_distance; [|apply zero_inner]. exists (S d). intros a Ha. rewrite app_length. cbn. lia. Qed.
Lemma zero_column d a c x y C tol perms fuel epochs o :
  features d x -> permutations_of (length x) perms ->
  let '(o1, r1) := fit d x y perms fuel epochs (compile C a (Coefficient c) tol o) in
  let '(o2, r2) := fit (S d) (map (fun r => r ++ [0]) x) y perms fuel epochs (compile C a (Coefficient c) tol o) in
  r2 = r1 /\ (r1 = None -> forall q, length q = d -> predict o2 (q ++ [0]) = predict o1 q).
Proof.
  intros F P. apply (object_same (fun r => r ++ [0])); auto.
  intros g0 k K _ E. apply (kernel_kept _ _ (kind k) K); auto using zero_inner, zero_distance.
Qed.

(** * 'scale' *)
Lemma rmean_shift t l : l <> [] -> rmean (map (fun a => a + t) l) = rmean l + t.
Proof.
  intros H. unfold rmean. rewrite map_length. rewrite (rsum_map_plus (fun a => a) (fun _ => t)), map_id, rsum_map_const.
  field. apply not_0_INR. destruct l; [congruence|discriminate].
Qed.
Lemma rvar_affine c t l : rvar (map (fun a => c * a + t) l) = c * c * rvar l.
Proof.
  destruct l as [|a0 l0]; [unfold rvar, rmean; cbn; unfold Rdiv; ring|]. set (l := a0 :: l0).
  rewrite (map_ext _ (fun a => (fun b => b + t) ((fun b => b * c) a))) by (intros; ring).
  rewrite <- (map_map (fun b => b * c) (fun b => b + t)).
  rewrite (Rmult_comm (c * c)), <- rvar_scale. unfold rvar. rewrite rmean_shift by discriminate.
  f_equal. rewrite map_map. apply map_ext. intros a. ring.
Qed.

Lemma affine_distance c t a : forall b, length a = length b ->
  distance2 (map (fun u => c * u + t) a) (map (fun u => c * u + t) b) = c * c * distance2 a b.
Proof. induction a as [|u a IH]; intros [|v b] H; try discriminate; cbn [map distance2]; [ring|]. rewrite IH by (cbn in H; lia). ring. Qed.

Lemma scale_invariant d c t a x y C tol perms fuel epochs o : (a = ByName "rbf" \/ a = ByName "gaussian") ->
  features d x -> permutations_of (length x) perms -> c <> 0 ->
  let f := map (fun u => c * u + t) in
  let '(o1, r1) := fit d x y perms fuel epochs (compile C a Scale tol o) in
  let '(o2, r2) := fit d (map f x) y perms fuel epochs (compile C a Scale tol o) in
  r2 = r1 /\ (r1 = None -> forall q, length q = d -> predict o2 (f q) = predict o1 q).
Proof.
  intros Ha F P Hc f. unfold fit. cbn [compile the_C the_kernel the_gamma the_tol model trained resolve_gamma].
  replace (rvar (List.concat (map f x))) with (c * c * rvar (List.concat x))
    by (unfold f; rewrite <- concat_map, rvar_affine; reflexivity).
  assert (Hcc : c * c <> 0) by (intros Z; apply Rmult_integral in Z; tauto).
  set (v := rvar (List.concat x)). unfold Reqb.
  destruct (Req_EM_T (INR d * v) 0) as [e|e].
  { destruct (Req_EM_T (INR d * (c * c * v)) 0) as [_|e']; [split; [reflexivity|discriminate]|].
    exfalso. apply e'. replace (INR d * (c * c * v)) with (c * c * (INR d * v)) by ring. rewrite e. ring. }
  destruct (Req_EM_T (INR d * (c * c * v)) 0) as [e'|_].
  { exfalso. replace (INR d * (c * c * v)) with (c * c * (INR d * v)) in e' by ring. apply Rmult_integral in e'. tauto. }
  cbn [coefficient].
  assert (HK : forall u w, length u = d -> length w = d ->
    rbf (1 / (INR d * (c * c * v))) (f u) (f w) = rbf (1 / (INR d * v)) u w).
  { intros u w Hu Hw. unfold rbf, f. f_equal. rewrite <- !distance_dot, affine_distance by congruence.
    field. split; [|split; [|exact Hc]]; intros Z; apply e; rewrite Z; ring. }
  pose proof (svc_same _ _ f d x y C tol perms fuel epochs F P HK) as E.
  destruct Ha; subst a; cbn [get_kernel String.eqb Ascii.eqb Bool.eqb kind comp kernel_fun bind];
  (destruct (svc_fit (rbf (1 / (INR d * v))) x y C tol perms fuel epochs),
           (svc_fit (rbf (1 / (INR d * (c * c * v)))) (map f x) y C tol perms fuel epochs); try contradiction;
   [split; [reflexivity|]; intros _ q Hq; unfold predict; cbn; rewrite E by exact Hq; reflexivity
   |subst; split; [reflexivity|discriminate]]).
Qed.

(** * Swapping the labels *)
Lemma flipped K x y C tol perms fuel epochs m : permutations_of (length x) perms ->
  svc_fit K x y C tol perms fuel epochs = Ok m ->
  exists m', svc_fit K x (map Ropp y) C tol perms fuel epochs = Ok m' /\ support m' = support m /\ support_alpha m' = support_alpha m /\
    forall q, svc_decision K m' q = - svc_decision K m q /\
      (svc_decision K m q <> 0 -> svc_predict K m' q = (- svc_predict K m q)%Z) /\
      (svc_decision K m q = 0 -> svc_predict K m' q = 1%Z /\ svc_predict K m q = 1%Z).
Proof.
  intros P E. pose proof (only_kernel K K (fun a => a) (-1) x y C tol perms fuel epochs (or_intror eq_refl) P (fun a b _ _ => eq_refl)) as G.
  rewrite map_id in G. rewrite (map_ext (Rmult (-1)) Ropp) in G by (intros; ring). rewrite E in G.
  destruct (svc_fit K x (map Ropp y) C tol perms fuel epochs) as [m'|]; [|contradiction].
  exists m'. destruct G as (A & B & _ & _ & _ & G). repeat split; auto.
  - rewrite (G q q) by reflexivity. ring.
  - intros N. unfold svc_predict. rewrite (G q q) by reflexivity. unfold Rltb.
    destruct (Rlt_dec (-1 * svc_decision K m q) 0), (Rlt_dec (svc_decision K m q) 0); try reflexivity; exfalso; lra.
  - unfold svc_predict. rewrite (G q q) by reflexivity. unfold Rltb. destruct (Rlt_dec _ 0); [lra|reflexivity].
  - unfold svc_predict. unfold Rltb. destruct (Rlt_dec _ 0); [lra|reflexivity].
Qed.
