(** Proofs about the configuration. *)
From Coq Require Import List String Bool Lia.
From Verif.Model Require Import Base Config.
From Verif.Proof Require Import BaseLemmas.
Import ListNotations.
Local Open Scope string_scope.

Lemma env_get_app env k k' v : env_get (env ++ [(k', v)])%list k =
  match env_get env k with Some x => Some x | None => if k =? k' then Some v else None end.
Proof. induction env as [|[a b] t IH]; cbn; [reflexivity|]. destruct (k =? a); auto. Qed.

Lemma setdefault_get env k v k' : env_get (setdefault env k v) k' =
  if k' =? k then match env_get env k with Some x => Some x | None => Some v end else env_get env k'.
Proof.
  unfold setdefault. destruct (env_get env k) eqn:E.
  - destruct (k' =? k) eqn:F; [|reflexivity]. apply String.eqb_eq in F. now subst.
  - rewrite env_get_app. destruct (k' =? k) eqn:F.
    + apply String.eqb_eq in F. subst. now rewrite E.
    + destruct (env_get env k'); reflexivity.
Qed.

Lemma defaults_engine env : env_get (with_defaults env) "CLASSICML_ENGINE" =
  match env_get env "CLASSICML_ENGINE" with Some e => Some e | None => Some "Python" end.
Proof. unfold with_defaults. now rewrite !setdefault_get. Qed.
Lemma defaults_precision env : env_get (with_defaults env) "CLASSICML_PRECISION" =
  match env_get env "CLASSICML_PRECISION" with Some e => Some e | None => Some "32-bit" end.
Proof. unfold with_defaults. now rewrite !setdefault_get. Qed.
Lemma defaults_other env k : k <> "CLASSICML_ENGINE" -> k <> "CLASSICML_FONT" -> k <> "CLASSICML_PRECISION" ->
  env_get (with_defaults env) k = env_get env k.
Proof.
  intros A B C. unfold with_defaults. rewrite !setdefault_get.
  apply String.eqb_neq in A, B, C. now rewrite A, B, C.
Qed.

Lemma bound_In l n o : bound l n = Some o -> In (n, o) l.
Proof.
  induction l as [|[a b] t IH]; cbn; [discriminate|]. intros H.
  destruct (bound t n) eqn:E; [right; apply IH; congruence|].
  destruct (n =? a) eqn:F; [|discriminate]. apply String.eqb_eq in F. left. congruence.
Qed.
Lemma bound_None l n : bound l n = None <-> ~ In n (map fst l).
Proof.
  induction l as [|[a b] t IH]; cbn; [tauto|]. destruct (bound t n) eqn:E.
  - split; [discriminate|]. intros H. exfalso. apply H. right. apply bound_In in E. apply (in_map fst) in E. exact E.
  - destruct (n =? a) eqn:F.
    + apply String.eqb_eq in F. subst. split; [discriminate|intros H; exfalso; apply H; auto].
    + apply String.eqb_neq in F. split; [|reflexivity]. intros _ [H|H]; [congruence|]. apply IH in H; auto.
Qed.

(** A property of all entries of a table, checked by computation. *)
Lemma all_bound (p : string -> origin -> bool) l n o :
  bound l n = Some o -> forallb (fun e => p (fst e) (snd e)) l = true -> p n o = true.
Proof. intros B H. apply bound_In in B. rewrite forallb_forall in H. apply (H _ B). Qed.

Definition is_py (o : origin) : bool := match o with Py _ => true | Cpp _ => false end.
Definition source (o : origin) : string := match o with Py s => s | Cpp s => s end.
