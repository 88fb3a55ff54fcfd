(** Translations and the linear kernel: a training with another result (C89). *)
From Coq Require Import List ZArith Reals QArith Qreals Lra Lia Permutation.
From Verif.Model Require Import Base Smo Kernels.
From Verif.Spec Require Import Common Smo Svc.
From Verif.Proof Require Import SmoRational.
Import ListNotations.
Local Open Scope R_scope.
Local Notation length := List.length.

Section LinearShift.
Local Open Scope Q_scope.
Let Kq := fun a b => Qdot b a.
Let perms := fun _ : nat => [0; 2; 1]%nat.
Let xa : list (list Q) := [[-2#1]; [-1#1]; [1#1]].
Let xb : list (list Q) := [[-1#1]; [0]; [2#1]].
Let yy : list Q := [-1#1; 1#1; 1#1].
Local Open Scope R_scope.

Lemma linear_shift : exists x y q t m m', features 1 x /\ pm_labels y /\ length y = length x /\
  permutations_of (length x) perms /\ length q = 1%nat /\ length t = 1%nat /\
  svc_fit linear x y 1 (/ 1000) perms 1001 1000 = Ok m /\
  svc_fit linear (map (shift t) x) y 1 (/ 1000) perms 1001 1000 = Ok m' /\
  svc_predict linear m q = (-1)%Z /\ svc_predict linear m' (shift t q) = 1%Z.
Proof.
  destruct (qrun Kq xa yy 1 (1 # 1000) perms 1001 1000) as [s|e] eqn:E; [|vm_compute in E; discriminate].
  destruct (qrun Kq xb yy 1 (1 # 1000) perms 1001 1000) as [s'|e] eqn:E'; [|vm_compute in E'; discriminate].
  assert (O : Q2R 1 = 1) by (unfold Q2R; cbn; lra).
  assert (T : Q2R (1 # 1000) = / 1000) by (unfold Q2R; cbn; lra).
  assert (V : forall z w, Q2R (z # 1) + 1 = Q2R (w # 1) <-> IZR z + 1 = IZR w) by (intros; unfold Q2R; cbn; rewrite !Rinv_1, !Rmult_1_r; tauto).
  assert (S1 : map (shift [1]) (map (map Q2R) xa) = map (map Q2R) xb).
  { unfold shift, xa, xb. cbn [map combine fst snd]. rewrite (proj2 (V (-2)%Z (-1)%Z)), (proj2 (V (-1)%Z 0%Z)), (proj2 (V 1%Z 2%Z)) by lra. reflexivity. }
  assert (S2 : shift [1] (map Q2R [-1 # 2]) = map Q2R [1#2]).
  { unfold shift. cbn [map combine fst snd]. f_equal. unfold Q2R. cbn. lra. }
  exists (map (map Q2R) xa), (map Q2R yy), (map Q2R [-1#2]), [1], (qsvc xa yy s), (qsvc xb yy s').
  split; [repeat constructor|]. split.
  { intros m Hm. cbn in Hm. destruct m as [|[|[|m]]]; [right|left|left|lia]; unfold yy, Q2R; cbn; lra. }
  split; [reflexivity|]. split.
  { intros k. cbn. apply perm_skip, perm_swap. }
  split; [reflexivity|]. split; [reflexivity|]. split.
  { pose proof (fit_ok linear Kq linear_ok xa yy 1 (1 # 1000) perms 1001 1000 s E) as G. rewrite O, T in G. exact G. }
  split.
  { pose proof (fit_ok linear Kq linear_ok xb yy 1 (1 # 1000) perms 1001 1000 s' E') as G. rewrite O, T in G. rewrite S1. exact G. }
  split.
  - rewrite (predict_ok linear Kq linear_ok). vm_compute in E. injection E as <-. vm_compute. reflexivity.
  - rewrite S2. rewrite (predict_ok linear Kq linear_ok). vm_compute in E'. injection E' as <-. vm_compute. reflexivity.
Qed.
End LinearShift.
