(** Optimizers with the parameters of another family (C117). *)
From Coq Require Import List Reals Bool Arith.
From Verif.Model Require Import Base Training Misfit.
Import ListNotations.

Lemma misfit_none f p rows epochs : misfit_run f p rows epochs = None -> epochs = 0%nat.
Proof. unfold misfit_run. destruct f, p, epochs, rows; cbn; try discriminate; try reflexivity; destruct (2 <=? len)%nat || idtac; try discriminate; try reflexivity; destruct len as [|[|]]; discriminate. Qed.
