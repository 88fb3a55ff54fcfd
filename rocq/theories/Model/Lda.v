(** Model of linear discriminant analysis: classicML/backend/python/ops.py
    550-624 and classicML/api/models/linear_model/linear_discriminant_analysis.py
    31-84. *)
From Coq Require Import List ZArith Reals Bool.
From Verif.Model Require Import Base Matrix.
Import ListNotations.
Local Open Scope R_scope.

(** linear_discriminant_analysis.py 47-48 [np.mean(X, axis=0)]; without rows the
    result is NaN. *)
Definition mean_row (d : nat) (x : list (list R)) : result (list R) :=
  match x with [] => Err NotANumber | _ => Ok (map (fun j => rmean (column 0 x j)) (seq 0 d)) end.

(** ops.py 619-620: (X - mu).T (X - mu). *)
Definition scatter_of (d : nat) (x : list (list R)) (mu : list R) : list (list R) :=
  map (fun j => map (fun k => rsum (map (fun r => (nth j r 0 - nth j mu 0) * (nth k r 0 - nth k mu 0)) x)) (seq 0 d)) (seq 0 d).
(** ops.py 602-624 [get_within_class_scatter_matrix]. *)
Definition within_class_scatter (d : nat) (x0 x1 : list (list R)) (mu0 mu1 : list R) : list (list R) :=
  map (fun p => vadd (fst p) (snd p)) (combine (scatter_of d x0 mu0) (scatter_of d x1 mu1)).

(** ops.py 550-574 [get_w]. *)
Definition get_w (d : nat) (s : list (list R)) (mu0 mu1 : list R) : result (list R) :=
  inv <- inverse d s ;; Ok (map (fun r => dot r (vsub mu0 mu1)) inv).

(** ops.py 595 [np.diag(Sigma)]. *)
Definition diag (d : nat) (v : list R) : list (list R) :=
  map (fun i => map (fun j => if (i =? j)%nat then nth i v 0 else 0) (seq 0 d)) (seq 0 d).
(** ops.py 595 [V_t.T], [U.T]. *)
Definition transposed (d : nat) (m : list (list R)) : list (list R) := map (fun j => column 0 m j) (seq 0 d).
(** ops.py 595: [*] of two matrices is elementwise. *)
Definition elementwise (a b : list (list R)) : list (list R) :=
  map (fun p => map (fun q => fst q * snd q) (combine (fst p) (snd p))) (combine a b).
(** ops.py 577-599 [get_w_v2]: with [svd s] the factors U, Sigma, V_t. *)
Definition get_w_v2 (svd : list (list R) -> list (list R) * list R * list (list R)) (d : nat)
    (s : list (list R)) (mu0 mu1 : list R) : result (list R) :=
  let '(U, Sigma, Vt) := svd s in
  inv <- inverse d (diag d Sigma) ;;
  Ok (map (fun r => dot r (vsub mu0 mu1)) (elementwise (elementwise (transposed d Vt) inv) (transposed d U))).

(** The fields that [fit] sets (linear_discriminant_analysis.py 47-53). *)
Record lda := { lda_w : list R; lda_mu0 : list R; lda_mu1 : list R }.
(** linear_discriminant_analysis.py 44-45. *)
Definition with_label (l : Z) (x : list (list R)) (y : list Z) : list (list R) :=
  map fst (filter (fun p => Z.eqb (snd p) l) (combine x y)).
(** linear_discriminant_analysis.py 31-57 [fit]; [d] is the number of features. Rows
    with other labels are ignored. The name [get_w] imported there is [get_w_v2]
    (classicML/backend/__init__.py 122). *)
Definition lda_fit (svd : list (list R) -> list (list R) * list R * list (list R)) (d : nat) (x : list (list R)) (y : list Z) : result lda :=
  if negb (length x =? length y)%nat then Err IndexError else
  let x0 := with_label 0 x y in let x1 := with_label 1 x y in
  mu0 <- mean_row d x0 ;;
  mu1 <- mean_row d x1 ;;
  w <- get_w_v2 svd d (within_class_scatter d x0 x1 mu0 mu1) mu0 mu1 ;;
  Ok {| lda_w := w; lda_mu0 := mu0; lda_mu1 := mu1 |}.
(** linear_discriminant_analysis.py 59-84 [predict] of a trained model, one row. *)
Definition lda_predict (m : lda) (r : list R) : Z :=
  let c := dot r (lda_w m) in
  let c0 := dot (lda_w m) (lda_mu0 m) in
  let c1 := dot (lda_w m) (lda_mu1 m) in
  if Rltb (Rabs (c - c1)) (Rabs (c - c0)) then 1%Z else 0%Z.
