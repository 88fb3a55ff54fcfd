(** Determinant and inverse of a square matrix, standing for [np.linalg.det] and
    [np.linalg.inv] (ops.py 491-492, 571, 595). numpy uses an LU factorisation; with
    exact reals the values are the same. *)
From Coq Require Import List ZArith Reals Bool Arith.
From Verif.Model Require Import Base.
Import ListNotations.
Local Open Scope R_scope.

(** A list without element number [k]; helper of [det] (ops.py 491). *)
Definition drop_nth {A} (k : nat) (l : list A) : list A := firstn k l ++ skipn (S k) l.
(** The matrix without a row and a column; helper of [det] (ops.py 491). *)
Definition minor (m : list (list R)) (i j : nat) : list (list R) := map (drop_nth j) (drop_nth i m).
(** The sign in the expansion of [det] (ops.py 491). *)
Definition sign (k : nat) : R := if Nat.even k then 1 else -1.

(** Expansion along the first row of an [n] by [n] matrix. (ops.py 491). *)
Fixpoint det (n : nat) (m : list (list R)) : R :=
  match n with
  | O => 1
  | S n' => rsum (map (fun j => sign j * nth j (nth 0 m []) 0 * det n' (minor m 0 j)) (seq 0 n))
  end.

(** LinAlgError for a singular matrix. (ops.py 492, 571, 595). *)
Definition inverse (n : nat) (m : list (list R)) : result (list (list R)) :=
  if Reqb (det n m) 0 then Err LinAlgError
  else Ok (map (fun i => map (fun j => sign (i + j) * det (n - 1) (minor m j i) / det n m) (seq 0 n)) (seq 0 n)).

(** Vector times matrix. (ops.py 492). *)
Definition vec_mat (n : nat) (v : list R) (m : list (list R)) : list R := map (fun j => dot v (column 0 m j)) (seq 0 n).
