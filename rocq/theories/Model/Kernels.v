(** Model of classicML/backend/python/kernels.py on a pair of feature vectors.
    Called with a vector and a matrix, a kernel gives one value per row.
    Floats are exact reals. *)
From Coq Require Import List Reals.
From Verif.Model Require Import Base.
Import ListNotations.
Local Open Scope R_scope.

(** kernels.py 29-47 [Linear]: [np.matmul(x_j, x_i.T)]. *)
Definition linear (x_i x_j : list R) : R := dot x_j x_i.
(** kernels.py 50-79 [Polynomial]. *)
Definition polynomial (gamma : R) (degree : nat) (x_i x_j : list R) : R := gamma * dot x_j x_i ^ degree.
(** kernels.py 82-108 [RBF] and 111-116 [Gaussian]. *)
Definition rbf (gamma : R) (x_i x_j : list R) : R := exp (gamma * - sqnorm (vsub x_j x_i)).
(** [np.tanh] (kernels.py 149), written out. *)
Definition tanh (z : R) : R := (exp z - exp (- z)) / (exp z + exp (- z)).
(** kernels.py 119-151 [Sigmoid]. *)
Definition sigmoid_kernel (gamma beta theta : R) (x_i x_j : list R) : R := gamma * tanh (beta * dot x_j x_i + theta).
