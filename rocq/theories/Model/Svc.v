(** Model of the support vector classifier as an object:
    classicML/api/models/support_vector_machine/support_vector_classifier.py
    48-126, with the resolution of [gamma] and of the kernel.  What the training
    computes is modelled in Smo.v, weight files in Store.v. *)
From Coq Require Import List ZArith Reals Bool Arith String.
From Verif.Model Require Import Base Kernels Smo Training Life.
Import ListNotations.
Local Open Scope R_scope.
Local Notation length := List.length.

(** The field [gamma] (support_vector_classifier.py 66, 81-83, 89): None, the two
    texts with a meaning, a number, or another text. *)
Inductive gamma_value := GammaNone | Auto | Scale | Coefficient (g : R) | OtherText.

(** The fields of an object (support_vector_classifier.py 58-71); [model] are the
    five fields set by the training, None before it. *)
Record classifier := { the_C : R; the_kernel : arg kernel_kind; the_gamma : gamma_value; the_tol : R;
                       model : option svc; trained : bool }.
(** support_vector_classifier.py 48-71: a new object.  [C] and [tol] are None in the
    code; the number here is never used, because the kernel is looked up first. *)
Definition new_classifier : classifier :=
  {| the_C := 0; the_kernel := NoArg; the_gamma := GammaNone; the_tol := 0; model := None; trained := false |}.
(** support_vector_classifier.py 73-90 [compile]. *)
Definition compile (C : R) (kernel : arg kernel_kind) (gamma : gamma_value) (tol : R) (o : classifier) : classifier :=
  {| the_C := C; the_kernel := kernel; the_gamma := gamma; the_tol := tol; model := model o; trained := trained o |}.

(** support_vector_classifier.py 110-114; [d] is the number of columns.  [x.shape[1]]
    is a Python number; the variance (over all entries) is a numpy number, so that a
    division by it gives an infinity.  Simplification: the model reports [NotANumber]
    there, the code goes on with the infinity. *)
Definition resolve_gamma (d : nat) (x : list (list R)) (g : gamma_value) : result gamma_value :=
  match g with
  | Auto => if (d =? 0)%nat then Err ZeroDivisionError else Ok (Coefficient (1 / INR d))
  | Scale =>
      let v := INR d * rvar (List.concat x) in
      if Reqb v 0 then Err NotANumber else Ok (Coefficient (1 / v))
  | _ => Ok g
  end.

(** The number that [get_kernel] passes on (training.py 68-97). *)
Definition coefficient (g : gamma_value) : option R := match g with Coefficient r => Some r | _ => None end.

(** support_vector_classifier.py 92-126 [fit]: the object afterwards and the
    exception, if any.  The fields [gamma] and [kernel] are overwritten before the
    training starts; a kernel whose [gamma] is a text fails when it is called
    ([kernel_fun]).  Simplification: a kernel that cannot be called is an error
    also when the training would not call it. *)
Definition fit (d : nat) (x : list (list R)) (y : list R) (perms : nat -> list nat) (fuel : nat) (epochs : Z)
  (o : classifier) : classifier * option err :=
  match resolve_gamma d x (the_gamma o) with
  | Err e => (o, Some e)
  | Ok g =>
      let o1 := {| the_C := the_C o; the_kernel := the_kernel o; the_gamma := g; the_tol := the_tol o;
                   model := model o; trained := trained o |} in
      match get_kernel (the_kernel o1) (coefficient g) with
      | Err e => (o1, Some e)
      | Ok k =>
          let o2 := {| the_C := the_C o; the_kernel := Instance k; the_gamma := g; the_tol := the_tol o;
                       model := model o; trained := trained o |} in
          match (K <- kernel_fun (kind k) ;; svc_fit K x y (the_C o) (the_tol o) perms fuel epochs) with
          | Err e => (o2, Some e)
          | Ok m => ({| the_C := the_C o; the_kernel := Instance k; the_gamma := g; the_tol := the_tol o;
                        model := Some m; trained := true |}, None)
          end
      end
  end.

(** The number of permutations that [fit] draws (support_vector_classifier.py 110-121,
    optimizers.py 1013): none if it fails before the training. *)
Definition draws (d : nat) (x : list (list R)) (y : list R) (perms : nat -> list nat) (fuel : nat) (epochs : Z) (o : classifier) : nat :=
  match (g <- resolve_gamma d x (the_gamma o) ;; k <- get_kernel (the_kernel o) (coefficient g) ;; kernel_fun (kind k)) with
  | Err _ => 0%nat
  | Ok K => smo_draws K x y (the_C o) (the_tol o) perms fuel epochs
  end.
(** support_vector_classifier.py 128-154 [predict], one row. *)
Definition predict (o : classifier) (q : list R) : result Z :=
  if negb (trained o) then Err ValueError else
  match the_kernel o, model o with
  | Instance k, Some m => K <- kernel_fun (kind k) ;; Ok (svc_predict K m q)
  | _, _ => Err TypeError
  end.
