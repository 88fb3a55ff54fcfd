(** Model of RadialBasisFunctionOptimizer, classicML/backend/python/optimizers.py
    737-866, and of the initial parameters of initializers.py [RBFNormal].
    Floats are exact reals. *)
From Coq Require Import List Reals Bool Arith.
From Verif.Model Require Import Base Activations.
Import ListNotations.
Local Open Scope R_scope.

(** [w] and [beta] are the single rows of the (1, h) arrays, [c] the list of the
    centres, [b] the single element of the bias (initializers.py 163-168,
    optimizers.py 826). *)
Record rbf_params := { rw : list R; rb : R; rc : list (list R); rbeta : list R }.

(** [x - c] for one row and one centre, with numpy's broadcasting (optimizers.py
    833). *)
Definition broadcast_sub (x c : list R) : result (list R) :=
  if (length x =? length c)%nat then Ok (vsub x c)
  else match x, c with
       | [v], _ => Ok (map (fun u => v - u) c)
       | _, [u] => Ok (map (fun v => v - u) x)
       | _, _ => Err ValueError
       end.
(** optimizers.py 832-833, one row: the squared distances to the centres. *)
Definition x_ci_row (cs : list (list R)) (x : list R) : result (list R) :=
  mapM (fun c => d <- broadcast_sub x c ;; Ok (sqnorm d)) cs.
(** optimizers.py 834, one row. *)
Definition rho_row (beta xci : list R) : list R := zip2 (fun be q => exp (- be * q)) beta xci.
(** optimizers.py 813-839 [forward], one row: prediction, rho and x_ci. The arrays
    made by the initializer have one entry for each centre; other shapes are a
    ValueError here. *)
Definition forward_row (p : rbf_params) (x : list R) : result (R * list R * list R) :=
  if negb ((length (rw p) =? length (rc p))%nat && (length (rbeta p) =? length (rc p))%nat) then Err ValueError else
  xci <- x_ci_row (rc p) x ;;
  let rho := rho_row (rbeta p) xci in
  Ok (dot rho (rw p) + rb p, rho, xci).
(** The same for all rows (optimizers.py 813-839). *)
Definition rbf_forward (p : rbf_params) (x : list (list R)) : result (list (R * list R * list R)) := mapM (forward_row p) x.
(** What [predict] returns (radial_basis_function_network.py 121-124). *)
Definition rbf_predict (p : rbf_params) (x : list (list R)) : result (list R) :=
  rows <- rbf_forward p x ;; Ok (map (fun t => fst (fst t)) rows).

(** The entries of the gradient (optimizers.py 862-864). *)
Record rbf_grad := { dw : list R; db : R; dbeta : list R }.
(** optimizers.py 841-866 [backward], labels of shape (n, 1). [h] is the number of
    units. *)
Definition rbf_backward (h : nat) (rows : list (R * list R * list R)) (y : list R) (w : list R) : result rbf_grad :=
  if negb (length rows =? length y)%nat then Err ValueError else
  if (length y =? 0)%nat then Err NotANumber else
  let n := INR (length y) in
  let t := combine rows y in
  Ok {| dw := map (fun u => rsum (map (fun q => (fst (fst (fst q)) - snd q) * nth u (snd (fst (fst q))) 0) t) / n) (seq 0 h);
        db := rsum (map (fun q => fst (fst (fst q)) - snd q) t) / n;
        dbeta := map (fun u => rsum (map (fun q => fst (fst (fst q)) * nth u w 0 * nth u (snd (fst (fst q))) 0 * - nth u (snd (fst q)) 0) t) / n) (seq 0 h) |}.
(** optimizers.py 797-811 [_update_parameters]: the centres are not trained. *)
Definition rbf_update (rate : R) (p : rbf_params) (g : rbf_grad) : rbf_params :=
  {| rw := zip2 (fun v d => v - rate * d) (rw p) (dw g); rb := rb p - rate * db g; rc := rc p;
     rbeta := zip2 (fun v d => v - rate * d) (rbeta p) (dbeta g) |}.

(** Labels of shape (n, 1) or (n), as radial_basis_function_network.py 93 leaves
    them. *)
Inductive labels := Column (y : list R) | Flat (y : list R).
(** The numbers in the labels (optimizers.py 856). *)
Definition label_list (l : labels) : list R := match l with Column y => y | Flat y => y end.
(** optimizers.py 777-787: one epoch; returns the new parameters and the loss that
    is shown and recorded, which is computed from the predictions made before the
    update. Labels of shape (n) turn the error into an (n, n) matrix, and the update
    of the (1, h) weights by an (n, h) gradient is a ValueError unless n is 1. *)
Definition rbf_epoch (rate : R) (x : list (list R)) (y : labels) (p : rbf_params) : result (rbf_params * R) :=
  rows <- rbf_forward p x ;;
  match y with Flat (_ :: _ :: _) => Err ValueError | _ =>
    g <- rbf_backward (length (rc p)) rows (label_list y) (rw p) ;;
    l <- mean_squared_error (length rows) (map (fun t => fst (fst t)) rows) (label_list y) ;;
    Ok (rbf_update rate p g, l)
  end.
(** optimizers.py 751-795 [run]: the parameters and the recorded losses. *)
Fixpoint rbf_run (rate : R) (x : list (list R)) (y : labels) (epochs : nat) (p : rbf_params) : result (rbf_params * list R) :=
  match epochs with
  | O => Ok (p, [])
  | S k => r <- rbf_epoch rate x y p ;; s <- rbf_run rate x y k (fst r) ;; Ok (fst s, snd r :: snd s)
  end.
