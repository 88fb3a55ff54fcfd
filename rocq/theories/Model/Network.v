(** Model of the layered network: [forward], [backward], [_get_grad] and
    [_update_parameters] of StochasticGradientDescent and Adam in
    classicML/backend/python/optimizers.py 123-491.

    The parameters w1, b1, ..., wL, bL are the list of layers [(wi, bi)]: [wi] is
    the list of the rows of the weight matrix, one per neuron, and [bi] is the
    bias row.  A batch is the list of its rows.  Floats are exact reals. *)
From Coq Require Import List Reals Bool Arith.
From Verif.Model Require Import Base Activations.
Import ListNotations.
Local Open Scope R_scope.

(** Parameters ['w' + str(i)] and ['b' + str(i)] of one layer (optimizers.py
    233-234, 245-246). *)
Definition layer := (list (list R) * list R)%type.
(** The cached triple [(x, w, a)] of a layer (optimizers.py 241, 254). *)
Definition cache := (list (list R) * list (list R) * list (list R))%type.
(** The gradient of a layer, [(dw, db)] (optimizers.py 302-303). *)
Definition grad := (list (list R) * list R)%type.

(** [np.matmul(x, w.T) + b] for one row (optimizers.py 238 and 248). ValueError if
    the shapes do not fit. Simplification: a bias of length 1 is not broadcast; the
    initializers never make one of another length than [w]. *)
Definition affine_row (l : layer) (x : list R) : result (list R) :=
  if forallb (fun r => (length r =? length x)%nat) (fst l) && (length (fst l) =? length (snd l))%nat
  then Ok (zip2 Rplus (map (dot x) (fst l)) (snd l)) else Err ValueError.
(** The same for all rows (optimizers.py 238, 248). *)
Definition affine (l : layer) (x : list (list R)) : result (list (list R)) := mapM (affine_row l) x.

(** optimizers.py 249-252: the output activation, chosen by the number of output
    neurons. *)
Definition output_activation (w : list (list R)) (z : list (list R)) : result (list (list R)) :=
  if (length w =? 1)%nat then Ok (mmap sigmoid z) else softmax z.

(** optimizers.py 215-257 [StochasticGradientDescent.forward]. The loop over layer
    numbers is recursion over the list of layers; no layer at all is a KeyError
    ('w0'). *)
Fixpoint forward (ls : list layer) (x : list (list R)) : result (list (list R) * list cache) :=
  match ls with
  | [] => Err KeyError
  | l :: ls' =>
      z <- affine l x ;;
      match ls' with
      | [] => p <- output_activation (fst l) z ;; Ok (p, [(x, fst l, p)])
      | _ => let a := mmap relu z in
             r <- forward ls' a ;; Ok (fst r, (x, fst l, a) :: snd r)
      end
  end.

(** Number of columns of a matrix. Used for [y_true.shape[1]] (optimizers.py 279).
    *)
Definition width (m : list (list R)) : nat := match m with [] => 0%nat | r :: _ => length r end.

(** optimizers.py 278-286: the signal of the output layer. Labels of one column go
    through the sigmoid branch whatever the number of outputs is, numpy broadcasts
    them. *)
Definition output_signal (y_pred y_true a : list (list R)) : result (list (list R)) :=
  if negb (length y_pred =? length y_true)%nat then Err ValueError
  else if (width y_true =? 1)%nat then
    Ok (map (fun t => let y := nth 0 (snd t) 0 in
                      zip2 (fun p av => sigmoid_diff (- (y / p - (1 - y) / (1 - p))) p av) (fst (fst t)) (snd (fst t)))
            (combine (combine y_pred a) y_true))
  else if (width y_true =? width a)%nat then Ok (mzip softmax_diff y_true a)
  else Err ValueError.

(** optimizers.py 308-328 [_get_grad]: [n] is the number of rows of the labels. *)
Definition get_grad (n : nat) (da : list (list R)) (c : cache) : grad * list (list R) :=
  let '(x, w, _) := c in
  let dw := map (fun i => map (fun j => rsum (map (fun t => nth i (fst t) 0 * nth j (snd t) 0) (combine da x)) / INR n)
                              (seq 0 (width x)))
                (seq 0 (length w)) in
  let db := map (fun i => rsum (map (fun r => nth i r 0) da) / INR n) (seq 0 (length w)) in
  let da_ := map (fun r => map (fun j => dot r (column 0 w j)) (seq 0 (width w))) da in
  ((dw, db), da_).

(** optimizers.py 294-304: the remaining layers, last one first. *)
Fixpoint backward_hidden (n : nat) (cs : list cache) (output : list (list R)) : list grad :=
  match cs with
  | [] => []
  | c :: cs' =>
      let '(_, _, a) := c in
      let '(g, da_) := get_grad n (mzip relu_diff output a) c in
      g :: backward_hidden n cs' da_
  end.

(** optimizers.py 259-306 [backward]: the gradients from the first layer to the
    last. Labels given as a vector are reshaped to one column (274-275) by the
    caller of this function; no rows gives a division by zero. *)
Definition backward (y_pred y_true : list (list R)) (caches : list cache) : result (list grad) :=
  match rev caches with
  | [] => Err IndexError
  | c :: cs =>
      let '(_, _, a) := c in
      da <- output_signal y_pred y_true a ;;
      if (length y_true =? 0)%nat then Err NotANumber else
      let '(g, da_) := get_grad (length y_true) da c in
      Ok (rev (g :: backward_hidden (length y_true) cs da_))
  end.

(** Element-wise combination of two lists of layers. Stands for the loops over the
    layers in optimizers.py 209-211, 450-465. *)
Definition lzip (f : R -> R -> R) (a b : list layer) : list layer :=
  map (fun p => (mzip f (fst (fst p)) (fst (snd p)), zip2 f (snd (fst p)) (snd (snd p)))) (combine a b).
(** The same for one list of layers (optimizers.py 484-489). *)
Definition lmap (f : R -> R) (a : list layer) : list layer := map (fun l => (mmap f (fst l), map f (snd l))) a.

(** optimizers.py 197-213 [StochasticGradientDescent._update_parameters]. *)
Definition sgd_update (rate : R) (ls : list layer) (g : list grad) : list layer :=
  lzip (fun p d => p - rate * d) ls g.

(** optimizers.py 171-176 and 404-409: the gradient of an epoch with the drawn row
    number [i]. IndexError stands for a number outside the data, which
    [np.random.randint] never draws. [y] holds the rows of the labels. *)
Definition sample_gradient (x y : list (list R)) (ls : list layer) (i : nat) : result (list grad) :=
  xi <- get_at x i ;;
  yi <- get_at y i ;;
  r <- forward ls [xi] ;;
  backward (fst r) [yi] (snd r).
(** optimizers.py 169-178: one epoch of [run]. *)
Definition sgd_epoch (rate : R) (x y : list (list R)) (ls : list layer) (i : nat) : result (list layer) :=
  g <- sample_gradient x y ls i ;;
  Ok (sgd_update rate ls g).
(** optimizers.py 142-195 [run]: [draws] are the row numbers of the epochs. The
    reporting (180-193) is modelled in Callbacks.v. *)
Definition sgd_run (rate : R) (x y : list (list R)) (ls : list layer) (draws : list nat) : result (list layer) :=
  foldM (sgd_epoch rate x y) draws ls.

(** optimizers.py 346-369: the hyper-parameters of Adam. *)
Record adam_options := { rate : R; beta_1 : R; beta_2 : R; epsilon : R }.
(** optimizers.py 452-453, one element: the first moment. *)
Definition moment_1 (o : adam_options) (m g : R) : R := beta_1 o * m + (1 - beta_1 o) * g.
(** optimizers.py 455-456, one element: the second moment. *)
Definition moment_2 (o : adam_options) (v g : R) : R := beta_2 o * v + (1 - beta_2 o) * g ^ 2.
(** optimizers.py 458-465, one element: the amount subtracted from the parameter.
    NotANumber stands for the divisions by zero and the root of a negative number
    that numpy answers with inf or nan. *)
Definition adam_step (o : adam_options) (t : nat) (m v : R) : result R :=
  let c1 := 1 - beta_1 o ^ t in
  let c2 := 1 - beta_2 o ^ t in
  if Reqb c1 0 || Reqb c2 0 then Err NotANumber else
  let v_hat := v / c2 in
  if Rltb v_hat 0 then Err NotANumber else
  if Reqb (sqrt v_hat + epsilon o) 0 then Err NotANumber else
  Ok (rate o * (m / c1) / (sqrt v_hat + epsilon o)).

(** Element-wise lifting of a function that may fail. Stands for the loop of
    optimizers.py 450-465. *)
Definition lzipM (f : R -> R -> result R) (a b : list layer) : result (list layer) :=
  mapM (fun p =>
          dw <- mapM (fun q => mapM (fun e => f (fst e) (snd e)) (combine (fst q) (snd q))) (combine (fst (fst p)) (fst (snd p))) ;;
          db <- mapM (fun e => f (fst e) (snd e)) (combine (snd (fst p)) (snd (snd p))) ;;
          Ok (dw, db)) (combine a b).

(** The local variables [parameters], [m] and [v] of optimizers.py 391-428. *)
Record adam_state := { params : list layer; m_state : list layer; v_state : list layer }.
(** optimizers.py 469-491 [_initializer]. *)
Definition adam_init (ls : list layer) : adam_state :=
  {| params := ls; m_state := lmap (fun _ => 0) ls; v_state := lmap (fun _ => 0) ls |}.
(** optimizers.py 430-467 [Adam._update_parameters]. *)
Definition adam_update (o : adam_options) (t : nat) (s : adam_state) (g : list grad) : result adam_state :=
  let m := lzip (moment_1 o) (m_state s) g in
  let v := lzip (moment_2 o) (v_state s) g in
  step <- lzipM (adam_step o t) m v ;;
  Ok {| params := lzip Rminus (params s) step; m_state := m; v_state := v |}.
(** optimizers.py 401-411: the updates of the epochs 1, 2, ... for the gradients
    [gs]. *)
Definition adam_updates (o : adam_options) (gs : list (list grad)) (s : adam_state) : result adam_state :=
  foldM (fun s e => adam_update o (fst e) s (snd e)) (combine (seq 1 (length gs)) gs) s.
(** optimizers.py 402-411: one epoch of [run]; [e] is the pair of the epoch number,
    from 1, and the drawn row number. *)
Definition adam_epoch (o : adam_options) (x y : list (list R)) (s : adam_state) (e : nat * nat) : result adam_state :=
  g <- sample_gradient x y (params s) (snd e) ;;
  adam_update o (fst e) s g.
(** optimizers.py 371-428 [Adam.run]: the moments start from zero in every call. *)
Definition adam_run (o : adam_options) (x y : list (list R)) (ls : list layer) (draws : list nat) : result (list layer) :=
  s <- foldM (adam_epoch o x y) (combine (seq 1 (length draws)) draws) (adam_init ls) ;;
  Ok (params s).
