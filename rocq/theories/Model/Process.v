(** Model of a Python process that uses the library: several model objects that
    share numpy's global generator.

    api/models/neural_network/back_propagation_neural_network.py 38-113 and
    radial_basis_function_network.py 33-98, api/models/linear_model/
    logistic_regression.py 34-88, api/models/support_vector_machine/
    support_vector_classifier.py 48-126, api/models/ensemble/bagging.py 28-79,
    api/models/cluster/k_means.py 34-101.

    The generator is an argument: what is modelled is which calls seed it, which
    draw from it and where the draws end up.  Calls of [fit] are quiet
    ([verbose=False], no callbacks; see Callbacks.v).  The Python engine is modelled;
    the data fits the types of the arguments.  K-means stands for the two clustering
    models, which draw in the same way (ops.py 652-654). *)
From Coq Require Import List ZArith Reals Bool Arith String.
From Verif.Model Require Import Base Ops Network Logistic Rbf Smo Svc Stump Ensemble KMeans Training Misfit Initializers.
Import ListNotations.
Local Open Scope R_scope.
Local Notation length := List.length.

(** The fields of the three models with an initializer
    (back_propagation_neural_network.py 47-58, radial_basis_function_network.py
    40-50, logistic_regression.py 43-52), without [loss] and [metric], which a quiet
    [fit] does not use.  [P] are the parameters, None before the first [fit];
    [S] is what [compile] says about their shape. *)
Record learner (S P : Type) := {
  l_seed : option Z;
  l_initializer : arg (initializer_kind (option Z));
  l_shape : option S;
  l_optimizer : option (component optimizer_kind);
  l_parameters : option P;
  l_trained : bool;
  l_loaded : bool }.
Arguments l_seed {S P}. Arguments l_initializer {S P}. Arguments l_shape {S P}. Arguments l_optimizer {S P}.
Arguments l_parameters {S P}. Arguments l_trained {S P}. Arguments l_loaded {S P}.
(** The network: the neurons of the layers behind the input, and the layers
    (back_propagation_neural_network.py 51, 55). *)
Definition network := learner (list nat) (list layer).
(** The logistic regression: [compile] says nothing about the shape
    (logistic_regression.py 46-52). *)
Definition regression := learner unit (list R).
(** The radial basis functions: the number of hidden units
    (radial_basis_function_network.py 44, 48). *)
Definition radial := learner nat rbf_params.
(** A new object: back_propagation_neural_network.py 38-58,
    radial_basis_function_network.py 33-50 (without the argument), and
    logistic_regression.py 34-52. *)
Definition new_learner {S P} (seed : option Z) (i : arg (initializer_kind (option Z))) : learner S P :=
  {| l_seed := seed; l_initializer := i; l_shape := None; l_optimizer := None; l_parameters := None;
     l_trained := false; l_loaded := false |}.
(** bagging.py 33-38; [bg_compiled] says that [BaseLearner] is the stump and not
    None. *)
Record bag := { bg_compiled : bool; bg : bagging; bg_trained : bool }.
(** bagging.py 28-38. *)
Definition new_bag : bag := {| bg_compiled := false; bg := {| bag_seed := -1; bag_stumps := [] |}; bg_trained := false |}.
(** k_means.py 34-65; [km_compiled] holds [init] and [tol]. *)
Record means := { km_n : nat; km_compiled : option (init_arg * R);
                  km_result : option (list centroid * option (list nat)); km_trained : bool }.
(** k_means.py 34-49. *)
Definition new_means (n : nat) : means := {| km_n := n; km_compiled := None; km_result := None; km_trained := false |}.

(** The objects of a process: back_propagation_neural_network.py 38-58,
    logistic_regression.py 34-52, radial_basis_function_network.py 33-50,
    support_vector_classifier.py 48-67, bagging.py 28-38, k_means.py 34-49. *)
Inductive object :=
| ANetwork (o : network) | ARegression (o : regression) | ARadial (o : radial)
| AClassifier (o : classifier) | ABag (o : bag) | AMeans (o : means).

Section Process.
(** The generator: seeding, a normal and a uniform number, [randint(0, n)] for n > 0,
    [randint(0, n, size=k)], [choice(arange(n), size=n)], [permutation(n)]. *)
Variable G : Type.
Variable seeded : Z -> G.
Variable gauss : G -> R * G.
Variable uniform : G -> R * G.
Variable integer : nat -> G -> nat * G.
Variable integers : nat -> nat -> G -> list nat * G.
Variable choice : nat -> G -> list nat * G.
Variable permutation : nat -> G -> list nat * G.

(** The process: the generator, the entropy for unseeded seedings, the default
    argument of bagging's [compile], drawn once at import (bagging.py 40), and the
    objects. *)
Record process := { p_gen : G; p_entropy : list Z; p_default : Z; p_heap : nat -> option object }.
(** Storing an object; stands for the assignments to fields. (e.g.
    logistic_regression.py 66-69). *)
Definition put (id : nat) (o : object) (p : process) : process :=
  {| p_gen := p_gen p; p_entropy := p_entropy p; p_default := p_default p;
     p_heap := fun j => if (j =? id)%nat then Some o else p_heap p j |}.
(** A new state of the generator. (e.g. ops.py 46). *)
Definition set_gen (g : G) (p : process) : process :=
  {| p_gen := g; p_entropy := p_entropy p; p_default := p_default p; p_heap := p_heap p |}.
(** [np.random.seed(seed)] (initializers.py 31, support_vector_classifier.py 56); None
    takes fresh entropy.  With no entropy left in the list the model reuses the seed
    0; theorems do not depend on this. *)
Definition np_seed (seed : option Z) (p : process) : process * option err :=
  match seed with
  | Some s => if seed_ok s then (set_gen (seeded s) p, None) else (p, Some ValueError)
  | None => ({| p_gen := seeded (hd 0%Z (p_entropy p)); p_entropy := tl (p_entropy p);
                p_default := p_default p; p_heap := p_heap p |}, None)
  end.

(** training.py 36-65 [get_initializer]: building an initializer seeds the generator,
    taking an existing one does not. *)
Definition take_initializer (a : arg (initializer_kind (option Z))) (seed : option Z) (p : process)
  : process * result (component (initializer_kind (option Z))) :=
  match a, get_initializer a seed with
  | Instance _, r => (p, r)
  | _, Err e => (p, Err e)
  | _, Ok c => match np_seed seed p with (p', None) => (p', Ok c) | (p', Some e) => (p', Err e) end
  end.

(** ** compile *)
(** back_propagation_neural_network.py 60-79, logistic_regression.py 54-69 and
    radial_basis_function_network.py 52-75: the assignments in order, up to the first
    exception.  [whose] is the argument of [get_initializer]: the own field, or
    always 'rbf_normal'.  [get_loss] never fails. *)
Definition compile_learner {S P} (wrap : learner S P -> object) (id : nat) (o : learner S P) (shape : option S)
  (whose : arg (initializer_kind (option Z))) (opt : arg optimizer_kind) (metric : arg metric_kind) (p : process) : process * option err :=
  let o1 := {| l_seed := l_seed o; l_initializer := l_initializer o; l_shape := shape; l_optimizer := l_optimizer o;
               l_parameters := l_parameters o; l_trained := l_trained o; l_loaded := l_loaded o |} in
  match take_initializer whose (l_seed o) p with
  | (p1, Err e) => (put id (wrap o1) p1, Some e)
  | (p1, Ok c) =>
      let o2 f := {| l_seed := l_seed o; l_initializer := Instance c; l_shape := shape; l_optimizer := f;
                     l_parameters := l_parameters o; l_trained := l_trained o; l_loaded := l_loaded o |} in
      match get_optimizer opt with
      | Err e => (put id (wrap (o2 (l_optimizer o))) p1, Some e)
      | Ok f => (put id (wrap (o2 (Some f))) p1, match get_metric metric with Ok _ => None | Err e => Some e end)
      end
  end.

(** ** Calls of the initializers *)
(** initializers.py 43-170 for a network: [RBFNormal] does not know the argument
    [attributes_or_structure]. *)
Definition call_layers (k : initializer_kind (option Z)) (structure : list nat) (g : G) : result (list layer * G) :=
  match k with
  | RandomNormal _ => Ok (init_layers G gauss Plain structure g)
  | HeNormal _ => Ok (init_layers G gauss He structure g)
  | XavierNormal _ | GlorotNormal _ => Ok (init_layers G gauss Xavier structure g)
  | RBFNormal _ => Err TypeError
  end.
(** initializers.py 43-170 for a logistic regression. *)
Definition call_vector (k : initializer_kind (option Z)) (d : nat) (g : G) : result (list R * G) :=
  match k with
  | RandomNormal _ => init_vector G gauss Plain d g
  | HeNormal _ => init_vector G gauss He d g
  | XavierNormal _ | GlorotNormal _ => init_vector G gauss Xavier d g
  | RBFNormal _ => Err TypeError
  end.
(** initializers.py 43-170 for radial basis functions: only [RBFNormal] knows the
    argument [hidden_units]. *)
Definition call_radial (k : initializer_kind (option Z)) (h : nat) (g : G) : result (rbf_params * G) :=
  match k with RBFNormal _ => Ok (init_rbf G gauss uniform h g) | _ => Err TypeError end.

(** ** Training, with the generator *)
(** optimizers.py 142-195 [StochasticGradientDescent.run].  The parameters are
    changed in place (209-211), so they are what the object holds also after an
    exception. *)
Fixpoint sgd_training_loop (rate : R) (x y : list (list R)) (epochs : nat) (ls : list layer) (g : G) : list layer * G * option err :=
  match epochs with
  | O => (ls, g, None)
  | S k =>
      if (length x =? 0)%nat then (ls, g, Some ValueError) else
      let '(i, g1) := integer (length x) g in
      match sgd_epoch rate x y ls i with
      | Ok ls' => sgd_training_loop rate x y k ls' g1
      | Err e => (ls, g1, Some e)
      end
  end.
(** optimizers.py 371-428 [Adam.run]; [t] is the number of the next epoch. *)
Fixpoint adam_training_loop (o : adam_options) (x y : list (list R)) (epochs t : nat) (s : adam_state) (g : G) : adam_state * G * option err :=
  match epochs with
  | O => (s, g, None)
  | S k =>
      if (length x =? 0)%nat then (s, g, Some ValueError) else
      let '(i, g1) := integer (length x) g in
      match adam_epoch o x y s (t, i) with
      | Ok s' => adam_training_loop o x y k (S t) s' g1
      | Err e => (s, g1, Some e)
      end
  end.
(** The call of the optimizer (optimizers.py 142-195, 371-428); an optimizer that is
    not meant for a network: [misfit_run]. *)
Definition train_network (f : optimizer_kind) (x y : list (list R)) (epochs : nat) (ls : list layer) (g : G) : list layer * G * option err :=
  match f with
  | Sgd rate => sgd_training_loop rate x y epochs ls g
  | Adam rate b1 b2 eps =>
      let '(s, g', e) := adam_training_loop {| rate := rate; beta_1 := b1; beta_2 := b2; epsilon := eps |} x y epochs 1 (adam_init ls) g in
      (params s, g', e)
  | _ => (ls, g, misfit_run f HeldDict (List.length x) epochs)
  end.
(** optimizers.py 508-553 and 617-665; in place as well (562, 683). *)
Fixpoint logistic_training_loop (o : Logistic.optimizer) (d : nat) (x : list (list R)) (y : list Z) (epochs : nat) (b : list R) : list R * option err :=
  match epochs with
  | O => (b, None)
  | S k => match opt_step o d x y b with Ok b' => logistic_training_loop o d x y k b' | Err e => (b, Some e) end
  end.
(** The call of the optimizer (optimizers.py 508-553, 617-665).  Simplification: the row
    that StochasticGradientDescent and Adam draw before they fail does not show in the
    generator. *)
Definition train_regression (f : optimizer_kind) (d : nat) (x : list (list R)) (y : list Z) (epochs : nat) (b : list R) : list R * option err :=
  match f with
  | GradientDescent rate => logistic_training_loop (Logistic.GradientDescent rate) d x y epochs b
  | NewtonMethod => logistic_training_loop Logistic.NewtonMethod d x y epochs b
  | _ => (b, misfit_run f (HeldArray (List.length b)) (List.length x) epochs)
  end.
(** optimizers.py 751-795; in place as well (806-808). *)
Fixpoint radial_training_loop (rate : R) (x : list (list R)) (y : labels) (epochs : nat) (q : rbf_params) : rbf_params * option err :=
  match epochs with
  | O => (q, None)
  | S k => match rbf_epoch rate x y q with Ok r => radial_training_loop rate x y k (fst r) | Err e => (q, Some e) end
  end.
(** The call of the optimizer (optimizers.py 751-795); the same simplification. *)
Definition train_radial (f : optimizer_kind) (x : list (list R)) (y : labels) (epochs : nat) (q : rbf_params) : rbf_params * option err :=
  match f with RbfOptimizer rate => radial_training_loop rate x y epochs q | _ => (q, misfit_run f HeldDict (List.length x) epochs) end.

(** ** fit *)
(** The object after the training part of [fit]: the parameters, and the mark if
    nothing was raised (back_propagation_neural_network.py 108-111). *)
Definition after_training {S P} (o : learner S P) (q : option P) (e : option err) : learner S P :=
  {| l_seed := l_seed o; l_initializer := l_initializer o; l_shape := l_shape o; l_optimizer := l_optimizer o;
     l_parameters := q; l_trained := match e with None => true | Some _ => l_trained o end; l_loaded := l_loaded o |}.
(** [self.optimizer(...)] with [self.optimizer] None is a TypeError (e.g.
    logistic_regression.py 84). *)
Definition with_optimizer {A} (o : option (component optimizer_kind)) (none : A) (f : optimizer_kind -> A) : A :=
  match o with Some c => f (kind c) | None => none end.
(** back_propagation_neural_network.py 81-113 [fit]; [d] is [x.shape[1]].  The start:
    the loaded parameters, or new ones from the initializer. *)
Definition start_network (d : nat) (o : network) (g : G) : result (list layer * G) :=
  if l_loaded o then match l_parameters o with Some ls => Ok (ls, g) | None => Err KeyError end
  else match l_shape o with
       | None => Err AttributeError
       | Some s => match l_initializer o with Instance c => call_layers (kind c) (d :: s) g | _ => Err TypeError end
       end.
(** back_propagation_neural_network.py 81-113 [fit]. *)
Definition fit_network (d : nat) (x y : list (list R)) (epochs : nat) (o : network) (g : G) : network * G * option err :=
  match start_network d o g with
  | Err e => (o, g, Some e)
  | Ok (ls, g1) =>
      let '(ls', g2, e) := with_optimizer (l_optimizer o) (ls, g1, Some TypeError) (fun f => train_network f x y epochs ls g1) in
      (after_training o (Some ls') e, g2, e)
  end.
(** logistic_regression.py 80-82. *)
Definition start_regression (d : nat) (o : regression) (g : G) : result (list R * G) :=
  if l_loaded o then match l_parameters o with Some b => Ok (b, g) | None => Err AttributeError end
  else match l_initializer o with Instance c => call_vector (kind c) d g | _ => Err TypeError end.
(** logistic_regression.py 71-88 [fit]. *)
Definition fit_regression (d : nat) (x : list (list R)) (y : list Z) (epochs : nat) (o : regression) (g : G) : regression * G * option err :=
  match start_regression d o g with
  | Err e => (o, g, Some e)
  | Ok (b, g1) =>
      let '(b', e) := with_optimizer (l_optimizer o) (b, Some TypeError) (fun f => train_regression f d x y epochs b) in
      (after_training o (Some b') e, g1, e)
  end.
(** radial_basis_function_network.py 91-93. *)
Definition start_radial (o : radial) (g : G) : result (rbf_params * G) :=
  if l_loaded o then match l_parameters o with Some q => Ok (q, g) | None => Err KeyError end
  else match l_initializer o, l_shape o with Instance c, Some h => call_radial (kind c) h g | _, _ => Err TypeError end.
(** radial_basis_function_network.py 77-98 [fit]. *)
Definition fit_radial (x : list (list R)) (y : labels) (epochs : nat) (o : radial) (g : G) : radial * G * option err :=
  match start_radial o g with
  | Err e => (o, g, Some e)
  | Ok (q, g1) =>
      let '(q', e) := with_optimizer (l_optimizer o) (q, Some TypeError) (fun f => train_radial f x y epochs q) in
      (after_training o (Some q') e, g1, e)
  end.

(** The permutations that the training of the support vector classifier draws, one
    after the other (optimizers.py 1013). *)
Fixpoint nth_state (n : nat) (k : nat) (g : G) : G :=
  match k with O => g | S k' => nth_state n k' (snd (permutation n g)) end.
(** (optimizers.py 1013). *)
Definition drawn (n : nat) (g : G) (k : nat) : list nat := fst (permutation n (nth_state n k g)).
(** support_vector_classifier.py 92-126 [fit]: the number of permutations is that of
    the training loop.  If nothing ends the training (StopFuel) the call does not
    return; the state is then of no meaning. *)
Definition fit_classifier (d : nat) (x : list (list R)) (y : list R) (fuel : nat) (epochs : Z) (o : classifier) (g : G) : classifier * G * option err :=
  let '(o', e) := Svc.fit d x y (drawn (length x) g) fuel epochs o in
  (o', nth_state (length x) (Svc.draws d x y (drawn (length x) g) fuel epochs o) g, e).

(** bagging.py 68-74: the rounds of [fit] up to the first exception; [w] is the number
    of features.  ops.py 45-46 seeds and draws. *)
Fixpoint bag_rounds (n w : nat) (x : list (list R)) (y : list Z) (compiled : bool) (b : bagging) (g : G) : bagging * G * option err :=
  match n with
  | O => (b, g, None)
  | S k =>
      if negb (length x =? length y)%nat then (b, g, Some ValueError) else
      if negb (seed_ok (bag_seed b)) then (b, g, Some ValueError) else
      let '(_, g1) := choice (length x) (seeded (bag_seed b)) in
      let b1 := {| bag_seed := (bag_seed b + 1)%Z; bag_stumps := bag_stumps b |} in
      if negb compiled then (b1, g1, Some TypeError) else
      match bag_round (fun s n => fst (choice n (seeded s))) w x y b with
      | Ok b' => bag_rounds k w x y compiled b' g1
      | Err e => (b1, g1, Some e)
      end
  end.
(** bagging.py 53-79 [fit]. *)
Definition fit_bag (n w : nat) (x : list (list R)) (y : list Z) (o : bag) (g : G) : bag * G * option err :=
  let '(b, g', e) := bag_rounds n w x y (bg_compiled o) (bg o) g in
  ({| bg_compiled := bg_compiled o; bg := b; bg_trained := match e with None => true | Some _ => bg_trained o end |}, g', e).

(** k_means.py 67-101 [fit]; [d] is [x.shape[1]].  A draw is made only for 'random'
    (ops.py 652-654).  Simplification: after an exception the fields that [fit] had
    already overwritten are not tracked. *)
Definition fit_means (d : nat) (x : list (list R)) (epochs : nat) (o : means) (g : G) : means * G * option err :=
  match km_compiled o with
  | None => (o, g, Some TypeError)
  | Some (init, tol) =>
      let '(l, g1) := match init with
                      | InitRandom => if (length x =? 0)%nat then ([], g) else integers (length x) (km_n o) g
                      | _ => ([], g)
                      end in
      match km_fit (fun _ _ => l) d x (km_n o) init tol epochs with
      | Ok (c, cl, _) => ({| km_n := km_n o; km_compiled := km_compiled o; km_result := Some (c, cl); km_trained := true |}, g1, None)
      | Err e => (o, g1, Some e)
      end
  end.

(** ** Programs *)
(** The calls.  An object is addressed by a number; a constructor stores the new object
    under its number.  [Seed] is [np.random.seed], [Initializer] the construction of an
    initializer by the user (initializers.py 21-31), [Draws] other code that uses the
    generator. The load calls stand for the effect of [load_weights] (e.g.
    back_propagation_neural_network.py 151-182; the files are modelled in Store.v). *)
Inductive call :=
| NewNetwork (id : nat) (seed : option Z) (i : arg (initializer_kind (option Z)))
| NewRegression (id : nat) (seed : option Z) (i : arg (initializer_kind (option Z)))
| NewRadial (id : nat) (seed : option Z)
| NewClassifier (id : nat) (seed : option Z)
| NewBag (id : nat)
| NewMeans (id n : nat)
| CompileNetwork (id : nat) (structure : list nat) (opt : arg optimizer_kind) (metric : arg metric_kind)
| CompileRegression (id : nat) (opt : arg optimizer_kind) (metric : arg metric_kind)
| CompileRadial (id h : nat) (opt : arg optimizer_kind) (metric : arg metric_kind)
| CompileClassifier (id : nat) (C : R) (k : arg kernel_kind) (gamma : gamma_value) (tol : R)
| CompileBag (id : nat) (seed : option Z)
| CompileMeans (id : nat) (init : init_arg) (tol : R)
| LoadNetwork (id : nat) (structure : list nat) (f : component optimizer_kind) (ls : list layer)
| LoadRegression (id : nat) (f : component optimizer_kind) (b : list R)
| LoadRadial (id h : nat) (f : component optimizer_kind) (q : rbf_params)
| FitNetwork (id d : nat) (x y : list (list R)) (epochs : nat)
| FitRegression (id d : nat) (x : list (list R)) (y : list Z) (epochs : nat)
| FitRadial (id : nat) (x : list (list R)) (y : labels) (epochs : nat)
| FitClassifier (id d : nat) (x : list (list R)) (y : list R) (fuel : nat) (epochs : Z)
| FitBag (id n w : nat) (x : list (list R)) (y : list Z)
| FitMeans (id d : nat) (x : list (list R)) (epochs : nat)
| Seed (seed : option Z)
| Initializer (seed : option Z)
| Draws (f : G -> G).

(** [load_weights] of the three learners: shape, optimizer, parameters and the mark
    (back_propagation_neural_network.py 169-176, radial_basis_function_network.py
    157-165, logistic_regression.py 143-148). *)
Definition loaded {S P} (o : learner S P) (shape : option S) (f : component optimizer_kind) (q : P) : learner S P :=
  {| l_seed := l_seed o; l_initializer := l_initializer o; l_shape := shape; l_optimizer := Some f;
     l_parameters := Some q; l_trained := l_trained o; l_loaded := true |}.

(** back_propagation_neural_network.py 173-174: the layers of the file are written over
    those of the dictionary; layers that the file does not have stay. *)
Definition over (ls : list layer) (old : option (list layer)) : list layer :=
  ls ++ skipn (length ls) (match old with Some l => l | None => [] end).

(** The result of a [fit] stored back. (e.g. logistic_regression.py 84-86). *)
Definition store_fit {A} (wrap : A -> object) (id : nat) (r : A * G * option err) (p : process) : process * option err :=
  let '(o, g, e) := r in (put id (wrap o) (set_gen g p), e).

(** One call: the process afterwards and the exception, if any.  A call for a number
    under which no object of the class is stored does nothing (NameError in Python; it
    is reported as AttributeError).  The methods: back_propagation_neural_network.py
    38-182, logistic_regression.py 34-148, radial_basis_function_network.py 33-165,
    support_vector_classifier.py 48-126, bagging.py 28-79, k_means.py 34-101. *)
Definition perform (p : process) (c : call) : process * option err :=
  let missing := (p, Some AttributeError) in
  match c with
  | NewNetwork id s i => (put id (ANetwork (new_learner s i)) p, None)
  | NewRegression id s i => (put id (ARegression (new_learner s i)) p, None)
  | NewRadial id s => (put id (ARadial (new_learner s NoArg)) p, None)
  | NewClassifier id s =>
      match np_seed s p with (p', None) => (put id (AClassifier new_classifier) p', None) | (p', Some e) => (p', Some e) end
  | NewBag id => (put id (ABag new_bag) p, None)
  | NewMeans id n => (put id (AMeans (new_means n)) p, None)
  | CompileNetwork id s opt m =>
      match p_heap p id with Some (ANetwork o) => compile_learner ANetwork id o (Some s) (l_initializer o) opt m p | _ => missing end
  | CompileRegression id opt m =>
      match p_heap p id with Some (ARegression o) => compile_learner ARegression id o (l_shape o) (l_initializer o) opt m p | _ => missing end
  | CompileRadial id h opt m =>
      match p_heap p id with Some (ARadial o) => compile_learner ARadial id o (Some h) (ByName "rbf_normal") opt m p | _ => missing end
  | CompileClassifier id C k gamma tol =>
      match p_heap p id with Some (AClassifier o) => (put id (AClassifier (Svc.compile C k gamma tol o)) p, None) | _ => missing end
  | CompileBag id s =>
      match p_heap p id with
      | Some (ABag o) =>
          (put id (ABag {| bg_compiled := true;
                           bg := {| bag_seed := match s with Some z => z | None => p_default p end; bag_stumps := bag_stumps (bg o) |};
                           bg_trained := bg_trained o |}) p, None)
      | _ => missing
      end
  | CompileMeans id init tol =>
      match p_heap p id with
      | Some (AMeans o) => (put id (AMeans {| km_n := km_n o; km_compiled := Some (init, tol); km_result := km_result o; km_trained := km_trained o |}) p, None)
      | _ => missing
      end
  | LoadNetwork id s f ls =>
      match p_heap p id with Some (ANetwork o) => (put id (ANetwork (loaded o (Some s) f (over ls (l_parameters o)))) p, None) | _ => missing end
  | LoadRegression id f b =>
      match p_heap p id with Some (ARegression o) => (put id (ARegression (loaded o (l_shape o) f b)) p, None) | _ => missing end
  | LoadRadial id h f q =>
      match p_heap p id with Some (ARadial o) => (put id (ARadial (loaded o (Some h) f q)) p, None) | _ => missing end
  | FitNetwork id d x y n =>
      match p_heap p id with Some (ANetwork o) => store_fit ANetwork id (fit_network d x y n o (p_gen p)) p | _ => missing end
  | FitRegression id d x y n =>
      match p_heap p id with Some (ARegression o) => store_fit ARegression id (fit_regression d x y n o (p_gen p)) p | _ => missing end
  | FitRadial id x y n =>
      match p_heap p id with Some (ARadial o) => store_fit ARadial id (fit_radial x y n o (p_gen p)) p | _ => missing end
  | FitClassifier id d x y fuel n =>
      match p_heap p id with Some (AClassifier o) => store_fit AClassifier id (fit_classifier d x y fuel n o (p_gen p)) p | _ => missing end
  | FitBag id n w x y =>
      match p_heap p id with Some (ABag o) => store_fit ABag id (fit_bag n w x y o (p_gen p)) p | _ => missing end
  | FitMeans id d x n =>
      match p_heap p id with Some (AMeans o) => store_fit AMeans id (fit_means d x n o (p_gen p)) p | _ => missing end
  | Seed s => np_seed s p
  | Initializer s => np_seed s p
  | Draws f => (set_gen (f (p_gen p)) p, None)
  end.
(** A program: every exception is caught by the caller.  The methods are those of
    [perform] (back_propagation_neural_network.py 38-182 and the others). *)
Fixpoint performs (p : process) (cs : list call) : process * list (option err) :=
  match cs with
  | [] => (p, [])
  | c :: cs' => let '(p1, e) := perform p c in let '(p2, es) := performs p1 cs' in (p2, e :: es)
  end.
End Process.
