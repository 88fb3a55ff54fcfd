(** Model of classicML/backend/python/initializers.py and of
    classicML/backend/cc/initializers/initializers.cc with the generators of
    classicML/backend/cc/matrix_op.cc 75-114.

    Floats are exact reals.  The random generators are arguments: what is modelled
    is which draws end up where, and when a generator is seeded. *)
From Coq Require Import List ZArith Reals Bool Arith.
From Verif.Model Require Import Base Network Rbf.
Import ListNotations.
Local Open Scope R_scope.

(** The classes RandomNormal, HeNormal, XavierNormal; GlorotNormal (141-146)
    inherits [__call__] from XavierNormal. *)
Inductive family := Plain | He | Xavier.

(** initializers.py 58-59, 93-94, 132-133: factor of a weight matrix between
    layers of [i] and [o] neurons. *)
Definition layer_factor (f : family) (i o : nat) : R :=
  match f with Plain => 1 | He => sqrt (2 / INR i) | Xavier => sqrt (2 / (INR i + INR o)) end.
(** initializers.py 52, 86-87, 125-126: factor of a parameter vector. Without
    attributes the factor of He is infinite. *)
Definition vector_factor (f : family) (n : nat) : result R :=
  match f with
  | Plain => Ok 1
  | He => if (n =? 0)%nat then Err NotANumber else Ok (sqrt (2 / INR n))
  | Xavier => Ok (sqrt (INR n))
  end.

(** Cutting a list of [r * c] values into [r] rows (C order). (initializers.py 58,
    93, 132: a drawn matrix). *)
Fixpoint rows_of {A} (r c : nat) (l : list A) : list (list A) :=
  match r with O => [] | S r' => firstn c l :: rows_of r' c (skipn c l) end.
(** The same for Fortran order, in which Eigen stores and fills a matrix: entry (i,
    j) is value number [j * r + i]. (matrix_op.cc 78-112). *)
Definition rows_of_columns (r c : nat) (l : list R) : list (list R) :=
  map (fun i => map (fun j => nth (j * r + i) l 0) (seq 0 c)) (seq 0 r).

(** [n] draws from a generator. (initializers.py 52, 58, matrix_op.cc 86-90). *)
Fixpoint draw_list {G} (draw : G -> R * G) (n : nat) (g : G) : list R * G :=
  match n with
  | O => ([], g)
  | S n' => let '(v, g1) := draw g in let '(l, g2) := draw_list draw n' g1 in (v :: l, g2)
  end.

(** ** Python *)
Section Python.
(** State of numpy's global generator (with its spare normal value, which
    [np.random.seed] clears), seeding, a draw from N(0,1) and one from [0,1). *)
Variable G : Type.
Variable seeded : Z -> G.
Variable gauss : G -> R * G.
Variable uniform : G -> R * G.

(** [np.random.randn(r, c)], [np.random.rand(r, c)]. (initializers.py 52, 58, 86,
    93, 125, 132). *)
Definition randn (r c : nat) (g : G) : list (list R) * G :=
  let '(l, g') := draw_list gauss (r * c) g in (rows_of r c l, g').
(** (initializers.py 155-170). *)
Definition rand (r c : nat) (g : G) : list (list R) * G :=
  let '(l, g') := draw_list uniform (r * c) g in (rows_of r c l, g').

(** A factor times a drawn matrix (initializers.py 58, 93, 132). *)
Definition scaled (k : R) (m : list (list R)) : list (list R) := map (map (fun v => v * k)) m.

(** initializers.py 51-52, 85-87, 122-126: the argument is the number of
    attributes, an int of the configured precision as LogisticRegression.fit
    passes it.  The (n+1, 1) array is the list of its entries. *)
Definition init_vector (f : family) (n : nat) (g : G) : result (list R * G) :=
  k <- vector_factor f n ;;
  let '(m, g') := randn (S n) 1 g in
  Ok (concat (scaled k m), g').

(** initializers.py 53-64, 88-99, 127-138: the argument is the structure with the
    input layer; the dictionary w1, b1, w2, b2, ... is the list of the layers. The
    draws are made layer by layer. *)
Fixpoint init_layers (f : family) (structure : list nat) (g : G) : list layer * G :=
  match structure with
  | i :: ((o :: _) as rest) =>
      let '(m, g1) := randn o i g in
      let '(ls, g2) := init_layers f rest g1 in
      ((scaled (layer_factor f i o) m, repeat 0 o) :: ls, g2)
  | _ => ([], g)
  end.

(** initializers.py 155-170 [RBFNormal.__call__]. *)
Definition init_rbf (h : nat) (g : G) : rbf_params * G :=
  let '(c, g1) := rand h 2 g in
  let '(be, g2) := randn 1 h g1 in
  ({| rw := repeat 0 h; rb := 0; rc := c; rbeta := concat be |}, g2).

(** A program that uses the module: building an instance (23-31; the constructor
    seeds the global generator, with fresh entropy if the seed is None), calling an
    instance (the instance's own seed is not consulted), or other code that draws
    from the global generator. *)
Inductive action :=
| Build (seed : option Z)
| Vector (f : family) (n : nat)
| Layers (f : family) (structure : list nat)
| Rbf (h : nat)
| Other (draws : G -> G).

(** An instance: its class and its seed (initializers.py 21-31). *)
Inductive made := MadeVector (v : list R) | MadeLayers (ls : list layer) | MadeRbf (p : rbf_params).

(** The global generator and the entropy that remains for unseeded builds.
    (initializers.py 21-31). *)
Record world := { gen : G; entropy : list Z }.

(** One action: the new world and what a call returns.  With no entropy left in
    the list the model reuses the seed 0; theorems do not depend on this. *)
Definition act (w : world) (a : action) : world * option (result made) :=
  match a with
  | Build (Some s) => ({| gen := seeded s; entropy := entropy w |}, None)
  | Build None => ({| gen := seeded (hd 0%Z (entropy w)); entropy := tl (entropy w) |}, None)
  | Vector f n =>
      match init_vector f n (gen w) with
      | Ok (v, g) => ({| gen := g; entropy := entropy w |}, Some (Ok (MadeVector v)))
      | Err e => (w, Some (Err e))
      end
  | Layers f s => let '(ls, g) := init_layers f s (gen w) in ({| gen := g; entropy := entropy w |}, Some (Ok (MadeLayers ls)))
  | Rbf h => let '(p, g) := init_rbf h (gen w) in ({| gen := g; entropy := entropy w |}, Some (Ok (MadeRbf p)))
  | Other d => ({| gen := d (gen w); entropy := entropy w |}, None)
  end.
(** A whole program (initializers.py 21-170). *)
Fixpoint acts (w : world) (l : list action) : world * list (result made) :=
  match l with
  | [] => (w, [])
  | a :: l' =>
      let '(w1, o) := act w a in
      let '(w2, os) := acts w1 l' in
      (w2, match o with Some r => r :: os | None => os end)
  end.
End Python.
Arguments Build {G} seed.
Arguments Vector {G} f n.
Arguments Layers {G} f structure.
Arguments Rbf {G} h.
Arguments Other {G} draws.
Arguments gen {G} _.
Arguments entropy {G} _.

(** ** C++ *)
Section Cpp.
(** State of [std::default_random_engine], seeding, a round of the polar method of
    [std::normal_distribution] (which makes two values) and a uniform draw. *)
Variable E : Type.
Variable engine : Z -> E.
Variable polar : E -> R * R * E.
Variable real : E -> R * E.

(** One call of the static [_distribution] object (matrix_op.cc 82, 88): it hands
    out the spare value of the previous round first. *)
Definition normal_draw (st : E * option R) : R * (E * option R) :=
  let '(e, spare) := st in
  match spare with
  | Some v => (v, (e, None))
  | None => let '(a, b, e') := polar e in (a, (e', Some b))
  end.

(** matrix_op.cc 78-93: the engine is seeded in every call, the static distribution
    object keeps its spare value.  [seed] is the seed given or the clock. *)
Definition cc_normal_matrix (r c : nat) (seed : Z) (spare : option R) : list (list R) * option R :=
  let '(l, st) := draw_list normal_draw (r * c) (engine seed, spare) in
  (rows_of_columns r c l, snd st).
(** matrix_op.cc 97-112; [std::uniform_real_distribution] keeps nothing. *)
Definition cc_uniform_matrix (r c : nat) (seed : Z) : list (list R) :=
  rows_of_columns r c (fst (draw_list real (r * c) (engine seed))).

(** initializers.cc 46-52, 89-96, 135-142 [PyCall1].  [spare] is the process-wide
    spare value before and after. *)
Definition cc_init_vector (f : family) (n : nat) (seed : Z) (spare : option R) : result (list R * option R) :=
  k <- vector_factor f n ;;
  let '(m, sp) := cc_normal_matrix (S n) 1 seed spare in
  Ok (concat (scaled k m), sp).

(** initializers.cc 57-73, 101-119, 147-165 [PyCall2]. *)
Fixpoint cc_init_layers (f : family) (structure : list nat) (seed : Z) (spare : option R) : list layer * option R :=
  match structure with
  | i :: ((o :: _) as rest) =>
      let '(m, sp1) := cc_normal_matrix o i seed spare in
      let '(ls, sp2) := cc_init_layers f rest seed sp1 in
      ((scaled (layer_factor f i o) m, repeat 0 o) :: ls, sp2)
  | _ => ([], spare)
  end.

(** initializers.cc 194-205 [RBFNormal::PyCall]. *)
Definition cc_init_rbf (h : nat) (seed : Z) (spare : option R) : rbf_params * option R :=
  let c := cc_uniform_matrix h 2 seed in
  let '(be, sp) := cc_normal_matrix 1 h seed spare in
  ({| rw := repeat 0 h; rb := 0; rc := c; rbeta := concat be |}, sp).
End Cpp.
