(** Vocabulary for programs that share numpy's generator (C91, C92). *)
From Coq Require Import List ZArith Reals String.
From Verif.Model Require Import Base Training Process.
Import ListNotations.

Section Calls.
Context {G : Type}.

(** A call that takes no entropy from the operating system and does not use the seed
    that bagging drew when it was imported. *)
Definition takes_no_entropy (c : call G) : Prop :=
  match c with
  | NewNetwork _ _ None (Instance _) | NewRegression _ _ None (Instance _) => True
  | NewNetwork _ _ None _ | NewRegression _ _ None _ | NewRadial _ _ None | NewClassifier _ _ None => False
  | Seed _ None | Initializer _ None | CompileBag _ _ None => False
  | _ => True
  end.

(** The object that a call makes, changes or trains. *)
Definition target (c : call G) : option nat :=
  match c with
  | NewNetwork _ id _ _ | NewRegression _ id _ _ | NewRadial _ id _ | NewClassifier _ id _ | NewBag _ id | NewMeans _ id _
  | CompileNetwork _ id _ _ _ | CompileRegression _ id _ _ | CompileRadial _ id _ _ _ | CompileClassifier _ id _ _ _ _
  | CompileBag _ id _ | CompileMeans _ id _ _ | LoadNetwork _ id _ _ _ | LoadRegression _ id _ _ | LoadRadial _ id _ _ _
  | FitNetwork _ id _ _ _ _ | FitRegression _ id _ _ _ _ | FitRadial _ id _ _ _ | FitClassifier _ id _ _ _ _ _
  | FitBag _ id _ _ _ _ | FitMeans _ id _ _ _ => Some id
  | Seed _ _ | Initializer _ _ | Draws _ _ => None
  end.
Definition elsewhere (id : nat) (c : call G) : Prop := target c <> Some id.

(** A call that neither seeds nor uses the generator. *)
Definition leaves_generator (c : call G) : Prop :=
  match c with
  | NewNetwork _ _ _ _ | NewRegression _ _ _ _ | NewRadial _ _ _ | NewBag _ _ | NewMeans _ _ _
  | CompileClassifier _ _ _ _ _ _ | CompileBag _ _ _ | CompileMeans _ _ _ _
  | LoadNetwork _ _ _ _ _ | LoadRegression _ _ _ _ | LoadRadial _ _ _ _ _ => True
  | _ => False
  end.

(** An initializer given by its name, or not at all. *)
Definition to_be_built {K} (a : arg K) : Prop := match a with Instance _ => False | _ => True end.

(** Two objects of the same settings: they differ at most in what they learned. *)
Definition same_settings {S P} (a b : learner S P) : Prop :=
  l_seed a = l_seed b /\ l_initializer a = l_initializer b /\ l_shape a = l_shape b /\ l_optimizer a = l_optimizer b /\
  l_loaded a = l_loaded b.

(** [is] are [n] row numbers below [k] that were drawn one after the other, and [g'] is
    the generator afterwards. *)
Inductive drew (integer : nat -> G -> nat * G) (k : nat) : nat -> G -> list nat -> G -> Prop :=
| drew_none g : drew integer k 0 g [] g
| drew_one n g i g1 is g2 : integer k g = (i, g1) -> drew integer k n g1 is g2 -> drew integer k (S n) g (i :: is) g2.
End Calls.
