(** Reading STEP files. *)
From Coq Require Import List ZArith.
From Verif.Model Require Import Base StepRead.
Import ListNotations.
Open Scope Z_scope.

(** the ids met when following the connections of the known entities from the initial ones *)
Inductive met (file : step_file) (initial : list Z) : Z -> Prop :=
| met_initial n : In n initial -> met file initial n
| met_next m n f : met file initial m -> find_function file m = Some f -> f_known f = true -> In n (f_connections f) -> met file initial n.
Definition known (file : step_file) (n : Z) : Prop := exists f, find_function file n = Some f /\ f_known f = true.
(** [built deps make n i v]: v is the object of entity i, made of the objects of the entities it looks up, to depth n *)
Fixpoint built {V} (deps : Z -> option (list Z)) (make : Z -> list V -> res V) (n : nat) (i : Z) (v : V) : Prop :=
  match n with
  | O => False
  | S n => exists ds vs, deps i = Some ds /\ Forall2 (built deps make n) ds vs /\ make i vs = Ok v
  end.
Definition object_of {V} deps (make : Z -> list V -> res V) (i : Z) (v : V) : Prop := exists n, built deps make n i v.
(** every object of the dictionary is that of its entity *)
Definition sound {V} deps (make : Z -> list V -> res V) (o : objects V) : Prop := forall i v, o i = Some v -> object_of deps make i v.
(** all the objects of o are in o' *)
Definition extends {V} (o o' : objects V) : Prop := forall i v, o i = Some v -> o' i = Some v.
(** the number of connections of the entities of the file *)
Definition connections_of (file : step_file) : nat := list_sum (map (fun e => length (f_connections (snd e))) file).
