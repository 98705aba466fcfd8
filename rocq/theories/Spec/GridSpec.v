(** Specification vocabulary for grids: adjacency of cells and paths. Independent of the model. *)
From Coq Require Import ZArith Bool.
Open Scope Z_scope.

(** Two cells share a face (an edge in 2D): one coordinate differs by one, the others agree. *)
Definition adj2 (c d : Z * Z) : Prop :=
  Z.abs (fst c - fst d) + Z.abs (snd c - snd d) = 1.
Definition adj3 (c d : Z * Z * Z) : Prop :=
  Z.abs (fst (fst c) - fst (fst d)) + Z.abs (snd (fst c) - snd (fst d)) + Z.abs (snd c - snd d) = 1.

(** Cell of a matrix of the given shape. *)
Definition In2 (a b : Z) (c : Z * Z) : Prop := 0 <= fst c < a /\ 0 <= snd c < b.
Definition In3 (a b d : Z) (c : Z * Z * Z) : Prop :=
  0 <= fst (fst c) < a /\ 0 <= snd (fst c) < b /\ 0 <= snd c < d.

(** [path adj P c d]: there is a chain of adjacent cells from c to d, all satisfying P
    (ends included). *)
Inductive path {cell : Type} (adj : cell -> cell -> Prop) (P : cell -> Prop) : cell -> cell -> Prop :=
| path_here c : P c -> path adj P c c
| path_step c d e : path adj P c d -> adj d e -> P e -> path adj P c e.
