(** What a mesh means: its list of triangles as coordinates. *)
From Coq Require Import List ZArith Permutation.
From Verif.Model Require Import Base Mesh.
Import ListNotations.
Open Scope Z_scope.

(** Every index designates a vertex. *)
Definition consistent {V} (m : mesh V) : Prop :=
  forall i j k, In (i, j, k) (tris m) -> forall x, In x [i; j; k] -> 0 <= x < Z.of_nat (length (verts m)).

(** [shape m s]: s is the list of the triangles of m, in order, as vertex coordinates. *)
Definition corners {V} (m : mesh V) (t : tri3) (p : V * V * V) : Prop :=
  let '(i, j, k) := t in let '(a, b, c) := p in
  0 <= i /\ 0 <= j /\ 0 <= k /\
  nth_error (verts m) (Z.to_nat i) = Some a /\ nth_error (verts m) (Z.to_nat j) = Some b /\ nth_error (verts m) (Z.to_nat k) = Some c.
Definition shape {V} (m : mesh V) (s : list (V * V * V)) : Prop := Forall2 (corners m) (tris m) s.

(** The same three indices in any order. *)
Definition same_triple (s t : tri3) : Prop :=
  let '(i, j, k) := s in let '(a, b, c) := t in Permutation [i; j; k] [a; b; c].

(** [occurs a b l n]: the unordered pair {a,b} occurs n times in l. *)
Inductive occurs (a b : Z) : list (Z * Z) -> nat -> Prop :=
| occ_nil : occurs a b [] 0
| occ_yes c d l n : (c = a /\ d = b) \/ (c = b /\ d = a) -> occurs a b l n -> occurs a b ((c, d) :: l) (S n)
| occ_no c d l n : ~ ((c = a /\ d = b) \/ (c = b /\ d = a)) -> occurs a b l n -> occurs a b ((c, d) :: l) n.
(** The three sides of every triangle. *)
Definition sides_of (l : list tri3) : list (Z * Z) := flat_map (fun t => let '(i, j, k) := t in [(i, j); (j, k); (k, i)]) l.
