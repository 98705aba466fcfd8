(** Groups of shells, graphs of faces. *)
From Coq Require Import List Permutation Relations.
Import ListNotations.

(** [union a b] gives one shell when a and b touch, and touching a union is touching one of its parts *)
Definition union_of_touching {S} (touch : S -> S -> bool) (union : S -> S -> option S) : Prop :=
  (forall a b, touch a b = touch b a) /\
  (forall a b, touch a b = true <-> exists m, union a b = Some m) /\
  (forall a b m c, union a b = Some m -> touch m c = orb (touch a c) (touch b c)).
(** the shell s is made of the shells of the list by unions of shells that touch *)
Inductive made {S} (union : S -> S -> option S) : list S -> S -> Prop :=
| made_one a : made union [a] a
| made_union l1 l2 a b m : made union l1 a -> made union l2 b -> union a b = Some m -> made union (l1 ++ l2) m.
(** no two shells of the list touch *)
Definition apart {S} (touch : S -> S -> bool) (l : list S) : Prop :=
  forall i j a b, nth_error l i = Some a -> nth_error l j = Some b -> i <> j -> touch a b = false.

(** two faces share the start of an edge *)
Definition share_vertex {V} (close : V -> V -> bool) (faces : list (list (V * V))) (i j : nat) : Prop :=
  exists fi fj ei ej, nth_error faces i = Some fi /\ nth_error faces j = Some fj /\ In ei fi /\ In ej fj /\ close (fst ei) (fst ej) = true.
Definition equivalence {V} (close : V -> V -> bool) : Prop :=
  (forall a, close a a = true) /\ (forall a b, close a b = true -> close b a = true) /\ (forall a b c, close a b = true -> close b c = true -> close a c = true).
(** a chain of faces from i to j, each sharing a vertex with the next, which is another face *)
Definition next_face {V} (close : V -> V -> bool) (faces : list (list (V * V))) (i j : nat) : Prop := i <> j /\ share_vertex close faces i j.
Definition chain {V} (close : V -> V -> bool) (faces : list (list (V * V))) : nat -> nat -> Prop := clos_refl_trans nat (next_face close faces).

(** the answers of the geometric tests are right: [region s] are the points of the solid s *)
Definition right_tests {S P} (region : S -> P -> Prop) (disjoint inside : S -> S -> bool) : Prop :=
  (forall a b, disjoint a b = true -> forall p, ~ (region a p /\ region b p)) /\
  (forall a b, inside a b = true -> forall p, region a p -> region b p).
(** the points of some solid of the list *)
Definition covered {S P} (region : S -> P -> Prop) (l : list S) (p : P) : Prop := exists s, In s l /\ region s p.
(** equality of faces, and lists of groups *)
Definition decides_equality {F} (eqb : F -> F -> bool) : Prop := forall a b, eqb a b = true <-> a = b.
(** the groups split the faces into classes of coincident faces: [alone] are the faces with no other coincident face *)
Definition classes {F} (coincident : F -> F -> bool) (faces alone : list F) (groups : list (list F)) : Prop :=
  Permutation (alone ++ concat groups) faces /\
  (forall g, In g groups -> 2 <= length g /\ forall a b, In a g -> In b g -> coincident a b = true) /\
  (forall a b, In a alone -> In b faces -> coincident a b = true -> a = b) /\
  (forall i j g h a b, nth_error groups i = Some g -> nth_error groups j = Some h -> i <> j -> In a g -> In b h -> coincident a b = false).
