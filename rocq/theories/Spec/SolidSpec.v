(** Solids bounded by triangles. *)
From Coq Require Import Reals List Permutation ZArith.
From Verif.Model Require Import Base RBase Vec Mesh.
Import ListNotations.
Open Scope R_scope.

(** six times the signed volume of the tetrahedron of top o over the triangle *)
Definition tetra6 (o : vec3) (t : vec3 * vec3 * vec3) : R :=
  let '(a, b, c) := t in dot3 (sub3 a o) (cross3 (sub3 b o) (sub3 c o)).
(** the signed volume between o and the triangles *)
Definition signed_volume (o : vec3) (ts : list (vec3 * vec3 * vec3)) : R := fold_right Rplus 0 (map (fun t => tetra6 o t / 6) ts).
(** the directed sides of the triangles; the surface is closed and oriented when they pair off with their reverses *)
Definition sides3 (t : vec3 * vec3 * vec3) : list (vec3 * vec3) := let '(a, b, c) := t in [(a, b); (b, c); (c, a)].
Definition closed_surface (ts : list (vec3 * vec3 * vec3)) : Prop :=
  Permutation (flat_map sides3 ts) (map (fun e => (snd e, fst e)) (flat_map sides3 ts)).
(** o sees every triangle from the same side *)
Definition sees (o : vec3) (ts : list (vec3 * vec3 * vec3)) : Prop :=
  (forall t, In t ts -> 0 <= tetra6 o t) \/ (forall t, In t ts -> tetra6 o t <= 0).
Definition shift_tri (v : vec3) (t : vec3 * vec3 * vec3) : vec3 * vec3 * vec3 := let '(a, b, c) := t in (add3 a v, add3 b v, add3 c v).
(** the twelve triangles of the box with corner p and sides u, v, w along the axes *)
Definition box_triangles (p : vec3) (u v w : R) : list (vec3 * vec3 * vec3) :=
  let q i j k := V3 (x3 p + i * u) (y3 p + j * v) (z3 p + k * w) in
  [(q 0 0 0, q 0 1 0, q 1 1 0); (q 0 0 0, q 1 1 0, q 1 0 0);
   (q 0 0 1, q 1 0 1, q 1 1 1); (q 0 0 1, q 1 1 1, q 0 1 1);
   (q 0 0 0, q 1 0 0, q 1 0 1); (q 0 0 0, q 1 0 1, q 0 0 1);
   (q 0 1 0, q 0 1 1, q 1 1 1); (q 0 1 0, q 1 1 1, q 1 1 0);
   (q 0 0 0, q 0 0 1, q 0 1 1); (q 0 0 0, q 0 1 1, q 0 1 0);
   (q 1 0 0, q 1 1 0, q 1 1 1); (q 1 0 0, q 1 1 1, q 1 0 1)].
(** the results of [make] on the triangles, those of which the construction divides by zero being dropped *)
Inductive made_of {A T} (make : A -> res T) : list A -> list T -> Prop :=
| made_of_nil : made_of make [] []
| made_of_ok a t l r : make a = Ok t -> made_of make l r -> made_of make (a :: l) (t :: r)
| made_of_flat a l r : make a = Err ZeroDivisionError -> made_of make l r -> made_of make (a :: l) r.
Definition map3 {A B} (f : A -> B) (t : A * A * A) : B * B * B := let '(a, b, c) := t in (f a, f b, f c).
