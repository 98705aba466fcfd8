(** What the geometric mesh theorems say. *)
From Coq Require Import Reals List.
From Verif.Model Require Import RBase Vec Mesh.
Import ListNotations.
Open Scope R_scope.

(** [kept P T S R]: R is the list of the elements of T whose companion in S satisfies P, in order. *)
Inductive kept {A B} (P : B -> Prop) : list A -> list B -> list A -> Prop :=
| kept_nil : kept P [] [] []
| kept_yes t c T S R : P c -> kept P T S R -> kept P (t :: T) (c :: S) (t :: R)
| kept_no t c T S R : ~ P c -> kept P T S R -> kept P (t :: T) (c :: S) R.
(** the three sides of a triangle satisfy P *)
Definition all_sides (P : vec3 -> vec3 -> Prop) (t : vec3 * vec3 * vec3) : Prop :=
  let '(a, b, c) := t in P a b /\ P b c /\ P a c.
(** area of a triangle: half the norm of the cross product of two sides *)
Definition tri_area (t : vec3 * vec3 * vec3) : R :=
  let '(a, b, c) := t in norm3 (cross3 (sub3 b a) (sub3 c a)) / 2.
Definition total_area (s : list (vec3 * vec3 * vec3)) : R := fold_right Rplus 0 (map tri_area s).
Definition scale_tri (k : R) (t : vec3 * vec3 * vec3) : vec3 * vec3 * vec3 :=
  let '(a, b, c) := t in (mul3 a k, mul3 b k, mul3 c k).
(** a nearest point query *)
Definition nearest_query (query : list vec3 -> vec3 -> nat) : Prop :=
  forall l p, l <> [] -> exists q, nth_error l (query l p) = Some q /\ forall r, In r l -> point_distance3 p q <= point_distance3 p r.
