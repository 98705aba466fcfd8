(** Triangles of space. *)
From Coq Require Import Reals List.
From Verif.Model Require Import Base RBase Vec.
Import ListNotations.
Open Scope R_scope.

(** the area vector, twice the area long; a triangle is flat when it is null *)
Definition area_vector (t : vec3 * vec3 * vec3) : vec3 := let '(a, b, c) := t in cross3 (sub3 b a) (sub3 c a).
Definition flat3 (t : vec3 * vec3 * vec3) : Prop := area_vector t = V3 0 0 0.
Definition area3 (t : vec3 * vec3 * vec3) : R := norm3 (area_vector t) / 2.
(** the weighted mean of three points, and the points of a triangle *)
Definition mean3 (l m n : R) (t : vec3 * vec3 * vec3) : vec3 :=
  let '(a, b, c) := t in V3 (l * x3 a + m * x3 b + n * x3 c) (l * y3 a + m * y3 b + n * y3 c) (l * z3 a + m * z3 b + n * z3 c).
Definition in_triangle (t : vec3 * vec3 * vec3) (p : vec3) : Prop :=
  exists l m n, 0 <= l /\ 0 <= m /\ 0 <= n /\ l + m + n = 1 /\ p = mean3 l m n t.
(** all sides are at most d long *)
Definition sides_at_most (d : R) (t : vec3 * vec3 * vec3) : Prop :=
  let '(a, b, c) := t in point_distance3 a b <= d /\ point_distance3 b c <= d /\ point_distance3 c a <= d.
Definition total (l : list R) : R := fold_right Rplus 0 l.
(** the point at t on the line through a and b *)
Definition on_line (a b : vec3) (t : R) : vec3 := add3 a (mul3 (sub3 b a) t).
