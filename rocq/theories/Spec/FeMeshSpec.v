(** Triangles, affine functions and node lists. *)
From Coq Require Import Reals List ZArith.
From Verif.Model Require Import Base RBase Vec Frame.
Import ListNotations.
Open Scope R_scope.

(** the value at a point of the affine function with the coefficients of 1, x, y (and z) *)
Definition affine2 (f : vec3) (p : vec2) : R := x3 f + y3 f * x2 p + z3 f * y2 p.
Definition affine3 (f : R * R * R * R) (p : vec3) : R := let '(a, b, c, d) := f in a + b * x3 p + c * y3 p + d * z3 p.
(** p is the weighted mean of a, b, c *)
Definition weights2 (a b c p : vec2) (l m n : R) : Prop :=
  l + m + n = 1 /\ x2 p = l * x2 a + m * x2 b + n * x2 c /\ y2 p = l * y2 a + m * y2 b + n * y2 c.
Definition weights3 (a b c d p : vec3) (k l m n : R) : Prop :=
  k + l + m + n = 1 /\ x3 p = k * x3 a + l * x3 b + m * x3 c + n * x3 d /\ y3 p = k * y3 a + l * y3 b + m * y3 c + n * y3 d /\
  z3 p = k * z3 a + l * z3 b + m * z3 c + n * z3 d.
(** twice the signed area *)
Definition area2 (a b c : vec2) : R := (x2 b - x2 a) * (y2 c - y2 a) - (y2 b - y2 a) * (x2 c - x2 a).
(** six times the signed volume *)
Definition volume6 (a b c d : vec3) : R :=
  let u := sub3 b a in let v := sub3 c a in let w := sub3 d a in
  x3 u * (y3 v * z3 w - z3 v * y3 w) - y3 u * (x3 v * z3 w - z3 v * x3 w) + z3 u * (x3 v * y3 w - y3 v * x3 w).
(** the distance from p to the line through a and b *)
Definition line_distance (a b p : vec2) : R := Rabs (area2 a b p) / point_distance2 a b.
(** two points that differ, in one coordinate at least, by more than math.isclose accepts (relative 1e-9, absolute 1e-12) *)
Definition far (a b : R) : Prop := Rmax (/ 10 ^ 9 * Rmax (Rabs a) (Rabs b)) (/ 10 ^ 12) < Rabs (a - b).
Definition tell_apart (p q : vec2) : Prop := far (x2 p) (x2 q) \/ far (y2 p) (y2 q).
(** a list whose points are equal or can be told apart *)
Definition separated (l : list vec2) : Prop := forall p q, In p l -> In q l -> p = q \/ tell_apart p q.
(** the points of a group of elements *)
Definition point_of (g : list (list vec2)) (p : vec2) : Prop := exists e, In e g /\ In p e.
(** p is left where it is, and no point of the reference is between 1e-8 and tol from it, or is replaced by one that is *)
Definition merged (reference : list (list vec2)) (tol : R) (p p' : vec2) : Prop :=
  (p' = p /\ forall q, point_of reference q -> ~ / 10 ^ 8 < point_distance2 p q < tol) \/
  (point_of reference p' /\ / 10 ^ 8 < point_distance2 p p' < tol).
