(** Angles modulo a turn and images of intervals. *)
From Coq Require Import Reals.
From Verif.Model Require Import Vec Frame.
Open Scope R_scope.
(** Same angle modulo 2 pi. *)
Definition same_angle (a b : R) : Prop := exists k : Z, a = b + IZR k * (2 * PI).
(** [lo, hi] is the image of [x1, x2] by f. *)
Definition image_is (f : R -> R) (x1 x2 lo hi : R) : Prop :=
  forall y, lo <= y <= hi <-> exists t, x1 <= t <= x2 /\ f t = y.
(** Rotation matrix: orthonormal rows and determinant 1. *)
Definition rotation_matrix (m : mat33) : Prop :=
  m11 m * m11 m + m12 m * m12 m + m13 m * m13 m = 1 /\ m21 m * m21 m + m22 m * m22 m + m23 m * m23 m = 1 /\
  m31 m * m31 m + m32 m * m32 m + m33 m * m33 m = 1 /\ m11 m * m21 m + m12 m * m22 m + m13 m * m23 m = 0 /\
  m11 m * m31 m + m12 m * m32 m + m13 m * m33 m = 0 /\ m21 m * m31 m + m22 m * m32 m + m23 m * m33 m = 0 /\
  m11 m * (m22 m * m33 m - m23 m * m32 m) - m12 m * (m21 m * m33 m - m23 m * m31 m) + m13 m * (m21 m * m32 m - m22 m * m31 m) = 1.
(** Clockwise rotation of a plane vector. *)
Definition rotate_clockwise (v : vec2) (a : R) : vec2 :=
  V2 (cos a * x2 v + sin a * y2 v) (- sin a * x2 v + cos a * y2 v).
(** Same direction: a positive multiple. *)
Definition same_direction (v w : vec2) : Prop := exists c, 0 < c /\ x2 w = c * x2 v /\ y2 w = c * y2 v.
