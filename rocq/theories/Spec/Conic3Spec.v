(** Lines and circles or ellipses of space. *)
From Coq Require Import Reals List.
From Verif.Model Require Import RBase Vec Frame Curves Ellipse.
From Verif.Spec Require Import VecSpec FrameSpec PlaneSpec CurvesSpec EllipseSpec.
Open Scope R_scope.

Definition on_ellipse3 (e : ellipse3) (p : vec3) : Prop := exists t, p = ellipse3_point e t.
(** w is exactly Z or its opposite *)
Definition upright (f : frame3) : Prop := bw (fb3 f) = Z3D \/ bw (fb3 f) = V3 0 0 (-1).
(** w is neither Z nor its opposite, up to the tolerance *)
Definition inclined (f : frame3) (tol : R) : Prop := tol + / 10 ^ 9 < 1 - Rabs (z3 (bw (fb3 f))).
(** the line is in the plane of height z, or its two points are at heights that differ by more than the tolerances *)
Definition flat_or_steep (l : vec3 * vec3) (z : R) : Prop :=
  (z3 (fst l) = z /\ z3 (snd l) = z) \/ (/ 10 ^ 6 < Rabs (z3 (snd l) - z3 (fst l)) /\ Rabs (z3 (fst l)) <= 1000 /\ Rabs (z3 (snd l)) <= 1000).
(** coordinates that are 0, or are not taken for 0 *)
Definition clean3 (v : vec3) : Prop :=
  (x3 v = 0 \/ eps <= Rabs (x3 v)) /\ (y3 v = 0 \/ eps <= Rabs (y3 v)) /\ (z3 v = 0 \/ eps <= Rabs (z3 v)).
(** the square of the distance to the centre is the square of the radius, up to the tolerance of the code *)
Definition about_radius (c : circle3) (p : vec3) : Prop :=
  Rabs (point_distance3 p (center3 c) ^ 2 - cr3 c ^ 2) <= / 10 ^ 6 + / 10 ^ 9 * Rmax (point_distance3 p (center3 c) ^ 2) (cr3 c ^ 2).
(** d is the distance from p to the circle *)
Definition dist_to_circle3 (c : circle3) (p : vec3) (d : R) : Prop :=
  (exists q, on_circle3 c q /\ point_distance3 p q = d) /\ forall q, on_circle3 c q -> d <= point_distance3 p q.
(** in the plane, the line has exactly the direction of y, or differs from it by more than the tolerances *)
Definition slanted (p q : vec3) : Prop :=
  x3 p = x3 q \/ (/ 10 ^ 6 < Rabs (x3 q - x3 p) /\ Rabs (x3 p) <= 1000 /\ Rabs (x3 q) <= 1000).
(** the equation of the ellipse, with coordinates known up to 1e-16 *)
Definition about_ellipse3 (e : ellipse3) (p : vec3) (tol : R) : Prop :=
  on_plane (ef3 e) p /\ exists x y, Rabs (x - dot3 (sub3 p (org3 (ef3 e))) (bu (fb3 (ef3 e)))) <= eps /\ Rabs (y - dot3 (sub3 p (org3 (ef3 e))) (bv (fb3 (ef3 e)))) <= eps /\
  Rabs (x ^ 2 / emaj3 e ^ 2 + y ^ 2 / emin3 e ^ 2 - 1) <= tol.
