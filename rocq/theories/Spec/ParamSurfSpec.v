(** What the theorems on analytic surfaces say: distance to the axis of a frame, height along it, and the surfaces
    as sets of points. *)
From Coq Require Import Reals List.
From Verif.Model Require Import RBase Vec Frame.
Open Scope R_scope.

(** distance of p to the line through the origin of the frame directed by its third vector (of norm 1) *)
Definition axis_distance (f : frame3) (p : vec3) : R := norm3 (cross3 (sub3 p (org3 f)) (bw (fb3 f))).
(** signed distance of p to the plane through the origin orthogonal to that axis *)
Definition height (f : frame3) (p : vec3) : R := dot3 (sub3 p (org3 f)) (bw (fb3 f)).
Definition on_cylinder (f : frame3) (r : R) (p : vec3) : Prop := axis_distance f p = r.
Definition on_sphere (f : frame3) (r : R) (p : vec3) : Prop := point_distance3 p (org3 f) = r.
Definition on_cone (f : frame3) (a : R) (p : vec3) : Prop := axis_distance f p = Rabs (tan a * height f p).
(** distance of p to the circle of radius major around the axis, and the torus: the points at distance minor of it *)
Definition tube_distance (f : frame3) (major : R) (p : vec3) : R :=
  sqrt ((axis_distance f p - major) ^ 2 + height f p ^ 2).
Definition on_torus (f : frame3) (major minor : R) (p : vec3) : Prop := tube_distance f major p = minor.
(** the points a tolerance test [abs(x) < t] leaves unchanged *)
Definition unsnapped (t x : R) : Prop := x = 0 \/ t <= Rabs x.
