(** Planes as sets of points. *)
From Coq Require Import Reals List.
From Verif.Model Require Import RBase Vec Frame.
Open Scope R_scope.

(** the plane of a frame: the points p with (p - origin).w = 0 *)
Definition on_plane (f : frame3) (p : vec3) : Prop := dot3 (sub3 p (org3 f)) (bw (fb3 f)) = 0.
(** signed height above the plane (w is of norm 1 in the theorems) *)
Definition plane_height (f : frame3) (p : vec3) : R := dot3 (sub3 p (org3 f)) (bw (fb3 f)).
(** the points of the line through a and b; of the segment *)
Definition on_line3 (l : vec3 * vec3) (p : vec3) : Prop := exists t, p = add3 (fst l) (mul3 (sub3 (snd l) (fst l)) t).
Definition on_segment3 (l : vec3 * vec3) (p : vec3) : Prop :=
  exists t, 0 <= t <= 1 /\ p = add3 (fst l) (mul3 (sub3 (snd l) (fst l)) t).
(** a, b, c are on one line *)
Definition collinear3 (a b c : vec3) : Prop := cross3 (sub3 b a) (sub3 c a) = V3 0 0 0.
(** distance of a point to a line given by two points *)
Definition dist_to_line3 (l : vec3 * vec3) (p : vec3) (d : R) : Prop :=
  (exists q, on_line3 l q /\ point_distance3 p q = d) /\ forall q, on_line3 l q -> d <= point_distance3 p q.
(** the error of the plane equation when its four coefficients are rounded to 12 digits *)
Definition err12 (p : vec3) : R := / 10 ^ 12 / 2 * (1 + Rabs (x3 p) + Rabs (y3 p) + Rabs (z3 p)).
