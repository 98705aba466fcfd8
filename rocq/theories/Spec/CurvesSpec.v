(** Lines and circles as sets of points. *)
From Coq Require Import Reals List.
From Verif.Model Require Import RBase Vec Frame Curves.
From Verif.Spec Require Import VecSpec PlaneSpec.
Open Scope R_scope.

(** d is the distance of p to the line through the two points of l *)
Definition dist_to_line2 (l : vec2 * vec2) (p : vec2) (d : R) : Prop :=
  (exists t, point_distance2 p (at_param2 l t) = d) /\ forall t, d <= point_distance2 p (at_param2 l t).
(** d is the distance between the two lines *)
Definition dist_lines3 (l m : vec3 * vec3) (d : R) : Prop :=
  (exists s t, point_distance3 (seg3 (fst l) (snd l) s) (seg3 (fst m) (snd m) t) = d) /\
  forall s t, d <= point_distance3 (seg3 (fst l) (snd l) s) (seg3 (fst m) (snd m) t).
Definition dist_lines2 (l m : vec2 * vec2) (d : R) : Prop :=
  (exists s t, point_distance2 (at_param2 l s) (at_param2 m t) = d) /\
  forall s t, d <= point_distance2 (at_param2 l s) (at_param2 m t).
(** circles *)
Definition on_circle2 (c : circle2) (p : vec2) : Prop := point_distance2 p (center2 c) = cr2 c.
Definition on_circle3 (c : circle3) (p : vec3) : Prop :=
  point_distance3 p (center3 c) = cr3 c /\ dot3 (bw (fb3 (cf3 c))) (sub3 p (center3 c)) = 0.
(** the frame of a 2D circle is orthonormal (either orientation) *)
Definition orthonormal2 (b : basis2) : Prop := dot2 (u2 b) (u2 b) = 1 /\ dot2 (v2 b) (v2 b) = 1 /\ dot2 (u2 b) (v2 b) = 0.
(** the point of a circle at an angle *)
Definition circle2_point (c : circle2) (t : R) : vec2 :=
  add2 (add2 (center2 c) (mul2 (u2 (fb2 (cf2 c))) (cr2 c * cos t))) (mul2 (v2 (fb2 (cf2 c))) (cr2 c * sin t)).
Definition circle3_point (c : circle3) (t : R) : vec3 :=
  add3 (add3 (center3 c) (mul3 (bu (fb3 (cf3 c))) (cr3 c * cos t))) (mul3 (bv (fb3 (cf3 c))) (cr3 c * sin t)).
(** twice the signed area of three points: zero exactly when they are aligned *)
Definition det3p (p1 p2 p3 : vec2) : R := cross2 (sub2 p2 p1) (sub2 p3 p1).
(** the points of the line through the two points of l *)
Definition line2_has (l : vec2 * vec2) (p : vec2) : Prop := exists t, p = at_param2 l t.
