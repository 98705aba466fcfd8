(** Hyperbolas and parabolas as sets of points. *)
From Coq Require Import Reals List.
From Verif.Model Require Import RBase Vec Frame Curves HypPara.
From Verif.Spec Require Import VecSpec FrameSpec PlaneSpec CurvesSpec.
Import ListNotations.
Open Scope R_scope.

(** the point of coordinates (x, y) in a plane frame *)
Definition frame2_point (f : frame2) (q : vec2) : vec2 := add2 (org2 f) (add2 (mul2 (u2 (fb2 f)) (x2 q)) (mul2 (v2 (fb2 f)) (y2 q))).
(** the coordinates of a point in a plane frame *)
Definition local2 (f : frame2) (p : vec2) : vec2 := V2 (dot2 (sub2 p (org2 f)) (u2 (fb2 f))) (dot2 (sub2 p (org2 f)) (v2 (fb2 f))).
(** the branch of a hyperbola on the side of the first axis *)
Definition branch (a b : R) (q : vec2) : Prop := 0 < x2 q /\ x2 q ^ 2 / a ^ 2 - y2 q ^ 2 / b ^ 2 = 1.
Definition on_branch2 (h : hyperbola2) (p : vec2) : Prop := exists q, branch (ha h) (hb h) q /\ p = frame2_point (hf h) q.
Definition on_branch3 (h : hyperbola3) (p : vec3) : Prop := exists q, branch (ha3 h) (hb3 h) q /\ p = frame_point (hf3 h) (V3 (x2 q) (y2 q) 0).
(** the branch by its foci: the difference of the distances to the foci is twice the first axis *)
Definition focus2 (h : hyperbola2) (s : R) : vec2 := frame2_point (hf h) (V2 (s * sqrt (ha h ^ 2 + hb h ^ 2)) 0).
Definition bifocal (h : hyperbola2) (p : vec2) : Prop := point_distance2 p (focus2 h (-1)) - point_distance2 p (focus2 h 1) = 2 * ha h.
(** a parabola: the points as far from the focus as from the directrix *)
Definition on_parabola2 (p : parabola2) (q : vec2) : Prop :=
  point_distance2 q (add2 (org2 (pf p)) (mul2 (v2 (fb2 (pf p))) (focal p))) = Rabs (dot2 (sub2 q (org2 (pf p))) (v2 (fb2 (pf p))) + focal p).
Definition on_parabola3 (p : parabola3) (q : vec3) : Prop := exists x y, 4 * focal3 p * y = x ^ 2 /\ q = frame_point (pf3 p) (V3 x y 0).
(** the line is parallel to the second axis of the frame *)
Definition parallel_to_v (f : frame2) (l : vec2 * vec2) : Prop := dot2 (sub2 (snd l) (fst l)) (u2 (fb2 f)) = 0.
(** slope and height on the second axis of the other lines *)
Definition slope_in (f : frame2) (l : vec2 * vec2) : R := dot2 (sub2 (snd l) (fst l)) (v2 (fb2 f)) / dot2 (sub2 (snd l) (fst l)) (u2 (fb2 f)).
Definition height_in (f : frame2) (l : vec2 * vec2) : R :=
  dot2 (sub2 (fst l) (org2 f)) (v2 (fb2 f)) - slope_in f l * dot2 (sub2 (fst l) (org2 f)) (u2 (fb2 f)).
(** the Bezier curve of degree 2 *)
Definition bezier2 (p q r : vec2) (t : R) : vec2 := add2 (add2 (mul2 p ((1 - t) ^ 2)) (mul2 q (2 * t * (1 - t)))) (mul2 r (t ^ 2)).
(** the frame of the space itself *)
Definition world3 : frame3 := F3 O3D (B3 X3D Y3D Z3D).
