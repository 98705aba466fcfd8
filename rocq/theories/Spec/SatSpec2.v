(** Vocabulary for triangles of a face of a voxel. *)
From Verif.Model Require Import RBase Vec.
From Verif.Spec Require Import SatSpec.
Open Scope R_scope.

(** the three points are not on one line *)
Definition not_flat (a b c : vec2) : Prop := (x2 b - x2 a) * (y2 c - y2 a) - (y2 b - y2 a) * (x2 c - x2 a) <> 0.
(** p is in the triangle and on none of its sides *)
Definition inside_triangle2 (p a b c : vec2) : Prop :=
  exists r s t, 0 < r /\ 0 < s /\ 0 < t /\ r + s + t = 1
    /\ x2 p = r * x2 a + s * x2 b + t * x2 c /\ y2 p = r * y2 a + s * y2 b + t * y2 c.
(** the side p q is long enough for the rounding of its equation to 9 digits to be harmless with a pixel of sides w, h *)
Definition side_ok (w h : R) (p q : vec2) : Prop := / 10 ^ 9 <= Rabs (y2 q - y2 p) * w + Rabs (x2 q - x2 p) * h.
(** ... or with a margin of d *)
Definition side_margin (d : R) (p q : vec2) : Prop := / 2 / 10 ^ 9 <= d * (Rabs (x2 q - x2 p) + Rabs (y2 q - y2 p)).
(** the projections on the axis u of the three points are all above r, or all below -r *)
Definition beyond (u a b c : vec3) (r : R) : Prop :=
  (r < dot3 a u /\ r < dot3 b u /\ r < dot3 c u) \/ (dot3 a u < - r /\ dot3 b u < - r /\ dot3 c u < - r).
(** a whole number of 1e-9 *)
Definition nano (x : R) : Prop := exists k : Z, x = IZR k / 10 ^ 9.
(** the bounds of the pixel of the given center and half sizes are whole numbers of 1e-9 *)
Definition nano_pixel (center ext : vec2) : Prop :=
  nano (x2 center - x2 ext) /\ nano (x2 center + x2 ext) /\ nano (y2 center - y2 ext) /\ nano (y2 center + y2 ext).
