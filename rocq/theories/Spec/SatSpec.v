(** Specification vocabulary for the voxel and pixel tests: points of a triangle, of a segment, of a box.
    Independent of the tests. *)
From Verif.Model Require Import RBase Vec.
Open Scope R_scope.

(** [p] is a point of the closed triangle a b c: a convex combination of the vertices *)
Definition in_triangle3 (p a b c : vec3) : Prop :=
  exists r s t, 0 <= r /\ 0 <= s /\ 0 <= t /\ r + s + t = 1
    /\ x3 p = r * x3 a + s * x3 b + t * x3 c
    /\ y3 p = r * y3 a + s * y3 b + t * y3 c
    /\ z3 p = r * z3 a + s * z3 b + t * z3 c.
Definition in_triangle2 (p a b c : vec2) : Prop :=
  exists r s t, 0 <= r /\ 0 <= s /\ 0 <= t /\ r + s + t = 1
    /\ x2 p = r * x2 a + s * x2 b + t * x2 c /\ y2 p = r * y2 a + s * y2 b + t * y2 c.
(** [p] is a point of the closed box of the given center and half sizes *)
Definition in_box3 (p center ext : vec3) : Prop :=
  Rabs (x3 p - x3 center) <= x3 ext /\ Rabs (y3 p - y3 center) <= y3 ext /\ Rabs (z3 p - z3 center) <= z3 ext.
(** point of the closed segment *)
Definition in_segment2 (p a b : vec2) : Prop :=
  exists t, 0 <= t <= 1 /\ x2 p = x2 a + t * (x2 b - x2 a) /\ y2 p = y2 a + t * (y2 b - y2 a).
(** point of the closed rectangle *)
Definition in_rect (p : vec2) (xmin xmax ymin ymax : R) : Prop := xmin <= x2 p <= xmax /\ ymin <= y2 p <= ymax.
(** point of the closed square of side s around c *)
Definition in_square (p c : vec2) (s : R) : Prop := Rabs (x2 p - x2 c) <= s / 2 /\ Rabs (y2 p - y2 c) <= s / 2.

(** voxel sizes that are a whole even number of 1e-9: the centers of the voxels are then whole numbers of 1e-9 *)
Definition nano_even (v : R) : Prop := exists m : Z, (0 < m)%Z /\ v = IZR (2 * m) / 10 ^ 9.
(** closed voxel (i, j, k) of the global grid of step v *)
Definition in_voxel (v : R) (c : Z * Z * Z) (p : vec3) : Prop :=
  let '(i, j, k) := c in
  IZR i * v <= x3 p <= (IZR i + 1) * v /\ IZR j * v <= y3 p <= (IZR j + 1) * v /\ IZR k * v <= z3 p <= (IZR k + 1) * v.
Definition voxel_center (v : R) (c : Z * Z * Z) : vec3 :=
  let '(i, j, k) := c in V3 ((IZR i + 1 / 2) * v) ((IZR j + 1 / 2) * v) ((IZR k + 1 / 2) * v).
(** the two ends are at least (1 + 1/v) * 1e-9 apart (in L1 norm) *)
Definition edge_ok (v : R) (p q : vec3) : Prop :=
  / 10 ^ 9 * (1 + / v) <= Rabs (x3 q - x3 p) + Rabs (y3 q - y3 p) + Rabs (z3 q - z3 p).

(** q lies in the bounding box of the triangle *)
Definition in_triangle_bounds (q a b c : vec3) : Prop :=
  Rmin (Rmin (x3 a) (x3 b)) (x3 c) <= x3 q <= Rmax (Rmax (x3 a) (x3 b)) (x3 c)
  /\ Rmin (Rmin (y3 a) (y3 b)) (y3 c) <= y3 q <= Rmax (Rmax (y3 a) (y3 b)) (y3 c)
  /\ Rmin (Rmin (z3 a) (z3 b)) (z3 c) <= z3 q <= Rmax (Rmax (z3 a) (z3 b)) (z3 c).
(** q lies in the plane through a orthogonal to (b - a) x (c - a) *)
Definition in_triangle_plane (q a b c : vec3) : Prop :=
  ((y3 b - y3 a) * (z3 c - z3 a) - (z3 b - z3 a) * (y3 c - y3 a)) * (x3 q - x3 a)
  + ((z3 b - z3 a) * (x3 c - x3 a) - (x3 b - x3 a) * (z3 c - z3 a)) * (y3 q - y3 a)
  + ((x3 b - x3 a) * (y3 c - y3 a) - (y3 b - y3 a) * (x3 c - x3 a)) * (z3 q - z3 a) = 0.
(** the three vertices are different points *)
Definition distinct3 (a b c : vec3) : Prop := a <> b /\ a <> c /\ b <> c.
