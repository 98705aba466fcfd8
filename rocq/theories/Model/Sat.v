(** Triangle / voxel and segment / pixel tests:
    /repo/volmdlr/discrete_representation_compiled.py (l.132-171, l.224-261, l.257-448, l.449-720, l.725-768, l.860-975)
    and /repo/volmdlr/core.py l.867-881. Doubles are real numbers; C [int] overflow is not modelled. *)
From Verif.Model Require Import RBase Vec BBox Geometry.
Open Scope R_scope.

Definition triangle3 : Type := vec3 * vec3 * vec3.
Definition triangle2 : Type := vec2 * vec2 * vec2.

(** C's round(): half away from zero *)
Definition c_round (x : R) : Z := if Rltb x 0 then (- rfloor (- x + 1 / 2))%Z else rfloor (x + 1 / 2).
(** cython.cast(int, x): truncation towards zero *)
Definition c_trunc (x : R) : Z := if Rltb x 0 then (- rfloor (- x))%Z else rfloor x.
(** l.226-231 _round_to_digits(num, digits) *)
Definition round_digits (d : nat) (x : R) : R := IZR (c_round (x * 10 ^ d)) / 10 ^ d.
Definition round9 (x : R) : R := round_digits 9 x.
(** l.247-250 _is_integer *)
Definition is_integer (x : R) : bool := Reqb (IZR (c_trunc x)) x.

Definition max_of3 (a b c : R) : R := Rmax (Rmax a b) c.
Definition min_of3 (a b c : R) : R := Rmin (Rmin a b) c.

(** l.427-446 _calculate_axis_values: is [ax] a separating axis? ([f]: the edge the axis comes from) *)
Definition axis_separates (v0 v1 v2 ax f ext : vec3) : bool :=
  let p0 := dot3 v0 ax in
  let p1 := dot3 v1 ax in
  let p2 := dot3 v2 ax in
  let radius := x3 ext * Rabs (z3 f) + y3 ext * Rabs (x3 f) + z3 ext * Rabs (y3 f) in
  Rltb radius (Rmax (- max_of3 p0 p1 p2) (min_of3 p0 p1 p2)).

(** the region test of one axis of the box (l.318-330) *)
Definition slab_misses (a b c e : R) : bool := Rltb (max_of3 a b c) (- e) || Rltb e (min_of3 a b c).

(** the axes a0k, a1k, a2k of the edge f (l.359-418) *)
Definition axis0 f := V3 0 (- z3 f) (y3 f).
Definition axis1 f := V3 (z3 f) 0 (- x3 f).
Definition axis2 f := V3 (- y3 f) (x3 f) 0.

(** l.257-420 _triangle_intersects_voxel *)
Definition sat_test (t : triangle3) (center ext : vec3) : bool :=
  let '(t0, t1, t2) := t in
  let v0 := sub3 t0 center in let v1 := sub3 t1 center in let v2 := sub3 t2 center in
  let f0 := sub3 t1 t0 in let f1 := sub3 t2 t1 in let f2 := sub3 t0 t2 in
  if slab_misses (x3 v0) (x3 v1) (x3 v2) (x3 ext) then false
  else if slab_misses (y3 v0) (y3 v1) (y3 v2) (y3 ext) then false
  else if slab_misses (z3 v0) (z3 v1) (z3 v2) (z3 ext) then false
  else
    let n := cross3 f0 f1 in
    if Rltb (x3 ext * Rabs (x3 n) + y3 ext * Rabs (y3 n) + z3 ext * Rabs (z3 n)) (Rabs (dot3 n v0)) then false
    else if axis_separates v0 v1 v2 (axis0 f0) f0 ext then false
    else if axis_separates v0 v1 v2 (axis0 f1) f1 ext then false
    else if axis_separates v0 v1 v2 (axis0 f2) f2 ext then false
    else if axis_separates v0 v1 v2 (axis1 f0) f0 ext then false
    else if axis_separates v0 v1 v2 (axis1 f1) f1 ext then false
    else if axis_separates v0 v1 v2 (axis1 f2) f2 ext then false
    else if axis_separates v0 v1 v2 (axis2 f0) f0 ext then false
    else if axis_separates v0 v1 v2 (axis2 f1) f1 ext then false
    else if axis_separates v0 v1 v2 (axis2 f2) f2 ext then false
    else true.

(** l.864-898 _line_segment_intersects_pixel *)
Definition line_eq (p q : vec2) (x y : R) : R :=
  (y2 q - y2 p) * x + (x2 p - x2 q) * y + (x2 q * y2 p - x2 p * y2 q).
Definition all4 (f : R -> bool) (a b c d : R) : bool := f a && f b && f c && f d.
Definition segment_hits_pixel (p q : vec2) (xmin xmax ymin ymax : R) : bool :=
  let l1 := round9 (line_eq p q xmin ymin) in
  let l2 := round9 (line_eq p q xmin ymax) in
  let l3 := round9 (line_eq p q xmax ymin) in
  let l4 := round9 (line_eq p q xmax ymax) in
  let miss := (all4 (fun l => Rleb 0 l) l1 l2 l3 l4 || all4 (fun l => Rltb l 0) l1 l2 l3 l4)
              && (all4 (fun l => Rltb 0 l) l1 l2 l3 l4 || all4 (fun l => Rleb l 0) l1 l2 l3 l4) in
  let shadow := (Rltb xmax (x2 p) && Rltb xmax (x2 q)) || (Rltb (x2 p) xmin && Rltb (x2 q) xmin)
                || (Rltb ymax (y2 p) && Rltb ymax (y2 q)) || (Rltb (y2 p) ymin && Rltb (y2 q) ymin) in
  negb (miss || shadow).

(** l.681-706 _point_in_triangle_2d, __sign *)
Definition sign_2d (p1 p2 p3 : vec2) : R := (x2 p1 - x2 p3) * (y2 p2 - y2 p3) - (x2 p2 - x2 p3) * (y2 p1 - y2 p3).
Definition point_in_triangle_2d (p : vec2) (t : triangle2) : bool :=
  let '(a, b, c) := t in
  let i1 := Rltb (sign_2d p a b) 0 in
  let i2 := Rltb (sign_2d p b c) 0 in
  let i3 := Rltb (sign_2d p c a) 0 in
  Bool.eqb i1 i2 && Bool.eqb i2 i3.
(** l.710-719 _point_in_pixel *)
Definition point_in_pixel (p lo hi : vec2) : bool :=
  Rleb (x2 lo) (x2 p) && Rleb (x2 p) (x2 hi) && (Rleb (y2 lo) (y2 p) && Rleb (y2 p) (y2 hi)).
(** l.662-676 _bounding_rectangles_overlap *)
Definition rectangles_overlap (min1 max1 min2 max2 : vec2) : bool :=
  if Rltb (x2 max1) (x2 min2) || Rltb (x2 max2) (x2 min1) then false
  else if Rltb (y2 max1) (y2 min2) || Rltb (y2 max2) (y2 min1) then false else true.

(** l.569-658 _triangle_2d_intersects_pixel (l.1426-1455 _triangle_2d_min_max_points) *)
Definition triangle_2d_hits_pixel (t : triangle2) (center ext : vec2) : bool :=
  let '(a, b, c) := t in
  let lb := V2 (round9 (x2 center - x2 ext)) (round9 (y2 center - y2 ext)) in
  let rb := V2 (round9 (x2 center + x2 ext)) (round9 (y2 center - y2 ext)) in
  let lt := V2 (round9 (x2 center - x2 ext)) (round9 (y2 center + y2 ext)) in
  let rt := V2 (round9 (x2 center + x2 ext)) (round9 (y2 center + y2 ext)) in
  let mn := V2 (min_of3 (x2 a) (x2 b) (x2 c)) (min_of3 (y2 a) (y2 b) (y2 c)) in
  let mx := V2 (max_of3 (x2 a) (x2 b) (x2 c)) (max_of3 (y2 a) (y2 b) (y2 c)) in
  if negb (rectangles_overlap mn mx lb rt) then false
  else if point_in_pixel a lb rt || point_in_pixel b lb rt || point_in_pixel c lb rt then true
  else if point_in_triangle_2d lb t || point_in_triangle_2d rb t || point_in_triangle_2d lt t
          || point_in_triangle_2d rt t then true
  else if segment_hits_pixel a b (x2 lb) (x2 rt) (y2 lb) (y2 rt)
          || segment_hits_pixel a c (x2 lb) (x2 rt) (y2 lb) (y2 rt)
          || segment_hits_pixel b c (x2 lb) (x2 rt) (y2 lb) (y2 rt) then true
  else false.

(** l.451-563 _triangle_interfaces_voxel: one of its three blocks; [k] is the coordinate orthogonal to the
    block's plane and [pr] the projection on that plane *)
Definition interface_block (k : vec3 -> R) (pr : vec3 -> vec2) (t : triangle3) (center ext : vec3) : bool :=
  let '(a, b, c) := t in
  (Reqb (round9 (k a)) (round9 (k b)) && Reqb (round9 (k b)) (round9 (k c)))
  && (Reqb (round9 (k a)) (round9 (k center - k ext)) || Reqb (round9 (k a)) (round9 (k center + k ext)))
  && triangle_2d_hits_pixel (pr a, pr b, pr c) (pr center) (pr ext).
Definition pr_yz p := V2 (y3 p) (z3 p).
Definition pr_xz p := V2 (x3 p) (z3 p).
Definition pr_xy p := V2 (x3 p) (y3 p).
Definition interface_test (t : triangle3) (center ext : vec3) : bool :=
  interface_block x3 pr_yz t center ext || interface_block y3 pr_xz t center ext
  || interface_block z3 pr_xy t center ext.

(** l.151-171 triangle_intersects_voxel *)
Definition triangle_intersects_voxel (t : triangle3) (center ext : vec3) : bool :=
  sat_test t center ext || interface_test t center ext.

(** core.py l.867-881 BoundingBox.is_intersecting_triangle (l.762-768: size = (xmax - xmin, ...)) *)
Definition bbox_is_intersecting_triangle (b : bbox) (t : triangle3) : bool :=
  triangle_intersects_voxel t (bbox_center b)
    (V3 ((xmax b - xmin b) / 2) ((ymax b - ymin b) / 2) ((zmax b - zmin b) / 2)).

(** l.727-768 _aabb_intersecting_boxes *)
Definition axis_start (m v : R) : Z := c_trunc (m / v - 1).
Definition axis_end (m v : R) : Z := c_trunc (m / v + 1).
Definition grid_center (v : R) (k : Z) : R := round9 ((IZR k + 1 / 2) * v).
Definition aabb_intersecting_boxes (mn mx : vec3) (v : R) : list vec3 :=
  flat_map (fun x =>
    flat_map (fun y =>
      map (fun z => V3 (grid_center v x) (grid_center v y) (grid_center v z))
          (zrange (axis_start (z3 mn) v) (axis_end (z3 mx) v)))
      (zrange (axis_start (y3 mn) v) (axis_end (y3 mx) v)))
    (zrange (axis_start (x3 mn) v) (axis_end (x3 mx) v)).

(** l.905-950 _line_segments_to_pixels *)
Definition segment_pixels (ps : R) (s : vec2 * vec2) : list vec2 :=
  let '(p, q) := s in
  let x_start := c_trunc (Rmin (x2 p) (x2 q) / ps - 2) in
  let x_end := c_trunc (Rmax (x2 p) (x2 q) / ps + 2) in
  let y_start := c_trunc (Rmin (y2 p) (y2 q) / ps - 2) in
  let y_end := c_trunc (Rmax (y2 p) (y2 q) / ps + 2) in
  flat_map (fun x =>
    flat_map (fun y =>
      let center := V2 (grid_center ps x) (grid_center ps y) in
      if segment_hits_pixel p q (x2 center - ps / 2) (x2 center + ps / 2) (y2 center - ps / 2) (y2 center + ps / 2)
      then [center] else [])
      (zrange y_start y_end))
    (zrange x_start x_end).
Definition line_segments_to_pixels_list (segs : list (vec2 * vec2)) (ps : R) : list vec2 :=
  flat_map (segment_pixels ps) segs.
Definition vec2_eq_dec (u v : vec2) : {u = v} + {u <> v}.
Proof. decide equality; apply Req_EM_T. Defined.
(** l.132-148 line_segments_to_pixels: the set of the centers (as a duplicate-free list) *)
Definition line_segments_to_pixels (segs : list (vec2 * vec2)) (ps : R) : list vec2 :=
  nodup vec2_eq_dec (line_segments_to_pixels_list segs ps).
(** l.956-971 _triangle_2d_to_pixels *)
Definition triangle_2d_to_pixels (t : triangle2) (ps : R) : list vec2 :=
  let '(a, b, c) := t in line_segments_to_pixels_list [(a, b); (b, c); (c, a)] ps.
