(** Vectors and points: /repo/volmdlr/core_compiled.pyx (Vector, Vector2D, Point2D, Vector3D, Point3D) and
    /repo/volmdlr/curves.py (Line). Names are not modelled; Vector and Point classes are identified. *)
From Verif.Model Require Import RBase.
Open Scope R_scope.

Record vec2 := V2 { x2 : R; y2 : R }.
Record vec3 := V3 { x3 : R; y3 : R; z3 : R }.

(** ** core_compiled.pyx l.31-56 and Vector2D / Point2D operators (l.619-637, l.925-943) *)
Definition sub2 u v := V2 (x2 u - x2 v) (y2 u - y2 v).
Definition add2 u v := V2 (x2 u + x2 v) (y2 u + y2 v).
Definition mul2 u a := V2 (x2 u * a) (y2 u * a).
Definition neg2 u := V2 (- x2 u) (- y2 u).
Definition div2 u a : res vec2 := if Reqb a 0 then Err ZeroDivisionError else Ok (V2 (x2 u / a) (y2 u / a)).
Definition dot2 u v := x2 u * x2 v + y2 u * y2 v.
Definition norm2 u := sqrt (x2 u * x2 u + y2 u * y2 u).
(** l.741-778: unit_vector, cross, point_distance *)
Definition unit_vector2 u : res vec2 :=
  let n := norm2 u in if Reqb n 0 then Err ZeroDivisionError else Ok (V2 (x2 u / n) (y2 u / n)).
Definition cross2 u v := x2 u * y2 v - y2 u * x2 v.
Definition point_distance2 u v := norm2 (sub2 u v).
(** l.780-812: rotation, translation *)
Definition rotation2 p center angle :=
  let u := sub2 p center in
  V2 (cos angle * x2 u - sin angle * y2 u + x2 center) (sin angle * x2 u + cos angle * y2 u + y2 center).
Definition translation2 p o := V2 (x2 p + x2 o) (y2 p + y2 o).
(** l.836-870: Vector2D.to_3d (Point2D.to_3d additionally rounds to 12 digits: rounding not modelled),
    normal_vector, unit_normal_vector *)
Definition to_3d p o vx vy :=
  V3 (x3 o + x3 vx * x2 p + x3 vy * y2 p) (y3 o + y3 vx * x2 p + y3 vy * y2 p) (z3 o + z3 vx * x2 p + z3 vy * y2 p).
Definition normal_vector2 u := V2 (- y2 u) (x2 u).
Definition unit_normal_vector2 u := unit_vector2 (normal_vector2 u).
(** l.661-678 is_close *)
Definition is_close2 u v tol := isclose (point_distance2 u v) 0 tol.

(** ** core_compiled.pyx l.57-86 and Vector3D / Point3D operators *)
Definition sub3 u v := V3 (x3 u - x3 v) (y3 u - y3 v) (z3 u - z3 v).
Definition add3 u v := V3 (x3 u + x3 v) (y3 u + y3 v) (z3 u + z3 v).
Definition mul3 u a := V3 (x3 u * a) (y3 u * a) (z3 u * a).
Definition neg3 u := V3 (- x3 u) (- y3 u) (- z3 u).
Definition div3 u a : res vec3 :=
  if Reqb a 0 then Err ZeroDivisionError else Ok (V3 (x3 u / a) (y3 u / a) (z3 u / a)).
Definition dot3 u v := x3 u * x3 v + y3 u * y3 v + z3 u * z3 v.
Definition norm3 u := sqrt (x3 u * x3 u + y3 u * y3 u + z3 u * z3 u).
Definition cross3 u v :=
  V3 (y3 u * z3 v - z3 u * y3 v) (z3 u * x3 v - x3 u * z3 v) (x3 u * y3 v - y3 u * x3 v).
Definition unit_vector3 u : res vec3 :=
  let n := norm3 u in
  if Reqb n 0 then Err ZeroDivisionError else Ok (V3 (x3 u / n) (y3 u / n) (z3 u / n)).
Definition point_distance3 u v := norm3 (sub3 u v).
Definition is_close3 u v tol := isclose (point_distance3 u v) 0 tol.

(** l.87-113 c_vector3d_rotation (Rodrigues), l.1574-1593 Vector3D.rotation *)
Definition rotation3 v center axis angle :=
  let u := sub3 v center in
  let rv1 := V3 (cos angle * x3 u) (cos angle * y3 u) (cos angle * z3 u) in
  let rv2 := mul3 axis ((1 - cos angle) * dot3 u axis) in
  let rv3 := cross3 axis u in
  V3 (x3 rv1 + x3 rv2 + x3 rv3 * sin angle + x3 center)
     (y3 rv1 + y3 rv2 + y3 rv3 * sin angle + y3 center)
     (z3 rv1 + z3 rv2 + z3 rv3 * sin angle + z3 center).
(** l.1595-1650: axis_rotation_parameters, x_rotation, y_rotation, z_rotation *)
Definition axis_rotation_parameters a1 a2 angle :=
  (cos angle * a1 + sin angle * a2, - sin angle * a1 + cos angle * a2).
Definition x_rotation v angle :=
  let '(y1, z1) := axis_rotation_parameters (y3 v) (z3 v) angle in V3 (x3 v) y1 z1.
Definition y_rotation v angle :=
  let '(z1, x1) := axis_rotation_parameters (z3 v) (x3 v) angle in V3 x1 (y3 v) z1.
Definition z_rotation v angle :=
  let '(x1, y1) := axis_rotation_parameters (x3 v) (y3 v) angle in V3 x1 y1 (z3 v).
Definition translation3 v o := add3 v o.

(** l.1688-1741: plane_projection3d, plane_projection2d, to_2d *)
Definition plane_projection3d p o x y : res vec3 :=
  do z <- unit_vector3 (cross3 x y); Ok (sub3 p (mul3 z (dot3 z (sub3 p o)))).
Definition plane_projection2d p o x y : res vec2 :=
  do q <- plane_projection3d p o x y; Ok (V2 (dot3 q x) (dot3 q y)).
Definition to_2d p o x y := V2 (dot3 p x - dot3 o x) (dot3 p y - dot3 o y).

Definition X3D := V3 1 0 0.
Definition Y3D := V3 0 1 0.
Definition Z3D := V3 0 0 1.
Definition O3D := V3 0 0 0.
Definition O2D := V2 0 0.

(** l.1756-1781 deterministic_normal_vector, deterministic_unit_normal_vector.
    The product v.dot(self) * self / norm**2 raises ZeroDivisionError for the null vector (Vector.__truediv__). *)
Definition deterministic_normal_vector u : res vec3 :=
  let v := if negb (isclose (y3 u) 0 (/ 10 ^ 7)) || negb (isclose (z3 u) 0 (/ 10 ^ 7)) then X3D else Y3D in
  do p <- div3 (mul3 u (dot3 v u)) (norm3 u ^ 2); Ok (sub3 v p).
Definition deterministic_unit_normal_vector u : res vec3 :=
  do v <- deterministic_normal_vector u; unit_vector3 v.

(** ** Vector (abstract), l.500-585. Division by zero of Python floats raises ZeroDivisionError. *)
Definition is_colinear_to3 u v tol : bool :=
  if Reqb (norm3 u) 0 then false
  else if Reqb (norm3 v) 0 then false
  else isclose (Rabs (dot3 u v) / norm3 u / norm3 v) 1 tol.
Definition is_perpendicular_to3 u v tol : bool := isclose (Rabs (dot3 u v)) 0 tol.
Definition mean_point3 (points : list vec3) : res vec3 :=
  match points with
  | [] => Err IndexError
  | p :: l => div3 (fold_left add3 l p) (INR (1 + length l))
  end.
Definition vector_projection3 u v : res vec3 :=
  if Reqb (dot3 v v) 0 then Err ZeroDivisionError else Ok (mul3 v (dot3 u v / dot3 v v)).

(** l.1255-1270 / l.2050 middle_point *)
Definition middle_point2 p q := mul2 (add2 p q) (1 / 2).
Definition middle_point3 p q := mul3 (add3 p q) (1 / 2).

(** l.2069-2086 Point3D.nearest_point: strict improvement from (inf, None); the loop state is
    [None] before the first point. *)
Definition nearest_point3 (p : vec3) (points : list vec3) : option vec3 :=
  option_map snd
    (fold_left (fun acc q =>
       let d := point_distance3 p q in
       match acc with
       | None => Some (d, q)
       | Some (m, _) => if Rltb d m then Some (d, q) else acc
       end) points None).
(** l.1291-1309 Point2D.nearest_point: starts from points[0] (IndexError on an empty list). *)
Definition nearest_point2 (p : vec2) (points : list vec2) : res vec2 :=
  match points with
  | [] => Err IndexError
  | q0 :: _ =>
    Ok (snd (fold_left (fun acc q =>
       let d := point_distance2 p q in
       if Rltb d (fst acc) then (d, q) else acc) points (point_distance2 p q0, q0)))
  end.
(** l.2120-2160 point3d_in_list, point2d_in_list *)
Definition in_list3 (p : vec3) (l : list vec3) (tol : R) : bool :=
  existsb (fun q => Rleb ((x3 q - x3 p) * (x3 q - x3 p) + (y3 q - y3 p) * (y3 q - y3 p)
                          + (z3 q - z3 p) * (z3 q - z3 p)) (tol * tol)) l.
Definition in_list2 (p : vec2) (l : list vec2) (tol : R) : bool :=
  existsb (fun q => Rleb ((x2 q - x2 p) * (x2 q - x2 p) + (y2 q - y2 p) * (y2 q - y2 p)) (tol * tol)) l.

(** ** Lines. l.1141-1180 Point2D.line_intersection and l.1182-1234 segment_intersection
    (curvilinear_abscissa=True; None = no intersection). A line is its two points. *)
Definition line_intersection (l1 l2 : vec2 * vec2) : option (vec2 * R * R) :=
  let '(V2 a1 b1, V2 a2 b2) := l1 in
  let '(V2 a3 b3, V2 a4 b4) := l2 in
  let den := (a1 - a2) * (b3 - b4) - (b1 - b2) * (a3 - a4) in
  if isclose den 0 (/ 10 ^ 15) then None
  else
    let x := ((a1 * b2 - b1 * a2) * (a3 - a4) - (a1 - a2) * (a3 * b4 - b3 * a4)) / den in
    let y := ((a1 * b2 - b1 * a2) * (b3 - b4) - (b1 - b2) * (a3 * b4 - b3 * a4)) / den in
    let t := ((a1 - a3) * (b3 - b4) - (b1 - b3) * (a3 - a4)) / den in
    let u := - ((a1 - a2) * (b1 - b3) - (b1 - b2) * (a1 - a3)) / den in
    Some (V2 x y, t, u).
Definition segment_intersection (l1 l2 : vec2 * vec2) : option (vec2 * R * R) :=
  let '(V2 a1 b1, V2 a2 b2) := l1 in
  let '(V2 a3 b3, V2 a4 b4) := l2 in
  let den := (a1 - a2) * (b3 - b4) - (b1 - b2) * (a3 - a4) in
  if isclose den 0 (/ 10 ^ 15) then None
  else
    let t := ((a1 - a3) * (b3 - b4) - (b1 - b3) * (a3 - a4)) / den in
    let u := - ((a1 - a2) * (b1 - b3) - (b1 - b2) * (a1 - a3)) / den in
    if (Rleb 0 t && Rleb t 1) || (Rleb 0 u && Rleb u 1) then
      let x := ((a1 * b2 - b1 * a2) * (a3 - a4) - (a1 - a2) * (a3 * b4 - b3 * a4)) / den in
      let y := ((a1 * b2 - b1 * a2) * (b3 - b4) - (b1 - b2) * (a3 * b4 - b3 * a4)) / den in
      Some (V2 x y, t, u)
    else None.

(** l.1271-1289 Point2D.line_projection (unit_normal_vector of curves.Line, curves.py l.248-255) *)
Definition line_projection2 p (line : vec2 * vec2) : res vec2 :=
  do d <- unit_vector2 (sub2 (snd line) (fst line));
  let n := normal_vector2 d in
  let pp1 := sub2 p (fst line) in
  Ok (add2 (sub2 pp1 (mul2 n (dot2 pp1 n))) (fst line)).
(** curves.py l.257-273 Line.point_projection; l.275-298 abscissa, point_at_abscissa (2D and 3D) *)
Definition point_projection2 (line : vec2 * vec2) p : res (vec2 * R) :=
  let vector := sub2 (snd line) (fst line) in
  let n := norm2 vector in
  if Reqb (n ^ 2) 0 then Err ZeroDivisionError
  else let t := dot2 (sub2 p (fst line)) vector / n ^ 2 in
       Ok (add2 (fst line) (mul2 vector t), t * n).
Definition point_projection3 (line : vec3 * vec3) p : res (vec3 * R) :=
  let vector := sub3 (snd line) (fst line) in
  let n := norm3 vector in
  if Reqb (n ^ 2) 0 then Err ZeroDivisionError
  else let t := dot3 (sub3 p (fst line)) vector / n ^ 2 in
       Ok (add3 (fst line) (mul3 vector t), t * n).
Definition line_abscissa3 (line : vec3 * vec3) p : res R :=
  let vector := sub3 (snd line) (fst line) in
  let n := norm3 vector in
  if Reqb n 0 then Err ZeroDivisionError else Ok (dot3 (sub3 p (fst line)) vector / n).
Definition line_point_at_abscissa3 (line : vec3 * vec3) (a : R) : res vec3 :=
  do d <- unit_vector3 (sub3 (snd line) (fst line)); Ok (add3 (fst line) (mul3 d a)).
(** core_compiled.pyx l.1311-1325 axial_symmetry *)
Definition axial_symmetry2 p (line : vec2 * vec2) : res vec2 :=
  do q <- point_projection2 line p; Ok (add2 (fst q) (sub2 (fst q) p)).

(** ** Segment distances: core_compiled.pyx l.150-180. The division of C doubles by a zero length gives
    NaN/inf, not an exception; a degenerate segment is modelled as an error value. *)
Definition linesegment2d_point_distance (p1 p2 p : vec2) : res (R * vec2) :=
  let u := sub2 p2 p1 in
  let pp := sub2 p p1 in
  if Reqb (norm2 u ^ 2) 0 then Err ZeroDivisionError
  else
    let t := Rmax 0 (Rmin 1 (dot2 pp u / norm2 u ^ 2)) in
    let projection := add2 p1 (mul2 u t) in
    Ok (norm2 (sub2 projection p), projection).
Definition linesegment3d_point_distance (p1 p2 p : vec3) : res (R * vec3) :=
  let u := sub3 p2 p1 in
  let pp := sub3 p p1 in
  if Reqb (norm3 u ^ 2) 0 then Err ZeroDivisionError
  else
    let t := Rmax 0 (Rmin 1 (dot3 pp u / norm3 u ^ 2)) in
    let projection := add3 p1 (mul3 u t) in
    Ok (norm3 (sub3 projection p), projection).

(** l.322-423 CLineSegment3DDistance, branch by branch (divisions by a, c: non-degenerate segments). *)
Definition clamp_s (num a : R) : R := if Rleb num 0 then 0 else if Rleb a num then 1 else num / a.
Definition CLineSegment3DDistance (u v w : vec3) : R * R :=
  let a := dot3 u u in
  let b := dot3 u v in
  let c := dot3 v v in
  let d := dot3 u w in
  let e := dot3 v w in
  let determinant := a * c - b * c in
  if Rltb (- / 10 ^ 6) determinant then
    let b_times_e := b * e in
    let c_times_d := c * d in
    if Rleb b_times_e c_times_d then
      if Rleb e 0 then
        ((if Rleb a (- d) then 1 else if Rltb 0 (- d) then - d / a else 0), 0)
      else if Rltb e c then (0, e / c)
      else ((if Rleb a (b - d) then 1 else if Rltb 0 (b - d) then (b - d) / a else 0), 1)
    else
      let s := b_times_e - c_times_d in
      if Rleb determinant s then
        if Rleb (b + e) 0 then
          ((if Rleb (- d) 0 then 0 else if Rltb (- d) a then - d / a else 1), 0)
        else if Rltb (b + e) c then (1, (b + e) / c)
        else ((if Rleb (b - d) 0 then 0 else if Rltb (b - d) a then (b - d) / a else 1), 1)
      else
        let a_times_e := a * e in
        let b_times_d := a * d in
        if Rleb a_times_e b_times_d then (clamp_s (- d) a, 0)
        else
          let t := a_times_e - b_times_d in
          if Rleb determinant t then (clamp_s (b - d) a, 1)
          else (s / determinant, t / determinant)
  else
    if Rleb e 0 then (clamp_s (- d) a, 0)
    else if Rleb c e then (clamp_s (b - d) a, 1)
    else (0, e / c).
(** l.426-437 LineSegment3DDistance *)
Definition LineSegment3DDistance (s1 s2 : vec3 * vec3) : vec3 * vec3 :=
  let u := sub3 (snd s1) (fst s1) in
  let v := sub3 (snd s2) (fst s2) in
  let w := sub3 (fst s1) (fst s2) in
  let '(s, t) := CLineSegment3DDistance u v w in
  (add3 (fst s1) (mul3 u s), add3 (fst s2) (mul3 v t)).

(** l.3770-3804 line_point_belongs_with_points, get_minimum_distance_points_lines
    (C division: a degenerate first line is excluded by the theorems). *)
Definition line_point_belongs_with_points (a b p : vec3) : bool :=
  let vector1 := sub3 p a in
  let vector2 := sub3 b a in
  Rltb (norm3 (cross3 vector1 vector2) / norm3 vector2) (/ 10 ^ 6).
Definition get_minimum_distance_points_lines (a1 b1 a2 b2 : vec3) : vec3 * vec3 :=
  if line_point_belongs_with_points a1 b1 a2 then (a2, a2)
  else if line_point_belongs_with_points a1 b1 b2 then (b2, b2)
  else
    let u := sub3 b1 a1 in
    let v := sub3 b2 a2 in
    let w := sub3 a1 a2 in
    let den := dot3 u u * dot3 v v - dot3 u v ^ 2 in
    if Reqb den 0 then (a1, a2)
    else
      let s := (dot3 u v * dot3 v w - dot3 v v * dot3 u w) / den in
      let t := (dot3 u u * dot3 v w - dot3 u v * dot3 u w) / den in
      (add3 a1 (mul3 u s), add3 a2 (mul3 v t)).
