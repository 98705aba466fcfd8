(** Analytic surfaces of /repo/volmdlr/surfaces.py: CylindricalSurface3D, ToroidalSurface3D, ConicalSurface3D,
    SphericalSurface3D. A surface is its frame and its radii / semi-angle. Doubles are reals; names and caches are not
    modelled. The numpy versions (parametric_points_to_3d) act row by row: one row is modelled. *)
From Verif.Model Require Import RBase Vec Frame Geometry.
Open Scope R_scope.

(** [if abs(x) < t: x = 0] *)
Definition zap (t x : R) : R := if Rltb (Rabs x) t then 0 else x.
(** min(r, max(-r, z)) *)
Definition pyclamp (r z : R) : R := Rmin r (Rmax (- r) z).

(** ** CylindricalSurface3D, l.2342-2910 *)
(** l.2456-2467 point2d_to_3d *)
Definition cyl_2d_to_3d (f : frame3) (radius : R) (p : vec2) : vec3 :=
  frame3_l2g f (V3 (radius * cos (x2 p)) (radius * sin (x2 p)) (y2 p)).
(** l.2469-2497 parametric_points_to_3d *)
Definition cyl_array (f : frame3) (radius : R) (p : vec2) : vec3 :=
  let x_component := mul3 (bu (fb3 f)) (cos (x2 p)) in
  let y_component := mul3 (bv (fb3 f)) (sin (x2 p)) in
  let z_component := mul3 (bw (fb3 f)) (y2 p) in
  add3 (add3 (org3 f) (mul3 (add3 x_component y_component) radius)) z_component.
(** l.2499-2517 point3d_to_2d (ConicalSurface3D.point3d_to_2d, l.4232-4250, is the same text) *)
Definition cyl_3d_to_2d (f : frame3) (p : vec3) : res vec2 :=
  do l <- frame3_g2l f p;
  let x := zap (/ 10 ^ 12) (x3 l) in
  let y := zap (/ 10 ^ 12) (y3 l) in
  let theta := zap (/ 10 ^ 9) (atan2 y x) in
  Ok (V2 theta (z3 l)).
(** l.2764-2775 point_belongs *)
Definition cyl_point_belongs (f : frame3) (radius : R) (p : vec3) (tol : R) : res bool :=
  do l <- frame3_g2l f p; Ok (isclose (x3 l ^ 2 + y3 l ^ 2) (radius ^ 2) tol).

(** ** ConicalSurface3D, l.4038-4780 *)
(** l.4199-4211 point2d_to_3d *)
Definition cone_2d_to_3d (f : frame3) (semi_angle : R) (p : vec2) : vec3 :=
  let radius := tan semi_angle * y2 p in
  frame3_l2g f (V3 (radius * cos (x2 p)) (radius * sin (x2 p)) (y2 p)).
(** l.4252-4279 parametric_points_to_3d *)
Definition cone_array (f : frame3) (semi_angle : R) (p : vec2) : vec3 :=
  let x_component := mul3 (bu (fb3 f)) (cos (x2 p)) in
  let y_component := mul3 (bv (fb3 f)) (sin (x2 p)) in
  add3 (add3 (org3 f) (mul3 (add3 x_component y_component) (y2 p * tan semi_angle))) (mul3 (bw (fb3 f)) (y2 p)).
(** l.4232-4250 point3d_to_2d *)
Definition cone_3d_to_2d (f : frame3) (p : vec3) : res vec2 :=
  do l <- frame3_g2l f p;
  let x := zap (/ 10 ^ 12) (x3 l) in
  let y := zap (/ 10 ^ 12) (y3 l) in
  let theta := zap (/ 10 ^ 9) (atan2 y x) in
  Ok (V2 theta (z3 l)).

(** ** SphericalSurface3D, l.4780-5826 *)
(** l.4959-4973 point2d_to_3d *)
Definition sphere_2d_to_3d (f : frame3) (radius : R) (p : vec2) : vec3 :=
  let theta := x2 p in let phi := y2 p in
  frame3_l2g f (V3 (radius * cos phi * cos theta) (radius * cos phi * sin theta) (radius * sin phi)).
(** l.5003-5031 parametric_points_to_3d *)
Definition sphere_array (f : frame3) (radius : R) (p : vec2) : vec3 :=
  let common_term := radius * cos (y2 p) in
  let x_component := mul3 (bu (fb3 f)) (cos (x2 p)) in
  let y_component := mul3 (bv (fb3 f)) (sin (x2 p)) in
  let z_component := mul3 (bw (fb3 f)) (radius * sin (y2 p)) in
  add3 (add3 (org3 f) (mul3 (add3 x_component y_component) common_term)) z_component.
(** l.4975-5001 point3d_to_2d; the test on -0.0 has no effect on reals *)
Definition sphere_3d_to_2d (f : frame3) (radius : R) (p : vec3) : res vec2 :=
  do l <- frame3_g2l f p;
  let z := pyclamp radius (z3 l) in
  let x := zap (/ 10 ^ 7) (x3 l) in
  let y := zap (/ 10 ^ 7) (y3 l) in
  let theta := zap (/ 10 ^ 10) (atan2 y x) in
  if Reqb radius 0 then Err ZeroDivisionError
  else Ok (V2 theta (zap (/ 10 ^ 10) (asin (z / radius)))).

(** ** ToroidalSurface3D, l.2912-4036 *)
(** l.3064-3076 point2d_to_3d *)
Definition torus_2d_to_3d (f : frame3) (major minor : R) (p : vec2) : vec3 :=
  let theta := x2 p in let phi := y2 p in
  frame3_l2g f (V3 ((major + minor * cos phi) * cos theta) ((major + minor * cos phi) * sin theta) (minor * sin phi)).
(** l.3126-3154 parametric_points_to_3d *)
Definition torus_array (f : frame3) (major minor : R) (p : vec2) : vec3 :=
  let common_term := major + minor * cos (y2 p) in
  let x_component := mul3 (bu (fb3 f)) (cos (x2 p)) in
  let y_component := mul3 (bv (fb3 f)) (sin (x2 p)) in
  let z_component := mul3 (bw (fb3 f)) (minor * sin (y2 p)) in
  add3 (add3 (org3 f) (mul3 (add3 x_component y_component) common_term)) z_component.
(** l.3078-3124 point3d_to_2d *)
Definition torus_3d_to_2d (f : frame3) (major minor : R) (p : vec3) : res vec2 :=
  do l <- frame3_g2l f p;
  let z := pyclamp minor (z3 l) in
  let x := zap (/ 10 ^ 12) (x3 l) in
  let y := zap (/ 10 ^ 12) (y3 l) in
  let z := zap (/ 10 ^ 6) z in
  if Reqb minor 0 then Err ZeroDivisionError
  else
    let phi := zap (/ 10 ^ 9) (asin (z / minor)) in
    let u := major + sqrt (minor ^ 2 - z ^ 2) in
    if Reqb u 0 then Err ZeroDivisionError
    else
      let theta := atan2 (y / u) (x / u) in
      let vector_to_tube_center := V3 (Rabs major * cos theta) (Rabs major * sin theta) 0 in
      let vector_from_tube_center_to_point := sub3 (V3 x y z) vector_to_tube_center in
      do phi2 <- vectors3d_angle vector_to_tube_center vector_from_tube_center_to_point;
      let phi := if Rleb 0 phi && Rltb (/ 2 * PI) phi2 then PI - phi
                 else if Rltb phi 0 && Rltb (/ 2 * PI) phi2 then - PI - phi else phi in
      let theta := zap (/ 10 ^ 9) theta in
      let phi := zap (/ 10 ^ 9) phi in
      let theta := if Rltb major minor then
                     if Rltb (acos (- major / minor)) (Rabs phi)
                     then if Rleb 0 theta then theta - PI else theta + PI
                     else theta
                   else theta in
      Ok (V2 theta phi).
(** l.3414-3443 point_projection *)
Definition torus_point_projection (f : frame3) (major minor : R) (p : vec3) : res vec3 :=
  do l <- frame3_g2l f p;
  let x := zap (/ 10 ^ 12) (x3 l) in
  let y := zap (/ 10 ^ 12) (y3 l) in
  let z := z3 l in
  let theta := atan2 y x in
  let vector_to_tube_center := V3 (major * cos theta) (major * sin theta) 0 in
  let vector_from_tube_center_to_point := sub3 (V3 x y z) vector_to_tube_center in
  do phi <- vectors3d_angle vector_to_tube_center vector_from_tube_center_to_point;
  let phi := if Rltb z 0 then 2 * PI - phi else phi in
  let theta := zap (/ 10 ^ 9) theta in
  let phi := zap (/ 10 ^ 9) phi in
  Ok (torus_2d_to_3d f major minor (V2 theta phi)).

(** ** Surface3D, l.708-1330 *)
(** l.1072-1081 point_projection, l.1083-1093 point_distance (point_projection of the class), l.1319-1329 point_belongs *)
Definition cyl_point_projection (f : frame3) (radius : R) (p : vec3) : res vec3 :=
  do q <- cyl_3d_to_2d f p; Ok (cyl_2d_to_3d f radius q).
Definition cone_point_projection (f : frame3) (semi_angle : R) (p : vec3) : res vec3 :=
  do q <- cone_3d_to_2d f p; Ok (cone_2d_to_3d f semi_angle q).
Definition sphere_point_projection (f : frame3) (radius : R) (p : vec3) : res vec3 :=
  do q <- sphere_3d_to_2d f radius p; Ok (sphere_2d_to_3d f radius q).
Definition surface_point_distance (projection : vec3 -> res vec3) (p : vec3) : res R :=
  do q <- projection p; Ok (point_distance3 q p).
Definition surface_point_belongs (projection : vec3 -> res vec3) (p : vec3) (tol : R) : res bool :=
  do d <- surface_point_distance projection p; Ok (Rltb d tol).

(** ** Bounding boxes: the corner points given to BoundingBox.from_points *)
(** l.3035-3059 ToroidalSurface3D._bounding_box *)
Definition torus_corners (f : frame3) (major minor : R) : list vec3 :=
  let distance := major + minor in
  let o := org3 f in
  let u := mul3 (bu (fb3 f)) distance in
  let v := mul3 (bv (fb3 f)) distance in
  let w := mul3 (bw (fb3 f)) minor in
  [ add3 (add3 (add3 o u) v) w; sub3 (add3 (add3 o u) v) w; add3 (sub3 (add3 o u) v) w; sub3 (sub3 (add3 o u) v) w;
    add3 (add3 (sub3 o u) v) w; sub3 (add3 (sub3 o u) v) w; add3 (sub3 (sub3 o u) v) w; sub3 (sub3 (sub3 o u) v) w ].
(** l.4868-4877 SphericalSurface3D._bounding_box *)
Definition sphere_corners (f : frame3) (radius : R) : list vec3 :=
  [ add3 (org3 f) (V3 (- radius) (- radius) (- radius)); add3 (org3 f) (V3 radius radius radius) ].
