(** Planes: Plane3D of /repo/volmdlr/surfaces.py l.1330-1800, the plane helpers of
    /repo/volmdlr/utils/common_operations.py l.331-352 and the plane intersections of
    /repo/volmdlr/utils/intersections.py l.381-470. A plane is its frame. Names and caches are left out. *)
From Verif.Model Require Import Base RBase Vec Frame Geometry.
Open Scope R_scope.

(** Python's round(x, d): nearest multiple of 10^-d, ties to even. (On doubles the result is the double nearest to
    that multiple: not modelled.) *)
Definition py_round (d : nat) (x : R) : R :=
  let y := x * 10 ^ d in
  let n := rfloor (y + 1 / 2) in
  let n := if Reqb (IZR n) (y + 1 / 2) && Z.odd n then (n - 1)%Z else n in
  IZR n / 10 ^ d.

(** core_compiled.pyx l.1066-1087 Point2D.to_3d: rounds to 12 digits *)
Definition point_to_3d (p : vec2) (o vx vy : vec3) : vec3 :=
  let q := to_3d p o vx vy in V3 (py_round 12 (x3 q)) (py_round 12 (y3 q)) (py_round 12 (z3 q)).

(** common_operations.py l.331-338 get_plane_equation_coefficients *)
Definition plane_coefficients (f : frame3) : R * R * R * R :=
  let w := bw (fb3 f) in
  (py_round 12 (x3 w), py_round 12 (y3 w), py_round 12 (z3 w), py_round 12 (- dot3 (org3 f) w)).

(** common_operations.py l.341-351 get_plane_point_distance = Plane3D.point_distance (surfaces.py l.1477-1484) *)
Definition plane_point_distance (f : frame3) (p : vec3) : res R :=
  let '(a, b, c, d) := plane_coefficients f in
  let n := sqrt (a ^ 2 + b ^ 2 + c ^ 2) in
  if Reqb n 0 then Err ZeroDivisionError else Ok (Rabs (dot3 (bw (fb3 f)) p + d) / n).

(** surfaces.py l.1467-1475 point_belongs *)
Definition plane_point_belongs (f : frame3) (p : vec3) (tol : R) : bool :=
  isclose (dot3 (bw (fb3 f)) (sub3 p (org3 f))) 0 tol.

(** l.1383-1398 from_3_points: the frame of Frame.from_3_points (same statements); l.1400-1405 from_normal;
    l.1407-1419 from_plane_vectors *)
Definition plane_from_3_points (p1 p2 p3 : vec3) : res frame3 :=
  do vector1 <- unit_vector3 (sub3 p2 p1);
  do vector2 <- unit_vector3 (sub3 p3 p1);
  do normal <- unit_vector3 (cross3 vector1 vector2);
  Ok (F3 p1 (B3 vector1 (cross3 normal vector1) normal)).
Definition plane_from_normal (point normal : vec3) : res frame3 :=
  do v1 <- deterministic_unit_normal_vector normal;
  Ok (F3 point (B3 v1 (cross3 v1 normal) normal)).
Definition plane_from_vectors (o x y : vec3) : frame3 := F3 o (B3 x y (cross3 x y)).

(** l.1421-1455 from_points: the points close to the first one are deleted, then the second direction is the one
    of smallest |dot| with the first direction (the loop keeps the first minimum). *)
Definition fp_step (origin vector1 : vec3) (acc : res (vec3 * R)) (point : vec3) : res (vec3 * R) :=
  do (vector2_min, dot_min) <- acc;
  do vector2 <- unit_vector3 (sub3 point origin);
  let dot := Rabs (dot3 vector1 vector2) in
  Ok (if Rltb dot dot_min then (vector2, dot) else (vector2_min, dot_min)).
Definition plane_from_points (points : list vec3) : res frame3 :=
  match points with
  | p0 :: p1 :: p2 :: rest =>
    match rest with
    | [] => plane_from_3_points p0 p1 p2
    | _ =>
      match filter (fun p => negb (is_close3 p p0 (/ 10 ^ 6))) (p1 :: p2 :: rest) with
      | q1 :: q2 :: others =>
        do vector1 <- unit_vector3 (sub3 q1 p0);
        do vector2 <- unit_vector3 (sub3 q2 p0);
        do (v, _) <- fold_left (fp_step p0 vector1) others (Ok (vector2, Rabs (dot3 vector1 vector2)));
        plane_from_3_points p0 (add3 vector1 p0) (add3 v p0)
      | _ => Err IndexError
      end
    end
  | _ => Err ValueError
  end.

(** l.1457-1465 angle_between_planes: math.acos raises ValueError outside [-1, 1] *)
Definition angle_between_planes (f g : frame3) : res R :=
  let d := dot3 (bw (fb3 f)) (bw (fb3 g)) in
  if Rltb d (-1) || Rltb 1 d then Err ValueError else Ok (acos d).
(** l.1547-1552 is_parallel, l.1535-1545 is_coincident *)
Definition plane_is_parallel (f g : frame3) (tol : R) : bool := is_colinear_to3 (bw (fb3 f)) (bw (fb3 g)) tol.
Definition plane_is_coincident (f g : frame3) (tol : R) : bool :=
  plane_is_parallel f g tol && plane_point_belongs g (org3 f) tol.

(** l.1652-1656 point2d_to_3d, l.1677-1681 point3d_to_2d, l.1658-1675 parametric_points_to_3d *)
Definition plane_2d_to_3d (f : frame3) (p : vec2) : vec3 := point_to_3d p (org3 f) (bu (fb3 f)) (bv (fb3 f)).
Definition plane_array (f : frame3) (p : vec2) : vec3 :=
  add3 (add3 (org3 f) (mul3 (bu (fb3 f)) (x2 p))) (mul3 (bv (fb3 f)) (y2 p)).
Definition plane_3d_to_2d (f : frame3) (p : vec3) : vec2 := to_2d p (org3 f) (bu (fb3 f)) (bv (fb3 f)).

(** ** /repo/volmdlr/utils/intersections.py *)
(** l.405-423 get_plane_line_intersections: a line is its two points *)
Definition plane_line_intersections (f : frame3) (line : vec3 * vec3) (tol : R) : list vec3 :=
  let u_vector := sub3 (snd line) (fst line) in
  let w_vector := sub3 (fst line) (org3 f) in
  let w := bw (fb3 f) in
  if isclose (dot3 w u_vector) 0 tol then []
  else [add3 (fst line) (mul3 u_vector (- dot3 w w_vector / dot3 w u_vector))].
(** l.379-402 get_plane_linesegment_intersections; [w.unit_vector()] and [u.unit_vector()] are defined here because
    w.u <> 0 *)
Definition plane_linesegment_intersections (f : frame3) (seg : vec3 * vec3) (tol : R) : res (list vec3) :=
  let u_vector := sub3 (snd seg) (fst seg) in
  let w_vector := sub3 (fst seg) (org3 f) in
  let w := bw (fb3 f) in
  let normaldotu := dot3 w u_vector in
  if Reqb normaldotu 0 then Ok []
  else
    do wu <- unit_vector3 w;
    do uu <- unit_vector3 u_vector;
    if isclose (dot3 wu uu) 0 tol then Ok []
    else
      let t := - dot3 w w_vector / normaldotu in
      if Rltb t 0 || Rltb 1 t then
        if isclose (Rabs t) 0 tol then Ok [fst seg]
        else if isclose t 1 tol then Ok [snd seg]
        else Ok []
      else Ok [add3 (fst seg) (mul3 u_vector t)].

(** l.426-450 _helper_two_plane_intersections *)
Definition two_planes_point (f g : frame3) : res vec3 :=
  let '(a1, b1, c1, d1) := plane_coefficients f in
  let '(a2, b2, c2, d2) := plane_coefficients g in
  let tol := / 10 ^ 10 in
  if Rltb tol (Rabs (a1 * b2 - a2 * b1)) then
    Ok (V3 ((b1 * d2 - b2 * d1) / (a1 * b2 - a2 * b1)) ((a2 * d1 - a1 * d2) / (a1 * b2 - a2 * b1)) 0)
  else if Rltb tol (Rabs (a2 * c1 - a1 * c2)) then
    Ok (V3 ((c2 * d1 - c1 * d2) / (a2 * c1 - a1 * c2)) 0 ((a1 * d2 - a2 * d1) / (a2 * c1 - a1 * c2)))
  else if Rltb tol (Rabs (c1 * b2 - b1 * c2)) then
    Ok (V3 0 ((- c2 * d1 + c1 * d2) / (b1 * c2 - c1 * b2)) ((- b1 * d2 + b2 * d1) / (b1 * c2 - c1 * b2)))
  else Err NotImplementedError.
(** l.453-470 get_two_planes_intersections; both the empty list and None (too small a direction) are [None]: the
    callers only test the truth value. *)
Definition two_planes_intersections (f g : frame3) (tol : R) : res (option (vec3 * vec3)) :=
  if is_colinear_to3 (bw (fb3 f)) (bw (fb3 g)) tol then Ok None
  else
    let line_direction := cross3 (bw (fb3 f)) (bw (fb3 g)) in
    if Rltb (norm3 line_direction) tol then Ok None
    else do p <- two_planes_point f g; Ok (Some (p, add3 p line_direction)).
(** surfaces.py l.1554-1570 plane_between_two_planes: [0] on an empty list raises IndexError *)
Definition plane_between_two_planes (f g : frame3) : res frame3 :=
  do i <- two_planes_intersections f g (/ 10 ^ 8);
  match i with
  | None => Err IndexError
  | Some (p, q) =>
    do u <- unit_vector3 (sub3 q p);
    do v <- unit_vector3 (add3 (bw (fb3 f)) (bw (fb3 g)));
    do m <- div3 (add3 (org3 f) (org3 g)) 2;
    Ok (F3 m (B3 u (cross3 u v) v))
  end.
