(** Lines and circles: /repo/volmdlr/curves.py l.205-298 (Line), l.484-527 and l.692-731 (Line2D), l.735-860 (Line3D),
    l.1052-1098 (CircleMixin), l.1101-1432 (Circle2D), l.1629-2090 (Circle3D) and
    /repo/volmdlr/utils/intersections.py l.193-230 (circle / circle).
    A line is its two points; a 2D circle is its frame and its radius; names and caches are left out. *)
From Verif.Model Require Import Base RBase Vec Frame BBox Geometry.
From Coq Require Import List.
Import ListNotations.
Open Scope R_scope.

(** ** Line2D *)
Definition dir2 (l : vec2 * vec2) : vec2 := sub2 (snd l) (fst l).
Definition dir3 (l : vec3 * vec3) : vec3 := sub3 (snd l) (fst l).
(** l.702-713 point_distance, l.692-700 point_belongs *)
Definition line2_point_distance (l : vec2 * vec2) (p : vec2) : res R :=
  let vector_r := sub2 (fst l) p in
  let vector_v := normal_vector2 (dir2 l) in
  if Reqb (norm2 vector_v) 0 then Err ZeroDivisionError
  else Ok (Rabs (dot2 vector_v vector_r) / norm2 vector_v).
Definition line2_point_belongs (l : vec2 * vec2) (p : vec2) (tol : R) : res bool :=
  do d <- line2_point_distance l p; Ok (isclose d 0 tol).
(** l.715-721 get_slope ([None] is math.inf), l.723-731 get_y_intersection *)
Definition get_slope (l : vec2 * vec2) : option R :=
  if Reqb (x2 (fst l)) (x2 (snd l)) then None
  else Some ((y2 (snd l) - y2 (fst l)) / (x2 (snd l) - x2 (fst l))).
Definition get_y_intersection (l : vec2 * vec2) : option R :=
  match get_slope l with
  | None => None
  | Some slope => Some (y2 (fst l) - slope * x2 (fst l))
  end.
(** l.500-524 line_intersections with another Line2D: the point of Point2D.line_intersection is projected on both lines *)
Definition line2_line_intersections (l m : vec2 * vec2) : res (list vec2) :=
  match line_intersection l m with
  | None => Ok []
  | Some (p, _, _) =>
    do p1 <- point_projection2 l p;
    do _ <- point_projection2 m p;
    Ok [fst p1]
  end.
(** l.487-498 line_distance. [distance, _ = self.point_projection(...)] binds the *point* to [distance]: the result
    is a number or a point. *)
Inductive num_or_point := Num (x : R) | Pnt (p : vec2).
Definition line2_line_distance (l m : vec2 * vec2) : res num_or_point :=
  do i <- line2_line_intersections l m;
  match i with
  | [] => do p <- point_projection2 l (fst m); Ok (Pnt (fst p))
  | _ => Ok (Num 0)
  end.

(** ** Line3D *)
(** l.785-791 point_distance, l.773-783 point_belongs *)
Definition line3_point_distance (l : vec3 * vec3) (p : vec3) : res R :=
  let vector1 := sub3 p (fst l) in
  let vector2 := sub3 (snd l) (fst l) in
  if Reqb (norm3 vector2) 0 then Err ZeroDivisionError else Ok (norm3 (cross3 vector1 vector2) / norm3 vector2).
Definition line3_point_belongs (l : vec3 * vec3) (p : vec3) (tol : R) : res bool :=
  if is_close3 p (fst l) (/ 10 ^ 6) then Ok true
  else do d <- line3_point_distance l p; Ok (Rltb d tol).
(** l.793-807 line_distance (is_colinear_to has the default tolerance 1e-6) *)
Definition line3_line_distance (l m : vec3 * vec3) : res R :=
  let d1 := dir3 l in let d2 := dir3 m in
  if is_colinear_to3 d1 d2 (/ 10 ^ 6) then
    if Reqb (norm3 d1) 0 then Err ZeroDivisionError
    else Ok (norm3 (cross3 d1 (sub3 (fst m) (fst l))) / norm3 d1)
  else
    let n := norm3 (cross3 d1 d2) in
    if Reqb n 0 then Err ZeroDivisionError
    else Ok (Rabs (dot3 (sub3 (fst m) (fst l)) (cross3 d1 d2)) / n).
(** l.809-820 skew_to *)
Definition line3_skew_to (l m : vec3 * vec3) : res bool :=
  if is_colinear_to3 (dir3 l) (dir3 m) (/ 10 ^ 6) then Ok false
  else do d <- line3_line_distance l m; Ok (negb (isclose d 0 (/ 10 ^ 6))).
(** l.822-849 intersection, l.851-860 line_intersections (a one-element list, possibly [None]) *)
Definition line3_intersection (l m : vec3 * vec3) (tol : R) : res (option vec3) :=
  let d1 := dir3 l in let d2 := dir3 m in
  do dist <- line3_line_distance l m;
  if is_colinear_to3 d1 d2 (/ 10 ^ 6) || negb (isclose dist 0 tol) then Ok None
  else if isclose dist 0 tol && isclose (dot3 d1 d2) 0 tol then
    do p <- point_projection3 l (fst m); Ok (Some (fst p))
  else
    let v := sub3 (fst l) (fst m) in
    let den := dot3 d1 d1 * dot3 d2 d2 - dot3 d1 d2 * dot3 d2 d1 in
    if Reqb den 0 then Err ZeroDivisionError
    else
      let t := (dot3 v d2 * dot3 d2 d1 - dot3 v d1 * dot3 d2 d2) / den in
      Ok (Some (add3 (fst l) (mul3 d1 t))).
Definition line3_line_intersections (l m : vec3 * vec3) (tol : R) : res (list (option vec3)) :=
  do i <- line3_intersection l m tol; Ok [i].

(** ** Circle2D *)
Record circle2 := C2 { cf2 : frame2; cr2 : R }.
Definition center2 (c : circle2) : vec2 := org2 (cf2 c).
Definition X2D := V2 1 0.
Definition Y2D := V2 0 1.
(** l.1200-1219 from_center_and_radius *)
Definition circle2_of (center : vec2) (radius : R) (is_trigo : bool) : circle2 :=
  C2 (F2 center (B2 X2D (if is_trigo then Y2D else neg2 Y2D))) radius.
(** l.1238-1259 find_circle_center_from_3_points. numpy.linalg.solve is Cramer's rule; it raises LinAlgError, a
    subclass of ValueError, on a singular matrix. *)
Definition circle_center_from_3_points (p1 p2 p3 : vec2) : res vec2 :=
  let m := M22 (2 * (x2 p1 - x2 p2)) (2 * (y2 p1 - y2 p2)) (2 * (x2 p1 - x2 p3)) (2 * (y2 p1 - y2 p3)) in
  let b := neg2 (V2 (x2 p2 ^ 2 + y2 p2 ^ 2 - x2 p1 ^ 2 - y2 p1 ^ 2) (x2 p3 ^ 2 + y2 p3 ^ 2 - x2 p1 ^ 2 - y2 p1 ^ 2)) in
  match inverse22 m with
  | Ok i => Ok (mvec22 i b)
  | Err _ =>
    if Reqb (det22 m) 0 then Err ValueError
    else Ok (V2 ((x2 b * a22 m - a12 m * y2 b) / det22 m) ((a11 m * y2 b - x2 b * a21 m) / det22 m))
  end.
(** l.1221-1236 from_3_points *)
Definition circle2_from_3_points (p1 p2 p3 : vec2) (is_trigo : bool) : res circle2 :=
  do c <- circle_center_from_3_points p1 p2 p3; Ok (circle2_of c (point_distance2 p1 c) is_trigo).
(** l.1260-1285 area, second_moment_area, length *)
Definition circle2_area (c : circle2) : R := PI * cr2 c ^ 2.
Definition circle2_second_moment (c : circle2) (p : vec2) : R * R * R :=
  let sma := PI * cr2 c ^ 4 / 4 in huygens2d sma sma 0 (circle2_area c) (center2 c) p.
Definition circle2_length (c : circle2) : R := TWO_PI * cr2 c.
(** l.1580-1587 translation, l.1568-1578 rotation *)
Definition circle2_translation (c : circle2) (o : vec2) : circle2 := C2 (frame2_translation (cf2 c) o) (cr2 c).
Definition circle2_rotation (c : circle2) (p : vec2) (angle : R) : circle2 :=
  C2 (frame2_rotation (cf2 c) p angle (is_close2 p (center2 c) (/ 10 ^ 6))) (cr2 c).
(** l.1286-1294 point_symmetric, l.1296-1302 axial_symmetry *)
Definition circle2_point_symmetric (c : circle2) (p : vec2) : circle2 :=
  circle2_translation c (sub2 (mul2 p 2) (center2 c)).
Definition circle2_axial_symmetry (c : circle2) (l : vec2 * vec2) : res circle2 :=
  do s <- axial_symmetry2 (center2 c) l; Ok (circle2_translation c (sub2 s (center2 c))).
(** l.1312-1316 reverse *)
Definition circle2_reverse (c : circle2) : circle2 :=
  C2 (F2 (org2 (cf2 c)) (B2 (u2 (fb2 (cf2 c))) (neg2 (v2 (fb2 (cf2 c)))))) (cr2 c).
(** l.1318-1334 point_belongs, l.1336-1343 point_distance, l.1345-1355 get_bounding_rectangle *)
Definition circle2_point_belongs (c : circle2) (p : vec2) (include_edge : bool) (tol : R) : bool :=
  if include_edge then Rleb (point_distance2 p (center2 c)) (cr2 c + tol) else Rltb (point_distance2 p (center2 c)) (cr2 c).
Definition circle2_point_distance (c : circle2) (p : vec2) : R := Rabs (point_distance2 p (center2 c) - cr2 c).
Definition circle2_rectangle (c : circle2) : rect :=
  Rect (x2 (center2 c) - cr2 c) (x2 (center2 c) + cr2 c) (y2 (center2 c) - cr2 c) (y2 (center2 c) + cr2 c).
(** l.1384-1412 _helper_line_intersections (quad_eq_a = 1 + m^2 is never 0); math.sqrt raises ValueError *)
Definition sqrt_py (x : R) : res R := if Rltb x 0 then Err ValueError else Ok (sqrt x).
Definition circle2_helper (radius : R) (l : vec2 * vec2) : res (list vec2) :=
  match get_slope l, get_y_intersection l with
  | Some m, Some c =>
    let a := 1 + m ^ 2 in
    let b := 2 * m * c in
    let c0 := c ^ 2 - radius ^ 2 in
    let delta := b ^ 2 - 4 * a * c0 in
    if Rltb delta 0 || Reqb a 0 then Ok []
    else if isclose delta 0 (/ 10 ^ 6) then
      let x1 := - b / 2 * a in Ok [V2 x1 (m * x1 + c)]
    else
      let x1 := (- b + sqrt delta) / (2 * a) in
      let x2 := (- b - sqrt delta) / (2 * a) in
      Ok [V2 x1 (m * x1 + c); V2 x2 (m * x2 + c)]
  | _, _ =>
    let x_line := x2 (fst l) in
    do s <- sqrt_py (radius ^ 2 - x_line ^ 2);
    Ok [V2 x_line (- s); V2 x_line s]
  end.
(** l.1414-1432 line_intersections. The mapped circle is centred at the origin, so the recursive call does not map
    again: [fuel] = 1 is enough (line_mapping and circle mapping by frame_mapping 'new'). *)
Fixpoint circle2_line_intersections (fuel : nat) (c : circle2) (l : vec2 * vec2) (tol : R) : res (list vec2) :=
  do d <- line2_point_distance l (center2 c);
  if Rltb (cr2 c + tol) d then Ok []
  else
    do b <- line2_point_belongs l (center2 c) (/ 10 ^ 6);
    if b then
      do u <- unit_vector2 (dir2 l);
      Ok [add2 (center2 c) (mul2 u (cr2 c)); sub2 (center2 c) (mul2 u (cr2 c))]
    else if negb (is_close2 (center2 c) O2D (/ 10 ^ 6)) then
      match fuel with
      | O => Err OutOfFuel
      | S fuel =>
        do p1 <- frame2_g2l (cf2 c) (fst l);
        do p2 <- frame2_g2l (cf2 c) (snd l);
        do f <- frame2_mapping_new (cf2 c) (cf2 c);
        do i <- circle2_line_intersections fuel (C2 f (cr2 c)) (p1, p2) (/ 10 ^ 9);
        Ok (map (frame2_l2g (cf2 c)) i)
      end
    else circle2_helper (cr2 c) l.
(** intersections.py l.193-230 get_circle_intersections *)
Definition get_circle_intersections (c1 c2 : circle2) : res (list vec2) :=
  if is_close2 (center2 c1) (center2 c2) (/ 10 ^ 6) then Ok []
  else
    let x0 := x2 (center2 c1) in let y0 := y2 (center2 c1) in
    let x1 := x2 (center2 c2) in let y1 := y2 (center2 c2) in
    let r1 := cr2 c1 in let r2 := cr2 c2 in
    let d := sqrt ((x1 - x0) ^ 2 + (y1 - y0) ^ 2) in
    if Rltb (r1 + r2) d then Ok []
    else if Rltb d (Rabs (r1 - r2)) then Ok []
    else if Reqb d 0 && Reqb r1 r2 then Ok []
    else
      let a := (r1 ^ 2 - r2 ^ 2 + d ^ 2) / (2 * d) in
      do h <- (if Rltb (Rabs (r1 - a)) (/ 10 ^ 6) then Ok 0 else sqrt_py (r1 ^ 2 - a ^ 2));
      let xx := x0 + a * (x1 - x0) / d in
      let yy := y0 + a * (y1 - y0) / d in
      Ok [V2 (xx + h * (y1 - y0) / d) (yy - h * (x1 - x0) / d);
          V2 (xx - h * (y1 - y0) / d) (yy + h * (x1 - x0) / d)].
(** curves.py l.1451-1465 circle_intersections (in_list has the default tolerance 1e-6) *)
Definition circle2_circle_intersections (c1 c2 : circle2) : res (list vec2) :=
  do l <- get_circle_intersections c1 c2;
  Ok (fold_left (fun acc p => if in_list2 p acc (/ 10 ^ 6) then acc else acc ++ [p]) l []).
(** CircleMixin in 2D: l.1052-1071 abscissa, l.1090-1098 point_at_abscissa, l.1073-1088 discretization_points;
    numpy.linspace(0, 2 pi, n) is the list of i * (2 pi) / (n - 1) ([0] for n = 1, [] for n = 0). *)
Definition circle2_abscissa (c : circle2) (p : vec2) (tol : R) : res R :=
  if negb (isclose (point_distance2 (center2 c) p) (cr2 c) tol) then Err ValueError
  else
    do q <- frame2_g2l (cf2 c) p;
    if Reqb (cr2 c) 0 then Err ZeroDivisionError
    else Ok (cr2 c * Rabs (sin_cos_angle (x2 q / cr2 c) (y2 q / cr2 c))).
Definition circle2_point_at_abscissa (c : circle2) (s : R) : res vec2 :=
  let start := add2 (center2 c) (mul2 (u2 (fb2 (cf2 c))) (cr2 c)) in
  let sign := cross2 (u2 (fb2 (cf2 c))) (v2 (fb2 (cf2 c))) in
  if Reqb (cr2 c) 0 then Err ZeroDivisionError else Ok (rotation2 start (center2 c) (sign * s / cr2 c)).
Definition linspace_2pi (n : nat) : list R :=
  map (fun i => if (n =? 1)%nat then 0 else INR i * (TWO_PI / INR (n - 1))) (seq 0 n).
Definition circle2_discretization (c : circle2) (n : nat) : list vec2 :=
  map (fun t => add2 (add2 (center2 c) (mul2 (u2 (fb2 (cf2 c))) (cr2 c * cos t))) (mul2 (v2 (fb2 (cf2 c))) (cr2 c * sin t)))
    (linspace_2pi n).

(** ** Circle3D *)
Record circle3 := C3 { cf3 : frame3; cr3 : R }.
Definition center3 (c : circle3) : vec3 := org3 (cf3 c).
(** l.2008-2018 point_belongs *)
Definition circle3_point_belongs (c : circle3) (p : vec3) (tol : R) : bool :=
  isclose (point_distance3 p (center3 c)) (cr3 c) tol && isclose (dot3 (bw (fb3 (cf3 c))) (sub3 p (center3 c))) 0 tol.
(** l.1881-1889 _bounding_box *)
Definition circle3_corners (c : circle3) : list vec3 :=
  map (fun v => add3 (center3 c) (mul3 v (cr3 c)))
    [bu (fb3 (cf3 c)); neg3 (bu (fb3 (cf3 c))); bv (fb3 (cf3 c)); neg3 (bv (fb3 (cf3 c)))].
Definition circle3_bounding_box (c : circle3) : res bbox := bbox_from_points (circle3_corners c).
(** l.1910-1918 from_center_normal *)
Definition circle3_from_center_normal (center normal : vec3) (radius : R) : res circle3 :=
  do u <- deterministic_unit_normal_vector normal;
  Ok (C3 (F3 center (B3 u (cross3 normal u) normal)) radius).
(** l.1920-1969 from_3_points (Point3D.is_close default 1e-6) *)
Definition circle3_from_3_points (p1 p2 p3 : vec3) : res circle3 :=
  do u1 <- unit_vector3 (sub3 p2 p1);
  do u2 <- unit_vector3 (sub3 p2 p3);
  do normal <- unit_vector3 (cross3 u2 u1);
  do u2 <- (if is_close3 u1 u2 (/ 10 ^ 6) then unit_vector3 (cross3 normal u1) else Ok u2);
  let p11 := mul3 (add3 p1 p2) (1 / 2) in
  let p21 := mul3 (add3 p2 p3) (1 / 2) in
  let c := fst (get_minimum_distance_points_lines p11 (add3 p11 (cross3 normal u1)) p21 (add3 p21 (cross3 normal u2))) in
  Ok (C3 (F3 c (B3 u1 (cross3 normal u1) normal)) (norm3 (sub3 c p1))).
(** CircleMixin in 3D, l.1052-1098; l.2020-2026 reverse *)
Definition circle3_abscissa (c : circle3) (p : vec3) (tol : R) : res R :=
  if negb (isclose (point_distance3 (center3 c) p) (cr3 c) tol) then Err ValueError
  else
    do q <- frame3_g2l (cf3 c) p;
    if Reqb (cr3 c) 0 then Err ZeroDivisionError
    else Ok (cr3 c * Rabs (sin_cos_angle (x3 q / cr3 c) (y3 q / cr3 c))).
Definition circle3_point_at_abscissa (c : circle3) (s : R) : res vec3 :=
  let start := add3 (center3 c) (mul3 (bu (fb3 (cf3 c))) (cr3 c)) in
  if Reqb (cr3 c) 0 then Err ZeroDivisionError else Ok (rotation3 start (center3 c) (bw (fb3 (cf3 c))) (s / cr3 c)).
Definition circle3_discretization (c : circle3) (n : nat) : list vec3 :=
  map (fun t => add3 (add3 (center3 c) (mul3 (bu (fb3 (cf3 c))) (cr3 c * cos t))) (mul3 (bv (fb3 (cf3 c))) (cr3 c * sin t)))
    (linspace_2pi n).
Definition circle3_reverse (c : circle3) : circle3 :=
  let u := bu (fb3 (cf3 c)) in let v := neg3 (bv (fb3 (cf3 c))) in C3 (F3 (center3 c) (B3 u v (cross3 u v))) (cr3 c).
