(** Arcs of circles of the plane: /repo/volmdlr/edges.py l.2612-2856 (ArcMixin), l.2902-3422 (Arc2D), l.3425-3617
    (FullArc2D), and the circle / segment and circle / arc intersections of /repo/volmdlr/curves.py l.1434-1481.
    An arc is its circle, its two points and the two angles computed by the constructor; names, caches (_length,
    _angle, _reverse, _middle_point, _bounding_rectangle) and deep copies are left out: they hold the values computed here. *)
From Verif.Model Require Import Base RBase Vec Frame BBox Geometry Curves Edges.
From Coq Require Import List.
Import ListNotations.
Open Scope R_scope.

Record arc2 := A2 { ac : circle2; ast : vec2; aen : vec2; ang1 : R; ang2 : R }.
(** curves.py l.1160-1169 Circle2D.is_trigo *)
Definition circle2_is_trigo (c : circle2) : bool := Rltb 0 (cross2 (u2 (fb2 (cf2 c))) (v2 (fb2 (cf2 c)))).
(** edges.py l.2661-2666 _arc_point_angle; l.2675-2681 get_start_end_angles; l.2626-2633, l.2909-2913 constructors *)
Definition arc_point_angle (c : circle2) (p : vec2) : res R :=
  do l <- frame2_g2l (cf2 c) p;
  if Reqb (cr2 c) 0 then Err ZeroDivisionError else Ok (sin_cos_angle (x2 l / cr2 c) (y2 l / cr2 c)).
Definition arc2_new (c : circle2) (start stop : vec2) : res arc2 :=
  do start_angle <- arc_point_angle c start;
  do end_angle <- arc_point_angle c stop;
  Ok (A2 c start stop start_angle (if Rleb end_angle start_angle then end_angle + TWO_PI else end_angle)).
Definition arc2_is_trigo (a : arc2) : bool := circle2_is_trigo (ac a).
(** l.2645-2653 angle; l.2683-2691 length; l.2668-2673 get_arc_point_angle *)
Definition arc2_angle (a : arc2) : R := ang2 a - ang1 a.
Definition arc2_length (a : arc2) : R := cr2 (ac a) * Rabs (arc2_angle a).
Definition get_arc_point_angle (a : arc2) (p : vec2) : res R :=
  do t <- arc_point_angle (ac a) p; Ok (if Rltb t (ang1 a) then t + TWO_PI else t).
(** l.2693-2702 point_at_abscissa; Edge.middle_point l.121-130 *)
Definition arc2_at (a : arc2) (abscissa : R) : res vec2 :=
  if Reqb (cr2 (ac a)) 0 then Err ZeroDivisionError
  else Ok (rotation2 (ast a) (center2 (ac a)) (if arc2_is_trigo a then abscissa / cr2 (ac a) else - abscissa / cr2 (ac a))).
Definition arc2_middle (a : arc2) : res vec2 := arc2_at a (arc2_length a / 2).
(** l.2704-2715 normal_vector; l.2717-2725 direction_vector *)
Definition arc2_normal_vector (a : arc2) (abscissa : R) : res vec2 :=
  do p <- arc2_at a abscissa; Ok (sub2 (center2 (ac a)) p).
Definition arc2_direction_vector (a : arc2) (abscissa : R) : res vec2 :=
  do n <- arc2_normal_vector a abscissa; Ok (neg2 (normal_vector2 n)).
(** l.2747-2765 discretization_points. math.ceil(x) is the opposite of the floor of -x. *)
Definition arc2_number_points (a : arc2) (number_points angle_resolution : option Z) : Z :=
  let by_angle := match angle_resolution with
                  | None => 2%Z
                  | Some r => if (r =? 0)%Z then 2%Z else Z.max (- rfloor (- (arc2_angle a * IZR r)) + 1) 2
                  end in
  match number_points with None => by_angle | Some n => if (n =? 0)%Z then by_angle else n end.
Definition arc2_discretization (a : arc2) (number_points angle_resolution : option Z) : res (list vec2) :=
  let n := arc2_number_points a number_points angle_resolution in
  if (n =? 1)%Z then Err ZeroDivisionError
  else mapM (fun i => arc2_at a (INR i * (arc2_length a / IZR (n - 1)))) (seq 0 (Z.to_nat n)).
(** l.2797-2804 get_reverse; l.3413-3415 complementary; l.2806-2822 split *)
Definition arc2_reverse (a : arc2) : res arc2 := arc2_new (circle2_reverse (ac a)) (aen a) (ast a).
Definition arc2_complementary (a : arc2) : res arc2 := arc2_new (ac a) (aen a) (ast a).
Definition arc2_split (a : arc2) (p : vec2) (tol : R) : res (option arc2 * option arc2) :=
  if is_close2 p (ast a) tol then Ok (None, Some a)
  else if is_close2 p (aen a) tol then Ok (Some a, None)
  else do b <- arc2_new (ac a) (ast a) p; do c <- arc2_new (ac a) p (aen a); Ok (Some b, Some c).
(** l.2958-2977 point_belongs. math.isclose with a relative tolerance only. *)
Definition isclose_rel (a b t : R) : bool := Rleb (Rabs (a - b)) (t * Rmax (Rabs a) (Rabs b)).
Definition arc2_clockwise (a : arc2) : res arc2 := if arc2_is_trigo a then arc2_reverse a else Ok a.
Definition arc2_point_belongs (a : arc2) (p : vec2) (tol : R) : res bool :=
  if negb (isclose_rel (point_distance2 p (center2 (ac a))) (cr2 (ac a)) (5 / 1000)) then Ok false
  else if is_close2 p (ast a) tol || is_close2 p (aen a) tol then Ok true
  else
    do b <- arc2_clockwise a;
    let vector_start := sub2 (ast b) (center2 (ac b)) in
    let vector_end := sub2 (aen b) (center2 (ac b)) in
    let vector_point := sub2 p (center2 (ac b)) in
    let arc_angle := clockwise_angle vector_start vector_end in
    let point_start_angle := clockwise_angle vector_start vector_point in
    let point_end_angle := clockwise_angle vector_point vector_end in
    Ok (isclose_rel arc_angle (point_start_angle + point_end_angle) (1 / 100)).
(** l.3048-3070 abscissa *)
Definition arc2_abscissa (a : arc2) (p : vec2) (tol : R) : res R :=
  if negb (isclose (point_distance2 p (center2 (ac a))) (cr2 (ac a)) tol) then Err ValueError
  else if Rltb (point_distance2 p (ast a)) tol then Ok 0
  else if Rltb (point_distance2 p (aen a)) tol then Ok (arc2_length a)
  else
    do b <- arc2_clockwise a;
    let vector_start := sub2 (ast b) (center2 (ac b)) in
    let vector_end := sub2 (aen b) (center2 (ac b)) in
    let vector_point := sub2 p (center2 (ac b)) in
    let arc_angle := clockwise_angle vector_start vector_end in
    let point_start_angle := clockwise_angle vector_start vector_point in
    let point_end_angle := clockwise_angle vector_point vector_end in
    if isclose arc_angle (point_start_angle + point_end_angle) tol then
      Ok (if arc2_is_trigo a then arc2_length a - cr2 (ac a) * point_start_angle else cr2 (ac a) * point_start_angle)
    else Err ValueError.
(** l.2935-2946 from_3_points *)
Definition arc2_from_3_points (p1 p2 p3 : vec2) : res arc2 :=
  do c <- circle2_from_3_points p1 p2 p3 true;
  do a <- arc2_new c p1 p3;
  do b <- arc2_point_belongs a p2 (/ 10 ^ 6);
  if b then Ok a else arc2_new (circle2_reverse c) p1 p3.

(** l.3072-3078 area; l.3080-3089 center_of_mass; l.3104-3120 straight_line_area *)
Definition arc2_area (a : arc2) : R := cr2 (ac a) ^ 2 * arc2_angle a / 2.
Definition arc2_center_of_mass (a : arc2) : res vec2 :=
  do m <- arc2_middle a;
  do u <- unit_vector2 (sub2 m (center2 (ac a)));
  if Reqb (3 * arc2_angle a) 0 then Err ZeroDivisionError
  else Ok (add2 (center2 (ac a)) (mul2 u (4 / (3 * arc2_angle a) * cr2 (ac a) * sin (arc2_angle a * (1 / 2))))).
Definition arc2_straight_line_area (a : arc2) : R :=
  let r := cr2 (ac a) in
  let area := if Rleb PI (arc2_angle a) then
                let angle := TWO_PI - arc2_angle a in PI * r ^ 2 - 1 / 2 * r ^ 2 * (angle - sin angle)
              else let angle := arc2_angle a in 1 / 2 * r ^ 2 * (angle - sin angle) in
  if arc2_is_trigo a then area else - area.
(** l.3330-3350 second_moment_area (the constructor never leaves angle_end < angle_start, the test is kept) *)
Definition arc2_sector_moments (a : arc2) : R * R * R :=
  let angle2 := if Rltb (ang2 a) (ang1 a) then ang2 a + TWO_PI else ang2 a in
  let angle1 := ang1 a in
  let r := cr2 (ac a) in
  (r ^ 4 / 8 * (angle2 - angle1 + 1 / 2 * (sin (2 * angle1) - sin (2 * angle2))),
   r ^ 4 / 8 * (angle2 - angle1 + 1 / 2 * (sin (2 * angle2) - sin (2 * angle1))),
   r ^ 4 / 8 * (cos angle1 ^ 2 - cos angle2 ^ 2)).
Definition arc2_second_moment_area (a : arc2) (p : vec2) : R * R * R :=
  let '(ix, iy, ixy) := arc2_sector_moments a in
  huygens2d ix iy ixy (arc2_area a) (center2 (ac a)) p.
(** l.3176-3183 _triangle_moment_inertia; l.3122-3165 straight_line_second_moment_area *)
Definition arc2_triangle_moments (a : arc2) : R * R * R :=
  let i := sub2 (ast a) (center2 (ac a)) in let j := sub2 (aen a) (center2 (ac a)) in
  let xi := x2 i in let yi := y2 i in let xj := x2 j in let yj := y2 j in
  ((yi ^ 2 + yi * yj + yj ^ 2) * (xi * yj - xj * yi) / 12,
   (xi ^ 2 + xi * xj + xj ^ 2) * (xi * yj - xj * yi) / 12,
   (xi * yj + 2 * xi * yi + 2 * xj * yj + xj * yi) * (xi * yj - xj * yi) / 24).
Definition arc2_straight_line_second_moment_area (a : arc2) (p : vec2) : R * R * R :=
  let '(x1, y1, xy1) := arc2_sector_moments a in
  let '(x2', y2', xy2') := arc2_triangle_moments a in
  let '(x2, y2, xy2) := if Rltb x2' 0 then (- x2', - y2', - xy2') else (x2', y2', xy2') in
  let '(mx, my, mxy) :=
    if Rltb (arc2_angle a) PI then
      if arc2_is_trigo a then (x1 - x2, y1 - y2, xy1 - xy2) else (x2 - x1, y2 - y1, xy2 - xy1)
    else
      if arc2_is_trigo a then (x1 + x2, y1 + y2, xy1 + xy2) else (- x2 - x1, - y2 - y1, - xy2 - xy1) in
  huygens2d mx my mxy (arc2_straight_line_area a) (center2 (ac a)) p.
(** l.3185-3210 straight_line_center_of_mass; a None of line_intersection raises AttributeError *)
Definition arc2_straight_line_center_of_mass (a : arc2) : res vec2 :=
  if Reqb (arc2_angle a) PI then arc2_center_of_mass a
  else
    let c := center2 (ac a) in
    do m <- arc2_middle a;
    do u0 <- unit_vector2 (sub2 m c);
    let u := if Rleb PI (arc2_angle a) then neg2 u0 else u0 in
    match line_intersection (c, add2 c u) (ast a, aen a) with
    | None => Err AttributeError
    | Some (point, _, _) =>
      let height := point_distance2 point c in
      let triangle_area := height * point_distance2 point (ast a) in
      let triangle_cog := add2 c (mul2 u (2 / 3 * height)) in
      do g <- arc2_center_of_mass a;
      let sector := mul2 g (arc2_area a) in
      let triangle := mul2 triangle_cog triangle_area in
      div2 (if Rltb (arc2_angle a) PI then sub2 sector triangle else add2 sector triangle) (Rabs (arc2_straight_line_area a))
    end.
(** l.3091-3102 bounding_rectangle: bounds of 20 points of the arc *)
Definition arc2_bounding_rectangle (a : arc2) : res rect :=
  do pts <- arc2_discretization a (Some 20%Z) (Some 20%Z);
  match pts with
  | [] => Err ValueError
  | p :: l => Ok (Rect (fold_left Rmin (map x2 l) (x2 p)) (fold_left Rmax (map x2 l) (x2 p))
                       (fold_left Rmin (map y2 l) (y2 p)) (fold_left Rmax (map y2 l) (y2 p)))
  end.

(** for p in points: if test(p): keep p *)
Fixpoint filterM {A} (f : A -> res bool) (l : list A) : res (list A) :=
  match l with [] => Ok [] | a :: l => do b <- f a; do r <- filterM f l; Ok (if b then a :: r else r) end.
(** l.2985-2998 line_intersections (to_full_arc_2d keeps the circle); curves.py l.1434-1449
    Circle2D.linesegment_intersections; edges.py l.3000-3016 linesegment_intersections *)
Definition arc2_line_intersections (a : arc2) (l : vec2 * vec2) : res (list vec2) :=
  do i <- circle2_line_intersections 1 (ac a) l (/ 10 ^ 9);
  filterM (fun p => arc2_point_belongs a p (/ 10 ^ 6)) i.
Definition circle2_linesegment_intersections (c : circle2) (s : sg2) (tol : R) : res (list vec2) :=
  if Rltb tol (rect_distance (circle2_rectangle c) (sg2_rectangle s)) then Ok []
  else do i <- circle2_line_intersections 1 c s tol; filterM (fun p => sg2_point_belongs s p (/ 10 ^ 6)) i.
Definition arc2_linesegment_intersections (a : arc2) (s : sg2) (tol : R) : res (list vec2) :=
  do r <- arc2_bounding_rectangle a;
  if Rltb tol (rect_distance r (sg2_rectangle s)) then Ok []
  else do i <- circle2_linesegment_intersections (ac a) s tol; filterM (fun p => arc2_point_belongs a p tol) i.
(** l.3029-3033 arc_intersections; curves.py l.1467-1481 Circle2D.arc_intersections *)
Definition arc2_arc_intersections (a b : arc2) (tol : R) : res (list vec2) :=
  do i <- get_circle_intersections (ac a) (ac b); filterM (fun p => arc2_point_belongs a p tol) i.
Definition circle2_arc_intersections (c : circle2) (a : arc2) (tol : R) : res (list vec2) :=
  do i <- circle2_circle_intersections c (ac a); filterM (fun p => arc2_point_belongs a p tol) i.
(** l.2727-2745 point_distance *)
Definition arc2_point_distance (a : arc2) (p : vec2) : res R :=
  let c := center2 (ac a) in let r := cr2 (ac a) in
  do b <- arc2_point_belongs a p (/ 10 ^ 6);
  if b then Ok 0
  else if is_close2 c p (/ 10 ^ 6) then Ok r
  else
    do s <- segment2 c p;
    let ends := Rmin (point_distance2 (ast a) p) (point_distance2 (aen a) p) in
    if Rltb r (sg2_length s) then
      do i <- arc2_linesegment_intersections a s (/ 10 ^ 6);
      match i with _ :: _ => Ok (sg2_length s - r) | [] => Ok ends end
    else
      do u <- unit_vector2 (sub2 p c);
      do b <- arc2_point_belongs a (add2 c (mul2 u r)) (/ 10 ^ 6);
      Ok (if b then r - sg2_length s else ends).
(** l.3212-3232 straight_line_point_belongs *)
Definition arc2_straight_line_point_belongs (a : arc2) (p : vec2) : res bool :=
  let c := center2 (ac a) in
  do b <- arc2_point_belongs a p (/ 10 ^ 6);
  if b then Ok true
  else if eqb2 (ast a) (aen a) && Rleb (point_distance2 p c) (cr2 (ac a)) then Ok true
  else
    let d := point_distance2 c p in
    do s <- segment2 (ast a) (aen a);
    do i <- arc2_line_intersections a (c, p);
    let further l := match l with [] => false | q :: _ => Rltb d (point_distance2 c q) end in
    if further i then Ok true else do j <- sg2_line_intersections s (c, p); Ok (further j).
(** l.3288-3315 rotation, translation; l.3394-3411 infinite_primitive; l.3417-3422 axial_symmetry *)
Definition arc2_rotation (a : arc2) (c : vec2) (angle : R) : res arc2 :=
  arc2_new (circle2_rotation (ac a) c angle) (rotation2 (ast a) c angle) (rotation2 (aen a) c angle).
Definition arc2_translation (a : arc2) (o : vec2) : res arc2 :=
  arc2_new (circle2_translation (ac a) o) (translation2 (ast a) o) (translation2 (aen a) o).
Definition arc2_infinite_primitive (a : arc2) (offset : R) : res (option arc2) :=
  let c := center2 (ac a) in
  do vs <- unit_vector2 (sub2 (ast a) c);
  do ve <- unit_vector2 (sub2 (aen a) c);
  let radius := if arc2_is_trigo a then cr2 (ac a) + offset else cr2 (ac a) - offset in
  if negb (arc2_is_trigo a) && Rltb radius 0 then Ok None
  else do b <- arc2_new (C2 (cf2 (ac a)) radius) (add2 c (mul2 vs radius)) (add2 c (mul2 ve radius)); Ok (Some b).
Definition arc2_axial_symmetry (a : arc2) (l : vec2 * vec2) : res arc2 :=
  do s <- axial_symmetry2 (ast a) l; do e <- axial_symmetry2 (aen a) l; arc2_new (ac a) s e.
