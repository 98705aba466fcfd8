(** Intersections of circles and ellipses of space with lines: /repo/volmdlr/utils/intersections.py l.15-116, and
    /repo/volmdlr/curves.py l.2060-2081 (Circle3D.point_distance), l.1740-1753 (linesegment_intersections calls the line), 2655-2680 (Ellipse3D.to_2d).
    A line is its two points; Line3D.to_2d (l.981-993) and Line3D.frame_mapping act on them. *)
From Coq Require Import List Bool Arith ZArith Reals.
From Verif.Model Require Import Base RBase Vec Frame BBox Geometry Plane Curves Ellipse.
Import ListNotations.
Open Scope R_scope.

(** l.15-48 get_planar_circle3d_line_intersections; quadratic_equation_a is not 0 as it is the square of a unit vector *)
Definition planar_circle3_line (c : circle3) (l : vec3 * vec3) (tol : R) : res (list vec3) :=
  let near := is_close3 (fst l) (center3 c) (/ 10 ^ 6) in
  let p := if near then snd l else fst l in
  do vec <- unit_vector3 (if near then sub3 (fst l) (snd l) else sub3 (snd l) (fst l));
  let a := dot3 vec vec in
  let b := 2 * dot3 vec (sub3 p (center3 c)) in
  let k := dot3 p p + dot3 (center3 c) (center3 c) - 2 * dot3 p (center3 c) - cr3 c ^ 2 in
  let delta := b ^ 2 - 4 * a * k in
  if Rltb delta 0 then Ok []
  else if isclose delta 0 tol then Ok [add3 p (mul3 vec (- b / (2 * a)))]
  else Ok [add3 p (mul3 vec ((- b + sqrt delta) / (2 * a))); add3 p (mul3 vec ((- b - sqrt delta) / (2 * a)))].
(** Line3D.frame_mapping, side = "new" *)
Definition line3_mapping_new (l : vec3 * vec3) (f : frame3) : res (vec3 * vec3) :=
  do p <- frame3_g2l f (fst l); do q <- frame3_g2l f (snd l); Ok (p, q).
Definition horizontal (f : frame3) (tol : R) : bool := isclose (Rabs (dot3 (bw (fb3 f)) Z3D)) 1 tol.
(** l.51-90 circle_3d_line_intersections; [fuel] bounds the depth of the recursive call, made in the frame of the circle, where w is Z3D *)
Fixpoint circle3_line_loop (fuel : nat) (c : circle3) (l : vec3 * vec3) (tol : R) : res (list vec3) :=
  match fuel with
  | O => Err OutOfFuel
  | S fuel =>
    if negb (horizontal (cf3 c) tol) then
      do g <- frame3_mapping_new (cf3 c) (cf3 c);
      do l' <- line3_mapping_new l (cf3 c);
      do r <- circle3_line_loop fuel (C3 g (cr3 c)) l' (/ 10 ^ 6);
      Ok (map (frame3_l2g (cf3 c)) r)
    else
      do d <- line3_point_distance l (center3 c);
      if Rltb (cr3 c) d then Ok []
      else if isclose (z3 (fst l)) (z3 (snd l)) (/ 10 ^ 6) && isclose (z3 (snd l)) (z3 (center3 c)) tol
      then planar_circle3_line c l (/ 10 ^ 7)
      else if Reqb (z3 (dir3 l)) 0 then Err ZeroDivisionError
      else
        let k := (z3 (center3 c) - z3 (fst l)) / z3 (dir3 l) in
        let x := k * x3 (dir3 l) + x3 (fst l) in
        let y := k * y3 (dir3 l) + y3 (fst l) in
        if isclose ((x - x3 (center3 c)) ^ 2 + (y - y3 (center3 c)) ^ 2) (cr3 c ^ 2) (/ 10 ^ 6) then Ok [V3 x y (z3 (center3 c))] else Ok []
  end.
Definition circle3_line_intersections (c : circle3) (l : vec3 * vec3) (tol : R) : res (list vec3) := circle3_line_loop 2 c l tol.

(** curves.py l.2060-2081 Circle3D.point_distance: point_to_3d rounds to 12 digits *)
Definition circle3_point_distance (c : circle3) (p : vec3) : res R :=
  let b := fb3 (cf3 c) in
  let q := point_to_3d (to_2d p (center3 c) (bu b) (bv b)) (center3 c) (bu b) (bv b) in
  do r <- circle3_line_intersections c (center3 c, q) (/ 10 ^ 6);
  match r with
  | r1 :: r2 :: _ => let d1 := point_distance3 r1 p in let d2 := point_distance3 r2 p in Ok (if Rltb d2 d1 then d2 else d1)
  | _ => Err IndexError
  end.

(** curves.py l.2660-2680 to_2d and l.2581-2588 self_2d *)
Definition ellipse3_to_2d (e : ellipse3) (o x y : vec3) : res ellipse2 :=
  let center := to_2d (org3 (ef3 e)) o x y in
  do u <- unit_vector2 (sub2 (to_2d (add3 (org3 (ef3 e)) (mul3 (bu (fb3 (ef3 e))) (emaj3 e))) o x y) center);
  do v <- unit_vector2 (sub2 (to_2d (add3 (org3 (ef3 e)) (mul3 (bv (fb3 (ef3 e))) (emin3 e))) o x y) center);
  Ok (E2 (emaj3 e) (emin3 e) (F2 center (B2 u v))).
Definition ellipse3_self_2d (e : ellipse3) : res ellipse2 := ellipse3_to_2d e (org3 (ef3 e)) (bu (fb3 (ef3 e))) (bv (fb3 (ef3 e))).
(** l.93-116 conic3d_line_intersections, for an ellipse; a line orthogonal to the plane gives no 2D line: AttributeError *)
Fixpoint ellipse3_line_loop (fuel : nat) (e : ellipse3) (l : vec3 * vec3) (tol : R) : res (list vec3) :=
  match fuel with
  | O => Err OutOfFuel
  | S fuel =>
    let f := ef3 e in
    if negb (horizontal f tol) then
      do g <- frame3_mapping_new f f;
      do l' <- line3_mapping_new l f;
      do r <- ellipse3_line_loop fuel (E3 (emaj3 e) (emin3 e) g) l' tol;
      Ok (map (frame3_l2g f) r)
    else if Rleb (Rabs (z3 (fst l) - z3 (snd l))) tol && Rleb (Rabs (z3 (fst l) - z3 (org3 f))) tol then
      do e2 <- ellipse3_self_2d e;
      let p := to_2d (fst l) (org3 f) (bu (fb3 f)) (bv (fb3 f)) in
      let q := to_2d (snd l) (org3 f) (bu (fb3 f)) (bv (fb3 f)) in
      if Reqb (x2 p) (x2 q) && Reqb (y2 p) (y2 q) then Err AttributeError
      else
        do r <- ellipse2_line_intersections e2 (p, q) (/ 10 ^ 6);
        Ok (map (fun i => V3 (x2 i) (y2 i) (z3 (org3 f))) r)
    else
      match plane_line_intersections f l (/ 10 ^ 6) with
      | [] => Ok []
      | p :: rest => do b <- ellipse3_point_belongs e p tol; Ok (if b then p :: rest else [])
      end
  end.
Definition ellipse3_line_intersections (e : ellipse3) (l : vec3 * vec3) (tol : R) : res (list vec3) := ellipse3_line_loop 2 e l tol.
