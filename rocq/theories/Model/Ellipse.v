(** Ellipses: /repo/volmdlr/curves.py l.2128-2165 (EllipseMixin), 2167-2519 (Ellipse2D), 2582-2735 (Ellipse3D) and
    /repo/volmdlr/utils/intersections.py l.119-190. abscissa and point_at_abscissa call numerical integrators and are not modelled. *)
From Coq Require Import List Bool Arith ZArith Reals.
From Verif.Model Require Import Base RBase Vec Frame BBox Geometry Curves.
Import ListNotations.
Open Scope R_scope.

Record ellipse2 := E2 { emaj : R; emin : R; ef : frame2 }.
Definition ecenter (e : ellipse2) : vec2 := org2 (ef e).
Definition major_dir (e : ellipse2) : vec2 := u2 (fb2 (ef e)).
Definition minor_dir (e : ellipse2) : vec2 := v2 (fb2 (ef e)).
(** l.2196-2198: theta *)
Definition ellipse2_theta (e : ellipse2) : R :=
  let theta := clockwise_angle (major_dir e) X2D in if Reqb theta TWO_PI then 0 else theta.
(** l.2189-2195: angle_start, angle_end and is_trigo; they are not set when the frame is not orthonormal *)
Definition ellipse2_angles (e : ellipse2) : res (R * R * bool) :=
  let c := cross2 (major_dir e) (minor_dir e) in
  if isclose c 1 (/ 10 ^ 6) then Ok (0, TWO_PI, true)
  else if isclose c (-1) (/ 10 ^ 6) then Ok (TWO_PI, 0, false) else Err AttributeError.
(** l.2150-2160 length *)
Definition ellipse2_length (e : ellipse2) : res R :=
  if Reqb ((emaj e + emin e) ^ 2) 0 then Err ZeroDivisionError
  else
    let h := (emaj e - emin e) ^ 2 / (emaj e + emin e) ^ 2 in
    do s <- sqrt_py (4 - 3 * h);
    Ok (PI * (emaj e + emin e) * (1 + 3 * h / (10 + s))).
(** l.2247-2260 get_bounding_rectangle *)
Definition ellipse2_rectangle (e : ellipse2) : rect :=
  let p1 := sub2 (ecenter e) (mul2 (major_dir e) (emaj e)) in
  let p2 := add2 (ecenter e) (mul2 (major_dir e) (emaj e)) in
  let p3 := sub2 (ecenter e) (mul2 (minor_dir e) (emin e)) in
  let p4 := add2 (ecenter e) (mul2 (minor_dir e) (emin e)) in
  let lo f := Rmin (f p1) (Rmin (f p2) (Rmin (f p3) (f p4))) in
  let hi f := Rmax (f p1) (Rmax (f p2) (Rmax (f p3) (f p4))) in
  Rect (lo x2) (hi x2) (lo y2) (hi y2).
(** l.2262-2268 area *)
Definition ellipse2_area (e : ellipse2) : R := PI * emaj e * emin e.
(** Python round(x, 3): half to even *)
Definition round3 (x : R) : R :=
  let n := Int_part (1000 * x) in
  let r := 1000 * x - IZR n in
  IZR (if Rltb r (1 / 2) then n else if Rltb (1 / 2) r then n + 1 else if Z.even n then n else n + 1) / 1000.
(** l.2292-2305 point_over_ellipse (the axes are not 0) *)
Definition point_over_ellipse (e : ellipse2) (p : vec2) (tol : R) : bool :=
  let t := ellipse2_theta e in
  let dx := x2 p - x2 (ecenter e) in let dy := y2 p - y2 (ecenter e) in
  isclose (round3 ((dx * cos t + dy * sin t) ^ 2 / emaj e ^ 2 + (dx * sin t - dy * cos t) ^ 2 / emin e ^ 2)) 1 tol.
(** l.2384-2397 discretization_points; numpy.linspace *)
Definition linspace_n (a b : R) (n : nat) : list R :=
  map (fun i => if (n =? 1)%nat then a else a + INR i * ((b - a) / INR (n - 1))) (seq 0 n).
Definition ellipse2_discretization (e : ellipse2) (n : nat) : res (list vec2) :=
  do s <- ellipse2_angles e;
  Ok (map (fun t => frame2_l2g (ef e) (V2 (emaj e * cos t) (emin e * sin t))) (linspace_n (fst (fst s)) (snd (fst s)) n)).
(** l.2453-2461 point_angle_with_major_dir *)
Definition point_angle_with_major_dir (e : ellipse2) (p : vec2) : res R :=
  do q <- frame2_g2l (ef e) p;
  if Reqb (emaj e) 0 || Reqb (emin e) 0 then Err ZeroDivisionError else Ok (sin_cos_angle (x2 q / emaj e) (y2 q / emin e)).
(** l.2476-2493 rotation; is_trigo is not set when the frame is not orthonormal *)
Definition ellipse2_rotation (e : ellipse2) (center : vec2) (angle : R) : res ellipse2 :=
  let rotated_center := rotation2 (ecenter e) center angle in
  let rotated_point := rotation2 (add2 (ecenter e) (mul2 (major_dir e) (emaj e))) center angle in
  do major <- unit_vector2 (sub2 rotated_point rotated_center);
  do s <- ellipse2_angles e;
  let minor := normal_vector2 major in
  Ok (E2 (emaj e) (emin e) (F2 rotated_center (B2 major (if snd s then minor else neg2 minor)))).
(** l.2495-2519 translation, frame_mapping, reverse *)
Definition ellipse2_translation (e : ellipse2) (o : vec2) : ellipse2 := E2 (emaj e) (emin e) (frame2_translation (ef e) o).
Definition ellipse2_mapping_new (e : ellipse2) (f : frame2) : res ellipse2 := do g <- frame2_mapping_new (ef e) f; Ok (E2 (emaj e) (emin e) g).
Definition ellipse2_mapping_old (e : ellipse2) (f : frame2) : ellipse2 := E2 (emaj e) (emin e) (frame2_mapping_old (ef e) f).
Definition ellipse2_reverse (e : ellipse2) : ellipse2 :=
  E2 (emaj e) (emin e) (F2 (ecenter e) (B2 (major_dir e) (neg2 (minor_dir e)))).

(** intersections.py l.119-135, the axes are not 0; math.sqrt raises ValueError *)
Definition ellipse_vertical_intersections (e : ellipse2) (l : vec2 * vec2) : res (list vec2) :=
  let x1 := x2 (fst l) in
  do s <- sqrt_py (1 - x1 ^ 2 / emaj e ^ 2);
  let y1 := emin e * s in
  Ok (if is_close2 (V2 x1 y1) (V2 x1 (- y1)) (/ 10 ^ 6) then [V2 x1 y1] else [V2 x1 y1; V2 x1 (- y1)]).
(** l.138-168 *)
Definition ellipse_local_intersections (e : ellipse2) (l : vec2 * vec2) (tol : R) : res (list vec2) :=
  if isclose (x2 (snd l)) (x2 (fst l)) tol then ellipse_vertical_intersections e l
  else
    match get_slope l, get_y_intersection l with
    | Some m, Some k =>
      let a := 1 / emaj e ^ 2 + m ^ 2 / emin e ^ 2 in
      let b := 2 * m * k / emin e ^ 2 in
      let c := k ^ 2 / emin e ^ 2 - 1 in
      if Rltb (4 * a * c) (b ^ 2) then
        do s <- sqrt_py (b ^ 2 - 4 * a * c);
        let p := V2 ((- b + s) / (2 * a)) (m * ((- b + s) / (2 * a)) + k) in
        let q := V2 ((- b - s) / (2 * a)) (m * ((- b - s) / (2 * a)) + k) in
        Ok (if is_close2 p q tol then [p] else [p; q])
      else Ok []
    | _, _ => Err TypeError
    end.
(** l.171-190 ellipse2d_line_intersections *)
Definition ellipse_is_local (e : ellipse2) : bool :=
  let theta := clockwise_angle (major_dir e) X2D in
  (isclose theta 0 (/ 10 ^ 6) || isclose theta (2 * PI) (/ 10 ^ 6)) && is_close2 (ecenter e) O2D (/ 10 ^ 6).
Definition ellipse2_line_intersections (e : ellipse2) (l : vec2 * vec2) (tol : R) : res (list vec2) :=
  if Reqb (emaj e) 0 || Reqb (emin e) 0 then Err ZeroDivisionError
  else
    do d <- line2_point_distance l (ecenter e);
    if Rltb (emaj e + tol) d then Ok []
    else if negb (ellipse_is_local e) then
      do e' <- ellipse2_mapping_new e (ef e);
      do p <- frame2_g2l (ef e) (fst l);
      do q <- frame2_g2l (ef e) (snd l);
      do r <- ellipse_local_intersections e' (p, q) (/ 10 ^ 6);
      Ok (map (frame2_l2g (ef e)) r)
    else ellipse_local_intersections e l (/ 10 ^ 6).

(** Ellipse3D: l.2602-2623 _bounding_box and point_belongs, 2625-2644 discretization_points (global_to_local_coordinates is frame3_g2l) *)
Record ellipse3 := E3 { emaj3 : R; emin3 : R; ef3 : frame3 }.
Definition ellipse3_bounding_box (e : ellipse3) : res bbox :=
  let o := org3 (ef3 e) in let b := fb3 (ef3 e) in
  bbox_from_points [add3 o (mul3 (bu b) (emaj3 e)); sub3 o (mul3 (bu b) (emaj3 e)); add3 o (mul3 (bv b) (emin3 e)); sub3 o (mul3 (bv b) (emin3 e))].
Definition ellipse3_point_belongs (e : ellipse3) (p : vec3) (tol : R) : res bool :=
  do q <- frame3_g2l (ef3 e) p;
  if Reqb (emaj3 e) 0 || Reqb (emin3 e) 0 then Err ZeroDivisionError
  else Ok (isclose (x3 q ^ 2 / emaj3 e ^ 2 + y3 q ^ 2 / emin3 e ^ 2) 1 tol).
Definition ellipse3_discretization (e : ellipse3) (n : nat) : list vec3 :=
  map (fun t => add3 (add3 (org3 (ef3 e)) (mul3 (bu (fb3 (ef3 e))) (emaj3 e * cos t))) (mul3 (bv (fb3 (ef3 e))) (emin3 e * sin t))) (linspace_n 0 TWO_PI n).
Definition ellipse3_translation (e : ellipse3) (o : vec3) : ellipse3 := E3 (emaj3 e) (emin3 e) (frame3_translation (ef3 e) o).
Definition ellipse3_rotation (e : ellipse3) (center axis : vec3) (angle : R) : ellipse3 := E3 (emaj3 e) (emin3 e) (frame3_rotation (ef3 e) center axis angle).
Definition ellipse3_mapping_old (e : ellipse3) (f : frame3) : ellipse3 := E3 (emaj3 e) (emin3 e) (frame3_mapping_old (ef3 e) f).
