(** Hyperbolas and parabolas: /repo/volmdlr/curves.py l.2827-3500.
    [x ** 2] of floats; the axes and the focal length are not 0. math.sqrt of a negative number raises ValueError (not met here: see the comments). *)
From Coq Require Import List Bool Arith ZArith Reals.
From Verif.Model Require Import Base RBase Vec Frame Geometry Plane Curves Ellipse.
Import ListNotations.
Open Scope R_scope.

Record hyperbola2 := H2 { hf : frame2; ha : R; hb : R }.
Record hyperbola3 := H3 { hf3 : frame3; ha3 : R; hb3 : R }.
Record parabola2 := Pa2 { pf : frame2; focal : R }.
Record parabola3 := Pa3 { pf3 : frame3; focal3 : R }.

(** l.2838-2843 HyperbolaMixin.__eq__; [frames]: self.frame == other.frame *)
Definition hyperbola_eq (frames : bool) (a1 b1 a2 b2 : R) : bool :=
  if negb frames then false else if negb (Reqb a1 a2) || negb (negb (Reqb b1 b2)) then false else true.
(** l.2869-2877 get_x *)
Definition hyp_x (a b y : R) : R := sqrt ((y ^ 2 / b ^ 2 + 1) * a ^ 2).
(** [not min_y and not max_y]: None, or 0 *)
Definition nothing (o : option R) : bool := match o with None => true | Some y => Reqb y 0 end.
(** numpy.linspace; with only one bound given it raises TypeError *)
Definition sample_range (lo hi : option R) (default : R) (n : nat) : res (list R) :=
  if nothing lo && nothing hi then Ok (linspace_n (- default * 5) (default * 5) n)
  else match lo, hi with Some a, Some b => Ok (linspace_n a b n) | _, _ => Err TypeError end.
(** l.2939-2956, 3090-3107 get_points *)
Definition hyperbola2_points (h : hyperbola2) (lo hi : option R) (n : nat) : res (list vec2) :=
  do ys <- sample_range lo hi (ha h) n; Ok (map (fun y => frame2_l2g (hf h) (V2 (hyp_x (ha h) (hb h) y) y)) ys).
Definition hyperbola3_points (h : hyperbola3) (lo hi : option R) (n : nat) : res (list vec3) :=
  do ys <- sample_range lo hi (ha3 h) n; Ok (map (fun y => frame3_l2g (hf3 h) (V3 (hyp_x (ha3 h) (hb3 h) y) y 0)) ys).
(** l.2958-2971 Hyperbola2D.point_belongs: the minor axis is to the power 1 *)
Definition hyperbola2_point_belongs (h : hyperbola2) (p : vec2) (tol : R) : res bool :=
  do q <- frame2_g2l (hf h) p; Ok (isclose (x2 q ^ 2 / ha h ^ 2 - y2 q ^ 2 / hb h ^ 1) 1 tol).
(** l.3128-3138 Hyperbola3D.point_belongs *)
Definition hyperbola3_point_belongs (h : hyperbola3) (p : vec3) (tol : R) : res bool :=
  do q <- frame3_g2l (hf3 h) p; Ok (isclose (x3 q ^ 2 / ha3 h ^ 2 - y3 q ^ 2 / hb3 h ^ 2) 1 tol).
(** l.2973-2981 get_dx_dy *)
Definition hyp_dx_dy (a b y : R) : R := a ^ 2 * y / (b ^ 2 * sqrt (a ^ 2 * y ^ 2 / b ^ 2 + a ^ 2)).
(** l.2983-3007 Hyperbola2D.tangent: get_dx_dy is given the point itself *)
Definition hyperbola2_tangent (h : hyperbola2) (p : vec2) : res vec2 :=
  do q <- frame2_g2l (hf h) p;
  let dx_dy := hyp_dx_dy (ha h) (hb h) (y2 p) in
  Ok (sub2 (frame2_l2g (hf h) (add2 q (V2 dx_dy 1))) p).
(** l.3009-3041 Hyperbola2D.line_intersections; for a vertical line, inf * None raises TypeError *)
Definition hyperbola2_line_intersections (h : hyperbola2) (l : vec2 * vec2) : res (list vec2) :=
  do p1 <- frame2_g2l (hf h) (fst l);
  do p2 <- frame2_g2l (hf h) (snd l);
  match get_slope (p1, p2), get_y_intersection (p1, p2) with
  | Some m, Some c =>
    let a_quad := ha h ^ 2 * m ^ 2 - hb h ^ 2 in
    let b_quad := 2 * ha h ^ 2 * m * c in
    let c_quad := ha h ^ 2 * (hb h ^ 2 + c ^ 2) in
    if Rltb (c ^ 2) (ha h ^ 2 * m ^ 2 - hb h ^ 2) then Ok []
    else if Reqb a_quad 0 then Ok []
    else
      do delta <- sqrt_py (b_quad ^ 2 - 4 * a_quad * c_quad);
      let x1 := (- b_quad + delta) / (2 * a_quad) in
      let x2 := (- b_quad - delta) / (2 * a_quad) in
      let y1 := m * x1 + c in
      let y2 := m * x2 + c in
      let found := (if Rltb 0 x1 then [V2 x1 y1] else []) ++ (if Rltb 0 x2 then [V2 x2 y2] else []) in
      Ok (map (frame2_l2g (hf h)) found)
  | _, _ => Err TypeError
  end.
(** l.3109-3126, 3419-3436 to_2d in the plane of the curve itself (self_2d, l.3083-3088, 3394-3399) *)
Definition own_frame2 (f : frame3) : res frame2 :=
  let u := bu (fb3 f) in let v := bv (fb3 f) in
  let o := to_2d (org3 f) (org3 f) u v in
  do x <- unit_vector2 (sub2 (to_2d (add3 (org3 f) u) (org3 f) u v) o);
  do y <- unit_vector2 (sub2 (to_2d (add3 (org3 f) v) (org3 f) u v) o);
  Ok (F2 o (B2 x y)).
(** l.3140-3153, 3438-3451 tangent; Point2D.to_3d rounds to 12 digits *)
Definition planar_tangent (f : frame3) (tangent : frame2 -> vec2 -> res vec2) (p : vec3) : res vec3 :=
  let u := bu (fb3 f) in let v := bv (fb3 f) in
  let p2 := to_2d p (org3 f) u v in
  do g <- own_frame2 f;
  do t <- tangent g p2;
  Ok (sub3 (point_to_3d (add2 p2 t) (org3 f) u v) p).
Definition hyperbola3_tangent (h : hyperbola3) (p : vec3) : res vec3 :=
  planar_tangent (hf3 h) (fun g q => hyperbola2_tangent (H2 g (ha3 h) (hb3 h)) q) p.

(** ** Parabola *)
(** l.3222-3230 get_y *)
Definition par_y (f x : R) : R := 1 / 2 * x ^ 2 / (2 * f).
(** vrtx_equation_a *)
Definition par_a (f : R) : R := 1 / (4 * f).
(** l.3272-3288, 3401-3417 get_points *)
Definition parabola2_points (p : parabola2) (lo hi : option R) (n : nat) : res (list vec2) :=
  do xs <- sample_range lo hi (focal p) n; Ok (map (fun x => frame2_l2g (pf p) (V2 x (par_y (focal p) x))) xs).
Definition parabola3_points (p : parabola3) (lo hi : option R) (n : nat) : res (list vec3) :=
  do xs <- sample_range lo hi (focal3 p) n; Ok (map (fun x => frame3_l2g (pf3 p) (V3 x (par_y (focal3 p) x) 0)) xs).
(** l.3290-3302, 3453-3462 point_belongs *)
Definition parabola2_point_belongs (p : parabola2) (q : vec2) (tol : R) : res bool :=
  do s <- frame2_g2l (pf p) q; Ok (isclose (y2 s) (par_a (focal p) * x2 s ^ 2) tol).
Definition parabola3_point_belongs (p : parabola3) (q : vec3) (tol : R) : res bool :=
  do s <- frame3_g2l (pf3 p) q; Ok (isclose (y3 s) (par_a (focal3 p) * x3 s ^ 2) tol).
(** l.3304-3327 line_intersections; the point of a tangent line is not mapped back. - 4 * a * None raises TypeError *)
Definition parabola2_line_intersections (p : parabola2) (l : vec2 * vec2) (tol : R) : res (list vec2) :=
  do p1 <- frame2_g2l (pf p) (fst l);
  do p2 <- frame2_g2l (pf p) (snd l);
  match get_slope (p1, p2), get_y_intersection (p1, p2) with
  | Some m, Some c =>
    let a := par_a (focal p) in
    if Rltb (- 4 * a * c) (m ^ 2) then
      do delta <- sqrt_py (m ^ 2 - 4 * a * (- c));
      let x1 := (m + delta) / (2 * a) in
      let x2 := (m - delta) / (2 * a) in
      Ok (map (frame2_l2g (pf p)) [V2 x1 (m * x1 + c); V2 x2 (m * x2 + c)])
    else if isclose (m ^ 2) (- 4 * a * c) tol then let x := m / (2 * a) in Ok [V2 x (m * x + c)]
    else Ok []
  | _, _ => Err TypeError
  end.
(** l.3329-3353 tangent *)
Definition parabola2_tangent (p : parabola2) (q : vec2) : res vec2 :=
  do s <- frame2_g2l (pf p) q;
  let dy_dx := 2 * par_a (focal p) * x2 s in
  Ok (sub2 (frame2_l2g (pf p) (add2 s (V2 1 dy_dx))) q).
Definition parabola3_tangent (p : parabola3) (q : vec3) : res vec3 :=
  planar_tangent (pf3 p) (fun g r => parabola2_tangent (Pa2 g (focal3 p)) r) q.
(** l.3232-3249 ParabolaMixin.trim, for a Parabola2D: the control points of the Bezier curve of degree 2 *)
Definition parabola2_trim (p : parabola2) (p1 p2 : vec2) : res (list vec2) :=
  do t1 <- parabola2_tangent p p1;
  do t2 <- parabola2_tangent p p2;
  do r <- line2_line_intersections (p1, add2 p1 t1) (p2, add2 p2 t2);
  match r with i :: _ => Ok [p1; i; p2] | [] => Err IndexError end.
