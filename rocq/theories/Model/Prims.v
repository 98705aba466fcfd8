(** Primitives of space: /repo/volmdlr/primitives3d.py Block, Cylinder, Cone, HollowCylinder, Sphere, and core.py l.724-735 BoundingBox.to_frame.
    Colours, names, the shells built from the faces and their triangulation are not modelled; a face of a block is the list of the corners of its contour.
    random.uniform and the scipy LatinHypercube sampler are parameters (the numbers they return). *)
From Coq Require Import List Bool Arith ZArith Reals.
From Verif.Model Require Import Base Mesh RBase Vec Frame BBox Geometry.
Import ListNotations.
Open Scope R_scope.

(** ** Block l.152-460 *)
Record block := Block { bframe : frame3 }.
Definition half (u : vec3) : vec3 := mul3 u (1 / 2).
Definition norms (f : frame3) : R * R * R := (norm3 (bu (fb3 f)), norm3 (bv (fb3 f)), norm3 (bw (fb3 f))).
(** core_compiled.pyx l.3401-3408 Frame3D.normalize *)
Definition frame3_normalize (f : frame3) : res frame3 :=
  do u <- unit_vector3 (bu (fb3 f)); do v <- unit_vector3 (bv (fb3 f)); do w <- unit_vector3 (bw (fb3 f)); Ok (F3 (org3 f) (B3 u v w)).
(** faces.py l.2110-2122 PlaneFace3D.from_surface_rectangular_cut: the corners of the contour, in space (Plane3D.point2d_to_3d) *)
Definition rectangular_cut (f : frame3) (x1 x2 y1 y2 : R) : list vec3 :=
  map (fun p => to_3d p (org3 f) (bu (fb3 f)) (bv (fb3 f))) [V2 x1 y1; V2 x2 y1; V2 x2 y2; V2 x1 y2].
(** l.280-301 shell_faces *)
Definition shell_faces (b : block) : res (list (list vec3)) :=
  let s := bframe b in
  let u := bu (fb3 s) in let v := bv (fb3 s) in let w := bw (fb3 s) in
  let hlx := 1 / 2 * norm3 u in
  let hly := 1 / 2 * norm3 v in
  let hlz := 1 / 2 * norm3 w in
  do f <- frame3_normalize s;
  let nu := bu (fb3 f) in let nv := bv (fb3 f) in let nw := bw (fb3 f) in
  let xm := F3 (sub3 (org3 f) (half u)) (B3 nv nw nu) in
  let xp := F3 (add3 (org3 f) (half u)) (B3 nv nw nu) in
  let ym := F3 (sub3 (org3 f) (half v)) (B3 nw nu nv) in
  let yp := F3 (add3 (org3 f) (half v)) (B3 nw nu nv) in
  let zm := F3 (sub3 (org3 f) (half w)) (B3 nu nv nw) in
  let zp := F3 (add3 (org3 f) (half w)) (B3 nu nv nw) in
  Ok [rectangular_cut xm (- hly) hly (- hlz) hlz; rectangular_cut xp (- hly) hly (- hlz) hlz;
      rectangular_cut ym (- hlz) hlz (- hlx) hlx; rectangular_cut yp (- hlz) hlz (- hlx) hlx;
      rectangular_cut zm (- hlx) hlx (- hly) hly; rectangular_cut zp (- hlx) hlx (- hly) hly].
(** l.165-178 __init__: the faces are computed by the constructor *)
Definition new_block (f : frame3) : res block := do fs <- shell_faces (Block f); Ok (Block f).
(** l.202-204 volume *)
Definition block_volume (b : block) : R := let '(x, y, z) := norms (bframe b) in x * y * z.
(** core.py l.724-735 BoundingBox.to_frame; primitives3d.py l.206-219 from_bounding_box *)
Definition bbox_to_frame (b : bbox) : frame3 :=
  F3 (bbox_center b) (B3 (V3 (xmax b - xmin b) 0 0) (V3 0 (ymax b - ymin b) 0) (V3 0 0 (zmax b - zmin b))).
Definition block_from_bbox (b : bbox) : res block := new_block (bbox_to_frame b).
(** l.221-233 get_bounding_box *)
Definition block_bbox (b : block) : res bbox :=
  let f := bframe b in
  let d := V3 (x3 (bu (fb3 f)) / 2) (y3 (bv (fb3 f)) / 2) (z3 (bw (fb3 f)) / 2) in
  bbox_from_points [sub3 (org3 f) d; add3 (org3 f) d].
(** l.235-244 vertices *)
Definition block_vertices (b : block) : list vec3 :=
  let o := org3 (bframe b) in
  let u := half (bu (fb3 (bframe b))) in let v := half (bv (fb3 (bframe b))) in let w := half (bw (fb3 (bframe b))) in
  [sub3 (sub3 (sub3 o u) v) w; sub3 (add3 (sub3 o u) v) w; sub3 (add3 (add3 o u) v) w; sub3 (sub3 (add3 o u) v) w;
   add3 (sub3 (sub3 o u) v) w; add3 (add3 (sub3 o u) v) w; add3 (add3 (add3 o u) v) w; add3 (sub3 (add3 o u) v) w].
(** l.246-260 edges *)
Definition block_edges (b : block) : list (vec3 * vec3) :=
  match block_vertices b with
  | [p1; p2; p3; p4; p5; p6; p7; p8] =>
    [(p1, p2); (p2, p3); (p3, p4); (p4, p1); (p5, p6); (p6, p7); (p7, p8); (p8, p5); (p1, p5); (p2, p6); (p3, p7); (p4, p8)]
  | _ => []
  end.
(** [l[i]] of a Python list, i >= 0 *)
Definition item {A} (l : list A) (i : nat) : res A := match nth_error l i with Some x => Ok x | None => Err IndexError end.
(** l.262-278 face_contours3d *)
Definition side_contour (e s : list (vec3 * vec3)) (a b c d : nat) : res (list (vec3 * vec3)) :=
  do w <- item e a; do x <- item e b; do y <- item s c; do z <- item s d; Ok [w; x; y; z].
Definition face_contours3d (b : block) : res (list (list (vec3 * vec3))) :=
  let e := block_edges b in
  let s := map (fun pq => (snd pq, fst pq)) (skipn 4 e) in
  do c1 <- side_contour e s 0 9 0 4; do c2 <- side_contour e s 1 10 1 5;
  do c3 <- side_contour e s 2 11 2 6; do c4 <- side_contour e s 3 12 3 7;
  Ok [firstn 4 e; firstn 4 (skipn 4 e); c1; c2; c3; c4].
(** l.303-310 faces_center *)
Definition faces_center (b : block) : list vec3 :=
  let o := org3 (bframe b) in
  let u := half (bu (fb3 (bframe b))) in let v := half (bv (fb3 (bframe b))) in let w := half (bw (fb3 (bframe b))) in
  [sub3 o u; add3 o u; sub3 o v; add3 o v; sub3 o w; add3 o w].
(** l.312-335 rotation, translation; l.361-389 frame_mapping (side = new / old) *)
Definition block_rotation (b : block) center axis angle : res block := new_block (frame3_rotation (bframe b) center axis angle).
Definition block_translation (b : block) offset : res block := new_block (frame3_translation (bframe b) offset).
Definition block_mapping_new (b : block) (f : frame3) : res block := do g <- frame3_mapping_new (bframe b) f; new_block g.
Definition block_mapping_old (b : block) (f : frame3) : res block := new_block (frame3_mapping_old (bframe b) f).
(** l.440-460 subdivide_block; l.428-438 octree is 2, 2, 2 and quadtree 2, 2, 1 *)
Definition subdivide_block (b : block) (nx ny nz : nat) : res (list block) :=
  if Nat.eqb nx 0 || Nat.eqb ny 0 || Nat.eqb nz 0 then Err ZeroDivisionError
  else
    let '(sx, sy, sz) := norms (bframe b) in
    let fx := sx / INR nx in let fy := sy / INR ny in let fz := sz / INR nz in
    let center := translation3 (org3 (bframe b)) (neg3 (V3 (sx / 2 - fx / 2) (sy / 2 - fy / 2) (sz / 2 - fz / 2))) in
    mapM (fun o => new_block (F3 o (B3 (V3 fx 0 0) (V3 0 fy 0) (V3 0 0 fz))))
      (flat_map (fun k => flat_map (fun j => map (fun i =>
         translation3 center (V3 (INR i * fx) (INR j * fy) (INR k * fz))) (seq 0 nx)) (seq 0 ny)) (seq 0 nz)).

(** ** Cylinder l.791-1330 (a hollow cylinder keeps two radii, a cone has the same fields) *)
Record cylinder := Cyl { cyf : frame3; cyr : R; cyl : R }.
Definition axis (c : cylinder) : vec3 := bw (fb3 (cyf c)).
Definition point_a (c : cylinder) : vec3 := sub3 (org3 (cyf c)) (mul3 (axis c) (cyl c / 2)).
Definition point_b (c : cylinder) : vec3 := add3 (org3 (cyf c)) (mul3 (axis c) (cyl c / 2)).
(** the square roots of l.879-889: dividing by the squared length of the axis, which is 0 for a null cylinder *)
Definition reach (n d r : R) : res R := if Reqb d 0 then Err ZeroDivisionError else Ok (sqrt (n / d) * r).
(** l.859-891 get_bounding_box; l.1612-1643 HollowCylinder.get_bounding_box is the same with the outer radius. The points are swapped in place *)
Definition cylinder_bbox (c : cylinder) : res bbox :=
  let a := point_a c in let b := point_b c in
  let dx2 := (x3 a - x3 b) ^ 2 in let dy2 := (y3 a - y3 b) ^ 2 in let dz2 := (z3 a - z3 b) ^ 2 in
  let d := dx2 + dy2 + dz2 in
  let '(a, b) := if Rltb (x3 b) (x3 a) then (b, a) else (a, b) in
  do rx <- reach (dy2 + dz2) d (cyr c);
  let x0 := x3 a - rx in let x1 := x3 b + rx in
  let '(a, b) := if Rltb (y3 b) (y3 a) then (b, a) else (a, b) in
  do ry <- reach (dx2 + dz2) d (cyr c);
  let y0 := y3 a - ry in let y1 := y3 b + ry in
  let '(a, b) := if Rltb (z3 b) (z3 a) then (b, a) else (a, b) in
  do rz <- reach (dx2 + dy2) d (cyr c);
  Ok (BBox x0 x1 y0 y1 (z3 a - rz) (z3 b + rz)).
(** l.893-900 volume *)
Definition cylinder_volume (c : cylinder) : R := cyl c * PI * cyr c ^ 2.
(** l.902-940 from_end_points *)
Definition from_end_points (p q : vec3) (radius : R) : res cylinder :=
  do w <- unit_vector3 (sub3 q p);
  do u <- deterministic_unit_normal_vector w;
  Ok (Cyl (F3 (mul3 (add3 p q) (1 / 2)) (B3 u (cross3 w u) w)) radius (point_distance3 p q)).
(** l.957-994 from_center_point_and_axis *)
Definition from_center_and_axis (center ax : vec3) (radius length : R) : res cylinder :=
  do u <- deterministic_unit_normal_vector ax;
  Ok (Cyl (F3 center (B3 u (cross3 ax u) ax)) radius length).
(** l.1282-1300 point_belongs *)
Definition local_frame (c : cylinder) : res frame3 := from_point_and_vector (org3 (cyf c)) (axis c) Z3D.
Definition cylinder_point_belongs (c : cylinder) (p : vec3) : res bool :=
  do f <- local_frame c;
  do q <- frame3_g2l f p;
  Ok (Rleb (sqrt (x3 q ^ 2 + y3 q ^ 2)) (cyr c) && (Rleb (- cyl c / 2) (z3 q) && Rleb (z3 q) (cyl c / 2))).
(** l.1224-1242 random_point_inside and l.1244-1280 lhs_points_inside: [draw] holds the drawn number in [0, 1], the angle and the height *)
Definition sampled_point (c : cylinder) (draw : R * R * R) : res vec3 :=
  let '(s, theta, z) := draw in
  let radius := sqrt s * cyr c in
  do f <- local_frame c; Ok (frame3_l2g f (V3 (radius * cos theta) (radius * sin theta) z)).
(** l.1302-1333 interference_volume_with_other_cylinder; [draws] is the sample of the smaller cylinder, n_points of them *)
Definition interference_volume (c d : cylinder) (draws : list (R * R * R)) : res R :=
  let '(s, o) := if Rltb (cylinder_volume c) (cylinder_volume d) then (c, d) else (d, c) in
  do ps <- mapM (sampled_point s) draws;
  do bs <- mapM (cylinder_point_belongs o) ps;
  if Nat.eqb (length draws) 0 then Err ZeroDivisionError
  else Ok (INR (length (filter (fun x => x) bs)) / INR (length draws) * cylinder_volume s).

(** ** Cone l.1334-1524: Cone.get_bounding_box l.1404-1436 *)
Definition min3 (a b c : R) : R := lmin a [b; c].
Definition max3 (a b c : R) : R := lmax a [b; c].
Definition cone_bbox (c : cylinder) : res bbox :=
  let a := point_a c in let b := point_b c in
  let dx2 := (x3 a - x3 b) ^ 2 in let dy2 := (y3 a - y3 b) ^ 2 in let dz2 := (z3 a - z3 b) ^ 2 in
  let d := dx2 + dy2 + dz2 in
  do rx <- reach (dy2 + dz2) d (cyr c);
  do ry <- reach (dx2 + dz2) d (cyr c);
  do rz <- reach (dx2 + dy2) d (cyr c);
  Ok (BBox (min3 (x3 a - rx) (x3 a + rx) (x3 b)) (max3 (x3 a - rx) (x3 a + rx) (x3 b))
           (min3 (y3 a - ry) (y3 a + ry) (y3 b)) (max3 (y3 a - ry) (y3 a + ry) (y3 b))
           (min3 (z3 a - rz) (z3 a + rz) (z3 b)) (max3 (z3 a - rz) (z3 a + rz) (z3 b))).

(** ** HollowCylinder l.1526-1846 *)
Record hollow := Hollow { hof : frame3; inner : R; outer : R; hol : R }.
(** l.1612-1643 get_bounding_box, l.1645-1652 volume *)
Definition hollow_bbox (h : hollow) : res bbox := cylinder_bbox (Cyl (hof h) (outer h) (hol h)).
Definition hollow_volume (h : hollow) : R := hol h * PI * (outer h ^ 2 - inner h ^ 2).

(** ** Sphere l.1957-2055 *)
(** l.1974-1980 volume; l.1982-1989 point_belongs *)
Definition sphere_volume (radius : R) : R := 4 / 3 * PI * radius ^ 3.
Definition sphere_point_belongs (center : vec3) (radius : R) (p : vec3) : bool := Rleb (point_distance3 center p) radius.
(** int() of a positive number *)
Definition floor_nat (x : R) : nat := Z.to_nat (Int_part x).
(** list.pop(): the last element is dropped *)
Definition pop {A} (l : list A) : list A := firstn (length l - 1) l.
(** l.2014-2034, one floor: the points of the circle through p, seen from the axis through the center directed by X3D *)
Definition skin_floor (center p : vec3) (theta resolution : R) : res (list vec3) :=
  if isclose theta 0 (/ 10 ^ 6) || isclose theta PI (/ 10 ^ 6) then Ok [p]
  else
    let cf := V3 (dot3 X3D p) (y3 center) (z3 center) in
    let r := point_distance3 cf p in
    if Reqb r 0 then Err ZeroDivisionError
    else
      let tf := resolution / r in
      let n := S (floor_nat (2 * PI / tf)) in
      let angles := map (fun k => INR k * tf) (seq 0 n) in
      let angles := if Rleb ((2 * PI - INR (n - 1) * tf) / tf) (1 / 10) then pop angles else angles in
      Ok (map (fun t => rotation3 p cf X3D t) angles).
(** l.1999-2036 skin_points, for a positive resolution *)
Definition skin_points (center : vec3) (radius resolution : R) : res (list vec3) :=
  if Rltb (2 * radius) resolution then Ok []
  else if Reqb radius 0 then Err ZeroDivisionError
  else
    let theta := 2 * asin (resolution / (2 * radius)) in
    if Reqb theta 0 then Err ZeroDivisionError
    else
      let n := S (floor_nat (PI / theta)) in
      let point1 := add3 center (mul3 X3D radius) in
      do l <- mapM (fun k => let t := INR k * theta in skin_floor center (rotation3 point1 center Y3D t) t resolution) (seq 0 n);
      Ok (concat l).
(** l.2038-2054 inner_points, for a positive radius and resolution *)
Definition inner_points (center : vec3) (radius resolution : R) : res (list vec3) :=
  if Reqb resolution 0 then Err ZeroDivisionError
  else
    let n := floor_nat (radius / resolution) in
    if Nat.eqb n 0 then Ok [center]
    else
      let radii := map (fun k => INR k * resolution) (seq 1 n) in
      let radii := if Rleb ((radius - INR n * resolution) / resolution) (1 / 10) then pop radii else radii in
      do l <- mapM (fun r => skin_points center r resolution) radii;
      Ok (center :: concat l).
