(** Extruded and revolved profiles: /repo/volmdlr/primitives3d.py l.464-566, 608-725; edges.py l.4681-4695.
    The contours are closed lines of segments, given by their corners (edge_polygon, wires.py l.2047-2057, of corners further than 1e-6 apart):
    straight_line_area of a LineSegment2D is 0 (edges.py l.2294-2300), so that Contour2D.area (wires.py l.2111-2125) is the area of the polygon.
    The cached area is not modelled. *)
From Coq Require Import List Bool Arith ZArith Reals.
From Verif.Model Require Import Base RBase Vec Frame Polygon Geometry Plane Curves Edges.
Import ListNotations.
Open Scope R_scope.

Record extruded := Extruded { eframe : frame3; eouter : list vec2; einners : list (list vec2); elength : R }.
(** l.473-502 ExtrudedProfile.__init__: the check of the inner contours; the faces are below *)
Definition new_extruded (f : frame3) (outer : list vec2) (inners : list (list vec2)) (length : R) : res extruded :=
  if existsb (fun c => Rltb (polygon_area outer) (polygon_area c)) inners then Err ValueError else Ok (Extruded f outer inners length).
(** l.484 extrusion_vector, l.555-559 area, l.561-563 volume *)
Definition extrusion_vector (e : extruded) : vec3 := mul3 (bw (fb3 (eframe e))) (elength e).
Definition extruded_area (e : extruded) : R := polygon_area (eouter e) - sumR (map polygon_area (einners e)).
Definition extruded_volume (e : extruded) : R := extruded_area e * dot3 (extrusion_vector e) (bw (fb3 (eframe e))).
(** edges.py l.4681-4695 LineSegment3D.extrusion: the corners of the face, in the order of PlaneFace3D.from_surface_rectangular_cut (faces.py); Point2D.to_3d rounds to 12 digits *)
Definition segment_extrusion (s : vec3 * vec3) (vector : vec3) : res (list vec3) :=
  do u <- unit_vector3 (sub3 (snd s) (fst s));
  do v <- unit_vector3 vector;
  let length_1 := point_distance3 (fst s) (snd s) in
  let length_2 := norm3 vector in
  Ok (map (fun p => point_to_3d p (fst s) u v) [V2 0 0; V2 length_1 0; V2 length_1 length_2; V2 0 length_2]).

(** l.608-620 RevolvedProfile.__init__: the check of the axis (is_close to the null vector, 1e-6) *)
Record revolved := Revolved { rframe : frame3; rcontour : list vec2; axis_point : vec3; axis : vec3; rangle : R }.
Definition new_revolved (f : frame3) (contour : list vec2) (p v : vec3) (angle : R) : res revolved :=
  if is_close3 (cross3 (bw (fb3 f)) v) O3D (/ 10 ^ 6) then Err ValueError else Ok (Revolved f contour p v angle).
(** l.711-725 volume: Vector3D has no attribute [vector] (core_compiled.pxd), l.718 raises AttributeError *)
Definition revolved_volume (r : revolved) : res R :=
  let u := bu (fb3 (rframe r)) in let v := bv (fb3 (rframe r)) in
  do point1 <- plane_projection3d (axis_point r) (org3 (rframe r)) u v;
  Err AttributeError.
