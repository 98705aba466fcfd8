(** Triangle3D: /repo/volmdlr/faces.py l.2160-2488. *)
From Coq Require Import Reals List ZArith.
From Verif.Model Require Import Base RBase Vec Frame Mesh Edges Plane.
Import ListNotations.
Open Scope R_scope.

Definition corners := (vec3 * vec3 * vec3)%type.
(** l.2291-2312 area: Heron's formula; math.sqrt raises ValueError below 0, which gives 0 *)
Definition triangle3_area (t : corners) : R :=
  let '(p1, p2, p3) := t in
  let a := point_distance3 p1 p2 in let b := point_distance3 p2 p3 in let c := point_distance3 p3 p1 in
  let s := (a + b + c) / 2 in
  let q := s * (s - a) * (s - b) * (s - c) in
  if Rltb q 0 then 0 else sqrt q.
(** l.2314-2321 height *)
Definition triangle3_height (t : corners) : res R :=
  let '(p1, p2, _) := t in
  let d := point_distance3 p1 p2 in
  if Reqb d 0 then Err ZeroDivisionError else Ok (2 * triangle3_area t / d).
(** l.2463-2468 middle *)
Definition triangle3_middle (t : corners) : vec3 :=
  let '(p1, p2, p3) := t in let s := add3 (add3 p1 p2) p3 in V3 (x3 s / 3) (y3 s / 3) (z3 s / 3).
(** l.2174-2198 __init__, l.2220-2248 surface3d and surface2d: the plane and the three segments are made; the segments are made in
    space, their images in the plane are not modelled here. *)
Definition triangle3_new (t : corners) : res corners :=
  let '(p1, p2, p3) := t in
  do _ <- plane_from_3_points p1 p2 p3;
  do _ <- segment3 p1 p2; do _ <- segment3 p2 p3; do _ <- segment3 p3 p1; Ok t.
(** l.2470-2481 normal *)
Definition triangle3_normal (t : corners) : res vec3 :=
  let '(p1, p2, p3) := t in do f <- plane_from_3_points p1 p2 p3; unit_vector3 (bw (fb3 f)).
(** l.2323-2371 frame_mapping (side 'old' and 'new'), translation, rotation *)
Definition map_corners (f : vec3 -> vec3) (t : corners) : corners := let '(p1, p2, p3) := t in (f p1, f p2, f p3).
Definition triangle3_translation (t : corners) (offset : vec3) : res corners := triangle3_new (map_corners (fun p => translation3 p offset) t).
Definition triangle3_rotation (t : corners) (center axis : vec3) (angle : R) : res corners :=
  triangle3_new (map_corners (fun p => rotation3 p center axis angle) t).

(** l.2425-2461 subdescription_to_triangles. [longest] is lengths.index(max(lengths)) *)
Definition longest (t : corners) : R * nat :=
  let '(a, b, c) := t in
  let ab := point_distance3 a b in let bc := point_distance3 b c in let ca := point_distance3 c a in
  let m := Rmax (Rmax ab bc) ca in
  (m, if Reqb ab m then 0%nat else if Reqb bc m then 1%nat else 2%nat).
Definition half3 (u : vec3) : vec3 := V3 (x3 u / 2) (y3 u / 2) (z3 u / 2).
Definition bisect (resolution : R) (t : corners) : list corners :=
  let '(m, pos) := longest t in
  if Rltb resolution m then
    let '(a, b, c) := t in
    let '(p, q, r) := match pos with O => (a, b, c) | S O => (b, c, a) | _ => (c, a, b) end in
    let mid := half3 (add3 p q) in [(p, mid, r); (q, mid, r)]
  else [t].
Fixpoint bisect_loop (fuel : nat) (resolution : R) (ts : list corners) : res (list corners) :=
  match fuel with
  | O => Err OutOfFuel
  | S fuel => let ts' := flat_map (bisect resolution) ts in
              if Nat.eqb (length ts) (length ts') then Ok ts else bisect_loop fuel resolution ts'
  end.
Definition subdescription_to_triangles (fuel : nat) (t : corners) (resolution : R) : res (list corners) :=
  do ts <- bisect_loop fuel resolution [t]; mapM triangle3_new ts.

(** l.2373-2423 subdescription. int() truncates a positive quotient; the division by a null resolution raises ZeroDivisionError;
    list(set(points)) is left out: the points are kept with their repetitions, as points are compared with a hash. *)
Definition floor_nat (r : R) : nat := Z.to_nat (Int_part r).
Definition subdescription_points (new0 new1 new2 : vec3) (resolution max_length : R) : res (list vec3) :=
  do v <- unit_vector3 (sub3 new0 new1);
  if Reqb resolution 0 then Err ZeroDivisionError else
  let points01 := new1 :: map (fun k => add3 new1 (mul3 v (Rmin (INR k * resolution) max_length))) (seq 1 (floor_nat (max_length / resolution) + 1)) in
  do w <- unit_vector3 (sub3 new2 new1);
  let length21 := point_distance3 new2 new1 in
  do inside <- mapM (fun p =>
    let q := add3 new1 (mul3 w (Rmin (point_distance3 new1 p * length21 / max_length) length21)) in
    let l := point_distance3 q p in
    let nb := (floor_nat (l / resolution) + 2)%nat in
    if Nat.eqb nb 2 then Ok [q]
    else do u <- unit_vector3 (sub3 q p);
         let step := l / INR (nb - 1) in
         Ok (map (fun i => add3 p (mul3 u (Rmin (INR i * step) l)))
                 (filter (fun i => negb (Reqb (Rmin (INR i * step) l) 0)) (seq 0 nb)))) points01;
  Ok (points01 ++ concat inside).
Definition subdescription (t : corners) (resolution : R) : res (list vec3) :=
  let '(a, b, c) := t in let '(m, pos) := longest t in
  if Rleb m resolution then Ok [a; b; c]
  else let '(p, q, r) := match pos with O => (a, b, c) | S O => (b, c, a) | _ => (c, a, b) end in
       subdescription_points p q r resolution m.

(** The attributes of a triangle. l.2174-2198 Triangle3D.__init__ assigns color, alpha and name, then calls PlaneFace3D.__init__ (l.1592)
    and Face3D.__init__ (l.65-73) without them, which call Primitive3D.__init__ (core.py l.255-259) with its default values: color None,
    alpha 1.0, name ''. A string given for a number is kept as it is, as Python does. *)
Inductive pyval := PyNone | PyNum (r : R) | PyStr (s : list Z) | PyTuple (r g b : R).
Record attrs := Attrs { a_alpha : pyval; a_color : pyval; a_name : pyval }.
Definition primitive3d_init (a : attrs) (color alpha name : pyval) : attrs := Attrs alpha color name.
Definition face3d_init (a : attrs) (name : pyval) : attrs := primitive3d_init a PyNone (PyNum 1) name.
Definition triangle3_init (alpha color name : pyval) : attrs :=
  let assigned := Attrs alpha color name in face3d_init assigned (PyStr []).
Definition color_set (a : attrs) (c : pyval) : attrs := Attrs (a_alpha a) c (a_name a).
Definition alpha_set (a : attrs) (c : pyval) : attrs := Attrs c (a_color a) (a_name a).
Definition name_set (a : attrs) (c : pyval) : attrs := Attrs (a_alpha a) (a_color a) c.
(** l.2353, 2370 translation, rotation: alpha, color and name are passed to the constructor *)
Definition triangle3_moved_attrs (a : attrs) : attrs := triangle3_init (a_alpha a) (a_color a) (a_name a).
(** l.2333, 2337, 2289 frame_mapping, copy, dict_to_object: the name is passed as the fourth argument, which is alpha *)
Definition triangle3_copied_attrs (a : attrs) : attrs := triangle3_init (a_name a) PyNone (PyStr []).
