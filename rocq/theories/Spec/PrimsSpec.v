(** What the theorems about primitives say: blocks, cylinders, cones and balls as sets of points. *)
From Coq Require Import List Bool Arith ZArith Reals.
From Verif.Model Require Import Base RBase Vec Frame BBox Geometry Prims.
From Verif.Spec Require Import VecSpec FrameSpec BBoxSpec.
Import ListNotations.
Open Scope R_scope.

(** ** Blocks: the points within half a vector of the origin, along the three vectors of the frame *)
Definition within (x : R) : Prop := - (1 / 2) <= x <= 1 / 2.
Definition in_block (b : block) (p : vec3) : Prop :=
  exists x y z, within x /\ within y /\ within z /\ p = frame_point (bframe b) (V3 x y z).
Definition strictly_in_block (b : block) (p : vec3) : Prop :=
  exists x y z, Rabs x < 1 / 2 /\ Rabs y < 1 / 2 /\ Rabs z < 1 / 2 /\ p = frame_point (bframe b) (V3 x y z).
Definition slantless (f : frame3) : Prop :=
  dot3 (bu (fb3 f)) (bv (fb3 f)) = 0 /\ dot3 (bu (fb3 f)) (bw (fb3 f)) = 0 /\ dot3 (bv (fb3 f)) (bw (fb3 f)) = 0.
Definition proper (f : frame3) : Prop := bu (fb3 f) <> O3D /\ bv (fb3 f) <> O3D /\ bw (fb3 f) <> O3D.
(** volume of the parallelepiped on the three vectors *)
Definition parallelepiped (f : frame3) : R := Rabs (dot3 (cross3 (bu (fb3 f)) (bv (fb3 f))) (bw (fb3 f))).
(** u along X, v along Y, w along Z (either way) *)
Definition axis_parallel (f : frame3) : Prop :=
  exists a b c, fb3 f = B3 (V3 a 0 0) (V3 0 b 0) (V3 0 0 c) /\ a <> 0 /\ b <> 0 /\ c <> 0.
(** the smallest box that holds a set of points *)
Definition least_box (P : vec3 -> Prop) (b : bbox) : Prop :=
  (forall p, P p -> in_box b p) /\ (forall c, (forall p, P p -> in_box c p) -> box_le b c).
(** the eight corners, named by the signs of their three coordinates *)
Definition sgn (s : bool) : R := if s then 1 / 2 else - (1 / 2).
Definition corner_at (b : block) (s : bool * bool * bool) : vec3 :=
  let '(x, y, z) := s in frame_point (bframe b) (V3 (sgn x) (sgn y) (sgn z)).
Definition signs : list (bool * bool * bool) :=
  flat_map (fun z => flat_map (fun y => map (fun x => (x, y, z)) [false; true]) [false; true]) [false; true].
(** two corners on one edge: exactly one sign changes *)
Definition adjacent (s t : bool * bool * bool) : bool :=
  let '(x, y, z) := s in let '(x', y', z') := t in
  Nat.eqb ((if eqb x x' then 0 else 1) + (if eqb y y' then 0 else 1) + (if eqb z z' then 0 else 1)) 1.
(** the corners of the six sides, in order round the side: x = -, x = +, y = -, y = +, z = -, z = + *)
Definition sides : list (list (bool * bool * bool)) :=
  let round := [(false, false); (true, false); (true, true); (false, true)] in
  [map (fun p => (false, fst p, snd p)) round; map (fun p => (true, fst p, snd p)) round;
   map (fun p => (snd p, false, fst p)) round; map (fun p => (snd p, true, fst p)) round;
   map (fun p => (fst p, snd p, false)) round; map (fun p => (fst p, snd p, true)) round].
Definition mean4 (l : list vec3) : vec3 := mul3 (sum3 l) (1 / 4).

(** ** Cylinders and cones of a frame *)
Definition in_cylinder (c : cylinder) (p : vec3) : Prop :=
  exists x y z, x ^ 2 + y ^ 2 <= cyr c ^ 2 /\ - (cyl c / 2) <= z <= cyl c / 2 /\ p = frame_point (cyf c) (V3 x y z).
(** a cylinder grown on every side *)
Definition grown (c : cylinder) (e : R) : cylinder := Cyl (cyf c) (cyr c + e) (cyl c + 2 * e).
(** the base is at -length/2, the top at +length/2 *)
Definition in_cone (c : cylinder) (p : vec3) : Prop :=
  exists x y t, 0 <= t <= 1 /\ x ^ 2 + y ^ 2 <= ((1 - t) * cyr c) ^ 2 /\ p = frame_point (cyf c) (V3 x y ((t - 1 / 2) * cyl c)).
Definition in_hollow (h : hollow) (p : vec3) : Prop :=
  exists x y z, inner h ^ 2 <= x ^ 2 + y ^ 2 <= outer h ^ 2 /\ - (hol h / 2) <= z <= hol h / 2 /\ p = frame_point (hof h) (V3 x y z).
(** a draw of random_point_inside: a number in [0, 1], an angle, a height *)
Definition fair_draw (c : cylinder) (d : R * R * R) : Prop :=
  let '(s, theta, z) := d in 0 <= s <= 1 /\ - (cyl c / 2) <= z <= cyl c / 2.
Definition on_sphere_at (center : vec3) (radius : R) (p : vec3) : Prop := point_distance3 center p = radius.
Definition in_ball (center : vec3) (radius : R) (p : vec3) : Prop := point_distance3 center p <= radius.
(** do the two corners follow one another round the side? *)
Definition sign_eqb (s t : bool * bool * bool) : bool :=
  let '(x, y, z) := s in let '(x', y', z') := t in eqb x x' && eqb y y' && eqb z z'.
Definition follow (s t : bool * bool * bool) (side : list (bool * bool * bool)) : bool :=
  existsb (fun i => sign_eqb (nth i side s) s && sign_eqb (nth (Nat.modulo (S i) 4) side s) t) (seq 0 4).
Definition bounds_side (s t : bool * bool * bool) (side : list (bool * bool * bool)) : bool := follow s t side || follow t s side.
(** edges along X, Y, Z, positive lengths *)
Definition upright_block (b : block) : Prop :=
  exists a c d, fb3 (bframe b) = B3 (V3 a 0 0) (V3 0 c 0) (V3 0 0 d) /\ 0 < a /\ 0 < c /\ 0 < d.
Definition total_volume (l : list block) : R := fold_right (fun b s => block_volume b + s) 0 l.
(** every point of the set has one of the list within the distance *)
Definition covers (l : list vec3) (P : vec3 -> Prop) (d : R) : Prop := forall q, P q -> exists p, In p l /\ point_distance3 p q <= d.
(** of two cylinders, the one of smaller volume (the second one when they are equal) and the other *)
Definition smaller (c d : cylinder) : cylinder := if Rltb (cylinder_volume c) (cylinder_volume d) then c else d.
Definition larger (c d : cylinder) : cylinder := if Rltb (cylinder_volume c) (cylinder_volume d) then d else c.
