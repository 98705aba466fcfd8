(** Bounding boxes and rectangles, and the list helpers: /repo/volmdlr/core.py.
    Names, caches (_size, _octree, center) and deprecation warnings are not modelled. *)
From Verif.Model Require Import RBase Vec.
Open Scope R_scope.

(** ** core.py l.343-366 BoundingRectangle, l.542-580 BoundingBox *)
Record rect := Rect { rxmin : R; rxmax : R; rymin : R; rymax : R }.
Record bbox := BBox { xmin : R; xmax : R; ymin : R; ymax : R; zmin : R; zmax : R }.

(** numpy [min(axis=0)] / [max(axis=0)] of a non-empty column *)
Definition lmin (a : R) (l : list R) : R := fold_left Rmin l a.
Definition lmax (a : R) (l : list R) : R := fold_left Rmax l a.

(** ** BoundingRectangle *)
(** l.400-410 area, center *)
Definition rect_area b := (rxmax b - rxmin b) * (rymax b - rymin b).
Definition rect_center b := V2 (1 / 2 * (rxmin b + rxmax b)) (1 / 2 * (rymin b + rymax b)).
(** l.384-389 bounding_points *)
Definition rect_points b :=
  [V2 (rxmin b) (rymin b); V2 (rxmax b) (rymin b); V2 (rxmax b) (rymax b); V2 (rxmin b) (rymax b)].
(** l.412-420 is_intersecting; l.422-430 b_rectangle_intersection is the same *)
Definition rect_is_intersecting a b : bool :=
  Rltb (rxmin a) (rxmax b) && Rltb (rxmin b) (rxmax a) && Rltb (rymin a) (rymax b) && Rltb (rymin b) (rymax a).
(** l.432-442 is_inside_b_rectangle *)
Definition is_inside_rect a b tol : bool :=
  Rleb (rxmin b - tol) (rxmin a) && Rleb (rxmax a) (rxmax b + tol)
  && Rleb (rymin b - tol) (rymin a) && Rleb (rymax a) (rymax b + tol).
(** l.444-451 point_belongs *)
Definition rect_point_belongs b p : bool :=
  Rltb (rxmin b) (x2 p) && Rltb (x2 p) (rxmax b) && Rltb (rymin b) (y2 p) && Rltb (y2 p) (rymax b).
(** l.453-468 intersection_area (default tolerance 1e-6) *)
Definition rect_intersection_area a b : R :=
  if negb (rect_is_intersecting a b) then 0
  else if is_inside_rect a b (/ 10 ^ 6) || is_inside_rect b a (/ 10 ^ 6) then Rmin (rect_area a) (rect_area b)
  else (Rmin (rxmax a) (rxmax b) - Rmax (rxmin a) (rxmin b)) * (Rmin (rymax a) (rymax b) - Rmax (rymin a) (rymin b)).
(** l.470-491 distance_to_b_rectangle: the two names are swapped in place, cumulatively *)
Definition rect_distance a b : R :=
  if rect_is_intersecting a b then 0
  else
    let '(p1, p2) := if Rltb (rxmin b) (rxmin a) then (b, a) else (a, b) in
    let dx := Rmax (rxmin p2 - rxmax p1) 0 in
    let '(q1, q2) := if Rltb (rymin p2) (rymin p1) then (p2, p1) else (p1, p2) in
    let dy := Rmax (rymin q2 - rymax q1) 0 in
    sqrt (dx ^ 2 + dy ^ 2).
(** the one-axis offset of the if/elif/else chains of distance_to_point (l.503-516, l.925-943) *)
Definition axis_gap (lo hi x : R) : R := if Rltb x lo then lo - x else if Rltb hi x then x - hi else 0.
(** l.493-518 distance_to_point: note [point.y - self.xmin] in the inside branch *)
Definition rect_distance_to_point b p : R :=
  if rect_point_belongs b p then
    Rmin (Rmin (Rmin (rxmax b - x2 p) (y2 p - rxmin b)) (rymax b - y2 p)) (y2 p - rymin b)
  else
    let dx := axis_gap (rxmin b) (rxmax b) (x2 p) in
    let dy := axis_gap (rymin b) (rymax b) (y2 p) in
    sqrt (dx ^ 2 + dy ^ 2).
(** l.520-535 from_points (numpy raises ValueError on an empty array) *)
Definition rect_from_points (l : list vec2) : res rect :=
  match l with
  | [] => Err ValueError
  | p :: l => Ok (Rect (lmin (x2 p) (map x2 l)) (lmax (x2 p) (map x2 l))
                       (lmin (y2 p) (map y2 l)) (lmax (y2 p) (map y2 l)))
  end.

(** ** BoundingBox *)
(** l.582-592 center *)
Definition bbox_center b := V3 (1 / 2 * (xmin b + xmax b)) (1 / 2 * (ymin b + ymax b)) (1 / 2 * (zmin b + zmax b)).
(** l.597-604 __add__ *)
Definition bbox_add a b :=
  BBox (Rmin (xmin a) (xmin b)) (Rmax (xmax a) (xmax b)) (Rmin (ymin a) (ymin b)) (Rmax (ymax a) (ymax b))
       (Rmin (zmin a) (zmin b)) (Rmax (zmax a) (zmax b)).
(** l.629-645 points *)
Definition bbox_points b :=
  [V3 (xmin b) (ymin b) (zmin b); V3 (xmax b) (ymin b) (zmin b); V3 (xmax b) (ymax b) (zmin b);
   V3 (xmin b) (ymax b) (zmin b); V3 (xmin b) (ymin b) (zmax b); V3 (xmax b) (ymin b) (zmax b);
   V3 (xmax b) (ymax b) (zmax b); V3 (xmin b) (ymax b) (zmax b)].
(** l.685-709 from_bounding_boxes (numpy raises on an empty list) *)
Definition from_bounding_boxes (l : list bbox) : res bbox :=
  match l with
  | [] => Err ValueError
  | b :: l => Ok (BBox (lmin (xmin b) (map xmin l)) (lmax (xmax b) (map xmax l))
                       (lmin (ymin b) (map ymin l)) (lmax (ymax b) (map ymax l))
                       (lmin (zmin b) (map zmin l)) (lmax (zmax b) (map zmax l)))
  end.
(** l.711-727 from_points *)
Definition bbox_from_points (l : list vec3) : res bbox :=
  match l with
  | [] => Err ValueError
  | p :: l => Ok (BBox (lmin (x3 p) (map x3 l)) (lmax (x3 p) (map x3 l))
                       (lmin (y3 p) (map y3 l)) (lmax (y3 p) (map y3 l))
                       (lmin (z3 p) (map z3 l)) (lmax (z3 p) (map z3 l)))
  end.
(** l.770-776 size, l.778-785 volume *)
Definition bbox_size b := V3 (xmax b - xmin b) (ymax b - ymin b) (zmax b - zmin b).
Definition bbox_volume b := (xmax b - xmin b) * (ymax b - ymin b) * (zmax b - zmin b).
(** l.742-768 get_points_inside_bbox: z outermost, x innermost; a zero count divides by zero *)
Definition get_points_inside_bbox b (nx ny nz : nat) : res (list vec3) :=
  if Nat.eqb nx 0 || Nat.eqb ny 0 || Nat.eqb nz 0 then Err ZeroDivisionError
  else
    let s := bbox_size b in
    let sx := x3 s / INR nx in
    let sy := y3 s / INR ny in
    let sz := z3 s / INR nz in
    let initial_center :=
      translation3 (bbox_center b) (neg3 (V3 (x3 s / 2 - sx / 2) (y3 s / 2 - sy / 2) (z3 s / 2 - sz / 2))) in
    Ok (flat_map (fun k => flat_map (fun j => map (fun i =>
          translation3 initial_center (V3 (INR i * sx) (INR j * sy) (INR k * sz))) (seq 0 nx)) (seq 0 ny)) (seq 0 nz)).
(** l.787-814 scale *)
Definition bbox_scale b factor :=
  let xc := (xmin b + xmax b) / 2 in
  let yc := (ymin b + ymax b) / 2 in
  let zc := (zmin b + zmax b) / 2 in
  let s := bbox_size b in
  let hx := x3 s * factor / 2 in
  let hy := y3 s * factor / 2 in
  let hz := z3 s * factor / 2 in
  BBox (xc - hx) (xc + hx) (yc - hy) (yc + hy) (zc - hz) (zc + hz).
(** core_compiled.pyx l.288-311 bbox_is_intersecting: both boxes are inflated by tol *)
Definition bbox_is_intersecting a b tol : bool :=
  negb (Rltb (xmax a + tol) (xmin b - tol) || Rltb (xmax b + tol) (xmin a - tol)
        || Rltb (ymax a + tol) (ymin b - tol) || Rltb (ymax b + tol) (ymin a - tol)
        || Rltb (zmax a + tol) (zmin b - tol) || Rltb (zmax b + tol) (zmin a - tol)).
(** l.843-853 is_inside_bbox *)
Definition is_inside_bbox a b : bool :=
  Rleb (xmin b - / 10 ^ 6) (xmin a) && Rleb (xmax a) (xmax b + / 10 ^ 6)
  && Rleb (ymin b - / 10 ^ 6) (ymin a) && Rleb (ymax a) (ymax b + / 10 ^ 6)
  && Rleb (zmin b - / 10 ^ 6) (zmin a) && Rleb (zmax a) (zmax b + / 10 ^ 6).
(** l.855-873 intersection_volume *)
Definition intersection_volume a b : R :=
  if negb (bbox_is_intersecting a b (/ 10 ^ 6)) then 0
  else if is_inside_bbox a b || is_inside_bbox b a then Rmin (bbox_volume a) (bbox_volume b)
  else (Rmin (xmax a) (xmax b) - Rmax (xmin a) (xmin b)) * (Rmin (ymax a) (ymax b) - Rmax (ymin a) (ymin b))
       * (Rmin (zmax a) (zmax b) - Rmax (zmin a) (zmin b)).
(** l.891-923 distance_to_bbox *)
Definition distance_to_bbox a b : R :=
  if bbox_is_intersecting a b (/ 10 ^ 6) then 0
  else
    let '(p1, p2) := if Rltb (xmin b) (xmin a) then (b, a) else (a, b) in
    let dx := Rmax (xmin p2 - xmax p1) 0 in
    let '(q1, q2) := if Rltb (ymin p2) (ymin p1) then (p2, p1) else (p1, p2) in
    let dy := Rmax (ymin q2 - ymax q1) 0 in
    let '(r1, r2) := if Rltb (zmin q2) (zmin q1) then (q2, q1) else (q1, q2) in
    let dz := Rmax (zmin r2 - zmax r1) 0 in
    sqrt (dx ^ 2 + dy ^ 2 + dz ^ 2).
(** l.925-939 point_belongs *)
Definition bbox_point_belongs b p tol : bool :=
  Rleb (xmin b - tol) (x3 p) && Rleb (x3 p) (xmax b + tol) && Rleb (ymin b - tol) (y3 p) && Rleb (y3 p) (ymax b + tol)
  && Rleb (zmin b - tol) (z3 p) && Rleb (z3 p) (zmax b + tol).
(** l.941-976 distance_to_point *)
Definition bbox_distance_to_point b p : R :=
  if bbox_point_belongs b p (/ 10 ^ 6) then
    Rmin (Rmin (Rmin (Rmin (Rmin (xmax b - x3 p) (x3 p - xmin b)) (ymax b - y3 p)) (y3 p - ymin b))
               (zmax b - z3 p)) (z3 p - zmin b)
  else
    let dx := axis_gap (xmin b) (xmax b) (x3 p) in
    let dy := axis_gap (ymin b) (ymax b) (y3 p) in
    let dz := axis_gap (zmin b) (zmax b) (z3 p) in
    sqrt (dx ^ 2 + dy ^ 2 + dz ^ 2).
(** l.978-1000 is_close *)
Definition bbox_is_close a b tol : bool :=
  is_close3 (V3 (xmin a) (ymin a) (zmin a)) (V3 (xmin b) (ymin b) (zmin b)) tol
  && is_close3 (V3 (xmax a) (ymax a) (zmax a)) (V3 (xmax b) (ymax b) (zmax b)) tol.
(** l.1002-1018 octree *)
Definition bbox_octree b : res (list bbox) :=
  let s := bbox_size b in
  do cs <- get_points_inside_bbox b 2 2 2;
  Ok (map (fun c => BBox (x3 c - x3 s / 2 / 2) (x3 c + x3 s / 2 / 2) (y3 c - y3 s / 2 / 2) (y3 c + y3 s / 2 / 2)
                         (z3 c - z3 s / 2 / 2) (z3 c + z3 s / 2 / 2)) cs).

(** ** List helpers: core.py l.38-150 (elements with an [is_close] method / Python [in] with [==]) *)
Section Lists.
  Context {A : Type} (is_close : A -> A -> bool) (eqb : A -> A -> bool).
  (** l.38-50 element_in_list: [element.is_close(element_i)] *)
  Fixpoint element_in_list (e : A) (l : list A) : bool :=
    match l with [] => false | x :: l => if is_close e x then true else element_in_list e l end.
  (** l.81-93 get_element_index_in_list: [element_i.is_close(element)] *)
  Fixpoint get_element_index_from (i : nat) (e : A) (l : list A) : option nat :=
    match l with [] => None | x :: l => if is_close x e then Some i else get_element_index_from (S i) e l end.
  Definition get_element_index_in_list := get_element_index_from 0.
  (** l.132-150 delete_double_point *)
  Definition delete_double_point (l : list A) : list A :=
    fold_left (fun points p => if existsb (eqb p) points then points else points ++ [p]) l [].
End Lists.
(** Point3D.__eq__ (core_compiled.pyx l.1958-1962) *)
Definition eqb3 p q : bool := Reqb (x3 p) (x3 q) && Reqb (y3 p) (y3 q) && Reqb (z3 p) (z3 q).
(** l.54-66 point_in_list *)
Definition point_in_list3 (p : vec3) (l : list vec3) tol : bool :=
  match l with [] => false | _ => in_list3 p l tol end.
