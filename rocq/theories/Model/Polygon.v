(** Polygons: /repo/volmdlr/core_compiled.pyx l.182-283, /repo/volmdlr/wires.py l.2885-3035 (ClosedPolygon2D)
    and l.4023-4125 (Triangle2D). A polygon is its list of points. *)
From Coq Require Import List Bool.
From Verif.Model Require Import RBase Vec.
Import ListNotations.
Open Scope R_scope.

(** polygon[i], polygon[(i + 1) % n] for i in range(n) *)
Definition edges_of (pts : list vec2) : list (vec2 * vec2) :=
  match pts with [] => [] | p :: r => combine pts (r ++ [p]) end.

Inductive step := Edge | Cross | Skip | DivZero.
(** core_compiled.pyx l.192-220, one iteration of the loop: [Edge] stands for the two early returns,
    [Cross] for inside = not inside. HUGE_VAL is never compared: xints is set whenever p1y <> p2y, and the two
    tests that use it are only evaluated then. The division by a zero squared length is an error (cdivision is
    off in this file). *)
Definition belongs_step (p p1 p2 : vec2) (tol : R) : step :=
  let v := sub2 p2 p1 in
  let u := sub2 p p1 in
  let length_squared := x2 v ^ 2 + y2 v ^ 2 in
  if Reqb length_squared 0 then DivZero else
  let t := dot2 u v / length_squared in
  let proj := V2 (x2 p1 + x2 v * t) (y2 p1 + y2 v * t) in
  if Rleb 0 t && Rleb t 1 && Rleb (sqrt ((x2 proj - x2 p) ^ 2 + (y2 proj - y2 p) ^ 2)) tol then Edge else
  let xints := (y2 p - y2 p1) * (x2 p2 - x2 p1) / (y2 p2 - y2 p1) + x2 p1 in
  if Rleb (Rmin (y2 p1) (y2 p2)) (y2 p) && Rleb (y2 p) (Rmax (y2 p1) (y2 p2)) &&
     Rleb (Rmin (x2 p1) (x2 p2)) (x2 p) && Rleb (x2 p) (Rmax (x2 p1) (x2 p2)) &&
     (Reqb (y2 p1) (y2 p2) || Reqb (x2 p) xints) then Edge else
  if Rltb (Rmin (y2 p1) (y2 p2)) (y2 p) && Rleb (y2 p) (Rmax (y2 p1) (y2 p2)) &&
     Rleb (x2 p) (Rmax (x2 p1) (x2 p2)) &&
     (Reqb (x2 p1) (x2 p2) || Rltb (x2 p) xints) then Cross else Skip.
Fixpoint belongs_loop (p : vec2) (include_edge_points : bool) (tol : R) (inside : bool) (es : list (vec2 * vec2)) : res bool :=
  match es with
  | [] => Ok inside
  | (p1, p2) :: es' =>
    match belongs_step p p1 p2 tol with
    | DivZero => Err ZeroDivisionError
    | Edge => Ok include_edge_points
    | Cross => belongs_loop p include_edge_points tol (negb inside) es'
    | Skip => belongs_loop p include_edge_points tol inside es'
    end
  end.
(** core_compiled.pyx l.184-220 *)
Definition polygon_point_belongs pts p include_edge_points tol : res bool :=
  belongs_loop p include_edge_points tol false (edges_of pts).

(** wires.py l.2917-2930 area: x1 = [x[-1]] + x[0:-1] *)
Definition roll_right {A} (d : A) (l : list A) : list A := match l with [] => [] | _ => last l d :: removelast l end.
Definition sumR (l : list R) : R := fold_right Rplus 0 l.
Definition prods (a b : list R) : list R := map (fun ij => fst ij * snd ij) (combine a b).
Definition polygon_area (pts : list vec2) : R :=
  if Nat.ltb (length pts) 3 then 0 else
  let x := map x2 pts in let y := map y2 pts in
  let x1 := roll_right 0 x in let y1 := roll_right 0 y in
  / 2 * Rabs (sumR (prods x y1) - sumR (prods y x1)).

(** wires.py l.2932-2959 center_of_mass; npy.roll(x, -1) *)
Definition roll_left {A} (l : list A) : list A := match l with [] => [] | a :: r => r ++ [a] end.
Definition zip_with (f : R -> R -> R) (a b : list R) : list R := map (fun ij => f (fst ij) (snd ij)) (combine a b).
Definition center_of_mass (pts : list vec2) : res vec2 :=
  match pts with
  | [] => Ok O2D
  | [p] => Ok p
  | [p; q] => Ok (mul2 (add2 p q) (/ 2))
  | _ =>
    let x := map x2 pts in let y := map y2 pts in
    let xi_xi1 := zip_with Rplus x (roll_left x) in
    let yi_yi1 := zip_with Rplus y (roll_left y) in
    let xi_yi1 := zip_with Rmult x (roll_left y) in
    let xi1_yi := zip_with Rmult (roll_left x) y in
    let d := zip_with Rminus xi_yi1 xi1_yi in
    let signed_area := / 2 * sumR d in
    if negb (isclose signed_area 0 (/ 10 ^ 12)) then
      Ok (V2 (sumR (zip_with Rmult xi_xi1 d) / 6 / signed_area) (sumR (zip_with Rmult yi_yi1 d) / 6 / signed_area))
    else Err NotImplementedError
  end.
(** wires.py l.2961-2970 barycenter *)
Definition polygon_barycenter (pts : list vec2) : res vec2 :=
  match pts with
  | [] => Err IndexError
  | p :: r => Ok (let s := fold_left add2 r p in V2 (x2 s / INR (length pts)) (y2 s / INR (length pts)))
  end.
(** wires.py l.2999-3013 second_moment_area *)
Definition second_moment_area (pts : list vec2) (point : vec2) : R * R * R :=
  let term acc e :=
    let '(ix, iy, ixy) := acc in
    let i := sub2 (fst e) point in let j := sub2 (snd e) point in
    let c := x2 i * y2 j - x2 j * y2 i in
    (ix + (y2 i ^ 2 + y2 i * y2 j + y2 j ^ 2) * c,
     iy + (x2 i ^ 2 + x2 i * x2 j + x2 j ^ 2) * c,
     ixy + (x2 i * y2 j + 2 * x2 i * y2 i + 2 * x2 j * y2 j + x2 j * y2 i) * c) in
  let '(ix, iy, ixy) := fold_left term (edges_of pts) (0, 0, 0) in
  if Rltb ix 0 then (- ix / 12, - iy / 12, - ixy / 24) else (ix / 12, iy / 12, ixy / 24).
(** wires.py l.2909-2915 __eq__ of two ClosedPolygon2D; point == point is componentwise (core_compiled.pyx) *)
Definition vec2_eqb a b := Reqb (x2 a) (x2 b) && Reqb (y2 a) (y2 b).
Definition polygon_eq (a b : list vec2) : bool := forallb (fun pq => vec2_eqb (fst pq) (snd pq)) (combine a b).
(** wires.py l.3053-3060 polygon_distance: min over the other polygon's points of the distance to points[0] *)
Definition polygon_distance (a b : list vec2) : res R :=
  match a, b with
  | [], _ => Err IndexError
  | _, [] => Err ValueError
  | p :: _, q :: r => Ok (fold_left Rmin (map (point_distance2 p) r) (point_distance2 p q))
  end.
(** wires.py l.3028-3046 rotation, translation *)
Definition polygon_rotation pts c a := map (fun p => rotation2 p c a) pts.
Definition polygon_translation pts o := map (fun p => translation2 p o) pts.

(** wires.py l.4041-4090: Triangle2D.area, incircle_radius, circumcircle_radius *)
Definition triangle2_area p1 p2 p3 := Rabs (cross2 (sub2 p2 p1) (sub2 p3 p1)) / 2.
Definition incircle_radius p1 p2 p3 : res R :=
  let s := point_distance2 p1 p2 + point_distance2 p1 p3 + point_distance2 p2 p3 in
  if Reqb s 0 then Err ZeroDivisionError else Ok (2 * triangle2_area p1 p2 p3 / s).
Definition circumcircle_radius p1 p2 p3 : res R :=
  let d := triangle2_area p1 p2 p3 * 4 in
  if Reqb d 0 then Err ZeroDivisionError
  else Ok (point_distance2 p1 p2 * point_distance2 p1 p3 * point_distance2 p2 p3 / d).
