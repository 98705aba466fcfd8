(** The grids of points put in faces before they are triangulated: /repo/volmdlr/utils/parametric.py l.277-319, faces.py l.391-439 and
    2961-2987 (3231-3253 is the same), surfaces.py l.229-279 and wires.py l.3551-3599.
    Coordinates are of any type with a comparison; the polygons are given by their bounding rectangle and their point_belongs. *)
From Coq Require Import List Bool Arith.
From Verif.Model Require Import Base.
Import ListNotations.
Open Scope nat_scope.

Section FaceGrid.
Context {T : Type} (lt : T -> T -> bool).
Notation point := (T * T)%type.

(** bisect_left and bisect_right of Python (Lib/bisect.py): [fuel] bounds the number of halvings *)
Fixpoint bisect_left_loop (fuel : nat) (a : list T) (x : T) (lo hi : nat) : nat :=
  match fuel with
  | O => lo
  | S fuel => if lo <? hi then
                let mid := (lo + hi) / 2 in
                if match nth_error a mid with Some y => lt y x | None => false end
                then bisect_left_loop fuel a x (mid + 1) hi else bisect_left_loop fuel a x lo mid
              else lo
  end.
Fixpoint bisect_right_loop (fuel : nat) (a : list T) (x : T) (lo hi : nat) : nat :=
  match fuel with
  | O => lo
  | S fuel => if lo <? hi then
                let mid := (lo + hi) / 2 in
                if match nth_error a mid with Some y => lt x y | None => false end
                then bisect_right_loop fuel a x lo mid else bisect_right_loop fuel a x (mid + 1) hi
              else lo
  end.
(** parametric.py l.277-302 *)
Definition array_range_search (x : list T) (xmin xmax : T) : list nat :=
  let left := bisect_left_loop (length x) x xmin 0 (length x) in
  let right := bisect_right_loop (length x) x xmax 0 (length x) in
  seq left (right - left).

(** a polygon: bounding_rectangle.bounds() and point_belongs(p, include_edge_points=True) *)
Record region := Region { x_min : T; x_max : T; y_min : T; y_max : T; belongs : point -> bool }.
(** parametric.py l.305-319; [grid_point_index] is the dictionary. The indexes to delete, with repetitions; index 0 is falsy (l.314) *)
Definition indexes_of (points : list point) (u v : list T) (grid_point_index : nat * nat -> option nat) (r : region) : list nat :=
  flat_map (fun i => flat_map (fun j =>
      match grid_point_index (i, j) with
      | None | Some O => []
      | Some k => match nth_error points k with Some p => if belongs r p then [k] else [] | None => [] end
      end) (array_range_search v (y_min r) (y_max r))) (array_range_search u (x_min r) (x_max r)).
(** np.delete(points, indexes, axis=0) *)
Definition delete_at {A} (l : list A) (indexes : list nat) : list A :=
  map snd (filter (fun ka => negb (existsb (Nat.eqb (fst ka)) indexes)) (combine (seq 0 (length l)) l)).
Definition update_face_grid_points_with_inner_polygons (inner_polygons : list region) (points : list point) (u v : list T)
    (grid_point_index : nat * nat -> option nat) : list point :=
  delete_at points (flat_map (indexes_of points u v grid_point_index) inner_polygons).

(** faces.py l.400-416 ([keep i j] always true) and l.2969-2987, 3238-3253 (one point out of two): the nodes row by row, and the
    index of each; [inside_outer] is outer_polygon.points_in_polygon and [vertex] membership in the set of its points (l.432-439) *)
Definition grid_nodes (keep : nat -> nat -> bool) (nu nv : nat) : list (nat * nat) :=
  flat_map (fun j => flat_map (fun i => if keep i j then [(i, j)] else []) (seq 0 nu)) (seq 0 nv).
Fixpoint position (ij : nat * nat) (l : list (nat * nat)) : option nat :=
  match l with
  | [] => None
  | kl :: l => if (fst ij =? fst kl) && (snd ij =? snd kl) then Some 0
               else match position ij l with Some n => Some (S n) | None => None end
  end.
Definition face_grid_points (d : T) (keep : nat -> nat -> bool) (u v : list T) (inner_polygons : list region)
    (inside_outer vertex : point -> bool) : list point :=
  match u, v with
  | [], _ | _, [] => []
  | _, _ =>
    let nodes := grid_nodes keep (length u) (length v) in
    let points := map (fun ij => (nth (fst ij) u d, nth (snd ij) v d)) nodes in
    let points := match inner_polygons with
                  | [] => points
                  | _ => update_face_grid_points_with_inner_polygons inner_polygons points u v (fun ij => position ij nodes)
                  end in
    filter (fun p => negb (vertex p)) (filter inside_outer points)
  end.

(** wires.py l.3568-3599 ClosedPolygon2D.grid_triangulation_points, x and y being the two linspaces, [ny] number_points_y: the points
    in boustrophedon order, and the dictionary of those kept *)
Definition snake (x y : list T) : list point :=
  flat_map (fun iy => map (fun xi => (xi, snd iy)) (if Nat.even (fst iy) then x else rev x)) (combine (seq 0 (length y)) y).
Definition grid_triangulation_points (x y : list T) (ny : nat) (inside vertex : point -> bool) : list ((nat * nat) * point) :=
  map (fun ip => ((fst ip / (ny + 2), fst ip mod (ny + 2)), snd ip))
      (filter (fun ip => inside (snd ip) && negb (vertex (snd ip))) (combine (seq 0 (length (snake x y))) (snake x y))).
(** surfaces.py l.266-277, the grid points inside a hole are removed: [grid] is both points_grid and grid_point_index *)
Definition same_key (ij : nat * nat) (e : (nat * nat) * point) : bool := (fst ij =? fst (fst e)) && (snd ij =? snd (fst e)).
Definition remove_hole (x y : list T) (grid : list ((nat * nat) * point)) (r : region) : list ((nat * nat) * point) :=
  fold_left (fun grid ij =>
      match find (same_key ij) grid with
      | None => grid
      | Some e => if belongs r (snd e) then filter (fun e' => negb (same_key ij e')) grid else grid
      end)
    (flat_map (fun i => map (pair i) (array_range_search y (y_min r) (y_max r))) (array_range_search x (x_min r) (x_max r))) grid.
Definition surface_grid_points (x y : list T) (ny : nat) (inside vertex : point -> bool) (holes : list region) : list point :=
  map snd (fold_left (remove_hole x y) holes (grid_triangulation_points x y ny inside vertex)).
End FaceGrid.
Arguments Region {T}.
