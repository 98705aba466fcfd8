(** Voxelization of a list of triangles as a boolean matrix:
    /repo/volmdlr/discrete_representation_compiled.py l.31-73 (triangles_to_voxel_matrix), l.975-1284
    (_triangles_to_voxel_matrix), l.1286-1360 (pixel grids), l.1363-1376 (_check_triangle_equal_point),
    l.1381-1500 (min / max points).
    The Cython code indexes the matrices without bounds check; here an access outside a matrix is the value
    [Err IndexError], so that a theorem concluding [Ok _] says that no such access occurs. Doubles are reals. *)
From Verif.Model Require Import RBase Vec BBox Geometry FloodFill Sat.
Open Scope R_scope.

(** left fold of a function that may raise *)
Fixpoint foldM {A S} (f : S -> A -> res S) (l : list A) (s : S) : res S :=
  match l with
  | [] => Ok s
  | a :: l => do s' <- f s a; foldM f l s'
  end.

(** [matrix[c] = True] / [matrix[c]] *)
Definition write3 (m : mat3) (c : Z * Z * Z) : res mat3 :=
  if inb3 (dimx m) (dimy m) (dimz m) c
  then Ok {| dimx := dimx m; dimy := dimy m; dimz := dimz m; at3 := upd eqb3 (at3 m) c true |}
  else Err IndexError.
Definition read3 (m : mat3) (c : Z * Z * Z) : res bool :=
  if inb3 (dimx m) (dimy m) (dimz m) c then Ok (at3 m c) else Err IndexError.
Definition write2 (m : mat2) (c : Z * Z) : res mat2 :=
  if inb2 (rows m) (cols m) c
  then Ok {| rows := rows m; cols := cols m; at2 := upd eqb2 (at2 m) c true |}
  else Err IndexError.

(** cast(int, _round_to_digits(x, d)) *)
Definition rint (d : nat) (x : R) : Z := c_trunc (round_digits d x).

(** l.1286-1316 _get_min_pixel_grid_center, _get_max_pixel_grid_center. On an empty collection they return
    infinities and the later casts to int are undefined: here ValueError. *)
Definition pixel_grid_min (l : list vec2) : res vec2 :=
  match l with [] => Err ValueError | p :: l => Ok (V2 (lmin (x2 p) (map x2 l)) (lmin (y2 p) (map y2 l))) end.
Definition pixel_grid_max (l : list vec2) : res vec2 :=
  match l with [] => Err ValueError | p :: l => Ok (V2 (lmax (x2 p) (map x2 l)) (lmax (y2 p) (map y2 l))) end.

(** l.1321-1360 _pixel_centers_to_filled_pixel_matrix *)
Definition filled_pixel_matrix (pixels : list vec2) (ps : R) (shape : Z * Z) (mn : vec2) : res mat2 :=
  let '(sx, sy) := shape in
  let zeros := {| rows := sx + 2; cols := sy + 2; at2 := fun _ => false |} in
  do m <- foldM (fun m p => write2 m (rint 9 ((x2 p - x2 mn) / ps) + 1, rint 9 ((y2 p - y2 mn) / ps) + 1)%Z) pixels zeros;
  do outer <- flood_fill_2d_core m (0, 0)%Z true;
  Ok {| rows := sx + 2; cols := sy + 2; at2 := fun c => at2 m c || negb (at2 outer c) |}.

(** l.1363-1376 _check_triangle_equal_point *)
Definition eq3b (a b : vec3) : bool := Reqb (x3 a) (x3 b) && Reqb (y3 a) (y3 b) && Reqb (z3 a) (z3 b).
Definition has_equal_points (t : triangle3) : bool :=
  let '(a, b, c) := t in eq3b a b || eq3b a c || eq3b b c.

(** the guard of the three interface branches (l.1006-1010, l.1093-1097, l.1168-1172): [k] is the coordinate *)
Definition at_interface (k : vec3 -> R) (t : triangle3) (v : R) : bool :=
  let '(a, b, c) := t in
  (Reqb (round9 (k a)) (round9 (k b)) && Reqb (round9 (k b)) (round9 (k c)))
  && is_integer (round9 (round9 (k a) / v)).

(** the body of the three interface branches (l.1011-1090, l.1098-1165, l.1173-1248): [k] the coordinate
    orthogonal to the plane, [pr] the projection on it, [mk n i j] the matrix index with [n] along [k] *)
Definition fill_interface (k : vec3 -> R) (pr : vec3 -> vec2) (mk : Z -> Z -> Z -> Z * Z * Z)
    (t : triangle3) (v : R) (o : vec3) (m : mat3) : res mat3 :=
  let '(a, b, c) := t in
  let pixels := triangle_2d_to_pixels (pr a, pr b, pr c) v in
  do mn <- pixel_grid_min pixels;
  do mx <- pixel_grid_max pixels;
  let dim_x := c_round ((x2 mx - x2 mn) / v + 1) in
  let dim_y := c_round ((y2 mx - y2 mn) / v + 1) in
  do pm <- filled_pixel_matrix pixels v (dim_x, dim_y) mn;
  let n1 := rint 9 ((round9 (k a) - k o - v / 2) / v) in
  let n2 := rint 9 ((round9 (k a) - k o + v / 2) / v) in
  foldM (fun m d =>
    let '(dx, dy) := d in
    if at2 pm (dx + 1, dy + 1)%Z then
      let i := rint 6 (((x2 mn + IZR dx * v) - x2 (pr o)) / v) in
      let j := rint 6 (((y2 mn + IZR dy * v) - y2 (pr o)) / v) in
      do m' <- write3 m (mk n1 i j);
      write3 m' (mk n2 i j)
    else Ok m) (cells2 dim_x dim_y) m.

(** l.1250-1282: the other triangles *)
Definition triangle_min (t : triangle3) : vec3 :=
  let '(a, b, c) := t in V3 (min_of3 (x3 a) (x3 b) (x3 c)) (min_of3 (y3 a) (y3 b) (y3 c)) (min_of3 (z3 a) (z3 b) (z3 c)).
Definition triangle_max (t : triangle3) : vec3 :=
  let '(a, b, c) := t in V3 (max_of3 (x3 a) (x3 b) (x3 c)) (max_of3 (y3 a) (y3 b) (y3 c)) (max_of3 (z3 a) (z3 b) (z3 c)).
Definition fill_intersecting (t : triangle3) (v : R) (o : vec3) (m : mat3) : res mat3 :=
  foldM (fun m c =>
    let i := (rint 9 ((x3 c - x3 o) / v), rint 9 ((y3 c - y3 o) / v), rint 9 ((z3 c - z3 o) / v)) in
    do b <- read3 m i;
    if negb b then
      if sat_test t c (V3 (1 / 2 * v) (1 / 2 * v) (1 / 2 * v)) then write3 m i else Ok m
    else Ok m) (aabb_intersecting_boxes (triangle_min t) (triangle_max t) v) m.

(** l.978-1284 _triangles_to_voxel_matrix: the body of the loop, and the loop *)
Definition fill_triangle (v : R) (o : vec3) (m : mat3) (t : triangle3) : res mat3 :=
  if has_equal_points t then Ok m
  else if at_interface x3 t v then fill_interface x3 pr_yz (fun n i j => (n, i, j)) t v o m
  else if at_interface y3 t v then fill_interface y3 pr_xz (fun n i j => (i, n, j)) t v o m
  else if at_interface z3 t v then fill_interface z3 pr_xy (fun n i j => (i, j, n)) t v o m
  else fill_intersecting t v o m.

(** l.1460-1500 _triangles_min_max_points; no triangle: the infinities make int() raise in the caller *)
Definition corners (l : list triangle3) : list vec3 := flat_map (fun t => let '(a, b, c) := t in [a; b; c]) l.
Definition axis_min_max (k : vec3 -> R) (l : list triangle3) : res (R * R) :=
  match corners l with [] => Err ValueError | p :: l => Ok (lmin (k p) (map k l), lmax (k p) (map k l)) end.
(** l.47-58 the shape and origin of one axis ([x // y] is floor division) *)
Definition axis_shape (mn mx v : R) : Z := (floordiv mx v + 1 - floordiv mn v + 2)%Z.
Definition axis_origin (mn v : R) : R := round9 ((IZR (floordiv mn v) - 1 / 2) * v).

(** l.31-73 triangles_to_voxel_matrix: the matrix and the origin *)
Definition triangles_to_voxel_matrix (l : list triangle3) (v : R) : res (mat3 * vec3) :=
  do (mnx, mxx) <- axis_min_max x3 l;
  do (mny, mxy) <- axis_min_max y3 l;
  do (mnz, mxz) <- axis_min_max z3 l;
  let o := V3 (axis_origin mnx v) (axis_origin mny v) (axis_origin mnz v) in
  let zeros := {| dimx := axis_shape mnx mxx v; dimy := axis_shape mny mxy v; dimz := axis_shape mnz mxz v;
                  at3 := fun _ => false |} in
  do m <- foldM (fill_triangle v o) l zeros;
  Ok (m, o).
