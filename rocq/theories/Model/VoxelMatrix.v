(** Matrix based and point based voxelizations / pixelizations:
    /repo/volmdlr/discrete_representation.py.
    Coordinates and element sizes are integers, in units of 1e-9 (the code rounds all
    coordinates to DECIMALS = 9 digits, l.42); binary float error is not modelled.
    The attribute [name] is not modelled. *)
From Verif.Model Require Import Base FloodFill.
Open Scope Z_scope.

(** 1.0 in nano units. *)
Definition one : Z := 1000000000.

(** numpy's rint(a / b) for b > 0: round half to even. *)
Definition rint_div (a b : Z) : Z :=
  let q := a / b in
  let r := a mod b in
  if 2 * r <? b then q
  else if b <? 2 * r then q + 1
  else if Z.even q then q else q + 1.

(** np.round(x, 6) of a coordinate x given in nano units. *)
Definition round6 (x : Z) : Z := 1000 * rint_div x 1000.
(** np.round(a / b, DECIMALS).astype(int): the quotient rounded to 9 digits, then truncated
    towards zero. *)
Definition round9_int (a b : Z) : Z := Z.quot (rint_div (one * a) b) one.
(** np.round(a / b).astype(int), Python's round(a / b). *)
Definition round_int (a b : Z) : Z := rint_div a b.

(** A 3D matrix based voxelization: matrix, min_grid_center, voxel_size (l.1234-1258). *)
Record vox3 := { vmat : mat3; vorg : Z * Z * Z; vsz : Z }.
(** A 2D matrix based pixelization (l.3615-3638). *)
Record pix2 := { pmat : mat2; porg : Z * Z; psz : Z }.

(** np.argwhere(matrix): the indices of the True cells, in row-major order. *)
Definition argwhere3 (m : mat3) : list (Z * Z * Z) :=
  filter (at3 m) (cells3 (dimx m) (dimy m) (dimz m)).
Definition argwhere2 (m : mat2) : list (Z * Z) :=
  filter (at2 m) (cells2 (rows m) (cols m)).

(** l.1261-1271 / l.3640-3650 [_get_element_centers]: set of the centers, here the list in
    index order; np.round(.., 9) is the identity on nano units. *)
Definition center3 (o : Z * Z * Z) (v : Z) (c : Z * Z * Z) : Z * Z * Z :=
  let '(ox, oy, oz) := o in let '(x, y, z) := c in (ox + x * v, oy + y * v, oz + z * v).
Definition center2 (o : Z * Z) (v : Z) (c : Z * Z) : Z * Z :=
  let '(ox, oy) := o in let '(x, y) := c in (ox + x * v, oy + y * v).
Definition voxel_centers (a : vox3) : list (Z * Z * Z) :=
  map (center3 (vorg a) (vsz a)) (argwhere3 (vmat a)).
Definition pixel_centers (a : pix2) : list (Z * Z) :=
  map (center2 (porg a) (psz a)) (argwhere2 (pmat a)).

(** np.array_equal on boolean matrices: same shape, same content. *)
Definition mat3_eqb (m n : mat3) : bool :=
  (dimx m =? dimx n) && (dimy m =? dimy n) && (dimz m =? dimz n) &&
  forallb (fun c => Bool.eqb (at3 m c) (at3 n c)) (cells3 (dimx m) (dimy m) (dimz m)).
Definition mat2_eqb (m n : mat2) : bool :=
  (rows m =? rows n) && (cols m =? cols n) &&
  forallb (fun c => Bool.eqb (at2 m c) (at2 n c)) (cells2 (rows m) (cols m)).

(** l.1273-1287 / l.3652-3666 [__eq__]. *)
Definition vox_eqb (a b : vox3) : bool :=
  (vsz a =? vsz b) && eqb3 (vorg a) (vorg b) && mat3_eqb (vmat a) (vmat b).
Definition pix_eqb (a b : pix2) : bool :=
  (psz a =? psz b) && eqb2 (porg a) (porg b) && mat2_eqb (pmat a) (pmat b).

(** l.1413-1421 / l.3813-3821 [inverse]. *)
Definition inverse3 (a : vox3) : vox3 :=
  {| vmat := {| dimx := dimx (vmat a); dimy := dimy (vmat a); dimz := dimz (vmat a);
                at3 := fun c => negb (at3 (vmat a) c) |};
     vorg := vorg a; vsz := vsz a |}.
Definition inverse2 (a : pix2) : pix2 :=
  {| pmat := {| rows := rows (pmat a); cols := cols (pmat a); at2 := fun c => negb (at2 (pmat a) c) |};
     porg := porg a; psz := psz a |}.

(** l.1423-1437 / l.3823-3837 [flood_fill]. *)
Definition flood_fill3 (a : vox3) (start : Z * Z * Z) (fill : bool) : res vox3 :=
  do m <- flood_fill_matrix_3d (vmat a) start fill;
  Ok {| vmat := m; vorg := vorg a; vsz := vsz a |}.
Definition flood_fill2 (a : pix2) (start : Z * Z) (fill : bool) : res pix2 :=
  do m <- flood_fill_matrix_2d (pmat a) start fill;
  Ok {| pmat := m; porg := porg a; psz := psz a |}.

(** l.1563-1580 / l.3908-3925 [_expand]: zeros of shape + 2, the matrix written at slice(1,-1). *)
Definition expand3 (a : vox3) : vox3 :=
  let m := vmat a in let '(ox, oy, oz) := vorg a in
  {| vmat := {| dimx := dimx m + 2; dimy := dimy m + 2; dimz := dimz m + 2;
                at3 := fun c => let '(x, y, z) := c in
                  if inb3 (dimx m) (dimy m) (dimz m) (x - 1, y - 1, z - 1)
                  then at3 m (x - 1, y - 1, z - 1) else false |};
     vorg := (ox - vsz a, oy - vsz a, oz - vsz a); vsz := vsz a |}.
Definition expand2 (a : pix2) : pix2 :=
  let m := pmat a in let '(ox, oy) := porg a in
  {| pmat := {| rows := rows m + 2; cols := cols m + 2;
                at2 := fun c => let '(x, y) := c in
                  if inb2 (rows m) (cols m) (x - 1, y - 1) then at2 m (x - 1, y - 1) else false |};
     porg := (ox - psz a, oy - psz a); psz := psz a |}.

(** l.1582-1597 / l.3927-3942 [_reduce]: the slice(1,-1) of every axis (empty when the axis has
    fewer than two cells). *)
Definition reduce3 (a : vox3) : vox3 :=
  let m := vmat a in let '(ox, oy, oz) := vorg a in
  {| vmat := {| dimx := Z.max 0 (dimx m - 2); dimy := Z.max 0 (dimy m - 2); dimz := Z.max 0 (dimz m - 2);
                at3 := fun c => let '(x, y, z) := c in at3 m (x + 1, y + 1, z + 1) |};
     vorg := (ox + vsz a, oy + vsz a, oz + vsz a); vsz := vsz a |}.
Definition reduce2 (a : pix2) : pix2 :=
  let m := pmat a in let '(ox, oy) := porg a in
  {| pmat := {| rows := Z.max 0 (rows m - 2); cols := Z.max 0 (cols m - 2);
                at2 := fun c => let '(x, y) := c in at2 m (x + 1, y + 1) |};
     porg := (ox + psz a, oy + psz a); psz := psz a |}.

(** l.1439-1452 / l.3839-3852 [_fill_outer_elements]. *)
Definition fill_outer3 (a : vox3) : res vox3 :=
  do b <- flood_fill3 (expand3 a) (0, 0, 0) true; Ok (reduce3 b).
Definition fill_outer2 (a : pix2) : res pix2 :=
  do b <- flood_fill2 (expand2 a) (0, 0) true; Ok (reduce2 b).

(** Minimum / maximum of a non empty list (np.min / np.max along an axis). *)
Definition lmin (d : Z) (l : list Z) : Z := fold_left Z.min l d.
Definition lmax (d : Z) (l : list Z) : Z := fold_left Z.max l d.

(** l.1646-1675 / l.3989-4017 [crop_matrix]. *)
Definition crop3 (a : vox3) : vox3 :=
  let m := vmat a in
  match argwhere3 m with
  | [] => a
  | (x, y, z) :: l =>
    let xs := map (fun c => fst (fst c)) l in
    let ys := map (fun c => snd (fst c)) l in
    let zs := map snd l in
    let mx := lmin x xs in let my := lmin y ys in let mz := lmin z zs in
    {| vmat := {| dimx := lmax x xs + 1 - mx; dimy := lmax y ys + 1 - my; dimz := lmax z zs + 1 - mz;
                  at3 := fun c => let '(x, y, z) := c in at3 m (x + mx, y + my, z + mz) |};
       vorg := center3 (vorg a) (vsz a) (mx, my, mz); vsz := vsz a |}
  end.
Definition crop2 (a : pix2) : pix2 :=
  let m := pmat a in
  match argwhere2 m with
  | [] => a
  | (x, y) :: l =>
    let xs := map fst l in
    let ys := map snd l in
    let mx := lmin x xs in let my := lmin y ys in
    {| pmat := {| rows := lmax x xs + 1 - mx; cols := lmax y ys + 1 - my;
                  at2 := fun c => let '(x, y) := c in at2 m (x + mx, y + my) |};
       porg := center2 (porg a) (psz a) (mx, my); psz := psz a |}
  end.

(** One axis of "new[s : s + n] = src" in numpy, for an axis of new of length N: the slice is
    clipped to [0, N]; the source axis must have the length of the clipped slice, or
    length 1 (broadcast). s >= 0 always holds for the callers. *)
Definition slice_len (N s n : Z) : Z := Z.max 0 (Z.min N (s + n) - Z.min N s).
Definition axis_ok (N s n : Z) : bool := (n =? slice_len N s n) || (n =? 1).

(** l.1628-1632: write src at (sx,sy,sz) in a zero matrix of shape (Nx,Ny,Nz). With an axis of
    length 1 the broadcast reads index 0. *)
Definition paste3 (Nx Ny Nz sx sy sz : Z) (src : mat3) : res mat3 :=
  if (Nx <? 0) || (Ny <? 0) || (Nz <? 0) then Err ValueError
  else if axis_ok Nx sx (dimx src) && axis_ok Ny sy (dimy src) && axis_ok Nz sz (dimz src) then
    Ok {| dimx := Nx; dimy := Ny; dimz := Nz;
          at3 := fun c => let '(x, y, z) := c in
            if inb3 (dimx src) (dimy src) (dimz src) (x - sx, y - sy, z - sz)
            then at3 src (x - sx, y - sy, z - sz) else false |}
  else Err ValueError.
Definition paste2 (Nx Ny sx sy : Z) (src : mat2) : res mat2 :=
  if (Nx <? 0) || (Ny <? 0) then Err ValueError
  else if axis_ok Nx sx (rows src) && axis_ok Ny sy (cols src) then
    Ok {| rows := Nx; cols := Ny;
          at2 := fun c => let '(x, y) := c in
            if inb2 (rows src) (cols src) (x - sx, y - sy)
            then at2 src (x - sx, y - sy) else false |}
  else Err ValueError.

(** One axis of l.1613-1626: [self_max = max_grid_center + 1] where max_grid_center (l.1311-1326)
    is rounded to 6 digits, [global_min], [new_shape], [self_start]. *)
Definition axis_max (o n v : Z) : Z := round6 (o + (n - 1) * v) + one.
Definition axis_gmin (o1 o2 : Z) : Z := Z.min o1 o2.
Definition axis_shape (o1 n1 o2 n2 v : Z) : Z :=
  round9_int (Z.max (axis_max o1 n1 v) (axis_max o2 n2 v) - axis_gmin o1 o2) v.
Definition axis_start (o1 o2 v : Z) : Z := round9_int (o1 - axis_gmin o1 o2) v.

(** l.1599-1644 / l.3944-3987 [_logical_operation]. *)
Definition logical3 (f : bool -> bool -> bool) (a b : vox3) : res vox3 :=
  if negb (vsz a =? vsz b) then Err ValueError
  else
    let v := vsz a in
    let '(ax, ay, az) := vorg a in let '(bx, by_, bz) := vorg b in
    let m := vmat a in let n := vmat b in
    let Nx := axis_shape ax (dimx m) bx (dimx n) v in
    let Ny := axis_shape ay (dimy m) by_ (dimy n) v in
    let Nz := axis_shape az (dimz m) bz (dimz n) v in
    do m' <- paste3 Nx Ny Nz (axis_start ax bx v) (axis_start ay by_ v) (axis_start az bz v) m;
    do n' <- paste3 Nx Ny Nz (axis_start bx ax v) (axis_start by_ ay v) (axis_start bz az v) n;
    Ok (crop3 {| vmat := {| dimx := Nx; dimy := Ny; dimz := Nz; at3 := fun c => f (at3 m' c) (at3 n' c) |};
                 vorg := (axis_gmin ax bx, axis_gmin ay by_, axis_gmin az bz); vsz := v |}).
Definition logical2 (f : bool -> bool -> bool) (a b : pix2) : res pix2 :=
  if negb (psz a =? psz b) then Err ValueError
  else
    let v := psz a in
    let '(ax, ay) := porg a in let '(bx, by_) := porg b in
    let m := pmat a in let n := pmat b in
    let Nx := axis_shape ax (rows m) bx (rows n) v in
    let Ny := axis_shape ay (cols m) by_ (cols n) v in
    do m' <- paste2 Nx Ny (axis_start ax bx v) (axis_start ay by_ v) m;
    do n' <- paste2 Nx Ny (axis_start bx ax v) (axis_start by_ ay v) n;
    Ok (crop2 {| pmat := {| rows := Nx; cols := Ny; at2 := fun c => f (at2 m' c) (at2 n' c) |};
                 porg := (axis_gmin ax bx, axis_gmin ay by_); psz := v |}).

(** l.1365-1411 / l.3765-3811. *)
Definition union3 := logical3 orb.
Definition difference3 := logical3 (fun a b => andb a (negb b)).
Definition intersection3 := logical3 andb.
Definition symmetric_difference3 := logical3 xorb.
Definition union2 := logical2 orb.
Definition difference2 := logical2 (fun a b => andb a (negb b)).
Definition intersection2 := logical2 andb.
Definition symmetric_difference2 := logical2 xorb.

(** l.1454-1465 / l.3854-3865 [_fill_enclosed_elements]. *)
Definition fill_enclosed3 (a : vox3) : res vox3 :=
  do o <- fill_outer3 a; union3 a (inverse3 o).
Definition fill_enclosed2 (a : pix2) : res pix2 :=
  do o <- fill_outer2 a; union2 a (inverse2 o).

(** l.337-346 [is_hollow]. *)
Definition is_hollow3 (a : vox3) : res bool :=
  do e <- fill_enclosed3 a; Ok (vox_eqb e a).
Definition is_hollow2 (a : pix2) : res bool :=
  do e <- fill_enclosed2 a; Ok (pix_eqb e a).

(** l.262-275 [interference] (as the pair numerator, denominator) and l.277-287 [is_intersecting]. *)
Definition is_intersecting3 (a b : vox3) : res bool :=
  do i <- intersection3 a b; Ok (negb (Nat.eqb (length (argwhere3 (vmat i))) 0)).

(** Point based voxelizations: the Python set of centers as a list, and the voxel size. *)
Record pts3 := { pcs : list (Z * Z * Z); pvs : Z }.

(** l.788-825 [min_grid_center], [max_grid_center], for a non empty set. *)
Definition pmin3 (p : Z * Z * Z) (l : list (Z * Z * Z)) : Z * Z * Z :=
  let '(x, y, z) := p in
  (lmin x (map (fun c => fst (fst c)) l), lmin y (map (fun c => snd (fst c)) l), lmin z (map snd l)).
Definition pmax3 (p : Z * Z * Z) (l : list (Z * Z * Z)) : Z * Z * Z :=
  let '(x, y, z) := p in
  (lmax x (map (fun c => fst (fst c)) l), lmax y (map (fun c => snd (fst c)) l), lmax z (map snd l)).

Definition mem3 (c : Z * Z * Z) (l : list (Z * Z * Z)) : bool := existsb (eqb3 c) l.

(** l.1050-1069 [to_matrix_based_voxelization]. For an empty set the minimum is +inf and
    round(-inf) raises OverflowError. An index outside the matrix raises IndexError
    (negative indices do not occur: every coordinate is at least the minimum). *)
Definition to_matrix (a : pts3) : res vox3 :=
  match pcs a with
  | [] => Err OverflowError
  | p :: l =>
    let '(mx, my, mz) := pmin3 p l in
    let '(Mx, My, Mz) := pmax3 p l in
    let v := pvs a in
    let dx := round_int (Mx - mx + v) v in
    let dy := round_int (My - my + v) v in
    let dz := round_int (Mz - mz + v) v in
    let idx := map (fun c : Z * Z * Z => let '(x, y, z) := c in
                     (round_int (x - mx) v, round_int (y - my) v, round_int (z - mz) v)) (p :: l) in
    if forallb (inb3 dx dy dz) idx then
      Ok {| vmat := {| dimx := dx; dimy := dy; dimz := dz; at3 := fun c => mem3 c idx |};
            vorg := (mx, my, mz); vsz := v |}
    else Err IndexError
  end.
(** l.1499-1506 / l.846-868 [to_point_based_voxelization]. *)
Definition to_points (a : vox3) : pts3 := {| pcs := voxel_centers a; pvs := vsz a |}.

(** l.460-470 [Voxelization.bounding_box] of a point based voxelization, l.1124-1143
    [_point_to_local_grid_index]; BoundingBox.point_belongs (core.py l.762-779) accepts a
    point up to 1e-6 = 1000 nano outside. *)
Definition point_to_index (a : pts3) (q : Z * Z * Z) : res (Z * Z * Z) :=
  match pcs a with
  | [] => Err ValueError
  | p :: l =>
    let '(mx, my, mz) := pmin3 p l in
    let '(Mx, My, Mz) := pmax3 p l in
    let v := pvs a in
    let '(x, y, z) := q in
    let ok lo hi t := (lo - v - 1000 <=? t) && (t <=? hi + v + 1000) in
    if ok mx Mx x && ok my My y && ok mz Mz z then
      Ok ((x - (mx - v)) / v, (y - (my - v)) / v, (z - (mz - v)) / v)
    else Err ValueError
  end.
(** l.942-958 [PointBasedVoxelization.flood_fill]. *)
Definition flood_fill_points (a : pts3) (start : Z * Z * Z) (fill : bool) : res pts3 :=
  do i <- point_to_index a start;
  do m <- to_matrix a;
  do r <- flood_fill3 m i fill;
  Ok (to_points r).

(** l.930-940, l.960-977 of PointBasedVoxelization. *)
Definition inverse_points (a : pts3) : res pts3 := do m <- to_matrix a; Ok (to_points (inverse3 m)).
Definition fill_outer_points (a : pts3) : res pts3 :=
  do m <- to_matrix a; do r <- fill_outer3 m; Ok (to_points r).
Definition fill_enclosed_points (a : pts3) : res pts3 :=
  do m <- to_matrix a; do r <- fill_enclosed3 m; Ok (to_points r).

(** l.870-928 boolean operations of PointBasedVoxelization (Python set operations). *)
Definition points_op (f : list (Z*Z*Z) -> list (Z*Z*Z) -> list (Z*Z*Z)) (a b : pts3) : res pts3 :=
  if negb (pvs a =? pvs b) then Err ValueError else Ok {| pcs := f (pcs a) (pcs b); pvs := pvs a |}.

(** l.1703-1748 [_layers_matrix], one cell: the while loop growing count, with fuel. *)
Definition cube_full (m : mat3) (c : Z * Z * Z) (n : Z) : bool :=
  let '(x, y, z) := c in
  forallb (fun i => forallb (fun j => forallb (fun k => at3 m (i, j, k)) (zrange (z - n) (z + n + 1)))
                            (zrange (y - n) (y + n + 1))) (zrange (x - n) (x + n + 1)).
Fixpoint layers_loop (fuel : nat) (m : mat3) (c : Z * Z * Z) (count : Z) : res Z :=
  match fuel with
  | O => Err OutOfFuel
  | S f =>
    let '(x, y, z) := c in
    if (0 <=? x - count) && (x + count <? dimx m) && (0 <=? y - count) && (y + count <? dimy m)
       && (0 <=? z - count) && (z + count <? dimz m)
    then if cube_full m c count then layers_loop f m c (count + 1) else Ok (count - 1)
    else Ok (count - 1)
  end.
Definition layers_cell (m : mat3) (c : Z * Z * Z) : res Z :=
  if negb (at3 m c) then Ok 0 else layers_loop (Z.to_nat (dimx m + 2)) m c 1.

(** l.1002-1018 [translation] with l.1177-1204 [_voxels_intersecting_voxels], offset in nano units.
    (i + 0.5) * v rounded to 9 digits: rint of (2 i + 1) v / 2. np.unique/set: duplicates removed. *)
Definition dedup3 (l : list (Z * Z * Z)) : list (Z * Z * Z) :=
  fold_right (fun c acc => if mem3 c acc then acc else c :: acc) [] l.
Definition grid_center (v i : Z) : Z := rint_div ((2 * i + 1) * v) 2.
Definition voxels_intersecting (l : list (Z * Z * Z)) (v : Z) : list (Z * Z * Z) :=
  dedup3 (map (fun c : Z * Z * Z => let '(i, j, k) := c in (grid_center v i, grid_center v j, grid_center v k))
    (dedup3 (map (fun c : Z * Z * Z => let '(x, y, z) := c in (x / v, y / v, z / v)) l))).
Definition translation (a : pts3) (d : Z * Z * Z) : pts3 :=
  let '(dx, dy, dz) := d in
  {| pcs := voxels_intersecting
              (map (fun c : Z * Z * Z => let '(x, y, z) := c in (x + dx, y + dy, z + dz)) (pcs a)) (pvs a);
     pvs := pvs a |}.
