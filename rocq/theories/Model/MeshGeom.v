(** Geometric operations of triangle meshes: /repo/volmdlr/display.py (MeshMixin, Mesh3D), rows are [vec3]
    (Mesh3D). Arrays of zero rows as in Mesh.v. *)
From Verif.Model Require Import RBase Vec BBox Mesh.
Open Scope R_scope.

(** numpy boolean masks: the rows whose mask is true, in order *)
Definition select {A} (l : list A) (mask : list bool) : list A :=
  map fst (filter snd (combine l mask)).

(** l.53-63 resize *)
Definition resize (m : mesh vec3) (k : R) : mesh vec3 :=
  {| mdim := mdim m; verts := map (fun v => mul3 v k) (verts m); tris := tris m |}.

(** l.79-111 remove_degenerate_triangles *)
Definition dist_sq (a b : vec3) : R := let d := sub3 a b in x3 d ^ 2 + y3 d ^ 2 + z3 d ^ 2.
Definition degenerate_mask (tol : R) (t : vec3 * vec3 * vec3) : bool :=
  let '(v0, v1, v2) := t in
  Rltb tol (dist_sq v0 v1) && Rltb tol (dist_sq v1 v2) && Rltb tol (dist_sq v0 v2).
Definition remove_degenerate_triangles (m : mesh vec3) (tol : R) : res (mesh vec3) :=
  do vs <- triangles_vertices m;
  Ok {| mdim := mdim m; verts := verts m; tris := select (tris m) (map (degenerate_mask tol) vs) |}.

(** l.478-490 compute_len_edges, l.509-527 remove_large_triangles *)
Definition len_edges (t : vec3 * vec3 * vec3) : list R :=
  let '(v0, v1, v2) := t in [norm3 (sub3 v0 v1); norm3 (sub3 v0 v2); norm3 (sub3 v1 v2)].
Definition compute_len_edges (m : mesh vec3) : res (list (list R)) :=
  do vs <- triangles_vertices m; Ok (map len_edges vs).
Definition remove_large_triangles (m : mesh vec3) (threshold : R) : res (mesh vec3) :=
  do ls <- compute_len_edges m;
  Ok {| mdim := 3; verts := verts m; tris := select (tris m) (map (forallb (fun l => Rltb l threshold)) ls) |}.

(** l.264-272 triangles_cross_products, l.422-430 Mesh3D.area *)
Definition tri_cross (t : vec3 * vec3 * vec3) : vec3 :=
  let '(v0, v1, v2) := t in cross3 (sub3 v1 v0) (sub3 v2 v1).
Definition mesh_area (m : mesh vec3) : res R :=
  do vs <- triangles_vertices m;
  Ok (fold_left Rplus (map (fun t => let c := tri_cross t in sqrt (x3 c ^ 2 + y3 c ^ 2 + z3 c ^ 2) / 2) vs) 0).

(** l.404-416 bounding_box *)
Definition mesh_bounding_box (m : mesh vec3) : res bbox := bbox_from_points (verts m).

(** l.834-852 to_triangles3d: the corners of the exported triangles *)
Definition to_triangles3d (m : mesh vec3) : res (list (vec3 * vec3 * vec3)) :=
  do m' <- remove_degenerate_triangles m (/ 10 ^ 6); triangles_vertices m'.

(** l.112-145 merge without mutualization (the part of [Mesh.merge] that does not compare rows) *)
Definition concat_mesh (m1 m2 : mesh vec3) : res (mesh vec3) :=
  if negb (mdim m1 =? mdim m2)%Z then Err ValueError
  else match verts m1, tris m1 with
  | [], _ | _, [] => Ok m2
  | _, _ =>
    match verts m2, tris m2 with
    | [], _ | _, [] => Ok m1
    | _, _ => Ok {| mdim := mdim m1; verts := verts m1 ++ verts m2;
                    tris := tris m1 ++ map (shift (Z.of_nat (length (verts m1)))) (tris m2) |}
    end
  end.

(** l.432-464 minimum_distance. scipy's cKDTree.query(p, k=1) is the oracle [query points p]: the index of
    a nearest point; the theorem assumes exactly that of it. *)
Section KDTree.
  Variable query : list vec3 -> vec3 -> nat.
  Definition neighbour_distances (l other : list vec3) : res (list R) :=
    mapM (fun v => match nth_error other (query other v) with
                   | Some w => Ok (norm3 (sub3 v w)) | None => Err IndexError end) l.
  Definition minimum_distance (m1 m2 : mesh vec3) : res R :=
    do d1 <- neighbour_distances (verts m1) (verts m2);
    do d2 <- neighbour_distances (verts m2) (verts m1);
    match d1, d2 with
    | a :: l1, b :: l2 => Ok (Rmin (lmin a l1) (lmin b l2))
    | _, _ => Err ValueError
    end.
End KDTree.
