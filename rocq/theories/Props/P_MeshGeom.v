(** C25, C74-C76: geometric operations of meshes (statements only). *)
From Coq Require Import Reals List.
From Verif.Model Require Import RBase Vec BBox Mesh MeshGeom.
From Verif.Spec Require Import MeshSpec MeshGeomSpec BBoxSpec.
From Verif.Proofs Require Import VecP BBoxP MeshP MeshGeomP.
Import ListNotations.
Open Scope R_scope.

(** ** C25 filters *)
(** Keeps in order exactly the triangles whose squared sides all exceed tol; vertices untouched. *)
Theorem C25_remove_degenerate (m : mesh vec3) s tol : shape m s ->
  exists m', remove_degenerate_triangles m tol = Ok m' /\ mdim m' = mdim m /\ verts m' = verts m /\
    kept (all_sides (fun a b => tol < point_distance3 a b ^ 2)) (tris m) s (tris m') /\
    exists s', shape m' s' /\ kept (all_sides (fun a b => tol < point_distance3 a b ^ 2)) s s s'.
Proof. exact (remove_degenerate_spec m s tol). Qed.
Print Assumptions C25_remove_degenerate.
Theorem C25_remove_degenerate_default (m : mesh vec3) s : shape m s ->
  exists m', remove_degenerate_triangles m 0 = Ok m' /\ mdim m' = mdim m /\ verts m' = verts m /\
    kept (all_sides (fun a b => a <> b)) (tris m) s (tris m').
Proof. exact (remove_degenerate_zero m s). Qed.
Print Assumptions C25_remove_degenerate_default.
Theorem C25_remove_large (m : mesh vec3) s t : shape m s ->
  exists m', remove_large_triangles m t = Ok m' /\ mdim m' = 3%Z /\ verts m' = verts m /\
    kept (all_sides (fun a b => point_distance3 a b < t)) (tris m) s (tris m') /\
    exists s', shape m' s' /\ kept (all_sides (fun a b => point_distance3 a b < t)) s s s'.
Proof. exact (remove_large_spec m s t). Qed.
Print Assumptions C25_remove_large.
Example C25_nonvacuous : shape small_mesh [(V3 0 0 0, V3 (/ 10 ^ 3) 0 0, V3 0 (/ 10 ^ 3) 0)].
Proof. exact small_shape. Qed.

(** ** C74 area, resize, bounding box *)
Theorem C74_area_is_sum_of_triangle_areas (m : mesh vec3) s : shape m s -> mesh_area m = Ok (total_area s).
Proof. exact (mesh_area_spec m s). Qed.
Print Assumptions C74_area_is_sum_of_triangle_areas.
Theorem C74_area_nonnegative s : 0 <= total_area s.
Proof. exact (total_area_pos s). Qed.
Print Assumptions C74_area_nonnegative.
Theorem C74_resize_scales_every_triangle (m : mesh vec3) s k : shape m s -> shape (resize m k) (map (scale_tri k) s) /\ tris (resize m k) = tris m /\ verts (resize m k) = map (fun v => mul3 v k) (verts m).
Proof. exact (resize_shape m s k). Qed.
Print Assumptions C74_resize_scales_every_triangle.
Theorem C74_resize_area (m : mesh vec3) s k : shape m s -> mesh_area (resize m k) = Ok (k ^ 2 * total_area s).
Proof. exact (resize_area m s k). Qed.
Print Assumptions C74_resize_area.
Theorem C74_remove_degenerate_keeps_area (m : mesh vec3) s : shape m s ->
  exists m', remove_degenerate_triangles m 0 = Ok m' /\ mesh_area m' = mesh_area m.
Proof. exact (remove_degenerate_area m s). Qed.
Print Assumptions C74_remove_degenerate_keeps_area.
Theorem C74_concatenation_adds_areas (m1 m2 m : mesh vec3) s1 s2 : shape m1 s1 -> shape m2 s2 -> concat_mesh m1 m2 = Ok m ->
  mesh_area m = Ok (total_area s1 + total_area s2).
Proof. exact (concat_area m1 m2 m s1 s2). Qed.
Print Assumptions C74_concatenation_adds_areas.
Theorem C74_bounding_box_contains_every_triangle (m : mesh vec3) s b : shape m s -> mesh_bounding_box m = Ok b ->
  forall v0 v1 v2, In (v0, v1, v2) s -> in_box b v0 /\ in_box b v1 /\ in_box b v2.
Proof. exact (mesh_bbox_spec m s b). Qed.
Print Assumptions C74_bounding_box_contains_every_triangle.
Example C74_nonvacuous : exists b, mesh_bounding_box small_mesh = Ok b.
Proof. eexists. reflexivity. Qed.

(** ** C75 exported triangles *)
(** to_triangles3d exports exactly the triangles whose sides are all longer than 1e-3. *)
Theorem C182_exported_triangles (m : mesh vec3) s : shape m s ->
  exists r, to_triangles3d m = Ok r /\ kept (all_sides (fun a b => / 10 ^ 6 < point_distance3 a b ^ 2)) s s r.
Proof. exact (to_triangles3d_spec m s). Qed.
Print Assumptions C182_exported_triangles.
(** A right triangle with legs of 1e-3 is lost. *)
Theorem C75_all_proper_triangles_refuted : exists (m : mesh vec3) s, shape m s /\ 0 < total_area s /\ to_triangles3d m = Ok [].
Proof. exact to_triangles3d_drops. Qed.
Print Assumptions C75_all_proper_triangles_refuted.

(** ** C76 minimum distance of meshes *)
(** The minimum over all pairs of vertices, for any correct nearest neighbour search. *)
Theorem C76_minimum_distance_of_vertices query (m1 m2 : mesh vec3) : nearest_query query -> verts m1 <> [] -> verts m2 <> [] ->
  exists d, minimum_distance query m1 m2 = Ok d /\
    min_dist point_distance3 (fun p => In p (verts m1)) (fun q => In q (verts m2)) d.
Proof. exact (minimum_distance_spec query m1 m2). Qed.
Print Assumptions C76_minimum_distance_of_vertices.
Example C76_nonvacuous : nearest_query linear_query.
Proof. exact linear_query_nearest. Qed.

