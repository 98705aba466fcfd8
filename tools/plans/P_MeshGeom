(** C25, C74-C76: geometric operations of meshes (statements only). *)
From Coq Require Import Reals List.
From Verif.Model Require Import RBase Vec BBox Mesh MeshGeom.
From Verif.Spec Require Import MeshSpec MeshGeomSpec BBoxSpec.
From Verif.Proofs Require Import VecP BBoxP MeshP MeshGeomP.
Import ListNotations.
Open Scope R_scope.

(** ** C25 filters *)
@remove_degenerate_spec C25_remove_degenerate Keeps in order exactly the triangles whose squared sides all exceed tol; vertices untouched.
@remove_degenerate_zero C25_remove_degenerate_default
@remove_large_spec C25_remove_large
Example C25_nonvacuous : shape small_mesh [(V3 0 0 0, V3 (/ 10 ^ 3) 0 0, V3 0 (/ 10 ^ 3) 0)].
Proof. exact small_shape. Qed.

(** ** C74 area, resize, bounding box *)
@mesh_area_spec C74_area_is_sum_of_triangle_areas
@total_area_pos C74_area_nonnegative
@resize_shape C74_resize_scales_every_triangle
@resize_area C74_resize_area
@remove_degenerate_area C74_remove_degenerate_keeps_area
@concat_area C74_concatenation_adds_areas
@mesh_bbox_spec C74_bounding_box_contains_every_triangle
Example C74_nonvacuous : exists b, mesh_bounding_box small_mesh = Ok b.
Proof. eexists. reflexivity. Qed.

(** ** C75 exported triangles *)
@to_triangles3d_spec C182_exported_triangles to_triangles3d exports exactly the triangles whose sides are all longer than 1e-3.
@to_triangles3d_drops C75_all_proper_triangles_refuted A right triangle with legs of 1e-3 is lost.

(** ** C76 minimum distance of meshes *)
@minimum_distance_spec C76_minimum_distance_of_vertices The minimum over all pairs of vertices, for any correct nearest neighbour search.
Example C76_nonvacuous : nearest_query linear_query.
Proof. exact linear_query_nearest. Qed.
