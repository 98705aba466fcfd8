(** C10-C14, C81-C83: octree based voxelizations (statements only). *)
From Verif.Model Require Import Base FloodFill VoxelMatrix Octree.
From Verif.Spec Require Import OctreeSpec.
From Verif.Proofs Require Import OctreeP OctreeP2 OctreeP3 OctreeP4 OctreeP5 OctreeP6 OctreeP7 OctreeExP.
From Coq Require Import Lia.
Open Scope Z_scope.

(** ** C10. [octree_centers] are the centers reported by the class. *)
@union_centers C10_union_is_the_set_union
@difference_centers C10_difference_is_the_set_difference
@intersection_centers C10_intersection_is_the_set_intersection
@symmetric_centers C10_symmetric_difference_is_the_set_symmetric_difference
@op_size_error C10_different_sizes_are_rejected
@op_root_error C10_a_shallower_tree_off_the_origin_is_rejected
(** Two voxelizations whose root is not the origin: the result is moved (the class only creates roots at the origin). *)
@union_moves_root C10_root_is_moved_to_the_origin
Example C10_nonvacuous : valid_octree ex_a /\ valid_octree ex_b /\ o_size ex_a = o_size ex_b /\ octree_centers ex_a = [(-1, -1, -1); (1, -1, 3)] /\ octree_centers ex_b = [(-1, -1, -1)].
Proof. split; [exact ex_a_valid|]. split; [exact ex_b_valid|]. repeat split; reflexivity. Qed.
Example C10_example : exists u, octree_difference ex_a ex_b = Ok u /\ octree_centers u = [(1, -1, 3)].
Proof. eexists. split; reflexivity. Qed.

(** ** C11 *)
@from_points_spec C11_points_to_octree_to_points
Example C11_nonvacuous : Forall (grid_center 2) [(3, -1, 5); (-7, 1, 1)].
Proof. constructor; [repeat split; [exists 1|exists (-1)|exists 2]; lia|]. constructor; [repeat split; [exists (-4)|exists 0|exists 0]; lia|constructor]. Qed.

(** ** C12: [steps] turns of the loop are enough. *)
@is_intersecting_spec C12_is_intersecting_decides_overlapping_voxels
@is_intersecting_same_size C12_is_intersecting_decides_a_common_voxel
Example C12_example : octree_is_intersecting 100 ex_a ex_b = Ok true.
Proof. reflexivity. Qed.

(** ** C13 *)
@nonhom_export C13_exported_cubes_partition_the_voxelization
@nonhom_maximal C13_every_full_cube_lies_in_an_exported_cube
Example C13_example : octree_non_homogeneous (Octree (T := Z) (Kids (map (fun o => if eqb3 o (0, 0, 0) then leaf1 (1, 1, 1) (Leafs [7]) else if eqb3 o (1, 0, 1) then Kids (repeat (Leafs [3]) 8) else Leafs []) octants)) origin3 2 2 [])
  = [(2, [(-1, -1, -1)]); (4, [(2, -2, 2)])].
Proof. reflexivity. Qed.

(** ** C14. [voxel_entries a p]: the triangle indices stored for the voxel centered at p. *)
@union_entries C14_union_keeps_the_indices_of_both
@intersection_entries C14_intersection_keeps_the_indices_of_both
@difference_entries C14_difference_keeps_the_indices_of_the_first
@symmetric_entries C14_symmetric_difference_keeps_the_indices
@union_triangles C14_union_entries_denote_the_same_triangles
@centers_entries C14_voxels_are_the_cells_with_entries
Example C14_example : voxel_entries ex_a (-1, -1, -1) = [0; 1] /\ exists u, octree_union ex_a ex_b = Ok u /\ voxel_entries u (-1, -1, -1) = [0; 1; 2] /\ o_triangles u = [10; 20; 30].
Proof. split; [reflexivity|]. eexists. split; [reflexivity|]. split; reflexivity. Qed.

(** ** C81 *)
@from_triangles_spec C81_from_triangles_lists_the_triangles_of_each_voxel
Example C81_nonvacuous : exists hit, monotone_hit hit /\ local_hit hit /\ exists t c h, 0 < h /\ hit t c h = true.
Proof. exists box_hit. split; [exact box_hit_monotone|]. split; [exact box_hit_local|]. exists ((0, 0, 0), (4, 0, 0), (0, 4, 0)), (1, 1, 1), 1. split; [lia|reflexivity]. Qed.

(** ** C82 *)
@intersections_spec C82_pairs_are_located_in_their_common_voxels
@face_pairs C82_pairs_of_two_shells_are_the_pairs_with_a_common_voxel
Example C82_example : exists u, octree_intersection ex_a ex_b = Ok u /\ octree_intersections u (Some 2) = [((0, 2), [(-1, -1, -1)]); ((1, 2), [(-1, -1, -1)])].
Proof. eexists. split; reflexivity. Qed.

(** ** C83 *)
@inner_export C83_inner_growing_export_partitions_and_merges_deep_blocks
Example C83_example : octree_inner_growing (Octree (T := Z) (Kids (map (fun o => if eqb3 o (0, 0, 0) then leaf1 (1, 1, 1) (Leafs [7]) else if eqb3 o (1, 0, 1) then Kids (repeat (Leafs [3]) 8) else Leafs []) octants)) origin3 2 2 []) (fun p => fst (fst p)) 1
  = [(2, [(-1, -1, -1)]); (4, [(2, -2, 2)])].
Proof. reflexivity. Qed.
