(** C10-C14, C81-C83: octree based voxelizations (statements only). *)
From Verif.Model Require Import Base FloodFill VoxelMatrix Octree.
From Verif.Spec Require Import OctreeSpec.
From Verif.Proofs Require Import OctreeP OctreeP2 OctreeP3 OctreeP4 OctreeP5 OctreeP6 OctreeP7 OctreeExP.
From Coq Require Import Lia.
Open Scope Z_scope.

(** ** C10. [octree_centers] are the centers reported by the class. *)
Theorem C10_union_is_the_set_union {T} (a b : octree T) : valid_octree a -> valid_octree b -> o_size a = o_size b -> exists u, octree_union a b = Ok u /\ valid_octree u /\ o_size u = o_size a /\
  forall p, In p (octree_centers u) <-> In p (octree_centers a) \/ In p (octree_centers b).
Proof. exact (union_centers a b). Qed.
Print Assumptions C10_union_is_the_set_union.
Theorem C10_difference_is_the_set_difference {T} (a b : octree T) : valid_octree a -> valid_octree b -> o_size a = o_size b -> exists u, octree_difference a b = Ok u /\ valid_octree u /\ o_size u = o_size a /\
  forall p, In p (octree_centers u) <-> In p (octree_centers a) /\ ~ In p (octree_centers b).
Proof. exact (difference_centers a b). Qed.
Print Assumptions C10_difference_is_the_set_difference.
Theorem C10_intersection_is_the_set_intersection {T} (a b : octree T) : valid_octree a -> valid_octree b -> o_size a = o_size b -> exists u, octree_intersection a b = Ok u /\ valid_octree u /\ o_size u = o_size a /\
  forall p, In p (octree_centers u) <-> In p (octree_centers a) /\ In p (octree_centers b).
Proof. exact (intersection_centers a b). Qed.
Print Assumptions C10_intersection_is_the_set_intersection.
Theorem C10_symmetric_difference_is_the_set_symmetric_difference {T} (a b : octree T) : valid_octree a -> valid_octree b -> o_size a = o_size b -> exists u, octree_symmetric a b = Ok u /\ valid_octree u /\ o_size u = o_size a /\
  forall p, In p (octree_centers u) <-> (In p (octree_centers a) /\ ~ In p (octree_centers b)) \/ (In p (octree_centers b) /\ ~ In p (octree_centers a)).
Proof. exact (symmetric_centers a b). Qed.
Print Assumptions C10_symmetric_difference_is_the_set_symmetric_difference.
Theorem C10_different_sizes_are_rejected {T} (a b : octree T) : o_size a <> o_size b ->
  octree_union a b = Err ValueError /\ octree_difference a b = Err ValueError /\ octree_intersection a b = Err ValueError /\ octree_symmetric a b = Err ValueError.
Proof. exact (op_size_error a b). Qed.
Print Assumptions C10_different_sizes_are_rejected.
Theorem C10_a_shallower_tree_off_the_origin_is_rejected {T} (a b : octree T) : o_size a = o_size b ->
  ((o_depth a < o_depth b)%nat /\ o_center a <> origin3) \/ ((o_depth b < o_depth a)%nat /\ o_center b <> origin3) ->
  octree_union a b = Err NotImplementedError /\ octree_difference a b = Err NotImplementedError /\ octree_intersection a b = Err NotImplementedError /\ octree_symmetric a b = Err NotImplementedError.
Proof. exact (op_root_error a b). Qed.
Print Assumptions C10_a_shallower_tree_off_the_origin_is_rejected.
(** Two voxelizations whose root is not the origin: the result is moved (the class only creates roots at the origin). *)
Theorem C10_root_is_moved_to_the_origin : exists a b u : octree unit, o_size a = o_size b /\ o_depth a = o_depth b /\ o_center a = o_center b /\ octree_union a b = Ok u /\
  exists p, In p (octree_centers a) /\ ~ In p (octree_centers u).
Proof. exact union_moves_root. Qed.
Print Assumptions C10_root_is_moved_to_the_origin.
Example C10_nonvacuous : valid_octree ex_a /\ valid_octree ex_b /\ o_size ex_a = o_size ex_b /\ octree_centers ex_a = [(-1, -1, -1); (1, -1, 3)] /\ octree_centers ex_b = [(-1, -1, -1)].
Proof. split; [exact ex_a_valid|]. split; [exact ex_b_valid|]. repeat split; reflexivity. Qed.
Example C10_example : exists u, octree_difference ex_a ex_b = Ok u /\ octree_centers u = [(1, -1, 3)].
Proof. eexists. split; reflexivity. Qed.

(** ** C11 *)
Theorem C11_points_to_octree_to_points {T} (pts : list pt3) v : 0 < v -> Z.even v = true -> pts <> [] -> Forall (grid_center v) pts ->
  exists a : octree T, octree_from_points pts v = Ok a /\ valid_octree a /\ o_size a = v /\ forall p, In p (octree_centers a) <-> In p pts.
Proof. exact (from_points_spec pts v). Qed.
Print Assumptions C11_points_to_octree_to_points.
Example C11_nonvacuous : Forall (grid_center 2) [(3, -1, 5); (-7, 1, 1)].
Proof. constructor; [repeat split; [exists 1|exists (-1)|exists 2]; lia|]. constructor; [repeat split; [exists (-4)|exists 0|exists 0]; lia|constructor]. Qed.

(** ** C12: [steps] turns of the loop are enough. *)
Theorem C12_is_intersecting_decides_overlapping_voxels {T} (a b : octree T) : 0 < o_size a -> 0 < o_size b -> Z.even (o_size a) = true -> Z.even (o_size b) = true ->
  exists steps r, (forall fuel, (steps <= fuel)%nat -> octree_is_intersecting fuel a b = Ok r) /\
    (r = true <-> exists p q, In p (octree_centers a) /\ In q (octree_centers b) /\ cubes_meet (o_size a) p (o_size b) q).
Proof. exact (is_intersecting_spec a b). Qed.
Print Assumptions C12_is_intersecting_decides_overlapping_voxels.
Theorem C12_is_intersecting_decides_a_common_voxel {T} (a b : octree T) : valid_octree a -> valid_octree b -> o_size a = o_size b ->
  exists steps r, (forall fuel, (steps <= fuel)%nat -> octree_is_intersecting fuel a b = Ok r) /\ (r = true <-> exists p, In p (octree_centers a) /\ In p (octree_centers b)).
Proof. exact (is_intersecting_same_size a b). Qed.
Print Assumptions C12_is_intersecting_decides_a_common_voxel.
Example C12_example : octree_is_intersecting 100 ex_a ex_b = Ok true.
Proof. reflexivity. Qed.

(** ** C13 *)
Theorem C13_exported_cubes_partition_the_voxelization {T} (a : octree T) : 0 < o_size a -> Z.even (o_size a) = true ->
  let d := octree_non_homogeneous a in
  (forall s q, dict_has d s q -> octree_cube (o_size a) (o_depth a) (o_center a) s q) /\
  (forall p, In p (octree_centers a) -> exists s q, dict_has d s q /\ in_cube s q p /\ forall s' q', dict_has d s' q' -> in_cube s' q' p -> s' = s /\ q' = q) /\
  (forall s q p, dict_has d s q -> octree_voxel (o_size a) (o_depth a) (o_center a) p -> in_cube s q p -> In p (octree_centers a)).
Proof. exact (nonhom_export a). Qed.
Print Assumptions C13_exported_cubes_partition_the_voxelization.
Theorem C13_every_full_cube_lies_in_an_exported_cube {T} (a : octree T) s q : 0 < o_size a -> Z.even (o_size a) = true -> octree_cube (o_size a) (o_depth a) (o_center a) s q ->
  (forall p, octree_voxel (o_size a) (o_depth a) (o_center a) p -> in_cube s q p -> In p (octree_centers a)) ->
  exists s' q', dict_has (octree_non_homogeneous a) s' q' /\ s <= s' /\ forall p, in_cube s q p -> in_cube s' q' p.
Proof. exact (nonhom_maximal a s q). Qed.
Print Assumptions C13_every_full_cube_lies_in_an_exported_cube.
Example C13_example : octree_non_homogeneous (Octree (T := Z) (Kids (map (fun o => if eqb3 o (0, 0, 0) then leaf1 (1, 1, 1) (Leafs [7]) else if eqb3 o (1, 0, 1) then Kids (repeat (Leafs [3]) 8) else Leafs []) octants)) origin3 2 2 [])
  = [(2, [(-1, -1, -1)]); (4, [(2, -2, 2)])].
Proof. reflexivity. Qed.

(** ** C14. [voxel_entries a p]: the triangle indices stored for the voxel centered at p. *)
Theorem C14_union_keeps_the_indices_of_both {T} (a b : octree T) : valid_octree a -> valid_octree b -> o_size a = o_size b -> exists u, octree_union a b = Ok u /\ valid_octree u /\ o_size u = o_size a /\ o_triangles u = (o_triangles a ++ o_triangles b)%list /\
  forall p, voxel_entries u p = (voxel_entries a p ++ map (fun i => i + Z.of_nat (length (o_triangles a))) (voxel_entries b p))%list.
Proof. exact (union_entries a b). Qed.
Print Assumptions C14_union_keeps_the_indices_of_both.
Theorem C14_intersection_keeps_the_indices_of_both {T} (a b : octree T) : valid_octree a -> valid_octree b -> o_size a = o_size b -> exists u, octree_intersection a b = Ok u /\ valid_octree u /\ o_size u = o_size a /\ o_triangles u = (o_triangles a ++ o_triangles b)%list /\
  forall p, (voxel_entries a p = [] \/ voxel_entries b p = [] -> voxel_entries u p = []) /\
    (voxel_entries a p <> [] -> voxel_entries b p <> [] -> voxel_entries u p = (voxel_entries a p ++ map (fun i => i + Z.of_nat (length (o_triangles a))) (voxel_entries b p))%list).
Proof. exact (intersection_entries a b). Qed.
Print Assumptions C14_intersection_keeps_the_indices_of_both.
Theorem C14_difference_keeps_the_indices_of_the_first {T} (a b : octree T) : valid_octree a -> valid_octree b -> o_size a = o_size b -> exists u, octree_difference a b = Ok u /\ valid_octree u /\ o_size u = o_size a /\ o_triangles u = o_triangles a /\
  forall p, (voxel_entries b p = [] -> voxel_entries u p = voxel_entries a p) /\ (voxel_entries b p <> [] -> voxel_entries u p = []).
Proof. exact (difference_entries a b). Qed.
Print Assumptions C14_difference_keeps_the_indices_of_the_first.
Theorem C14_symmetric_difference_keeps_the_indices {T} (a b : octree T) : valid_octree a -> valid_octree b -> o_size a = o_size b -> exists u, octree_symmetric a b = Ok u /\ valid_octree u /\ o_size u = o_size a /\ o_triangles u = (o_triangles a ++ o_triangles b)%list /\
  forall p, (voxel_entries b p = [] -> voxel_entries u p = voxel_entries a p) /\
    (voxel_entries a p = [] -> voxel_entries u p = map (fun i => i + Z.of_nat (length (o_triangles a))) (voxel_entries b p)) /\
    (voxel_entries a p <> [] -> voxel_entries b p <> [] -> voxel_entries u p = []).
Proof. exact (symmetric_entries a b). Qed.
Print Assumptions C14_symmetric_difference_keeps_the_indices.
Theorem C14_union_entries_denote_the_same_triangles {T} (a b : octree T) u d : valid_octree a -> valid_octree b -> octree_union a b = Ok u ->
  (forall p i, In i (voxel_entries a p) -> 0 <= i < Z.of_nat (length (o_triangles a))) -> (forall p i, In i (voxel_entries b p) -> 0 <= i) ->
  forall p, map (fun i => nth (Z.to_nat i) (o_triangles u) d) (voxel_entries u p) =
    (map (fun i => nth (Z.to_nat i) (o_triangles a) d) (voxel_entries a p) ++ map (fun i => nth (Z.to_nat i) (o_triangles b) d) (voxel_entries b p))%list.
Proof. exact (union_triangles a b u d). Qed.
Print Assumptions C14_union_entries_denote_the_same_triangles.
Theorem C14_voxels_are_the_cells_with_entries {T} (a : octree T) p : valid_octree a -> In p (octree_centers a) <-> voxel_entries a p <> [].
Proof. exact (centers_entries a p). Qed.
Print Assumptions C14_voxels_are_the_cells_with_entries.
Example C14_example : voxel_entries ex_a (-1, -1, -1) = [0; 1] /\ exists u, octree_union ex_a ex_b = Ok u /\ voxel_entries u (-1, -1, -1) = [0; 1; 2] /\ o_triangles u = [10; 20; 30].
Proof. split; [reflexivity|]. eexists. split; [reflexivity|]. split; reflexivity. Qed.

(** ** C81 *)
Theorem C81_from_triangles_lists_the_triangles_of_each_voxel hit triangles v : 0 < v -> Z.even v = true -> monotone_hit hit -> local_hit hit -> triangles <> [] ->
  exists a, octree_from_triangles hit triangles v = Ok a /\ o_size a = v /\ o_triangles a = triangles /\ o_center a = origin3 /\ (1 <= o_depth a)%nat /\
    forall p, grid_center v p -> forall i, In i (voxel_entries a p) <-> exists t, nth_error triangles (Z.to_nat i) = Some t /\ 0 <= i /\ hit t p (v / 2) = true.
Proof. exact (from_triangles_spec hit triangles v). Qed.
Print Assumptions C81_from_triangles_lists_the_triangles_of_each_voxel.
Example C81_nonvacuous : exists hit, monotone_hit hit /\ local_hit hit /\ exists t c h, 0 < h /\ hit t c h = true.
Proof. exists box_hit. split; [exact box_hit_monotone|]. split; [exact box_hit_local|]. exists ((0, 0, 0), (4, 0, 0), (0, 4, 0)), (1, 1, 1), 1. split; [lia|reflexivity]. Qed.

(** ** C82 *)
Theorem C82_pairs_are_located_in_their_common_voxels {T} (a : octree T) th i j p : 0 < o_size a -> Z.even (o_size a) = true -> NoDup (voxel_entries a p) ->
  dict_has (octree_intersections a th) (i, j) p <->
    i < j /\ In i (voxel_entries a p) /\ In j (voxel_entries a p) /\ match th with Some t => t <> 0 -> i < t <= j | None => True end.
Proof. exact (intersections_spec a th i j p). Qed.
Print Assumptions C82_pairs_are_located_in_their_common_voxels.
Theorem C82_pairs_of_two_shells_are_the_pairs_with_a_common_voxel {T} (a b : octree T) u : valid_octree a -> valid_octree b -> octree_intersection a b = Ok u ->
  (forall p, NoDup (voxel_entries a p)) -> (forall p, NoDup (voxel_entries b p)) ->
  (forall p i, In i (voxel_entries a p) -> 0 <= i < Z.of_nat (length (o_triangles a))) -> (forall p i, In i (voxel_entries b p) -> 0 <= i) ->
  forall i j p, dict_has (octree_intersections u (Some (Z.of_nat (length (o_triangles a))))) (i, j) p <->
    In i (voxel_entries a p) /\ In (j - Z.of_nat (length (o_triangles a))) (voxel_entries b p).
Proof. exact (face_pairs a b u). Qed.
Print Assumptions C82_pairs_of_two_shells_are_the_pairs_with_a_common_voxel.
Example C82_example : exists u, octree_intersection ex_a ex_b = Ok u /\ octree_intersections u (Some 2) = [((0, 2), [(-1, -1, -1)]); ((1, 2), [(-1, -1, -1)])].
Proof. eexists. split; reflexivity. Qed.

(** ** C83 *)
Theorem C83_inner_growing_export_partitions_and_merges_deep_blocks {T} (a : octree T) layer th : 0 < o_size a -> Z.even (o_size a) = true ->
  let d := octree_inner_growing a layer th in
  (forall s q, dict_has d s q -> octree_cube (o_size a) (o_depth a) (o_center a) s q) /\
  (forall p, In p (octree_centers a) -> exists s q, dict_has d s q /\ in_cube s q p /\ forall s' q', dict_has d s' q' -> in_cube s' q' p -> s' = s /\ q' = q) /\
  (forall s q p, dict_has d s q -> octree_voxel (o_size a) (o_depth a) (o_center a) p -> in_cube s q p -> In p (octree_centers a)) /\
  (forall s q, dict_has d s q -> s = o_size a \/ s = 2 * o_size a) /\
  (forall q, octree_cube (o_size a) (o_depth a) (o_center a) (2 * o_size a) q ->
     (dict_has d (2 * o_size a) q <-> forall p, octree_voxel (o_size a) (o_depth a) (o_center a) p -> in_cube (2 * o_size a) q p -> In p (octree_centers a) /\ th <= layer p)).
Proof. exact (inner_export a layer th). Qed.
Print Assumptions C83_inner_growing_export_partitions_and_merges_deep_blocks.
Example C83_example : octree_inner_growing (Octree (T := Z) (Kids (map (fun o => if eqb3 o (0, 0, 0) then leaf1 (1, 1, 1) (Leafs [7]) else if eqb3 o (1, 0, 1) then Kids (repeat (Leafs [3]) 8) else Leafs []) octants)) origin3 2 2 []) (fun p => fst (fst p)) 1
  = [(2, [(-1, -1, -1)]); (4, [(2, -2, 2)])].
Proof. reflexivity. Qed.

