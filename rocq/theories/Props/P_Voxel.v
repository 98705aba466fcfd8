(** Property theorems: voxels and pixels (C01-C09, C15, C16, C59, C60). *)
From Verif.Model Require Import Base FloodFill VoxelMatrix VoxelDisplay.
From Verif.Spec Require Import GridSpec VoxelSpec VoxelDisplaySpec.
From Verif.Proofs Require Import FloodFillP OuterP VoxelP PixelP VoxelOpsP VoxelDisplayP TranslationP VoxelRefP.
From Coq Require Import Lia.
Open Scope Z_scope.

(** ** C01 flood fill *)
Theorem C01_flood_fill_2d m start fill : In2 (rows m) (cols m) start ->
  exists r, flood_fill_matrix_2d m start fill = Ok r /\ rows r = rows m /\ cols r = cols m /\
    (forall c, at2 r c = fill <-> at2 m c = fill \/
       path adj2 (fun d => In2 (rows m) (cols m) d /\ at2 m d = at2 m start) start c).
Proof. exact (flood2_correct m start fill). Qed.
Print Assumptions C01_flood_fill_2d.
Theorem C01_flood_fill_3d m start fill : In3 (dimx m) (dimy m) (dimz m) start ->
  exists r, flood_fill_matrix_3d m start fill = Ok r /\
    dimx r = dimx m /\ dimy r = dimy m /\ dimz r = dimz m /\
    (forall c, at3 r c = fill <-> at3 m c = fill \/
       path adj3 (fun d => In3 (dimx m) (dimy m) (dimz m) d /\ at3 m d = at3 m start) start c).
Proof. exact (flood3_correct m start fill). Qed.
Print Assumptions C01_flood_fill_3d.
Theorem C01_flood_fill_out_of_range_2d m start fill : ~ In2 (rows m) (cols m) start ->
  flood_fill_matrix_2d m start fill = Err IndexError.
Proof. exact (flood2_out m start fill). Qed.
Print Assumptions C01_flood_fill_out_of_range_2d.
Theorem C01_flood_fill_out_of_range_3d m start fill : ~ In3 (dimx m) (dimy m) (dimz m) start ->
  flood_fill_matrix_3d m start fill = Err IndexError.
Proof. exact (flood3_out m start fill). Qed.
Print Assumptions C01_flood_fill_out_of_range_3d.
Example C01_nonvacuous : In3 3 3 3 (1, 1, 1).
Proof. unfold In3; cbn; lia. Qed.

(** ** C02 fill_outer *)
Theorem C02_fill_outer_voxels a : wf3 (vmat a) ->
  exists b, fill_outer3 a = Ok b /\ dimx (vmat b) = dimx (vmat a) /\ dimy (vmat b) = dimy (vmat a)
    /\ dimz (vmat b) = dimz (vmat a) /\ vorg b = vorg a /\ vsz b = vsz a /\
    forall c, cell3 (vmat a) c -> (at3 (vmat b) c = true <-> at3 (vmat a) c = true \/ open3 (vmat a) c).
Proof. exact (fill_outer3_correct a). Qed.
Print Assumptions C02_fill_outer_voxels.
Theorem C02_fill_outer_pixels a : wf2 (pmat a) ->
  exists b, fill_outer2 a = Ok b /\ rows (pmat b) = rows (pmat a) /\ cols (pmat b) = cols (pmat a)
    /\ porg b = porg a /\ psz b = psz a /\
    forall c, cell2 (pmat a) c -> (at2 (pmat b) c = true <-> at2 (pmat a) c = true \/ open2 (pmat a) c).
Proof. exact (fill_outer2_correct a). Qed.
Print Assumptions C02_fill_outer_pixels.
Example C02_nonvacuous : wf3 (vmat (shell27 100000000)).
Proof. apply shell27_valid. Qed.

(** ** C03 fill_enclosed *)
Theorem C03_fill_enclosed_voxels a : valid3 a -> size_ok (vsz a) ->
  exists r, fill_enclosed3 a = Ok r /\ vsz r = vsz a /\ (wf3 (vmat r) /\ lattice3 (vsz a) (vorg a) (vorg r)) /\
    (forall p, center_of3 r p -> tight3 (vmat r)) /\
    forall p, center_of3 r p <-> center_of3 a p \/ cavity_center3 a p.
Proof. exact (fill_enclosed3_ok a). Qed.
Print Assumptions C03_fill_enclosed_voxels.
Theorem C03_fill_enclosed_pixels a : valid2 a -> size_ok (psz a) ->
  exists r, fill_enclosed2 a = Ok r /\ psz r = psz a /\ (wf2 (pmat r) /\ lattice2 (psz a) (porg a) (porg r)) /\
    (forall p, center_of2 r p -> tight2 (pmat r)) /\
    forall p, center_of2 r p <-> center_of2 a p \/ cavity_center2 a p.
Proof. exact (fill_enclosed2_ok a). Qed.
Print Assumptions C03_fill_enclosed_pixels.
Theorem C03_fill_enclosed_idempotent a r : valid3 a -> size_ok (vsz a) -> fill_enclosed3 a = Ok r ->
  exists s, fill_enclosed3 r = Ok s /\ forall p, center_of3 s p <-> center_of3 r p.
Proof. exact (fill_enclosed3_idem a r). Qed.
Print Assumptions C03_fill_enclosed_idempotent.
Example C03_nonvacuous : valid3 (shell27 100000000) /\ size_ok 100000000 /\ hollow3 (vmat (shell27 100000000)).
Proof. split; [apply shell27_valid|]. split; [split; cbn; lia|apply shell27_hollow]. Qed.

(** ** C04 is_hollow: the claim "True iff hollow" is false of the code; it answers the opposite. *)
Theorem C04_is_hollow_refuted :
  (exists a, valid3 a /\ ~ hollow3 (vmat a) /\ is_hollow3 a = Ok true) /\
  (exists a, valid3 a /\ tight3 (vmat a) /\ hollow3 (vmat a) /\ is_hollow3 a = Ok false).
Proof.
  exact (conj (ex_intro _ _ (conj solid1_valid (conj solid1_not_hollow is_hollow_ref1)))
    (ex_intro _ _ (conj shell27_valid (conj shell27_tight (conj shell27_hollow is_hollow_ref2))))).
Qed.
Print Assumptions C04_is_hollow_refuted.
Theorem C04_is_hollow_voxels_actual_partial a : valid3 a -> size_ok (vsz a) -> (exists p, center_of3 a p) ->
  exists t, is_hollow3 a = Ok t /\ (t = true <-> tight3 (vmat a) /\ ~ hollow3 (vmat a)).
Proof. exact (is_hollow3_full a). Qed.
Print Assumptions C04_is_hollow_voxels_actual_partial.
Theorem C04_is_hollow_pixels_actual_partial a : valid2 a -> size_ok (psz a) -> (exists p, center_of2 a p) ->
  exists t, is_hollow2 a = Ok t /\ (t = true <-> tight2 (pmat a) /\ ~ hollow2 (pmat a)).
Proof. exact (is_hollow2_full a). Qed.
Print Assumptions C04_is_hollow_pixels_actual_partial.

(** ** C05 boolean operators of the matrix classes, element size at most 1 *)
Theorem C05_union_voxels a b : valid3 a -> valid3 b -> vsz a = vsz b -> size_ok (vsz a) ->
  exists r, union3 a b = Ok r /\ vsz r = vsz a /\ (wf3 (vmat r) /\ lattice3 (vsz a) (vorg a) (vorg r)) /\
    (forall p, center_of3 r p -> tight3 (vmat r)) /\
    forall p, center_of3 r p <-> center_of3 a p \/ center_of3 b p.
Proof. exact (union3_ok a b). Qed.
Print Assumptions C05_union_voxels.
Theorem C05_difference_voxels a b : valid3 a -> valid3 b -> vsz a = vsz b -> size_ok (vsz a) ->
  exists r, difference3 a b = Ok r /\ vsz r = vsz a /\ (wf3 (vmat r) /\ lattice3 (vsz a) (vorg a) (vorg r)) /\
    (forall p, center_of3 r p -> tight3 (vmat r)) /\
    forall p, center_of3 r p <-> center_of3 a p /\ ~ center_of3 b p.
Proof. exact (difference3_ok a b). Qed.
Print Assumptions C05_difference_voxels.
Theorem C05_intersection_voxels a b : valid3 a -> valid3 b -> vsz a = vsz b -> size_ok (vsz a) ->
  exists r, intersection3 a b = Ok r /\ vsz r = vsz a /\ (wf3 (vmat r) /\ lattice3 (vsz a) (vorg a) (vorg r)) /\
    (forall p, center_of3 r p -> tight3 (vmat r)) /\
    forall p, center_of3 r p <-> center_of3 a p /\ center_of3 b p.
Proof. exact (intersection3_ok a b). Qed.
Print Assumptions C05_intersection_voxels.
Theorem C05_symmetric_difference_voxels a b : valid3 a -> valid3 b -> vsz a = vsz b -> size_ok (vsz a) ->
  exists r, symmetric_difference3 a b = Ok r /\ vsz r = vsz a /\ (wf3 (vmat r) /\ lattice3 (vsz a) (vorg a) (vorg r)) /\
    (forall p, center_of3 r p -> tight3 (vmat r)) /\
    forall p, center_of3 r p <-> (center_of3 a p /\ ~ center_of3 b p) \/ (center_of3 b p /\ ~ center_of3 a p).
Proof. exact (symmetric_difference3_ok a b). Qed.
Print Assumptions C05_symmetric_difference_voxels.
Theorem C05_union_pixels a b : valid2 a -> valid2 b -> psz a = psz b -> size_ok (psz a) ->
  exists r, union2 a b = Ok r /\ psz r = psz a /\ (wf2 (pmat r) /\ lattice2 (psz a) (porg a) (porg r)) /\
    (forall p, center_of2 r p -> tight2 (pmat r)) /\
    forall p, center_of2 r p <-> center_of2 a p \/ center_of2 b p.
Proof. exact (union2_ok a b). Qed.
Print Assumptions C05_union_pixels.
Theorem C05_difference_pixels a b : valid2 a -> valid2 b -> psz a = psz b -> size_ok (psz a) ->
  exists r, difference2 a b = Ok r /\ psz r = psz a /\ (wf2 (pmat r) /\ lattice2 (psz a) (porg a) (porg r)) /\
    (forall p, center_of2 r p -> tight2 (pmat r)) /\
    forall p, center_of2 r p <-> center_of2 a p /\ ~ center_of2 b p.
Proof. exact (difference2_ok a b). Qed.
Print Assumptions C05_difference_pixels.
Theorem C05_intersection_pixels a b : valid2 a -> valid2 b -> psz a = psz b -> size_ok (psz a) ->
  exists r, intersection2 a b = Ok r /\ psz r = psz a /\ (wf2 (pmat r) /\ lattice2 (psz a) (porg a) (porg r)) /\
    (forall p, center_of2 r p -> tight2 (pmat r)) /\
    forall p, center_of2 r p <-> center_of2 a p /\ center_of2 b p.
Proof. exact (intersection2_ok a b). Qed.
Print Assumptions C05_intersection_pixels.
Theorem C05_symmetric_difference_pixels a b : valid2 a -> valid2 b -> psz a = psz b -> size_ok (psz a) ->
  exists r, symmetric_difference2 a b = Ok r /\ psz r = psz a /\ (wf2 (pmat r) /\ lattice2 (psz a) (porg a) (porg r)) /\
    (forall p, center_of2 r p -> tight2 (pmat r)) /\
    forall p, center_of2 r p <-> (center_of2 a p /\ ~ center_of2 b p) \/ (center_of2 b p /\ ~ center_of2 a p).
Proof. exact (symmetric_difference2_ok a b). Qed.
Print Assumptions C05_symmetric_difference_pixels.
Theorem C05_different_sizes a b : vsz a <> vsz b ->
  union3 a b = Err ValueError /\ difference3 a b = Err ValueError /\
  intersection3 a b = Err ValueError /\ symmetric_difference3 a b = Err ValueError.
Proof. exact (fun H => conj (logical3_size _ a b H) (conj (logical3_size _ a b H) (conj (logical3_size _ a b H) (logical3_size _ a b H)))). Qed.
Print Assumptions C05_different_sizes.
Theorem C05_different_sizes_pixels a b : psz a <> psz b ->
  union2 a b = Err ValueError /\ difference2 a b = Err ValueError /\
  intersection2 a b = Err ValueError /\ symmetric_difference2 a b = Err ValueError.
Proof. exact (fun H => conj (logical2_size _ a b H) (conj (logical2_size _ a b H) (conj (logical2_size _ a b H) (logical2_size _ a b H)))). Qed.
Print Assumptions C05_different_sizes_pixels.
Theorem C05_is_intersecting_voxels a b : valid3 a -> valid3 b -> vsz a = vsz b -> size_ok (vsz a) ->
  exists t, is_intersecting3 a b = Ok t /\ (t = true <-> exists p, center_of3 a p /\ center_of3 b p).
Proof. exact (is_intersecting3_ok a b). Qed.
Print Assumptions C05_is_intersecting_voxels.
(** With voxel size 2.0 the union of a voxel with itself is empty, and the union of a row of two
    voxels with itself raises ValueError. *)
Theorem C158_large_voxels_refuted :
  (exists a p r, valid3 a /\ center_of3 a p /\ union3 a a = Ok r /\ ~ center_of3 r p) /\
  (exists a, valid3 a /\ union3 a a = Err ValueError).
Proof.
  exact (conj (match union_ref with ex_intro _ r (conj H (conj N C)) =>
      ex_intro _ _ (ex_intro _ _ (ex_intro _ r (conj solid1_big_valid (conj C (conj H (N _)))))) end)
    (ex_intro _ _ (conj row2_big_valid union_ref2))).
Qed.
Print Assumptions C158_large_voxels_refuted.
Example C05_nonvacuous : valid3 (shell27 100000000) /\ valid3 (solid1 100000000) /\ size_ok 100000000.
Proof. split; [apply shell27_valid|]. split; [apply solid1_valid|split; cbn; lia]. Qed.

(** ** C06 crop_matrix *)
Theorem C06_crop_voxels a : (forall p, center_of3 (crop3 a) p <-> center_of3 a p) /\
  vsz (crop3 a) = vsz a /\ lattice3 (vsz a) (vorg a) (vorg (crop3 a)) /\
  (forall p, center_of3 a p -> tight3 (vmat (crop3 a))).
Proof. exact (conj (crop3_centers a) (conj (crop3_vsz a) (conj (crop3_lattice a) (crop3_tight a)))). Qed.
Print Assumptions C06_crop_voxels.
Theorem C06_crop_idempotent a : 0 < vsz a -> vox_eqb (crop3 (crop3 a)) (crop3 a) = true.
Proof. exact (crop3_idem a). Qed.
Print Assumptions C06_crop_idempotent.
Theorem C06_crop_canonical a b : 0 < vsz a -> vsz a = vsz b -> (exists p, center_of3 a p) ->
  (forall p, center_of3 a p <-> center_of3 b p) -> vox_eqb (crop3 a) (crop3 b) = true.
Proof. exact (crop3_canonical a b). Qed.
Print Assumptions C06_crop_canonical.
Theorem C06_equality a b : vox_eqb a b = true <-> vsz a = vsz b /\ vorg a = vorg b /\ same3 (vmat a) (vmat b).
Proof. exact (vox_eqb_spec a b). Qed.
Print Assumptions C06_equality.
Theorem C06_crop_pixels a : (forall p, center_of2 (crop2 a) p <-> center_of2 a p) /\
  psz (crop2 a) = psz a /\ (forall p, center_of2 a p -> tight2 (pmat (crop2 a))).
Proof. exact (conj (crop2_centers a) (conj (crop2_psz a) (crop2_tight a))). Qed.
Print Assumptions C06_crop_pixels.
Theorem C06_crop_idempotent_pixels a : 0 < psz a -> pix_eqb (crop2 (crop2 a)) (crop2 a) = true.
Proof. exact (crop2_idem a). Qed.
Print Assumptions C06_crop_idempotent_pixels.
Theorem C06_crop_canonical_pixels a b : 0 < psz a -> psz a = psz b -> (exists p, center_of2 a p) ->
  (forall p, center_of2 a p <-> center_of2 b p) -> pix_eqb (crop2 a) (crop2 b) = true.
Proof. exact (crop2_canonical a b). Qed.
Print Assumptions C06_crop_canonical_pixels.
Example C06_nonvacuous : center_of3 (solid1 2000000000) (1000000000, 1000000000, 1000000000).
Proof. exact (match union_ref with ex_intro _ r (conj H (conj N C)) => C end). Qed.

(** ** C07 points <-> matrix *)
Theorem C07_points_matrix_points a : 0 < pvs a -> pcs a <> [] -> (forall p, In p (pcs a) -> on_grid3 (pvs a) p) ->
  exists m, to_matrix a = Ok m /\ pvs (to_points m) = pvs a /\ NoDup (pcs (to_points m)) /\
    forall p, In p (pcs (to_points m)) <-> In p (pcs a).
Proof. exact (points_roundtrip a). Qed.
Print Assumptions C07_points_matrix_points.
Theorem C07_matrix_points_matrix a : valid3 a -> 0 < vsz a -> (exists p, center_of3 a p) ->
  exists m, to_matrix (to_points a) = Ok m /\ vox_eqb m (crop3 a) = true.
Proof. exact (matrix_roundtrip a). Qed.
Print Assumptions C07_matrix_points_matrix.
Theorem C07_voxel_centers a p : In p (voxel_centers a) <-> center_of3 a p.
Proof. exact (voxel_centers_spec a p). Qed.
Print Assumptions C07_voxel_centers.
Theorem C07_pixel_centers a p : In p (pixel_centers a) <-> center_of2 a p.
Proof. exact (pixel_centers_spec a p). Qed.
Print Assumptions C07_pixel_centers.
Example C07_nonvacuous : pcs two_points <> [] /\ forall p, In p (pcs two_points) -> on_grid3 (pvs two_points) p.
Proof. split; [discriminate|]. intros p [<-|[<-|[]]]; repeat split; cbn; first [exists 0; reflexivity|exists 1; reflexivity]. Qed.

(** ** C08 start voxel of the point based flood fill: off by one *)
Theorem C08_flood_fill_points_refuted :
  (exists a p, In p (pcs a) /\ (forall q, In q (pcs a) -> on_grid3 (pvs a) q) /\ flood_fill_points a p false = Err IndexError) /\
  (exists a p r, In p (pcs a) /\ (forall q, In q (pcs a) -> on_grid3 (pvs a) q) /\ flood_fill_points a p false = Ok r /\ In p (pcs r)).
Proof. exact flood_points_refuted. Qed.
Print Assumptions C08_flood_fill_points_refuted.
(** The index used for the center of a voxel of the set is its index in the matrix plus one on each axis. *)
Theorem C08_start_index_actual_partial a x y z : 0 < pvs a -> In (x, y, z) (pcs a) ->
  (forall p, In p (pcs a) -> on_grid3 (pvs a) p) ->
  exists m i j k, to_matrix a = Ok m /\ set3 (vmat m) (i, j, k) /\
    (x, y, z) = (fst (fst (vorg m)) + i * vsz m, snd (fst (vorg m)) + j * vsz m, snd (vorg m) + k * vsz m) /\
    point_to_index a (x, y, z) = Ok (i + 1, j + 1, k + 1).
Proof. exact (point_to_index_center a x y z). Qed.
Print Assumptions C08_start_index_actual_partial.

(** ** C09 inverse *)
Theorem C09_inverse_voxels a p : 0 < vsz a ->
  (center_of3 (inverse3 a) p <->
   ~ center_of3 a p /\ exists x y z, cell3 (vmat a) (x, y, z) /\
      p = (fst (fst (vorg a)) + x * vsz a, snd (fst (vorg a)) + y * vsz a, snd (vorg a) + z * vsz a)).
Proof. exact (inverse3_ok a p). Qed.
Print Assumptions C09_inverse_voxels.
Theorem C09_inverse_involutive a : vox_eqb (inverse3 (inverse3 a)) a = true.
Proof. exact (inverse3_invol a). Qed.
Print Assumptions C09_inverse_involutive.
Theorem C09_inverse_pixels a p : 0 < psz a ->
  (center_of2 (inverse2 a) p <->
   ~ center_of2 a p /\ exists x y, cell2 (pmat a) (x, y) /\ p = (fst (porg a) + x * psz a, snd (porg a) + y * psz a)).
Proof. exact (inverse2_ok a p). Qed.
Print Assumptions C09_inverse_pixels.
Theorem C09_inverse_involutive_pixels a : pix_eqb (inverse2 (inverse2 a)) a = true.
Proof. exact (inverse2_invol a). Qed.
Print Assumptions C09_inverse_involutive_pixels.
Example C09_nonvacuous : 0 < vsz (shell27 100000000). Proof. reflexivity. Qed.

(** ** C15 displayed triangles *)
Theorem C15_boundary_faces h l d c t : 0 < h -> NoDup l -> face_triangle h d c t ->
  (In t (to_triangles l (2 * h)) <->
   (In c l /\ ~ In (next_along (2 * h) d c) l) \/ (~ In c l /\ In (next_along (2 * h) d c) l)).
Proof. exact (to_triangles_face h l d c t). Qed.
Print Assumptions C15_boundary_faces.
Theorem C15_only_faces h l t : 0 < h -> In t (to_triangles l (2 * h)) ->
  exists c d, face_triangle h d c t /\ (In c l \/ In (next_along (2 * h) d c) l).
Proof. exact (to_triangles_faces h l t). Qed.
Print Assumptions C15_only_faces.
Theorem C15_no_repetition l v : NoDup (to_triangles l v).
Proof. exact (to_triangles_NoDup l v). Qed.
Print Assumptions C15_no_repetition.
Example C15_nonvacuous : NoDup [(50, 50, 50); (150, 50, 50)] /\ length (to_triangles [(50, 50, 50); (150, 50, 50)] 100) = 20%nat.
Proof. split; [repeat constructor; cbn; intuition discriminate|vm_compute; reflexivity]. Qed.

(** ** C16 layers *)
Theorem C16_layers m c : cell3 m c ->
  exists n, layers_cell m c = Ok n /\
    (at3 m c = false -> n = 0) /\
    (at3 m c = true -> 0 <= n /\ forall k, 0 <= k -> (k <= n <-> forall d, in_cube c k d -> set3 m d)).
Proof. exact (layers_cell_ok m c). Qed.
Print Assumptions C16_layers.
Example C16_nonvacuous : layers_cell {| dimx := 3; dimy := 3; dimz := 3; at3 := fun _ => true |} (1, 1, 1) = Ok 1.
Proof. vm_compute. reflexivity. Qed.

(** ** C59 translation *)
Theorem C59_translation_grid a i j k : 0 < pvs a -> (forall p, In p (pcs a) -> on_grid3 (pvs a) p) ->
  forall x y z, In (x, y, z) (pcs (translation a (i * pvs a, j * pvs a, k * pvs a))) <->
     In (x - i * pvs a, y - j * pvs a, z - k * pvs a) (pcs a).
Proof. exact (translation_grid a i j k). Qed.
Print Assumptions C59_translation_grid.
Theorem C59_translation_grid_count a i j k : 0 < pvs a -> NoDup (pcs a) -> (forall p, In p (pcs a) -> on_grid3 (pvs a) p) ->
  length (pcs (translation a (i * pvs a, j * pvs a, k * pvs a))) = length (pcs a).
Proof. exact (translation_grid_length a i j k). Qed.
Print Assumptions C59_translation_grid_count.
(** any offset: the moved center lies in a returned voxel *)
Theorem C59_translation_any a d q : 0 < pvs a -> (exists h, pvs a = 2 * h) -> In q (pcs a) ->
  exists r, In r (pcs (translation a d)) /\ on_grid3 (pvs a) r /\
    (forall f, f = (fun c : Z * Z * Z => fst (fst c)) \/ f = (fun c : Z * Z * Z => snd (fst c)) \/ f = (fun c : Z * Z * Z => snd c) ->
      2 * f r - pvs a <= 2 * (f q + f d) < 2 * f r + pvs a).
Proof. exact (translation_any a d q). Qed.
Print Assumptions C59_translation_any.
Theorem C59_translation_count a d : NoDup (pcs (translation a d)) /\ (length (pcs (translation a d)) <= length (pcs a))%nat.
Proof. exact (conj (translation_NoDup a d) (translation_length a d)). Qed.
Print Assumptions C59_translation_count.
Example C59_nonvacuous : pcs (translation two_points (100, 0, -100)) = [(150, 50, -50); (250, 150, 50)].
Proof. vm_compute. reflexivity. Qed.

(** ** C60 watertightness of the displayed triangles *)
Theorem C60_watertight l v p q n : sides p q (flat_map tri_sides (to_triangles l v)) n -> Nat.even n = true.
Proof. exact (to_triangles_even l v p q n). Qed.
Print Assumptions C60_watertight.
Theorem C60_sides_total l v p q : exists n, sides p q (flat_map tri_sides (to_triangles l v)) n.
Proof. exact (sides_total p q _). Qed.
Print Assumptions C60_sides_total.
