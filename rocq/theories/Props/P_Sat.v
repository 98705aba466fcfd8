(** C17-C20, C44, C84: triangle / voxel tests and voxelization of triangles (statements only). *)
From Verif.Model Require Import RBase Vec BBox Geometry FloodFill Sat Voxelize.
From Verif.Spec Require Import GridSpec SatSpec SatSpec2.
From Verif.Proofs Require Import SatP SatP2 SatP3 SatP4 SatP5 SatP6 VoxelizeP6 SatExP.
From Coq Require Import Lra Lia.
Open Scope R_scope.

(** ** C17: true for cubes (all voxels made by the library), false for the other boxes. *)
Theorem C17_a_cubic_voxel_that_meets_the_triangle_is_reported t0 t1 t2 center e p :
  in_triangle3 p t0 t1 t2 -> in_box3 p center (V3 e e e) -> triangle_intersects_voxel (t0, t1, t2) center (V3 e e e) = true.
Proof. exact (intersects_cubic t0 t1 t2 center e p). Qed.
Print Assumptions C17_a_cubic_voxel_that_meets_the_triangle_is_reported.
Theorem C17_every_non_cubic_box_misses_a_triangle_inside_it center e0 e1 e2 : / 10 ^ 9 < e0 -> / 10 ^ 9 < e1 -> / 10 ^ 9 < e2 ->
  4 / 10 ^ 9 < Rabs (e0 - e1) \/ 4 / 10 ^ 9 < Rabs (e1 - e2) \/ 4 / 10 ^ 9 < Rabs (e0 - e2) ->
  exists t0 t1 t2, (forall p, in_triangle3 p t0 t1 t2 -> in_box3 p center (V3 e0 e1 e2))
    /\ triangle_intersects_voxel (t0, t1, t2) center (V3 e0 e1 e2) = false.
Proof. exact (missed_inside center e0 e1 e2). Qed.
Print Assumptions C17_every_non_cubic_box_misses_a_triangle_inside_it.
Theorem C155_no_false_negative_refuted : exists t0 t1 t2 center ext, (forall p, in_triangle3 p t0 t1 t2 -> in_box3 p center ext) /\ triangle_intersects_voxel (t0, t1, t2) center ext = false.
Proof. exact missed_example. Qed.
Print Assumptions C155_no_false_negative_refuted.
Example C17_nonvacuous : in_triangle3 (V3 0 0 0) (V3 (-3) 0 0) (V3 3 0 0) (V3 0 5 1) /\ in_box3 (V3 0 0 0) (V3 (1 / 2) 0 0) (V3 1 1 1).
Proof. split; [exists (1 / 2), (1 / 2), 0; cbn; lra|]. unfold in_box3; cbn. repeat split; apply Rabs_le; lra. Qed.

(** ** C18: refuted; what a positive answer does imply. *)
Theorem C18_no_false_positive_refuted : exists t0 t1 t2 center ext, (forall p, in_triangle3 p t0 t1 t2 -> ~ in_box3 p center ext) /\ triangle_intersects_voxel (t0, t1, t2) center ext = true.
Proof. exact false_positive. Qed.
Print Assumptions C18_no_false_positive_refuted.
Theorem C184_a_reported_box_is_near_the_bounds_of_the_triangle t0 t1 t2 center ext : 0 <= x3 ext -> 0 <= y3 ext -> 0 <= z3 ext ->
  triangle_intersects_voxel (t0, t1, t2) center ext = true ->
  exists q, in_box3 q center (V3 (x3 ext + / 10 ^ 9) (y3 ext + / 10 ^ 9) (z3 ext + / 10 ^ 9)) /\ in_triangle_bounds q t0 t1 t2.
Proof. exact (reported_near t0 t1 t2 center ext). Qed.
Print Assumptions C184_a_reported_box_is_near_the_bounds_of_the_triangle.
Theorem C184_the_separating_axis_test_needs_the_bounds_and_the_plane t0 t1 t2 center ext : 0 <= x3 ext -> 0 <= y3 ext -> 0 <= z3 ext -> sat_test (t0, t1, t2) center ext = true ->
  (exists q, in_box3 q center ext /\ in_triangle_bounds q t0 t1 t2) /\ (exists q, in_box3 q center ext /\ in_triangle_plane q t0 t1 t2).
Proof. exact (sat_near t0 t1 t2 center ext). Qed.
Print Assumptions C184_the_separating_axis_test_needs_the_bounds_and_the_plane.
(** the radius of the projected box is the one the code computes, see C18_no_false_positive_refuted *)
Theorem C184_the_separating_axis_test_needs_the_nine_edge_axes t0 t1 t2 center ext : sat_test (t0, t1, t2) center ext = true ->
  forall f, In f [sub3 t1 t0; sub3 t2 t1; sub3 t0 t2] -> forall e, In e [V3 1 0 0; V3 0 1 0; V3 0 0 1] ->
  ~ beyond (cross3 e f) (sub3 t0 center) (sub3 t1 center) (sub3 t2 center) (x3 ext * Rabs (z3 f) + y3 ext * Rabs (x3 f) + z3 ext * Rabs (y3 f)).
Proof. exact (sat_axes t0 t1 t2 center ext). Qed.
Print Assumptions C184_the_separating_axis_test_needs_the_nine_edge_axes.

(** ** C19 *)
Theorem C19_every_voxel_that_meets_the_box_is_a_candidate mn mx v i j k q : 0 < v ->
  x3 mn <= x3 q <= x3 mx -> y3 mn <= y3 q <= y3 mx -> z3 mn <= z3 q <= z3 mx ->
  IZR i * v <= x3 q <= (IZR i + 1) * v -> IZR j * v <= y3 q <= (IZR j + 1) * v -> IZR k * v <= z3 q <= (IZR k + 1) * v ->
  In (V3 (grid_center v i) (grid_center v j) (grid_center v k)) (aabb_intersecting_boxes mn mx v).
Proof. exact (aabb_complete mn mx v i j k q). Qed.
Print Assumptions C19_every_voxel_that_meets_the_box_is_a_candidate.
Theorem C19_candidates_are_voxels_near_the_box mn mx v c : 0 < v -> In c (aabb_intersecting_boxes mn mx v) ->
  exists i j k, c = V3 (grid_center v i) (grid_center v j) (grid_center v k)
    /\ x3 mn - 2 * v < IZR i * v < x3 mx + v /\ y3 mn - 2 * v < IZR j * v < y3 mx + v /\ z3 mn - 2 * v < IZR k * v < z3 mx + v.
Proof. exact (aabb_sound mn mx v c). Qed.
Print Assumptions C19_candidates_are_voxels_near_the_box.
Theorem C19_candidates_are_different mn mx v : / 10 ^ 9 <= v -> NoDup (aabb_intersecting_boxes mn mx v).
Proof. exact (aabb_nodup mn mx v). Qed.
Print Assumptions C19_candidates_are_different.
Example C19_nonvacuous : let mn := V3 (-1) 0 0 in let mx := V3 1 1 1 in let q := V3 (-1 / 2) (1 / 2) (1 / 2) in
  (x3 mn <= x3 q <= x3 mx /\ y3 mn <= y3 q <= y3 mx /\ z3 mn <= z3 q <= z3 mx)
  /\ (IZR (-3) * (1 / 5) <= x3 q <= (IZR (-3) + 1) * (1 / 5) /\ IZR 2 * (1 / 5) <= y3 q <= (IZR 2 + 1) * (1 / 5) /\ IZR 2 * (1 / 5) <= z3 q <= (IZR 2 + 1) * (1 / 5)).
Proof. cbn. lra. Qed.

(** ** C20 *)
Theorem C20_every_pixel_met_by_a_segment_is_returned ps segs p q k l r : / 10 ^ 9 <= ps -> In (p, q) segs ->
  / 10 ^ 9 <= (Rabs (x2 q - x2 p) + Rabs (y2 q - y2 p)) * ps ->
  in_segment2 r p q -> in_square r (V2 (grid_center ps k) (grid_center ps l)) ps ->
  In (V2 (grid_center ps k) (grid_center ps l)) (line_segments_to_pixels segs ps).
Proof. exact (pixels_complete ps segs p q k l r). Qed.
Print Assumptions C20_every_pixel_met_by_a_segment_is_returned.
Theorem C20_every_returned_pixel_is_met_up_to_rounding ps segs c : 0 <= ps -> In c (line_segments_to_pixels segs ps) ->
  exists p q, In (p, q) segs /\ p <> q /\ (exists k l, c = V2 (grid_center ps k) (grid_center ps l))
  /\ forall d, 0 <= d -> / 2 / 10 ^ 9 <= d * (Rabs (x2 q - x2 p) + Rabs (y2 q - y2 p)) -> exists r, in_segment2 r p q /\ in_square r c (ps + 2 * d).
Proof. exact (pixels_sound ps segs c). Qed.
Print Assumptions C20_every_returned_pixel_is_met_up_to_rounding.
Theorem C20_pixels_are_different ps segs : NoDup (line_segments_to_pixels segs ps).
Proof. exact (pixels_nodup ps segs). Qed.
Print Assumptions C20_pixels_are_different.
Example C20_nonvacuous : / 10 ^ 9 <= 1 / 10 /\ / 10 ^ 9 <= (Rabs (1 - 0) + Rabs (1 - 0)) * (1 / 10) /\ in_segment2 (V2 (1 / 2) (1 / 2)) (V2 0 0) (V2 1 1).
Proof.
  assert (E : 10 ^ 9 = IZR 1000000000) by (rewrite (pow_IZR 10 9); reflexivity). rewrite E, !Rabs_right by lra.
  split; [lra|]. split; [lra|]. exists (1 / 2). cbn. lra.
Qed.
Theorem C157_short_segments_are_missed_refuted : exists ps p q k l, 0 < ps /\ in_segment2 (V2 (grid_center ps k) (grid_center ps l)) p q
  /\ ~ In (V2 (grid_center ps k) (grid_center ps l)) (line_segments_to_pixels [(p, q)] ps).
Proof. exact short_refuted. Qed.
Print Assumptions C157_short_segments_are_missed_refuted.

(** ** C44 *)
Theorem C44_cubic_box_reports_every_triangle_it_meets b t0 t1 t2 p : ymax b - ymin b = xmax b - xmin b -> zmax b - zmin b = xmax b - xmin b ->
  xmin b <= x3 p <= xmax b -> ymin b <= y3 p <= ymax b -> zmin b <= z3 p <= zmax b ->
  in_triangle3 p t0 t1 t2 -> bbox_is_intersecting_triangle b (t0, t1, t2) = true.
Proof. exact (bbox_cubic b t0 t1 t2 p). Qed.
Print Assumptions C44_cubic_box_reports_every_triangle_it_meets.
Theorem C156_no_false_negative_refuted : exists b t0 t1 t2, (forall p, in_triangle3 p t0 t1 t2 -> xmin b <= x3 p <= xmax b /\ ymin b <= y3 p <= ymax b /\ zmin b <= z3 p <= zmax b)
  /\ bbox_is_intersecting_triangle b (t0, t1, t2) = false.
Proof. exact bbox_missed. Qed.
Print Assumptions C156_no_false_negative_refuted.

(** ** C84 *)
Theorem C84_voxel_matrix_of_triangles l v : nano_even v -> l <> [] ->
  (forall a b c, In (a, b, c) l -> distinct3 a b c -> edge_ok v a b /\ edge_ok v b c /\ edge_ok v c a) ->
  exists m ox oy oz, triangles_to_voxel_matrix l v = Ok (m, voxel_center v (ox, oy, oz))
   /\ (forall a b c i j k p, In (a, b, c) l -> distinct3 a b c -> in_triangle3 p a b c -> in_voxel v (i, j, k) p ->
         In3 (dimx m) (dimy m) (dimz m) (i - ox, j - oy, k - oz)%Z /\ at3 m (i - ox, j - oy, k - oz)%Z = true)
   /\ (forall i j k, at3 m (i - ox, j - oy, k - oz)%Z = true -> exists a b c, In (a, b, c) l /\ distinct3 a b c
         /\ ((exists p, in_triangle3 p a b c /\ in_box3 p (voxel_center v (i, j, k)) (V3 v v v))
             \/ (exists q, in_voxel v (i, j, k) q /\ in_triangle_bounds q a b c) /\ (exists q, in_voxel v (i, j, k) q /\ in_triangle_plane q a b c))).
Proof. exact (voxelize_spec l v). Qed.
Print Assumptions C84_voxel_matrix_of_triangles.
Theorem C84_triangles_with_two_equal_vertices_mark_nothing l v : l <> [] -> (forall a b c, In (a, b, c) l -> ~ distinct3 a b c) ->
  exists m o, triangles_to_voxel_matrix l v = Ok (m, o) /\ forall x, at3 m x = false.
Proof. exact (degenerate_skipped l v). Qed.
Print Assumptions C84_triangles_with_two_equal_vertices_mark_nothing.
Example C84_nonvacuous : nano_even tenth /\ plate <> [] /\ forall a b c, In (a, b, c) plate -> distinct3 a b c /\ edge_ok tenth a b /\ edge_ok tenth b c /\ edge_ok tenth c a.
Proof. split; [exact tenth_ok|]. split; [discriminate|exact plate_ok]. Qed.

(** ** C114: triangles lying in a face of a voxel. *)
Theorem C114_a_pixel_corner_reported_inside_is_in_the_triangle p a b c : not_flat a b c -> point_in_triangle_2d p (a, b, c) = true -> in_triangle2 p a b c.
Proof. exact (point_in_triangle_sound p a b c). Qed.
Print Assumptions C114_a_pixel_corner_reported_inside_is_in_the_triangle.
Theorem C114_a_pixel_corner_inside_is_reported p a b c : not_flat a b c -> inside_triangle2 p a b c -> point_in_triangle_2d p (a, b, c) = true.
Proof. exact (point_in_triangle_inside p a b c). Qed.
Print Assumptions C114_a_pixel_corner_inside_is_reported.
Theorem C114_a_triangle_meeting_the_pixel_is_reported a b c center ext r : not_flat a b c ->
  let xm := round9 (x2 center - x2 ext) in let xM := round9 (x2 center + x2 ext) in
  let ym := round9 (y2 center - y2 ext) in let yM := round9 (y2 center + y2 ext) in
  side_ok (xM - xm) (yM - ym) a b -> side_ok (xM - xm) (yM - ym) a c -> side_ok (xM - xm) (yM - ym) b c ->
  in_triangle2 r a b c -> in_rect r xm xM ym yM -> triangle_2d_hits_pixel (a, b, c) center ext = true.
Proof. exact (hits_complete a b c center ext r). Qed.
Print Assumptions C114_a_triangle_meeting_the_pixel_is_reported.
Theorem C114_a_reported_triangle_meets_the_enlarged_pixel a b c center ext d : not_flat a b c -> 0 <= d -> side_margin d a b -> side_margin d a c -> side_margin d b c ->
  0 <= x2 ext -> 0 <= y2 ext ->
  triangle_2d_hits_pixel (a, b, c) center ext = true ->
  exists r, in_triangle2 r a b c /\
    in_rect r (round9 (x2 center - x2 ext) - d) (round9 (x2 center + x2 ext) + d) (round9 (y2 center - y2 ext) - d) (round9 (y2 center + y2 ext) + d).
Proof. exact (hits_sound a b c center ext d). Qed.
Print Assumptions C114_a_reported_triangle_meets_the_enlarged_pixel.
Theorem C114_a_triangle_of_a_face_is_reported a b c center ext p : in_triangle3 p a b c -> in_box3 p center ext ->
  (x3 a = x3 b /\ x3 b = x3 c /\ (x3 a = x3 center - x3 ext \/ x3 a = x3 center + x3 ext) /\ nano_pixel (pr_yz center) (pr_yz ext) /\
   not_flat (pr_yz a) (pr_yz b) (pr_yz c) /\ side_ok (2 * y3 ext) (2 * z3 ext) (pr_yz a) (pr_yz b) /\ side_ok (2 * y3 ext) (2 * z3 ext) (pr_yz a) (pr_yz c) /\ side_ok (2 * y3 ext) (2 * z3 ext) (pr_yz b) (pr_yz c)) \/
  (y3 a = y3 b /\ y3 b = y3 c /\ (y3 a = y3 center - y3 ext \/ y3 a = y3 center + y3 ext) /\ nano_pixel (pr_xz center) (pr_xz ext) /\
   not_flat (pr_xz a) (pr_xz b) (pr_xz c) /\ side_ok (2 * x3 ext) (2 * z3 ext) (pr_xz a) (pr_xz b) /\ side_ok (2 * x3 ext) (2 * z3 ext) (pr_xz a) (pr_xz c) /\ side_ok (2 * x3 ext) (2 * z3 ext) (pr_xz b) (pr_xz c)) \/
  (z3 a = z3 b /\ z3 b = z3 c /\ (z3 a = z3 center - z3 ext \/ z3 a = z3 center + z3 ext) /\ nano_pixel (pr_xy center) (pr_xy ext) /\
   not_flat (pr_xy a) (pr_xy b) (pr_xy c) /\ side_ok (2 * x3 ext) (2 * y3 ext) (pr_xy a) (pr_xy b) /\ side_ok (2 * x3 ext) (2 * y3 ext) (pr_xy a) (pr_xy c) /\ side_ok (2 * x3 ext) (2 * y3 ext) (pr_xy b) (pr_xy c)) ->
  triangle_intersects_voxel (a, b, c) center ext = true.
Proof. exact (face_reported a b c center ext p). Qed.
Print Assumptions C114_a_triangle_of_a_face_is_reported.
Example C114_nonvacuous :
  let a := V2 0 0 in let b := V2 1 0 in let c := V2 0 1 in
  not_flat a b c /\ side_ok 2 2 a b /\ side_ok 2 2 a c /\ side_ok 2 2 b c /\ nano_pixel (V2 1 1) (V2 1 1) /\ in_triangle2 (V2 (1/4) (1/4)) a b c
  /\ side_margin 1 a b /\ side_margin 1 a c /\ side_margin 1 b c.
Proof. exact ex_face. Qed.

