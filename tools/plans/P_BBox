(** C39-C43, C50, C73: bounding boxes and rectangles, list helpers (statements only). *)
From Coq Require Import Reals List Bool Lra.
From Verif.Model Require Import RBase Vec BBox Polygon.
From Verif.Spec Require Import BBoxSpec PolygonSpec.
From Verif.Proofs Require Import VecP BBoxP BBox2P BBox3P.
Open Scope R_scope.

(** ** C39 least bounding box *)
@from_points_least C39_from_points_least from_points: contains every point and is included in every box that does.
@from_points_err C39_from_points_total Only the empty list is rejected.
@rect_from_points_least C39_rectangle_from_points_least
@rect_from_points_err C39_rectangle_from_points_total
@from_boxes_least C39_from_bounding_boxes_least
@from_boxes_err C39_from_bounding_boxes_total
@bbox_add_least C39_add_least_upper_bound
@bbox_add_comm C39_add_commutative
@bbox_add_assoc C39_add_associative
@bbox_add_idem C39_add_idempotent
@box_le_incl C39_bounds_order_is_inclusion Comparing bounds is inclusion of the sets of points.
@rect_le_incl C39_rectangle_bounds_order_is_inclusion
@from_points_corners C39_corners_give_back_the_box
Example C39_nonvacuous : exists b, bbox_from_points [V3 0 1 2; V3 3 (-1) 5; V3 1 1 1] = Ok b.
Proof. eexists. reflexivity. Qed.

(** ** C40 distances *)
@rect_distance_min C40_rectangle_distance_is_minimum
@rect_distance_sym C40_rectangle_distance_symmetric
@distance_to_bbox_min C40_box_distance_is_minimum_or_zero_within_tolerance The minimum distance d, replaced by 0 exactly when the boxes touch within the tolerance (and then d <= 4e-6).
@distance_to_bbox_meet C40_box_distance_zero_when_sharing_a_point
@distance_to_bbox_sym C40_box_distance_symmetric
Example C40_nonvacuous : valid_box (BBox 0 1 0 1 0 1) /\ bbox_is_intersecting (BBox 0 1 0 1 0 1) (BBox 3 4 0 1 0 1) (/ 10 ^ 6) = false.
Proof.
  split; [unfold valid_box; cbn; lra|]. apply Bool.not_true_iff_false. rewrite bbox_is_intersecting_spec.
  cbn [xmin xmax ymin ymax zmin zmax]. assert (/ 10 ^ 6 < 1) by (apply Rmult_lt_reg_l with (10 ^ 6); [lra|]; rewrite Rinv_r; lra). lra.
Qed.

(** ** C41 distance to a point *)
@bbox_point_outside C41_box_outside
@bbox_point_inside C41_box_inside_distance_to_boundary
@rect_point_outside C41_rectangle_outside
@bbox_point_lower C173_box_lower_bound_partial
@bbox_point_negative C173_box_nonnegative_refuted A point 1e-6 outside is at a negative distance.
@rect_point_inside_value C173_rectangle_inside_value_partial What the inside branch computes (y - xmin instead of x - xmin).
@rect_point_inside_wrong C173_rectangle_inside_refuted
Example C41_nonvacuous : inside_rect (Rect 0 2 0 2) (V2 1 1) /\ in_box (BBox 0 2 0 2 0 2) (V3 1 1 1).
Proof. unfold inside_rect, in_box. cbn. lra. Qed.

(** ** C42 intersection measures *)
@rect_intersection_exact C42_area_exact Exact unless one rectangle is inside the other up to 1e-6 without being inside it.
@rect_intersection_sym C42_area_symmetric
@rect_intersection_bounds C42_area_bounds
@rect_intersection_tolerance_wrong C124_area_exact_refuted
@intersection_volume_exact C42_volume_exact
@intersection_volume_sym C42_volume_symmetric
@intersection_volume_negative C124_volume_nonnegative_refuted
Example C42_nonvacuous : valid_rect (Rect 0 2 0 2) /\ valid_rect (Rect 1 3 1 3) /\ is_inside_rect (Rect 0 2 0 2) (Rect 1 3 1 3) (/ 10 ^ 6) = false.
Proof.
  split; [unfold valid_rect; cbn; lra|split; [unfold valid_rect; cbn; lra|]]. apply Bool.not_true_iff_false. rewrite is_inside_rect_spec.
  cbn [rxmin rxmax rymin rymax]. assert (/ 10 ^ 6 < 1) by (apply Rmult_lt_reg_l with (10 ^ 6); [lra|]; rewrite Rinv_r; lra). lra.
Qed.

(** ** C43 subdivisions *)
@points_inside_length C43_points_count
@points_inside_nth C43_points_in_order
@points_inside_in C43_points_are_cell_centers
@points_inside_total C43_points_total
@points_inside_inside C43_points_inside
@octree_boxes C43_octree_is_the_eight_octants
@octree_cover C43_octree_covers
@octree_disjoint C43_octree_disjoint_interiors
@octree_half C43_octree_half_size
Example C43_nonvacuous : valid_box (BBox 0 1 0 2 0 3).
Proof. unfold valid_box. cbn. lra. Qed.

(** ** C73 predicates and scaling *)
@bbox_is_intersecting_spec C73_is_intersecting_criterion
@bbox_is_intersecting_meet C73_is_intersecting_no_false_negative
@bbox_is_intersecting_0 C73_is_intersecting_exact_at_zero_tolerance
@bbox_is_intersecting_sym C73_is_intersecting_symmetric
@rect_is_intersecting_interior C73_rectangle_is_intersecting_interiors
@rect_is_intersecting_sym C73_rectangle_is_intersecting_symmetric
@rect_point_belongs_spec C73_rectangle_point_belongs
@bbox_point_belongs_spec C73_box_point_belongs
@bbox_scale_spec C73_scale_center_size_volume
@bbox_scale_1 C73_scale_by_one
@bbox_scale_scale C73_scale_composes
@bbox_scale_grows C73_scale_grows
@is_inside_rect_sound C73_rectangle_is_inside
@is_inside_bbox_sound C73_box_is_inside
@bbox_center_spec C73_box_center
@rect_center_spec C73_rectangle_center
@bbox_size_volume C73_box_size_and_volume
@rect_points_area C73_rectangle_bounding_points_area
@rect_points_corners C73_rectangle_bounding_points
@bbox_points_corners C73_box_corner_points
@bbox_is_close_spec C73_is_close
@bbox_is_close_0 C73_is_close_zero_is_equality
Example C73_nonvacuous : exists p, in_box (BBox 0 1 0 2 0 3) p /\ in_box (BBox 1 2 2 3 3 4) p.
Proof. exists (V3 1 2 3). unfold in_box. cbn. lra. Qed.

(** ** C50 lists of elements *)
@element_in_list_spec C50_element_in_list
@get_index_some C50_index_is_first_close
@get_index_none C50_index_none
@index_in_list_agree C50_in_list_agrees_with_index
@is_close3_sym C50_is_close_symmetric
@point_in_list_agree C50_point_in_list_agrees
@eqb3_eq C50_point_equality
Theorem C50_delete_double_point_members l x : In x (delete_double_point eqb3 l) <-> In x l.
Proof. exact (dd_in eqb3 eqb3_eq l x). Qed.
Print Assumptions C50_delete_double_point_members.
Theorem C50_delete_double_point_nodup l : NoDup (delete_double_point eqb3 l).
Proof. exact (dd_nodup eqb3 eqb3_eq l). Qed.
Print Assumptions C50_delete_double_point_nodup.
(** Order of first occurrence: a point is kept, at the end, iff it does not occur before. *)
Theorem C50_delete_double_point_first_occurrence l p : delete_double_point eqb3 (l ++ [p]) =
  (if existsb (eqb3 p) l then delete_double_point eqb3 l else delete_double_point eqb3 l ++ [p]).
Proof. exact (dd_first eqb3 eqb3_eq l p). Qed.
Print Assumptions C50_delete_double_point_first_occurrence.
Example C50_nonvacuous : element_in_list Nat.eqb 3%nat [1%nat; 3%nat] = true /\ get_element_index_in_list Nat.eqb 3%nat [1%nat; 3%nat; 3%nat] = Some 1%nat.
Proof. split; reflexivity. Qed.
