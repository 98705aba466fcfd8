(** C39-C43, C50, C73: bounding boxes and rectangles, list helpers (statements only). *)
From Coq Require Import Reals List Bool Lra.
From Verif.Model Require Import RBase Vec BBox Polygon.
From Verif.Spec Require Import BBoxSpec PolygonSpec.
From Verif.Proofs Require Import VecP BBoxP BBox2P BBox3P.
Open Scope R_scope.

(** ** C39 least bounding box *)
(** from_points: contains every point and is included in every box that does. *)
Theorem C39_from_points_least l b : bbox_from_points l = Ok b ->
  valid_box b /\ (forall p, In p l -> in_box b p) /\ (forall c, (forall p, In p l -> in_box c p) -> box_le b c).
Proof. exact (from_points_least l b). Qed.
Print Assumptions C39_from_points_least.
(** Only the empty list is rejected. *)
Theorem C39_from_points_total l : (exists b, bbox_from_points l = Ok b) <-> l <> [].
Proof. exact (from_points_err l). Qed.
Print Assumptions C39_from_points_total.
Theorem C39_rectangle_from_points_least l b : rect_from_points l = Ok b ->
  valid_rect b /\ (forall p, In p l -> in_rect b p) /\ (forall c, (forall p, In p l -> in_rect c p) -> rect_le b c).
Proof. exact (rect_from_points_least l b). Qed.
Print Assumptions C39_rectangle_from_points_least.
Theorem C39_rectangle_from_points_total l : (exists b, rect_from_points l = Ok b) <-> l <> [].
Proof. exact (rect_from_points_err l). Qed.
Print Assumptions C39_rectangle_from_points_total.
Theorem C39_from_bounding_boxes_least l b : from_bounding_boxes l = Ok b ->
  (forall a, In a l -> box_le a b) /\ (forall c, (forall a, In a l -> box_le a c) -> box_le b c).
Proof. exact (from_boxes_least l b). Qed.
Print Assumptions C39_from_bounding_boxes_least.
Theorem C39_from_bounding_boxes_total l : (exists b, from_bounding_boxes l = Ok b) <-> l <> [].
Proof. exact (from_boxes_err l). Qed.
Print Assumptions C39_from_bounding_boxes_total.
Theorem C39_add_least_upper_bound a b : box_le a (bbox_add a b) /\ box_le b (bbox_add a b) /\
  (forall c, box_le a c -> box_le b c -> box_le (bbox_add a b) c).
Proof. exact (bbox_add_least a b). Qed.
Print Assumptions C39_add_least_upper_bound.
Theorem C39_add_commutative a b : bbox_add a b = bbox_add b a.
Proof. exact (bbox_add_comm a b). Qed.
Print Assumptions C39_add_commutative.
Theorem C39_add_associative a b c : bbox_add a (bbox_add b c) = bbox_add (bbox_add a b) c.
Proof. exact (bbox_add_assoc a b c). Qed.
Print Assumptions C39_add_associative.
Theorem C39_add_idempotent a : bbox_add a a = a.
Proof. exact (bbox_add_idem a). Qed.
Print Assumptions C39_add_idempotent.
(** Comparing bounds is inclusion of the sets of points. *)
Theorem C39_bounds_order_is_inclusion a b : valid_box a -> (box_le a b <-> forall p, in_box a p -> in_box b p).
Proof. exact (box_le_incl a b). Qed.
Print Assumptions C39_bounds_order_is_inclusion.
Theorem C39_rectangle_bounds_order_is_inclusion a b : valid_rect a -> (rect_le a b <-> forall p, in_rect a p -> in_rect b p).
Proof. exact (rect_le_incl a b). Qed.
Print Assumptions C39_rectangle_bounds_order_is_inclusion.
Theorem C39_corners_give_back_the_box b : valid_box b -> bbox_from_points (bbox_points b) = Ok b.
Proof. exact (from_points_corners b). Qed.
Print Assumptions C39_corners_give_back_the_box.
Example C39_nonvacuous : exists b, bbox_from_points [V3 0 1 2; V3 3 (-1) 5; V3 1 1 1] = Ok b.
Proof. eexists. reflexivity. Qed.

(** ** C40 distances *)
Theorem C40_rectangle_distance_is_minimum a b : valid_rect a -> valid_rect b -> min_dist point_distance2 (in_rect a) (in_rect b) (rect_distance a b).
Proof. exact (rect_distance_min a b). Qed.
Print Assumptions C40_rectangle_distance_is_minimum.
Theorem C40_rectangle_distance_symmetric a b : valid_rect a -> valid_rect b -> rect_distance a b = rect_distance b a.
Proof. exact (rect_distance_sym a b). Qed.
Print Assumptions C40_rectangle_distance_symmetric.
(** The minimum distance d, replaced by 0 exactly when the boxes touch within the tolerance (and then d <= 4e-6). *)
Theorem C40_box_distance_is_minimum_or_zero_within_tolerance a b : valid_box a -> valid_box b ->
  exists d, min_dist point_distance3 (in_box a) (in_box b) d /\
  ((bbox_is_intersecting a b (/ 10 ^ 6) = false /\ distance_to_bbox a b = d) \/
   (bbox_is_intersecting a b (/ 10 ^ 6) = true /\ distance_to_bbox a b = 0 /\ 0 <= d <= 4 / 10 ^ 6)).
Proof. exact (distance_to_bbox_min a b). Qed.
Print Assumptions C40_box_distance_is_minimum_or_zero_within_tolerance.
Theorem C40_box_distance_zero_when_sharing_a_point a b p : in_box a p -> in_box b p -> distance_to_bbox a b = 0.
Proof. exact (distance_to_bbox_meet a b p). Qed.
Print Assumptions C40_box_distance_zero_when_sharing_a_point.
Theorem C40_box_distance_symmetric a b : valid_box a -> valid_box b -> distance_to_bbox a b = distance_to_bbox b a.
Proof. exact (distance_to_bbox_sym a b). Qed.
Print Assumptions C40_box_distance_symmetric.
Example C40_nonvacuous : valid_box (BBox 0 1 0 1 0 1) /\ bbox_is_intersecting (BBox 0 1 0 1 0 1) (BBox 3 4 0 1 0 1) (/ 10 ^ 6) = false.
Proof.
  split; [unfold valid_box; cbn; lra|]. apply Bool.not_true_iff_false. rewrite bbox_is_intersecting_spec.
  cbn [xmin xmax ymin ymax zmin zmax]. assert (/ 10 ^ 6 < 1) by (apply Rmult_lt_reg_l with (10 ^ 6); [lra|]; rewrite Rinv_r; lra). lra.
Qed.

(** ** C41 distance to a point *)
Theorem C41_box_outside b p : valid_box b -> bbox_point_belongs b p (/ 10 ^ 6) = false ->
  min_dist point_distance3 (in_box b) (eq p) (bbox_distance_to_point b p).
Proof. exact (bbox_point_outside b p). Qed.
Print Assumptions C41_box_outside.
Theorem C41_box_inside_distance_to_boundary b p : in_box b p ->
  min_dist point_distance3 (on_boundary_box b) (eq p) (bbox_distance_to_point b p).
Proof. exact (bbox_point_inside b p). Qed.
Print Assumptions C41_box_inside_distance_to_boundary.
Theorem C41_rectangle_outside b p : valid_rect b -> ~ inside_rect b p ->
  min_dist point_distance2 (in_rect b) (eq p) (rect_distance_to_point b p).
Proof. exact (rect_point_outside b p). Qed.
Print Assumptions C41_rectangle_outside.
Theorem C173_box_lower_bound_partial b p : - / 10 ^ 6 <= bbox_distance_to_point b p.
Proof. exact (bbox_point_lower b p). Qed.
Print Assumptions C173_box_lower_bound_partial.
(** A point 1e-6 outside is at a negative distance. *)
Theorem C173_box_nonnegative_refuted : exists b p, valid_box b /\ bbox_distance_to_point b p < 0.
Proof. exact bbox_point_negative. Qed.
Print Assumptions C173_box_nonnegative_refuted.
(** What the inside branch computes (y - xmin instead of x - xmin). *)
Theorem C173_rectangle_inside_value_partial b p : inside_rect b p ->
  rect_distance_to_point b p = Rmin (Rmin (Rmin (rxmax b - x2 p) (y2 p - rxmin b)) (rymax b - y2 p)) (y2 p - rymin b).
Proof. exact (rect_point_inside_value b p). Qed.
Print Assumptions C173_rectangle_inside_value_partial.
Theorem C173_rectangle_inside_refuted : exists b p, valid_rect b /\ inside_rect b p /\
  ~ min_dist point_distance2 (on_boundary_rect b) (eq p) (rect_distance_to_point b p).
Proof. exact rect_point_inside_wrong. Qed.
Print Assumptions C173_rectangle_inside_refuted.
Example C41_nonvacuous : inside_rect (Rect 0 2 0 2) (V2 1 1) /\ in_box (BBox 0 2 0 2 0 2) (V3 1 1 1).
Proof. unfold inside_rect, in_box. cbn. lra. Qed.

(** ** C42 intersection measures *)
(** Exact unless one rectangle is inside the other up to 1e-6 without being inside it. *)
Theorem C42_area_exact a b : valid_rect a -> valid_rect b ->
  (is_inside_rect a b (/ 10 ^ 6) = true -> rect_le a b) -> (is_inside_rect b a (/ 10 ^ 6) = true -> rect_le b a) ->
  rect_intersection_area a b = common_area a b.
Proof. exact (rect_intersection_exact a b). Qed.
Print Assumptions C42_area_exact.
Theorem C42_area_symmetric a b : rect_intersection_area a b = rect_intersection_area b a.
Proof. exact (rect_intersection_sym a b). Qed.
Print Assumptions C42_area_symmetric.
Theorem C42_area_bounds a b : valid_rect a -> valid_rect b ->
  common_area a b <= rect_intersection_area a b /\ 0 <= rect_intersection_area a b <= rect_area a /\ rect_intersection_area a b <= rect_area b.
Proof. exact (rect_intersection_bounds a b). Qed.
Print Assumptions C42_area_bounds.
Theorem C124_area_exact_refuted : exists a b, valid_rect a /\ valid_rect b /\ rect_intersection_area a b <> common_area a b.
Proof. exact rect_intersection_tolerance_wrong. Qed.
Print Assumptions C124_area_exact_refuted.
Theorem C42_volume_exact a b : valid_box a -> valid_box b ->
  (bbox_is_intersecting a b (/ 10 ^ 6) = true -> exists p, in_box a p /\ in_box b p) ->
  (is_inside_bbox a b = true -> box_le a b) -> (is_inside_bbox b a = true -> box_le b a) ->
  intersection_volume a b = common_volume a b.
Proof. exact (intersection_volume_exact a b). Qed.
Print Assumptions C42_volume_exact.
Theorem C42_volume_symmetric a b : intersection_volume a b = intersection_volume b a.
Proof. exact (intersection_volume_sym a b). Qed.
Print Assumptions C42_volume_symmetric.
Theorem C124_volume_nonnegative_refuted : exists a b, valid_box a /\ valid_box b /\ intersection_volume a b < 0.
Proof. exact intersection_volume_negative. Qed.
Print Assumptions C124_volume_nonnegative_refuted.
Example C42_nonvacuous : valid_rect (Rect 0 2 0 2) /\ valid_rect (Rect 1 3 1 3) /\ is_inside_rect (Rect 0 2 0 2) (Rect 1 3 1 3) (/ 10 ^ 6) = false.
Proof.
  split; [unfold valid_rect; cbn; lra|split; [unfold valid_rect; cbn; lra|]]. apply Bool.not_true_iff_false. rewrite is_inside_rect_spec.
  cbn [rxmin rxmax rymin rymax]. assert (/ 10 ^ 6 < 1) by (apply Rmult_lt_reg_l with (10 ^ 6); [lra|]; rewrite Rinv_r; lra). lra.
Qed.

(** ** C43 subdivisions *)
Theorem C43_points_count b nx ny nz l : get_points_inside_bbox b nx ny nz = Ok l -> length l = (nx * ny * nz)%nat.
Proof. exact (points_inside_length b nx ny nz l). Qed.
Print Assumptions C43_points_count.
Theorem C43_points_in_order b nx ny nz l : get_points_inside_bbox b nx ny nz = Ok l ->
  l = flat_map (fun k => flat_map (fun j => map (fun i => cell_center b nx ny nz i j k) (seq 0 nx)) (seq 0 ny)) (seq 0 nz).
Proof. exact (points_inside_nth b nx ny nz l). Qed.
Print Assumptions C43_points_in_order.
Theorem C43_points_are_cell_centers b nx ny nz l p : get_points_inside_bbox b nx ny nz = Ok l ->
  (In p l <-> exists i j k, (i < nx)%nat /\ (j < ny)%nat /\ (k < nz)%nat /\ p = cell_center b nx ny nz i j k).
Proof. exact (points_inside_in b nx ny nz l p). Qed.
Print Assumptions C43_points_are_cell_centers.
Theorem C43_points_total b nx ny nz : (exists l, get_points_inside_bbox b nx ny nz = Ok l) <-> (nx <> 0 /\ ny <> 0 /\ nz <> 0)%nat.
Proof. exact (points_inside_total b nx ny nz). Qed.
Print Assumptions C43_points_total.
Theorem C43_points_inside b nx ny nz l p : valid_box b -> get_points_inside_bbox b nx ny nz = Ok l -> In p l -> in_box b p.
Proof. exact (points_inside_inside b nx ny nz l p). Qed.
Print Assumptions C43_points_inside.
Theorem C43_octree_is_the_eight_octants b : exists l, bbox_octree b = Ok l /\ l = octants b.
Proof. exact (octree_boxes b). Qed.
Print Assumptions C43_octree_is_the_eight_octants.
Theorem C43_octree_covers b l p : valid_box b -> bbox_octree b = Ok l -> (in_box b p <-> exists o, In o l /\ in_box o p).
Proof. exact (octree_cover b l p). Qed.
Print Assumptions C43_octree_covers.
Theorem C43_octree_disjoint_interiors b l : bbox_octree b = Ok l ->
  ForallOrdPairs (fun o1 o2 => forall p, ~ (inside_box o1 p /\ inside_box o2 p)) l.
Proof. exact (octree_disjoint b l). Qed.
Print Assumptions C43_octree_disjoint_interiors.
Theorem C43_octree_half_size b l o : bbox_octree b = Ok l -> In o l -> length l = 8%nat /\ bbox_size o = mul3 (bbox_size b) (1 / 2) /\ (valid_box b -> valid_box o).
Proof. exact (octree_half b l o). Qed.
Print Assumptions C43_octree_half_size.
Example C43_nonvacuous : valid_box (BBox 0 1 0 2 0 3).
Proof. unfold valid_box. cbn. lra. Qed.

(** ** C73 predicates and scaling *)
Theorem C73_is_intersecting_criterion a b tol : bbox_is_intersecting a b tol = true <->
  (xmin b - xmax a <= 2 * tol /\ xmin a - xmax b <= 2 * tol) /\ (ymin b - ymax a <= 2 * tol /\ ymin a - ymax b <= 2 * tol) /\
  (zmin b - zmax a <= 2 * tol /\ zmin a - zmax b <= 2 * tol).
Proof. exact (bbox_is_intersecting_spec a b tol). Qed.
Print Assumptions C73_is_intersecting_criterion.
Theorem C73_is_intersecting_no_false_negative a b tol p : 0 <= tol -> in_box a p -> in_box b p -> bbox_is_intersecting a b tol = true.
Proof. exact (bbox_is_intersecting_meet a b tol p). Qed.
Print Assumptions C73_is_intersecting_no_false_negative.
Theorem C73_is_intersecting_exact_at_zero_tolerance a b : valid_box a -> valid_box b -> (bbox_is_intersecting a b 0 = true <-> exists p, in_box a p /\ in_box b p).
Proof. exact (bbox_is_intersecting_0 a b). Qed.
Print Assumptions C73_is_intersecting_exact_at_zero_tolerance.
Theorem C73_is_intersecting_symmetric a b tol : bbox_is_intersecting a b tol = bbox_is_intersecting b a tol.
Proof. exact (bbox_is_intersecting_sym a b tol). Qed.
Print Assumptions C73_is_intersecting_symmetric.
Theorem C73_rectangle_is_intersecting_interiors a b : valid_rect a -> valid_rect b ->
  ((exists p, inside_rect a p /\ inside_rect b p) -> rect_is_intersecting a b = true) /\
  (rxmin a < rxmax a -> rymin a < rymax a -> rxmin b < rxmax b -> rymin b < rymax b -> rect_is_intersecting a b = true -> exists p, inside_rect a p /\ inside_rect b p).
Proof. exact (rect_is_intersecting_interior a b). Qed.
Print Assumptions C73_rectangle_is_intersecting_interiors.
Theorem C73_rectangle_is_intersecting_symmetric a b : rect_is_intersecting a b = rect_is_intersecting b a.
Proof. exact (rect_is_intersecting_sym a b). Qed.
Print Assumptions C73_rectangle_is_intersecting_symmetric.
Theorem C73_rectangle_point_belongs b p : rect_point_belongs b p = true <-> inside_rect b p.
Proof. exact (rect_point_belongs_spec b p). Qed.
Print Assumptions C73_rectangle_point_belongs.
Theorem C73_box_point_belongs b p tol : bbox_point_belongs b p tol = true <->
  (xmin b - tol <= x3 p <= xmax b + tol) /\ (ymin b - tol <= y3 p <= ymax b + tol) /\ (zmin b - tol <= z3 p <= zmax b + tol).
Proof. exact (bbox_point_belongs_spec b p tol). Qed.
Print Assumptions C73_box_point_belongs.
Theorem C73_scale_center_size_volume b f : bbox_center (bbox_scale b f) = bbox_center b /\ bbox_size (bbox_scale b f) = mul3 (bbox_size b) f /\ bbox_volume (bbox_scale b f) = f ^ 3 * bbox_volume b.
Proof. exact (bbox_scale_spec b f). Qed.
Print Assumptions C73_scale_center_size_volume.
Theorem C73_scale_by_one b : bbox_scale b 1 = b.
Proof. exact (bbox_scale_1 b). Qed.
Print Assumptions C73_scale_by_one.
Theorem C73_scale_composes b f g : bbox_scale (bbox_scale b f) g = bbox_scale b (f * g).
Proof. exact (bbox_scale_scale b f g). Qed.
Print Assumptions C73_scale_composes.
Theorem C73_scale_grows b f p : 1 <= f -> in_box b p -> in_box (bbox_scale b f) p.
Proof. exact (bbox_scale_grows b f p). Qed.
Print Assumptions C73_scale_grows.
Theorem C73_rectangle_is_inside a b tol : is_inside_rect a b tol = true <->
  rect_le a (Rect (rxmin b - tol) (rxmax b + tol) (rymin b - tol) (rymax b + tol)).
Proof. exact (is_inside_rect_sound a b tol). Qed.
Print Assumptions C73_rectangle_is_inside.
Theorem C73_box_is_inside a b : let t := / 10 ^ 6 in is_inside_bbox a b = true <->
  box_le a (BBox (xmin b - t) (xmax b + t) (ymin b - t) (ymax b + t) (zmin b - t) (zmax b + t)).
Proof. exact (is_inside_bbox_sound a b). Qed.
Print Assumptions C73_box_is_inside.
Theorem C73_box_center b : bbox_center b = V3 (mid (xmin b) (xmax b)) (mid (ymin b) (ymax b)) (mid (zmin b) (zmax b)) /\ (valid_box b -> in_box b (bbox_center b)).
Proof. exact (bbox_center_spec b). Qed.
Print Assumptions C73_box_center.
Theorem C73_rectangle_center b : rect_center b = V2 (mid (rxmin b) (rxmax b)) (mid (rymin b) (rymax b)) /\ (valid_rect b -> in_rect b (rect_center b)).
Proof. exact (rect_center_spec b). Qed.
Print Assumptions C73_rectangle_center.
Theorem C73_box_size_and_volume b : valid_box b ->
  bbox_size b = V3 (common (xmin b) (xmax b) (xmin b) (xmax b)) (common (ymin b) (ymax b) (ymin b) (ymax b)) (common (zmin b) (zmax b) (zmin b) (zmax b)) /\
  bbox_volume b = common_volume b b /\ 0 <= bbox_volume b /\
  bbox_volume b = x3 (bbox_size b) * y3 (bbox_size b) * z3 (bbox_size b).
Proof. exact (bbox_size_volume b). Qed.
Print Assumptions C73_box_size_and_volume.
Theorem C73_rectangle_bounding_points_area b : valid_rect b -> sum_sides (tri2 O2D) (rect_points b) = 2 * rect_area b /\
  polygon_area (rect_points b) = rect_area b /\ rect_area b = common_area b b.
Proof. exact (rect_points_area b). Qed.
Print Assumptions C73_rectangle_bounding_points_area.
Theorem C73_rectangle_bounding_points b p : In p (rect_points b) <-> (x2 p = rxmin b \/ x2 p = rxmax b) /\ (y2 p = rymin b \/ y2 p = rymax b).
Proof. exact (rect_points_corners b p). Qed.
Print Assumptions C73_rectangle_bounding_points.
Theorem C73_box_corner_points b p : In p (bbox_points b) <->
  (x3 p = xmin b \/ x3 p = xmax b) /\ (y3 p = ymin b \/ y3 p = ymax b) /\ (z3 p = zmin b \/ z3 p = zmax b).
Proof. exact (bbox_points_corners b p). Qed.
Print Assumptions C73_box_corner_points.
Theorem C73_is_close a b tol : 0 <= tol -> (bbox_is_close a b tol = true <->
  point_distance3 (V3 (xmin a) (ymin a) (zmin a)) (V3 (xmin b) (ymin b) (zmin b)) <= tol /\
  point_distance3 (V3 (xmax a) (ymax a) (zmax a)) (V3 (xmax b) (ymax b) (zmax b)) <= tol).
Proof. exact (bbox_is_close_spec a b tol). Qed.
Print Assumptions C73_is_close.
Theorem C73_is_close_zero_is_equality a b : bbox_is_close a b 0 = true <-> a = b.
Proof. exact (bbox_is_close_0 a b). Qed.
Print Assumptions C73_is_close_zero_is_equality.
Example C73_nonvacuous : exists p, in_box (BBox 0 1 0 2 0 3) p /\ in_box (BBox 1 2 2 3 3 4) p.
Proof. exists (V3 1 2 3). unfold in_box. cbn. lra. Qed.

(** ** C50 lists of elements *)
Theorem C50_element_in_list {A} (c : A -> A -> bool) e l : element_in_list c e l = true <-> exists x, In x l /\ c e x = true.
Proof. exact (element_in_list_spec c e l). Qed.
Print Assumptions C50_element_in_list.
Theorem C50_index_is_first_close {A} (c : A -> A -> bool) e l n : get_element_index_in_list c e l = Some n <->
  (exists x, nth_error l n = Some x /\ c x e = true) /\ (forall m x, (m < n)%nat -> nth_error l m = Some x -> c x e = false).
Proof. exact (get_index_some c e l n). Qed.
Print Assumptions C50_index_is_first_close.
Theorem C50_index_none {A} (c : A -> A -> bool) e l : get_element_index_in_list c e l = None <-> forall x, In x l -> c x e = false.
Proof. exact (get_index_none c e l). Qed.
Print Assumptions C50_index_none.
Theorem C50_in_list_agrees_with_index {A} (c : A -> A -> bool) e l : (forall x y, c x y = c y x) ->
  (element_in_list c e l = true <-> get_element_index_in_list c e l <> None).
Proof. exact (index_in_list_agree c e l). Qed.
Print Assumptions C50_in_list_agrees_with_index.
Theorem C50_is_close_symmetric p q t : is_close3 p q t = is_close3 q p t.
Proof. exact (is_close3_sym p q t). Qed.
Print Assumptions C50_is_close_symmetric.
Theorem C50_point_in_list_agrees p l t : 0 <= t -> point_in_list3 p l t = element_in_list (fun a b => is_close3 a b t) p l.
Proof. exact (point_in_list_agree p l t). Qed.
Print Assumptions C50_point_in_list_agrees.
Theorem C50_point_equality p q : eqb3 p q = true <-> p = q.
Proof. exact (eqb3_eq p q). Qed.
Print Assumptions C50_point_equality.
Theorem C50_delete_double_point_members l x : In x (delete_double_point eqb3 l) <-> In x l.
Proof. exact (dd_in eqb3 eqb3_eq l x). Qed.
Print Assumptions C50_delete_double_point_members.
Theorem C50_delete_double_point_nodup l : NoDup (delete_double_point eqb3 l).
Proof. exact (dd_nodup eqb3 eqb3_eq l). Qed.
Print Assumptions C50_delete_double_point_nodup.
(** Order of first occurrence: a point is kept, at the end, iff it does not occur before. *)
Theorem C50_delete_double_point_first_occurrence l p : delete_double_point eqb3 (l ++ [p]) =
  (if existsb (eqb3 p) l then delete_double_point eqb3 l else delete_double_point eqb3 l ++ [p]).
Proof. exact (dd_first eqb3 eqb3_eq l p). Qed.
Print Assumptions C50_delete_double_point_first_occurrence.
Example C50_nonvacuous : element_in_list Nat.eqb 3%nat [1%nat; 3%nat] = true /\ get_element_index_in_list Nat.eqb 3%nat [1%nat; 3%nat; 3%nat] = Some 1%nat.
Proof. split; reflexivity. Qed.

