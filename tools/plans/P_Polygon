(** Property theorems: polygons (C58, C69-C71, C90). *)
From Coq Require Import Reals Lra Lia List Bool.
From Verif.Model Require Import RBase Vec Polygon.
From Verif.Spec Require Import PolygonSpec MomentSpec.
From Verif.Proofs Require Import VecP PolygonP PolyAreaP PolygonP2.
Import ListNotations.
Open Scope R_scope.

(** ** C58 area and membership *)
@sides_In C58_sides The list of sides holds exactly the pairs of cyclically consecutive points.
@area_fan C58_area_fan The area is half the absolute value of the sum of the signed triangle areas o a b, for any point o.
@area_rotate C58_area_cyclic
@area_reverse C58_area_reversal
@area_translation C58_area_translation
@area_rotation C58_area_rotation
@area_scale C58_area_scale
@area_cut C58_area_cut
@polygon_rotation_points C58_rotation_points
@polygon_translation_points C58_translation_points
@polygon_moves_length C58_moves_length
@triangle2_area_spec C58_triangle_area_value
@triangle_area_agrees C58_triangle_area
@belongs_cases C58_point_belongs
@belongs_boundary C58_point_belongs_boundary
@belongs_parity C58_point_belongs_even_odd
@belongs_rotate C58_point_belongs_cyclic
@belongs_reverse C58_point_belongs_reversal
@belongs_translation C58_point_belongs_translation
@triangle_belongs C58_point_belongs_triangle
@belongs_no_tol_edge C58_include_edge_monotone
@belongs_degenerate C58_point_belongs_degenerate
Example C58_nonvacuous : polygon_area [V2 0 0; V2 2 0; V2 2 3; V2 0 3] = 6.
Proof. rewrite (area_fan _ O2D). unfold sum_sides, tri2, O2D. cbn. match goal with |- Rabs ?x / 2 = 6 => replace x with 12 by ring end. rewrite Rabs_right; lra. Qed.
Example C58_nonvacuous_triangle : tri2 (V2 0 0) (V2 4 0) (V2 0 4) <> 0 /\ in_triangle (V2 1 1) (V2 0 0) (V2 4 0) (V2 0 4).
Proof. split; [unfold tri2; cbn; lra|]. exists (/ 2), (/ 4), (/ 4). cbn. repeat split; lra. Qed.

(** ** C69 centre of mass, second moments *)
@com_spec C69_center_of_mass The centre of mass is the mean, weighted by signed area, of the centroids of the triangles o a b, for any o.
@com_integral C69_center_of_mass_integral
@com_small C69_center_of_mass_small
@com_flat C69_center_of_mass_flat
@area_integral C69_area_integral
@second_moment_integral C69_second_moment_integrals The integrals of (y - y0)^2, (x - x0)^2 and (x - x0)(y - y0) over the polygon, with the sign that makes the first one non-negative.
@barycenter_spec C69_barycenter_mean
@barycenter_total C69_barycenter_total
@barycenter_empty C69_barycenter_empty
@com_total C69_center_of_mass_total
@com_triangle C69_center_of_mass_triangle
@com_translation C69_center_of_mass_translation
@second_moment_translation C69_second_moment_translation
(** Parallel axes: the moments about any point are those about the centre of mass plus area times squared offset. *)
Theorem C69_second_moment_parallel_axes pts pt g ixp iyp ixyp ixg iyg ixyg : (3 <= length pts)%nat -> center_of_mass pts = Ok g ->
  second_moment_area pts pt = (ixp, iyp, ixyp) -> second_moment_area pts g = (ixg, iyg, ixyg) ->
  (let raw a b := (let u := sub2 a g in let v := sub2 b g in (y2 u ^ 2 + y2 u * y2 v + y2 v ^ 2) * (x2 u * y2 v - y2 u * x2 v)) in
   0 < sum_sides raw pts * sum_sides (tri2 O2D) pts) ->
  ixp = ixg + polygon_area pts * (y2 g - y2 pt) ^ 2 /\ iyp = iyg + polygon_area pts * (x2 g - x2 pt) ^ 2.
Proof. exact (second_moment_huygens pts pt g ixp iyp ixyp ixg iyg ixyg). Qed.
Print Assumptions C69_second_moment_parallel_axes.
Example C69_nonvacuous : exists g, center_of_mass [V2 0 0; V2 2 0; V2 2 3; V2 0 3] = Ok g.
Proof.
  apply com_total; [cbn; lia|]. unfold sum_sides, tri2, O2D. cbn [sides sides_from fold_right fst snd x2 y2].
  match goal with |- _ < Rabs ?x => replace x with 12 by ring end. rewrite Rabs_right; lra.
Qed.

(** ** C70 equality of polygons *)
@polygon_eq_spec C181_equal_lengths For the same number of points, == is equality of the point lists.
(** A polygon equals every polygon that extends it. *)
Theorem C70_prefix_refuted : exists a b, polygon_eq a b = true /\ length a <> length b.
Proof. exists [V2 0 0; V2 1 0; V2 1 1], ([V2 0 0; V2 1 0; V2 1 1] ++ [V2 0 5]). split; [apply polygon_eq_prefix|discriminate]. Qed.
Print Assumptions C70_prefix_refuted.

(** ** C71 distance of two polygons *)
@polygon_distance_spec C71_first_point_partial
@polygon_distance_wrong C71_minimum_refuted

(** ** C90 circles of a triangle *)
@circumcircle_spec C90_circumcircle
@circumcircle_err C90_circumcircle_flat
@incircle_spec C90_incircle
@incircle_err C90_incircle_total
Example C90_nonvacuous : exists r, circumcircle_radius (V2 0 0) (V2 4 0) (V2 0 3) = Ok r.
Proof. exact circumcircle_ex. Qed.
