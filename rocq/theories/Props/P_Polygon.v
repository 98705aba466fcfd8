(** Property theorems: polygons (C58, C69-C71, C90). *)
From Coq Require Import Reals Lra Lia List Bool.
From Verif.Model Require Import RBase Vec Polygon.
From Verif.Spec Require Import PolygonSpec MomentSpec.
From Verif.Proofs Require Import VecP PolygonP PolyAreaP PolygonP2.
Import ListNotations.
Open Scope R_scope.

(** ** C58 area and membership *)
(** The list of sides holds exactly the pairs of cyclically consecutive points. *)
Theorem C58_sides pts a b : In (a, b) (sides pts) <-> is_side pts a b.
Proof. exact (sides_In pts a b). Qed.
Print Assumptions C58_sides.
(** The area is half the absolute value of the sum of the signed triangle areas o a b, for any point o. *)
Theorem C58_area_fan pts o : polygon_area pts = Rabs (sum_sides (tri2 o) pts) / 2.
Proof. exact (area_fan pts o). Qed.
Print Assumptions C58_area_fan.
Theorem C58_area_cyclic a l : polygon_area (l ++ [a]) = polygon_area (a :: l).
Proof. exact (area_rotate a l). Qed.
Print Assumptions C58_area_cyclic.
Theorem C58_area_reversal pts : polygon_area (rev pts) = polygon_area pts.
Proof. exact (area_reverse pts). Qed.
Print Assumptions C58_area_reversal.
Theorem C58_area_translation pts o : polygon_area (polygon_translation pts o) = polygon_area pts.
Proof. exact (area_translation pts o). Qed.
Print Assumptions C58_area_translation.
Theorem C58_area_rotation pts c a : polygon_area (polygon_rotation pts c a) = polygon_area pts.
Proof. exact (area_rotation pts c a). Qed.
Print Assumptions C58_area_rotation.
Theorem C58_area_scale pts k : polygon_area (map (fun p => mul2 p k) pts) = k ^ 2 * polygon_area pts.
Proof. exact (area_scale pts k). Qed.
Print Assumptions C58_area_scale.
Theorem C58_area_cut p l q r s : let A := sum_sides (tri2 O2D) in
  (0 <= s * A (p :: l ++ [q])) -> (0 <= s * A (q :: r ++ [p])) -> s <> 0 ->
  polygon_area (p :: l ++ q :: r) = polygon_area (p :: l ++ [q]) + polygon_area (q :: r ++ [p]).
Proof. exact (area_cut p l q r s). Qed.
Print Assumptions C58_area_cut.
Theorem C58_rotation_points pts c a i p : nth_error pts i = Some p -> nth_error (polygon_rotation pts c a) i = Some (rotation2 p c a).
Proof. exact (polygon_rotation_points pts c a i p). Qed.
Print Assumptions C58_rotation_points.
Theorem C58_translation_points pts o i p : nth_error pts i = Some p -> nth_error (polygon_translation pts o) i = Some (translation2 p o).
Proof. exact (polygon_translation_points pts o i p). Qed.
Print Assumptions C58_translation_points.
Theorem C58_moves_length pts c a o : length (polygon_rotation pts c a) = length pts /\ length (polygon_translation pts o) = length pts.
Proof. exact (polygon_moves_length pts c a o). Qed.
Print Assumptions C58_moves_length.
Theorem C58_triangle_area_value a b c : triangle2_area a b c = Rabs (tri2 a b c) / 2.
Proof. exact (triangle2_area_spec a b c). Qed.
Print Assumptions C58_triangle_area_value.
Theorem C58_triangle_area a b c : polygon_area [a; b; c] = triangle2_area a b c.
Proof. exact (triangle_area_agrees a b c). Qed.
Print Assumptions C58_triangle_area.
Theorem C58_point_belongs pts p inc tol : 0 <= tol -> no_degenerate_side pts ->
  ((exists a b, is_side pts a b /\ near_side tol p a b) /\ polygon_point_belongs pts p inc tol = Ok inc) \/
  ((forall a b, is_side pts a b -> ~ near_side tol p a b) /\
   exists n, counts (ray_crosses p) (sides pts) n /\ polygon_point_belongs pts p inc tol = Ok (Nat.odd n)).
Proof. exact (belongs_cases pts p inc tol). Qed.
Print Assumptions C58_point_belongs.
Theorem C58_point_belongs_boundary pts p inc tol : 0 <= tol -> no_degenerate_side pts -> on_boundary p pts -> polygon_point_belongs pts p inc tol = Ok inc.
Proof. exact (belongs_boundary pts p inc tol). Qed.
Print Assumptions C58_point_belongs_boundary.
Theorem C58_point_belongs_even_odd pts p inc tol n : 0 <= tol -> no_degenerate_side pts -> (forall a b, is_side pts a b -> ~ near_side tol p a b) ->
  counts (ray_crosses p) (sides pts) n -> polygon_point_belongs pts p inc tol = Ok (Nat.odd n).
Proof. exact (belongs_parity pts p inc tol n). Qed.
Print Assumptions C58_point_belongs_even_odd.
Theorem C58_point_belongs_cyclic a l p inc tol : 0 <= tol -> no_degenerate_side (a :: l) ->
  polygon_point_belongs (l ++ [a]) p inc tol = polygon_point_belongs (a :: l) p inc tol.
Proof. exact (belongs_rotate a l p inc tol). Qed.
Print Assumptions C58_point_belongs_cyclic.
Theorem C58_point_belongs_reversal pts p inc tol : 0 <= tol -> no_degenerate_side pts ->
  polygon_point_belongs (rev pts) p inc tol = polygon_point_belongs pts p inc tol.
Proof. exact (belongs_reverse pts p inc tol). Qed.
Print Assumptions C58_point_belongs_reversal.
Theorem C58_point_belongs_translation pts p o inc tol : 0 <= tol -> no_degenerate_side pts ->
  polygon_point_belongs (polygon_translation pts o) (translation2 p o) inc tol = polygon_point_belongs pts p inc tol.
Proof. exact (belongs_translation pts p o inc tol). Qed.
Print Assumptions C58_point_belongs_translation.
Theorem C58_point_belongs_triangle p a b c inc tol : 0 <= tol -> tri2 a b c <> 0 ->
  (forall u v, is_side [a; b; c] u v -> ~ near_side tol p u v) ->
  exists r, polygon_point_belongs [a; b; c] p inc tol = Ok r /\ (r = true <-> in_triangle p a b c).
Proof. exact (triangle_belongs p a b c inc tol). Qed.
Print Assumptions C58_point_belongs_triangle.
Theorem C58_include_edge_monotone pts p tol : 0 <= tol -> no_degenerate_side pts -> polygon_point_belongs pts p false tol = Ok true ->
  polygon_point_belongs pts p true tol = Ok true.
Proof. exact (belongs_no_tol_edge pts p tol). Qed.
Print Assumptions C58_include_edge_monotone.
Theorem C58_point_belongs_degenerate pts p inc tol : (exists a b r, pts = a :: b :: r /\ a = b) -> polygon_point_belongs pts p inc tol = Err ZeroDivisionError.
Proof. exact (belongs_degenerate pts p inc tol). Qed.
Print Assumptions C58_point_belongs_degenerate.
Example C58_nonvacuous : polygon_area [V2 0 0; V2 2 0; V2 2 3; V2 0 3] = 6.
Proof. rewrite (area_fan _ O2D). unfold sum_sides, tri2, O2D. cbn. match goal with |- Rabs ?x / 2 = 6 => replace x with 12 by ring end. rewrite Rabs_right; lra. Qed.
Example C58_nonvacuous_triangle : tri2 (V2 0 0) (V2 4 0) (V2 0 4) <> 0 /\ in_triangle (V2 1 1) (V2 0 0) (V2 4 0) (V2 0 4).
Proof. split; [unfold tri2; cbn; lra|]. exists (/ 2), (/ 4), (/ 4). cbn. repeat split; lra. Qed.

(** ** C69 centre of mass, second moments *)
(** The centre of mass is the mean, weighted by signed area, of the centroids of the triangles o a b, for any o. *)
Theorem C69_center_of_mass pts g o : (3 <= length pts)%nat -> center_of_mass pts = Ok g ->
  sum_sides (tri2 o) pts <> 0 /\
  x2 g * sum_sides (tri2 o) pts = sum_sides (fun a b => tri2 o a b * ((x2 o + x2 a + x2 b) / 3)) pts /\
  y2 g * sum_sides (tri2 o) pts = sum_sides (fun a b => tri2 o a b * ((y2 o + y2 a + y2 b) / 3)) pts.
Proof. exact (com_spec pts g o). Qed.
Print Assumptions C69_center_of_mass.
Theorem C69_center_of_mass_integral pts g o : (3 <= length pts)%nat -> center_of_mass pts = Ok g ->
  x2 g * poly_integral (fun _ _ => 1) o pts = poly_integral (fun x y => x) o pts /\
  y2 g * poly_integral (fun _ _ => 1) o pts = poly_integral (fun x y => y) o pts.
Proof. exact (com_integral pts g o). Qed.
Print Assumptions C69_center_of_mass_integral.
Theorem C69_center_of_mass_small p q : center_of_mass [] = Ok (V2 0 0) /\ center_of_mass [p] = Ok p /\
  center_of_mass [p; q] = Ok (V2 ((x2 p + x2 q) / 2) ((y2 p + y2 q) / 2)).
Proof. exact (com_small p q). Qed.
Print Assumptions C69_center_of_mass_small.
Theorem C69_center_of_mass_flat pts : (3 <= length pts)%nat -> sum_sides (tri2 O2D) pts = 0 -> center_of_mass pts = Err NotImplementedError.
Proof. exact (com_flat pts). Qed.
Print Assumptions C69_center_of_mass_flat.
Theorem C69_area_integral o pts : polygon_area pts = Rabs (poly_integral (fun _ _ => 1) o pts).
Proof. exact (area_integral o pts). Qed.
Print Assumptions C69_area_integral.
(** The integrals of (y - y0)^2, (x - x0)^2 and (x - x0)(y - y0) over the polygon, with the sign that makes the first one non-negative. *)
Theorem C69_second_moment_integrals pts pt :
  let ix := poly_integral (fun x y => (y - y2 pt) ^ 2) pt pts in
  let iy := poly_integral (fun x y => (x - x2 pt) ^ 2) pt pts in
  let ixy := poly_integral (fun x y => (x - x2 pt) * (y - y2 pt)) pt pts in
  second_moment_area pts pt = if Rlt_dec ix 0 then (- ix, - iy, - ixy) else (ix, iy, ixy).
Proof. exact (second_moment_integral pts pt). Qed.
Print Assumptions C69_second_moment_integrals.
Theorem C69_barycenter_mean pts g : polygon_barycenter pts = Ok g -> mul2 g (INR (length pts)) = sum_points pts.
Proof. exact (barycenter_spec pts g). Qed.
Print Assumptions C69_barycenter_mean.
Theorem C69_barycenter_total pts : pts <> [] -> exists g, polygon_barycenter pts = Ok g.
Proof. exact (barycenter_total pts). Qed.
Print Assumptions C69_barycenter_total.
Theorem C69_barycenter_empty : polygon_barycenter [] = Err IndexError.
Proof. exact barycenter_empty. Qed.
Print Assumptions C69_barycenter_empty.
Theorem C69_center_of_mass_total pts : (3 <= length pts)%nat -> 2 / 10 ^ 12 < Rabs (sum_sides (tri2 O2D) pts) -> exists g, center_of_mass pts = Ok g.
Proof. exact (com_total pts). Qed.
Print Assumptions C69_center_of_mass_total.
Theorem C69_center_of_mass_triangle a b c g : center_of_mass [a; b; c] = Ok g -> g = V2 ((x2 a + x2 b + x2 c) / 3) ((y2 a + y2 b + y2 c) / 3).
Proof. exact (com_triangle a b c g). Qed.
Print Assumptions C69_center_of_mass_triangle.
Theorem C69_center_of_mass_translation pts o g : (3 <= length pts)%nat -> center_of_mass pts = Ok g -> center_of_mass (polygon_translation pts o) = Ok (translation2 g o).
Proof. exact (com_translation pts o g). Qed.
Print Assumptions C69_center_of_mass_translation.
Theorem C69_second_moment_translation pts pt o : second_moment_area (polygon_translation pts o) (translation2 pt o) = second_moment_area pts pt.
Proof. exact (second_moment_translation pts pt o). Qed.
Print Assumptions C69_second_moment_translation.
(** Parallel axes: the moments about any point are those about the centre of mass plus area times squared offset. *)
Theorem C69_second_moment_parallel_axes pts pt g ixp iyp ixyp ixg iyg ixyg : (3 <= length pts)%nat -> center_of_mass pts = Ok g ->
  second_moment_area pts pt = (ixp, iyp, ixyp) -> second_moment_area pts g = (ixg, iyg, ixyg) ->
  (let raw a b := (let u := sub2 a g in let v := sub2 b g in (y2 u ^ 2 + y2 u * y2 v + y2 v ^ 2) * (x2 u * y2 v - y2 u * x2 v)) in
   0 < sum_sides raw pts * sum_sides (tri2 O2D) pts) ->
  ixp = ixg + polygon_area pts * (y2 g - y2 pt) ^ 2 /\ iyp = iyg + polygon_area pts * (x2 g - x2 pt) ^ 2.
Proof. exact (second_moment_huygens pts pt g ixp iyp ixyp ixg iyg ixyg). Qed.
Print Assumptions C69_second_moment_parallel_axes.
Example C69_nonvacuous : exists g, center_of_mass [V2 0 0; V2 2 0; V2 2 3; V2 0 3] = Ok g.
Proof.
  apply com_total; [cbn; lia|]. unfold sum_sides, tri2, O2D. cbn [sides sides_from fold_right fst snd x2 y2].
  match goal with |- _ < Rabs ?x => replace x with 12 by ring end. rewrite Rabs_right; lra.
Qed.

(** ** C70 equality of polygons *)
(** For the same number of points, == is equality of the point lists. *)
Theorem C181_equal_lengths a b : length a = length b -> (polygon_eq a b = true <-> a = b).
Proof. exact (polygon_eq_spec a b). Qed.
Print Assumptions C181_equal_lengths.
(** A polygon equals every polygon that extends it. *)
Theorem C70_prefix_refuted : exists a b, polygon_eq a b = true /\ length a <> length b.
Proof. exists [V2 0 0; V2 1 0; V2 1 1], ([V2 0 0; V2 1 0; V2 1 1] ++ [V2 0 5]). split; [apply polygon_eq_prefix|discriminate]. Qed.
Print Assumptions C70_prefix_refuted.

(** ** C71 distance of two polygons *)
Theorem C71_first_point_partial p a b d : polygon_distance (p :: a) b = Ok d ->
  (exists q, In q b /\ d = point_distance2 p q) /\ (forall q, In q b -> d <= point_distance2 p q).
Proof. exact (polygon_distance_spec p a b d). Qed.
Print Assumptions C71_first_point_partial.
Theorem C71_minimum_refuted : exists a b d e, polygon_distance a b = Ok d /\ polygon_distance b a = Ok e /\ e < d /\
  exists p q, In p a /\ In q b /\ point_distance2 p q < d.
Proof. exact polygon_distance_wrong. Qed.
Print Assumptions C71_minimum_refuted.

(** ** C90 circles of a triangle *)
Theorem C90_circumcircle a b c r : circumcircle_radius a b c = Ok r ->
  exists o, point_distance2 o a = r /\ point_distance2 o b = r /\ point_distance2 o c = r.
Proof. exact (circumcircle_spec a b c r). Qed.
Print Assumptions C90_circumcircle.
Theorem C90_circumcircle_flat a b c e : circumcircle_radius a b c = Err e <-> tri2 a b c = 0 /\ e = ZeroDivisionError.
Proof. exact (circumcircle_err a b c e). Qed.
Print Assumptions C90_circumcircle_flat.
Theorem C90_incircle a b c r : incircle_radius a b c = Ok r ->
  exists l m n o, 0 <= l /\ 0 <= m /\ 0 <= n /\ l + m + n = 1 /\
    o = V2 (l * x2 a + m * x2 b + n * x2 c) (l * y2 a + m * y2 b + n * y2 c) /\
    Rabs (tri2 o a b) = r * point_distance2 a b /\ Rabs (tri2 o b c) = r * point_distance2 b c /\ Rabs (tri2 o c a) = r * point_distance2 c a.
Proof. exact (incircle_spec a b c r). Qed.
Print Assumptions C90_incircle.
Theorem C90_incircle_total a b c e : incircle_radius a b c = Err e <-> a = b /\ b = c /\ e = ZeroDivisionError.
Proof. exact (incircle_err a b c e). Qed.
Print Assumptions C90_incircle_total.
Example C90_nonvacuous : exists r, circumcircle_radius (V2 0 0) (V2 4 0) (V2 0 3) = Ok r.
Proof. exact circumcircle_ex. Qed.

