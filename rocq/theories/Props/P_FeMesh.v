(** C200-C210: finite element meshes and triangles (statements only). *)
From Coq Require Import Reals List ZArith Lra Lia.
From Verif.Model Require Import Base RBase Vec Frame BBox FeMesh.
From Verif.Spec Require Import VecSpec FeMeshSpec.
From Verif.Proofs Require Import VecP FeMeshP FeMeshP2 FeMeshP3 FeMeshP4.
Import ListNotations.
Open Scope R_scope.

(** ** C200: triangular elements *)
Theorem C200_form_functions_are_the_weights_of_the_points a b c : / 10 ^ 12 < Rabs (area2 a b c) -> exists f g h, form_functions a b c = Ok (f, g, h) /\
  forall p l m n, weights2 a b c p l m n -> let e := / 10 ^ 16 * (1 + Rabs (x2 p) + Rabs (y2 p)) in
    Rabs (affine2 f p - l) <= e /\ Rabs (affine2 g p - m) <= e /\ Rabs (affine2 h p - n) <= e.
Proof. exact (form_functions_ok a b c). Qed.
Print Assumptions C200_form_functions_are_the_weights_of_the_points.
Theorem C200_flat_elements_are_refused a b c : Rabs (area2 a b c) <= / 10 ^ 12 -> form_functions a b c = Err ValueError.
Proof. exact (form_functions_flat a b c). Qed.
Print Assumptions C200_flat_elements_are_refused.
Theorem C200_the_area a b c : triangle_area a b c = Rabs (area2 a b c) / 2.
Proof. exact (triangle_area_is a b c). Qed.
Print Assumptions C200_the_area.
Theorem C200_the_sides_and_their_inward_normals a b c : area2 a b c <> 0 -> exists n1 n2 n3, to_linear_elements a b c = Ok [(a, b, n1); (b, c, n2); (c, a, n3)] /\
  (forall p q r n, In (p, q, r, n) [(a, b, c, n1); (b, c, a, n2); (c, a, b, n3)] -> dot2 n n = 1 /\ dot2 n (sub2 q p) = 0 /\ 0 < dot2 n (sub2 r p)).
Proof. exact (linear_elements_ok a b c). Qed.
Print Assumptions C200_the_sides_and_their_inward_normals.
Theorem C200_an_element_is_made a b c : / 10 ^ 12 < Rabs (area2 a b c) -> exists l f, triangular_element a b c = Ok (l, f, V2 ((x2 a + x2 b + x2 c) / 3) ((y2 a + y2 b + y2 c) / 3), triangle_area a b c) /\ to_linear_elements a b c = Ok l /\ form_functions a b c = Ok f.
Proof. exact (triangular_element_ok a b c). Qed.
Print Assumptions C200_an_element_is_made.
Example C200_nonvacuous : / 10 ^ 12 < Rabs (area2 (V2 0 0) (V2 1 0) (V2 0 1)).
Proof. unfold area2. cbn [x2 y2]. replace (_ - _) with 1 by ring. rewrite Rabs_R1. lra. Qed.

(** ** C201: small elements *)
Theorem C201_every_triangle_that_is_not_flat_is_an_element_refuted : exists a b c, area2 a b c <> 0 /\ triangular_element a b c = Err ValueError.
Proof. exact small_triangle_flat. Qed.
Print Assumptions C201_every_triangle_that_is_not_flat_is_an_element_refuted.

(** ** C202: tetrahedral elements *)
Theorem C202_the_volume a b c d : tetra_volume a b c d = Rabs (volume6 a b c d) / 6.
Proof. exact (tetra_volume_is a b c d). Qed.
Print Assumptions C202_the_volume.
Theorem C202_form_functions_are_the_weights_times_six_volumes p0 p1 p2 p3 p k l m n : weights3 p0 p1 p2 p3 p k l m n -> let '(f0, f1, f2, f3) := tetra_forms p0 p1 p2 p3 in let V := volume6 p0 p1 p2 p3 in
  affine3 f0 p = k * V /\ affine3 f1 p = l * V /\ affine3 f2 p = m * V /\ affine3 f3 p = n * V.
Proof. exact (tetra_forms_are p0 p1 p2 p3 p k l m n). Qed.
Print Assumptions C202_form_functions_are_the_weights_times_six_volumes.

(** ** C203: their normalization *)
Theorem C203_form_functions_are_one_at_their_node_refuted : exists p0 p1 p2 p3 f0 f1 f2 f3, volume6 p0 p1 p2 p3 <> 0 /\ tetra_forms p0 p1 p2 p3 = (f0, f1, f2, f3) /\ affine3 f0 p0 = 8.
Proof. exact tetra_not_normalized. Qed.
Print Assumptions C203_form_functions_are_one_at_their_node_refuted.

(** ** C204: the circles of a triangle *)
Theorem C204_the_inscribed_circle_touches_the_sides a b c : area2 a b c <> 0 -> exists r o l m n, incircle_radius a b c = Ok r /\ 0 < r /\
  weights2 a b c o l m n /\ 0 < l /\ 0 < m /\ 0 < n /\ line_distance a b o = r /\ line_distance a c o = r /\ line_distance b c o = r.
Proof. exact (incircle_ok a b c). Qed.
Print Assumptions C204_the_inscribed_circle_touches_the_sides.
Theorem C204_a_point_has_no_inscribed_circle a : incircle_radius a a a = Err ZeroDivisionError.
Proof. exact (incircle_point a). Qed.
Print Assumptions C204_a_point_has_no_inscribed_circle.
Theorem C204_the_circumscribed_circle_goes_through_the_vertices a b c : area2 a b c <> 0 -> exists r o, circumcircle_radius a b c = Ok r /\ 0 < r /\ point_distance2 o a = r /\ point_distance2 o b = r /\ point_distance2 o c = r.
Proof. exact (circum_ok a b c). Qed.
Print Assumptions C204_the_circumscribed_circle_goes_through_the_vertices.
Theorem C204_flat_triangles_have_no_circumscribed_circle a b c : area2 a b c = 0 -> circumcircle_radius a b c = Err ZeroDivisionError.
Proof. exact (circum_flat a b c). Qed.
Print Assumptions C204_flat_triangles_have_no_circumscribed_circle.
Example C204_nonvacuous : area2 (V2 0 0) (V2 3 0) (V2 0 4) <> 0.
Proof. unfold area2. cbn [x2 y2]. lra. Qed.

(** ** C205: the aspect ratio *)
Theorem C205_the_aspect_ratio_compares_the_circles a b c : area2 a b c <> 0 -> exists R r, circumcircle_radius a b c = Ok R /\ incircle_radius a b c = Ok r /\ 0 < r /\ aspect_ratio a b c = R / (2 * r).
Proof. exact (aspect_ok a b c). Qed.
Print Assumptions C205_the_aspect_ratio_compares_the_circles.
Theorem C205_flat_triangles a b c : area2 a b c = 0 -> aspect_ratio a b c = 1000000.
Proof. exact (aspect_flat a b c). Qed.
Print Assumptions C205_flat_triangles.
Theorem C205_the_aspect_ratio_is_at_least_one a b c : 1 <= aspect_ratio a b c.
Proof. exact (aspect_ge_1 a b c). Qed.
Print Assumptions C205_the_aspect_ratio_is_at_least_one.
Theorem C205_and_one_for_equilateral_triangles_only a b c : aspect_ratio a b c = 1 <-> area2 a b c <> 0 /\ point_distance2 a b = point_distance2 a c /\ point_distance2 a b = point_distance2 b c.
Proof. exact (aspect_1 a b c). Qed.
Print Assumptions C205_and_one_for_equilateral_triangles_only.

(** ** C206: nodes *)
Theorem C206_the_nodes_are_the_points_of_the_elements_once_each gs : separated (concat (concat gs)) -> NoDup (mesh_nodes gs) /\ (forall p, In p (mesh_nodes gs) <-> exists g e, In g gs /\ In e g /\ In p e).
Proof. exact (mesh_nodes_ok gs). Qed.
Print Assumptions C206_the_nodes_are_the_points_of_the_elements_once_each.
Theorem C206_nodes_are_distinct_points_of_elements gs : NoDup (mesh_nodes gs) /\ (forall p, In p (mesh_nodes gs) -> exists g e, In g gs /\ In e g /\ In p e).
Proof. exact (mesh_nodes_points gs). Qed.
Print Assumptions C206_nodes_are_distinct_points_of_elements.
Theorem C206_the_number_of_a_node gs p : separated (p :: concat (concat gs)) -> forall i, node_to_index gs p = Some i <-> nth_error (mesh_nodes gs) i = Some p.
Proof. exact (node_to_index_ok gs p). Qed.
Print Assumptions C206_the_number_of_a_node.
Theorem C206_the_elements_of_a_node g p (has : element -> bool) : separated (p :: concat g) -> (forall e, In e g -> NoDup e) -> (forall e, has e = true <-> In p e) ->
  dict_get (elements_per_node g) p = match filter has g with [] => None | l => Some l end.
Proof. exact (elements_per_node_ok g p has). Qed.
Print Assumptions C206_the_elements_of_a_node.
Theorem C206_the_first_element_that_has_the_point belongs gs e : mesh_point_to_element belongs gs = Some e <-> exists l1 l2, concat gs = l1 ++ e :: l2 /\ belongs e = true /\ (forall f, In f l1 -> belongs f = false).
Proof. exact (point_to_element_some belongs gs e). Qed.
Print Assumptions C206_the_first_element_that_has_the_point.
Theorem C206_no_element_has_the_point belongs gs : mesh_point_to_element belongs gs = None <-> forall g e, In g gs -> In e g -> belongs e = false.
Proof. exact (point_to_element_none belongs gs). Qed.
Print Assumptions C206_no_element_has_the_point.
Theorem C206_the_bounding_rectangle gs : (exists g e p, In g gs /\ In e g /\ In p e) -> exists xm xM ym yM, mesh_rectangle gs = Ok (xm, xM, ym, yM) /\
  (separated (concat (concat gs)) -> forall g e p, In g gs -> In e g -> In p e -> xm <= x2 p <= xM /\ ym <= y2 p <= yM) /\
  (forall c x, In (c, x) [(x2, xm); (x2, xM); (y2, ym); (y2, yM)] -> exists g e p, In g gs /\ In e g /\ In p e /\ c p = x).
Proof. exact (mesh_rectangle_ok gs). Qed.
Print Assumptions C206_the_bounding_rectangle.
Theorem C206_the_empty_mesh_has_no_rectangle : mesh_rectangle [] = Err IndexError.
Proof. exact mesh_rectangle_empty. Qed.
Print Assumptions C206_the_empty_mesh_has_no_rectangle.
Example C206_nonvacuous : separated (concat (concat [[[V2 0 0; V2 1 0]]; [[V2 (/ 20000) 0; V2 0 1]]])).
Proof. exact (wm_sep true). Qed.

(** ** C207: equal nodes *)
Theorem C207_the_nodes_of_a_mesh_are_pairwise_different_refuted : exists p q, node_eq p q = true /\ node_hash p <> node_hash q /\ mesh_nodes [[[p; q]]] = [p; q].
Proof. exact equal_nodes_two_hashes. Qed.
Print Assumptions C207_the_nodes_of_a_mesh_are_pairwise_different_refuted.

(** ** C208: merging the nodes of two groups *)
Theorem C208_the_corrections m i tol r : separated (concat (concat (groups m))) -> correction m = [] -> nth_error (groups m) i = Some r ->
  exists c m', nodes_correction m i tol = Ok (c, m') /\ groups m' = groups m /\ gmsh m' = gmsh m /\
    forall j g p, j <> i -> nth_error (groups m) j = Some g -> point_of g p ->
      match dict_get c p with Some q => point_of r q /\ / 10 ^ 8 < point_distance2 p q < tol | None => forall q, point_of r q -> ~ / 10 ^ 8 < point_distance2 p q < tol end.
Proof. exact (nodes_correction_ok m i tol r). Qed.
Print Assumptions C208_the_corrections.
Theorem C208_the_reference_must_be_a_group m i tol : correction m = [] -> (length (groups m) <= i)%nat -> nodes_correction m i tol = Err IndexError.
Proof. exact (nodes_correction_index m i tol). Qed.
Print Assumptions C208_the_reference_must_be_a_group.
Theorem C208_the_nodes_are_merged m i tol r : separated (concat (concat (groups m))) -> correction m = [] -> gmsh m = true -> nth_error (groups m) i = Some r ->
  exists m2 m', delete_duplicated_nodes m i tol = Ok (m2, m') /\ groups m' = groups m /\ length (groups m2) = length (groups m) /\ nth_error (groups m2) i = Some r /\
    forall j g, j <> i -> nth_error (groups m) j = Some g -> exists g2, nth_error (groups m2) j = Some g2 /\ Forall2 (Forall2 (merged r tol)) g g2.
Proof. exact (delete_ok m i tol r). Qed.
Print Assumptions C208_the_nodes_are_merged.
Theorem C208_the_new_mesh_keeps_the_corrections m i tol m2 m' : delete_duplicated_nodes m i tol = Ok (m2, m') -> correction m2 = correction m'.
Proof. exact (delete_keeps_correction m i tol m2 m'). Qed.
Print Assumptions C208_the_new_mesh_keeps_the_corrections.

(** ** C209: a second reference *)
Theorem C209_the_first_corrections_stay m i tol c m' : nodes_correction m i tol = Ok (c, m') -> c <> [] -> forall j tol', nodes_correction m' j tol' = Ok (c, m').
Proof. exact (nodes_correction_cached m i tol c m'). Qed.
Print Assumptions C209_the_first_corrections_stay.
Theorem C209_the_corrections_follow_the_reference_refuted : exists m i j tol c m' c2 m2 p, correction m = [] /\ nodes_correction m i tol = Ok (c, m') /\ nodes_correction m j tol = Ok (c2, m2) /\
  nodes_correction m' j tol = Ok (c, m') /\ dict_get c p = None /\ dict_get c2 p <> None.
Proof. exact cached_refuted. Qed.
Print Assumptions C209_the_corrections_follow_the_reference_refuted.

(** ** C210: meshes without gmsh, nodes that are almost the same *)
Theorem C210_a_mesh_without_gmsh_cannot_be_merged m i tol : gmsh m = false -> (i < length (groups m))%nat -> delete_duplicated_nodes m i tol = Err ValueError.
Proof. exact (delete_no_gmsh_value m i tol). Qed.
Print Assumptions C210_a_mesh_without_gmsh_cannot_be_merged.
Theorem C210_close_nodes_are_merged_refuted : exists m i tol r g m2 m' p q, correction m = [] /\ gmsh m = true /\ nth_error (groups m) i = Some r /\ In g (groups m) /\ point_of r p /\ point_of g q /\ p <> q /\ 0 < point_distance2 p q < / 10 ^ 8 /\ / 10 ^ 8 < tol /\
  delete_duplicated_nodes m i tol = Ok (m2, m') /\ exists g2, In g2 (groups m2) /\ point_of g2 q.
Proof. exact close_nodes_stay. Qed.
Print Assumptions C210_close_nodes_are_merged_refuted.

