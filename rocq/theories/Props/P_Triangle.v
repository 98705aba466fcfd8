(** C211-C216: triangles of space (statements only). *)
From Coq Require Import Reals List ZArith Lra Lia.
From Verif.Model Require Import Base RBase Vec Frame BBox Mesh Edges Plane Triangle3.
From Verif.Spec Require Import VecSpec TriangleSpec.
From Verif.Proofs Require Import VecP TriangleP TriangleP2 TriangleP3 TriangleP4 TriangleP5.
Import ListNotations.
Open Scope R_scope.

(** ** C211: the measures of a triangle *)
Theorem C211_the_area_is_half_the_area_vector t : triangle3_area t = area3 t.
Proof. exact (tri_area t). Qed.
Print Assumptions C211_the_area_is_half_the_area_vector.
Theorem C211_the_height_is_the_distance_to_the_base_line a b c : a <> b -> exists h, triangle3_height (a, b, c) = Ok h /\ (forall t, h <= D c (on_line a b t)) /\ (exists t, D c (on_line a b t) = h).
Proof. exact (height_ok a b c). Qed.
Print Assumptions C211_the_height_is_the_distance_to_the_base_line.
Theorem C211_no_base_no_height a c : triangle3_height (a, a, c) = Err ZeroDivisionError.
Proof. exact (height_err a c). Qed.
Print Assumptions C211_no_base_no_height.
Theorem C211_the_middle_is_the_mean_of_the_vertices t : triangle3_middle t = mean3 (/ 3) (/ 3) (/ 3) t.
Proof. exact (middle_ok t). Qed.
Print Assumptions C211_the_middle_is_the_mean_of_the_vertices.

(** ** C212: normals and displacements *)
Theorem C212_the_normal_is_along_the_area_vector a b c : ~ flat3 (a, b, c) -> exists n, triangle3_normal (a, b, c) = Ok n /\ norm3 n = 1 /\ dot3 n (sub3 b a) = 0 /\ dot3 n (sub3 c a) = 0 /\ area_vector (a, b, c) = mul3 n (2 * area3 (a, b, c)).
Proof. exact (normal_ok a b c). Qed.
Print Assumptions C212_the_normal_is_along_the_area_vector.
Theorem C212_every_triangle_that_is_not_flat_is_made t : ~ flat3 t -> triangle3_new t = Ok t.
Proof. exact (tri_new_ok t). Qed.
Print Assumptions C212_every_triangle_that_is_not_flat_is_made.
Theorem C212_flat_triangles_are_refused t : flat3 t -> triangle3_new t = Err ZeroDivisionError /\ triangle3_normal t = Err ZeroDivisionError.
Proof. exact (flat_no_triangle t). Qed.
Print Assumptions C212_flat_triangles_are_refused.
Theorem C212_translations_keep_the_area_vector t o : ~ flat3 t -> exists t', triangle3_translation t o = Ok t' /\ t' = map_corners (fun p => add3 p o) t /\ area_vector t' = area_vector t /\ triangle3_area t' = triangle3_area t.
Proof. exact (translated t o). Qed.
Print Assumptions C212_translations_keep_the_area_vector.
Theorem C212_rotations_keep_the_area_and_turn_the_area_vector a b c center axis angle : dot3 axis axis = 1 -> ~ flat3 (a, b, c) -> let f p := rotation3 p center axis angle in
  triangle3_rotation (a, b, c) center axis angle = Ok (f a, f b, f c) /\ triangle3_area (f a, f b, f c) = triangle3_area (a, b, c) /\ area_vector (f a, f b, f c) = rotation3 (area_vector (a, b, c)) O3D axis angle.
Proof. exact (rotated_ok a b c center axis angle). Qed.
Print Assumptions C212_rotations_keep_the_area_and_turn_the_area_vector.
Example C212_nonvacuous : ~ flat3 (V3 0 0 0, V3 1 0 0, V3 0 1 0) /\ dot3 (V3 0 0 1) (V3 0 0 1) = 1.
Proof.
  split; [|unfold dot3; cbn [x3 y3 z3]; ring].
  unfold flat3, area_vector, cross3, sub3. cbn [x3 y3 z3]. intros E. assert (Z : (1 - 0) * (1 - 0) - (0 - 0) * (0 - 0) = 0) by congruence. lra.
Qed.

(** ** C213: division into small triangles *)
Theorem C213_the_division_ends_with_small_triangles_that_cover_the_triangle t resolution : ~ flat3 t -> 0 < resolution ->
  exists n ts, (forall fuel, (n <= fuel)%nat -> subdescription_to_triangles fuel t resolution = Ok ts) /\
    (forall u, In u ts -> sides_at_most resolution u /\ ~ flat3 u) /\
    total (map area3 ts) = area3 t /\
    (forall x, in_triangle t x <-> exists u, In u ts /\ in_triangle u x).
Proof. exact (bisect_main t resolution). Qed.
Print Assumptions C213_the_division_ends_with_small_triangles_that_cover_the_triangle.
Theorem C213_small_triangles_are_not_divided t resolution fuel : ~ flat3 t -> sides_at_most resolution t -> subdescription_to_triangles (S fuel) t resolution = Ok [t].
Proof. exact (bisect_small t resolution fuel). Qed.
Print Assumptions C213_small_triangles_are_not_divided.
Theorem C213_it_never_ends_without_a_positive_resolution t resolution fuel : ~ flat3 t -> resolution <= 0 -> subdescription_to_triangles fuel t resolution = Err OutOfFuel.
Proof. exact (bisect_forever t resolution fuel). Qed.
Print Assumptions C213_it_never_ends_without_a_positive_resolution.

(** ** C214: the orientation of the pieces *)
Theorem C214_a_divided_triangle_has_a_piece_turned_over t resolution fuel ts : ~ flat3 t -> ~ sides_at_most resolution t -> subdescription_to_triangles fuel t resolution = Ok ts -> exists u, In u ts /\ dot3 (area_vector u) (area_vector t) < 0.
Proof. exact (turned t resolution fuel ts). Qed.
Print Assumptions C214_a_divided_triangle_has_a_piece_turned_over.
Theorem C214_the_pieces_keep_the_orientation_refuted : exists t resolution n ts u, ~ flat3 t /\ 0 < resolution /\ subdescription_to_triangles n t resolution = Ok ts /\ In u ts /\ dot3 (area_vector u) (area_vector t) < 0.
Proof. exact turned_refuted. Qed.
Print Assumptions C214_the_pieces_keep_the_orientation_refuted.

(** ** C215: sampling *)
Theorem C215_the_samples_are_in_the_triangle_and_nowhere_farther_than_the_resolution a b c resolution : ~ flat3 (a, b, c) -> 0 < resolution -> exists L, subdescription (a, b, c) resolution = Ok L /\
  (forall x, In x L -> in_triangle (a, b, c) x) /\ (In a L /\ In b L /\ In c L) /\
  (forall x, in_triangle (a, b, c) x -> exists y, In y L /\ point_distance3 x y <= resolution).
Proof. exact (subdescription_ok a b c resolution). Qed.
Print Assumptions C215_the_samples_are_in_the_triangle_and_nowhere_farther_than_the_resolution.

(** ** C216: attributes *)
Theorem C216_the_constructor_forgets_its_attributes alpha color name : triangle3_init alpha color name = Attrs (PyNum 1) PyNone (PyStr []).
Proof. exact (attrs_lost alpha color name). Qed.
Print Assumptions C216_the_constructor_forgets_its_attributes.
Theorem C216_a_triangle_has_the_attributes_it_was_made_with_refuted : exists alpha color name, a_alpha (triangle3_init alpha color name) <> alpha /\ a_color (triangle3_init alpha color name) <> color /\ a_name (triangle3_init alpha color name) <> name.
Proof. exact attrs_refuted. Qed.
Print Assumptions C216_a_triangle_has_the_attributes_it_was_made_with_refuted.
Theorem C216_moved_and_copied_triangles_keep_their_attributes_refuted : exists a, triangle3_moved_attrs a <> a /\ triangle3_copied_attrs a <> a.
Proof. exact attrs_moved_refuted. Qed.
Print Assumptions C216_moved_and_copied_triangles_keep_their_attributes_refuted.

