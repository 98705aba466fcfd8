(** C217-C228: shells (statements only). *)
From Coq Require Import Reals List Arith ZArith Bool Permutation Lra Lia.
From Verif.Model Require Import Base RBase Vec BBox Mesh Shells Solid.
From Verif.Spec Require Import MeshSpec ShellsSpec SolidSpec.
From Verif.Proofs Require Import VecP MeshP SolidP ShellsP ShellsP2 ShellsP3 ShellsP4.
Import ListNotations.
Open Scope nat_scope.

(** ** C217: the union of a list of shells *)
@union_list_ok C217_shells_that_touch_are_united_and_the_results_are_apart
@union_list_empty C217_an_empty_list_is_refused
Example C217_nonvacuous : union_of_touching (fun a b : bool => Bool.eqb a b) (fun a b => if Bool.eqb a b then Some a else None) /\
  union_list_of_shells (fun a b => if Bool.eqb a b then Some a else None) 10 [true; false; true] = Ok ([false; true], []).
Proof.
  split; [|reflexivity]. split; [|split].
  - intros [|] [|]; reflexivity.
  - intros [|] [|]; cbn; split; try discriminate; eauto; intros [m M]; discriminate M.
  - intros [|] [|] m [|]; cbn; intros H; try discriminate H; apply (f_equal (fun o => match o with Some x => x | None => m end)) in H; cbn in H; subst m; reflexivity.
Qed.
(** ** C218: the list given (refuted) *)
@union_list_input C218_the_list_given_is_not_kept_refuted

(** ** C219: shells from faces *)
@from_faces_ok C219_the_shells_are_the_chains_of_faces_that_share_vertices
@faces_open_ok C219_open_means_an_edge_with_no_face_beyond
@from_faces_empty C219_a_face_without_edges_is_a_KeyError
Example C219_nonvacuous : equivalence Nat.eqb /\ from_faces Nat.eqb (fun _ _ => true) [[(0, 1); (1, 0)]; [(1, 2); (2, 1)]; [(7, 8)]; [(7, 9)]] = Ok [(false, [0; 1]); (false, [2; 3])].
Proof.
  split; [|reflexivity]. split; [intros a; apply Nat.eqb_refl|]. split; [intros a b H; rewrite Nat.eqb_sym; exact H|].
  intros a b c H1 H2. apply Nat.eqb_eq in H1, H2. apply Nat.eqb_eq. congruence.
Qed.
(** ** C220: faces that share no vertex (refuted) *)
@isolated_lost C220_a_face_alone_is_lost_refuted
@one_face_closed C220_a_face_alone_is_closed_refuted
(** ** C221: the cached graphs (refuted) *)
@vertices_graph_refuted C221_the_graph_of_the_vertices_after_that_of_the_faces_refuted
@faces_graph_refuted C221_the_graph_of_the_faces_with_another_option_refuted
@vertices_graph_none C221_the_graph_of_the_vertices_is_None_after_that_of_the_faces
@faces_graph_stale C221_the_first_option_is_kept
@vertices_graph_fresh C221_the_first_graph_of_the_vertices_is_right
@faces_graph_fresh C221_the_first_graph_of_the_faces_is_right

(** ** C222: boolean operations *)
@union_ok C222_the_union_has_the_points_of_both
@intersection_ok C222_the_intersection_has_the_common_points
@subtract_closed_ok C222_the_difference_as_a_closed_shell
Example C222_nonvacuous : right_tests (fun (s p : nat) => p < s) (fun a b => Nat.eqb (Nat.min a b) 0) Nat.leb /\
  intersection (fun a b => Nat.eqb (Nat.min a b) 0) Nat.leb (fun _ _ => []) 5 3 = [3].
Proof.
  split; [|reflexivity]. split.
  - intros a b H p. apply Nat.eqb_eq in H. lia.
  - intros a b H p. apply Nat.leb_le in H. lia.
Qed.
(** ** C223: subtract (refuted) *)
@subtract_wrong C223_the_difference_may_have_points_of_the_second_shell_refuted
@subtract_early C223_subtract_is_the_union_when_the_early_tests_answer

(** ** C224: faces of the results *)
@validate_ok C224_no_face_covered_by_an_earlier_one_is_kept
@separate_ok C224_faces_with_and_without_intersections
@merge_faces_ok C224_coincident_faces_are_merged_by_classes
@clean_faces_ok C224_covered_faces_are_removed
Example C224_nonvacuous : decides_equality Nat.eqb /\ merge_faces Nat.eqb (fun a b => Nat.eqb (Nat.div a 10) (Nat.div b 10)) (fun _ _ => false) (fun g => [list_sum g]) 9 [10; 20; 11; 30] = Ok [21; 20; 30].
Proof. split; [|reflexivity]. intros a b. apply Nat.eqb_eq. Qed.
(** ** C225: faces of the results (refuted) *)
@validate_refuted C225_a_face_that_covers_a_later_one_refuted
@clean_refuted C225_a_face_covered_twice_refuted

Open Scope R_scope.
(** ** C226: volume *)
@triangle_volume_ok C226_the_volume_is_at_least_that_of_the_solid_and_right_when_the_centre_sees_every_face
@triangle_points_corners C226_the_box_is_that_of_the_corners
@triangle_volume_empty C226_no_triangle_no_volume
@signed_volume_base C226_the_volume_enclosed_does_not_depend_on_the_base_point
@triangle_volume_translation C226_translations_keep_the_volume
@box_volume C226_boxes
@shell_volume_sum C226_the_sum_over_all_the_faces
Example C226_nonvacuous : closed_surface (box_triangles (V3 1 2 3) 4 5 6) /\ triangle_shell_volume (box_triangles (V3 1 2 3) 4 5 6) = Ok (4 * 5 * 6).
Proof. split; [apply box_closed|apply box_volume; lra]. Qed.
(** ** C227: volume of convex solids (refuted) *)
@volume_refuted C227_a_tetrahedron_has_twice_its_volume_refuted

Open Scope Z_scope.
(** ** C228: mesh data *)
@to_mesh_data_ok C228_every_point_once_and_the_triangles_in_order
@shared_index C228_equal_points_share_their_index
@from_mesh_data_ok C228_the_triangles_of_the_data_without_the_flat_ones
@mesh_data_round_trip C228_round_trip
@from_mesh_data_bad C228_an_index_too_large
@shell_triangulation_ok C228_the_triangulation_of_a_triangle_shell
Example C228_nonvacuous : to_mesh_data (fun v => v) [([0; 0; 0], [1; 0; 0], [0; 1; 0]); ([1; 0; 0], [0; 1; 0], [1; 1; 0])] =
  Ok ([[0; 0; 0]; [0; 1; 0]; [1; 0; 0]; [1; 1; 0]], [(0, 2, 1); (2, 1, 3)]).
Proof. reflexivity. Qed.
