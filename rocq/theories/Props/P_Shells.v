(** C217-C228: shells (statements only). *)
From Coq Require Import Reals List Arith ZArith Bool Permutation Lra Lia.
From Verif.Model Require Import Base RBase Vec BBox Mesh Shells Solid.
From Verif.Spec Require Import MeshSpec ShellsSpec SolidSpec.
From Verif.Proofs Require Import VecP MeshP SolidP ShellsP ShellsP2 ShellsP3 ShellsP4.
Import ListNotations.
Open Scope nat_scope.

(** ** C217: the union of a list of shells *)
Theorem C217_shells_that_touch_are_united_and_the_results_are_apart {S} touch (union : S -> S -> option S) l : union_of_touching touch union -> l <> [] ->
  exists n r, (forall fuel, (n <= fuel)%nat -> union_list_of_shells union fuel l = Ok (r, [])) /\
    (exists groups, Permutation (concat groups) l /\ Forall2 (made union) groups r) /\ apart touch r.
Proof. exact (union_list_ok touch union l). Qed.
Print Assumptions C217_shells_that_touch_are_united_and_the_results_are_apart.
Theorem C217_an_empty_list_is_refused {S} (union : S -> S -> option S) fuel : union_list_of_shells union fuel [] = Err IndexError.
Proof. exact (union_list_empty union fuel). Qed.
Print Assumptions C217_an_empty_list_is_refused.
Example C217_nonvacuous : union_of_touching (fun a b : bool => Bool.eqb a b) (fun a b => if Bool.eqb a b then Some a else None) /\
  union_list_of_shells (fun a b => if Bool.eqb a b then Some a else None) 10 [true; false; true] = Ok ([false; true], []).
Proof.
  split; [|reflexivity]. split; [|split].
  - intros [|] [|]; reflexivity.
  - intros [|] [|]; cbn; split; try discriminate; eauto; intros [m M]; discriminate M.
  - intros [|] [|] m [|]; cbn; intros H; try discriminate H; apply (f_equal (fun o => match o with Some x => x | None => m end)) in H; cbn in H; subst m; reflexivity.
Qed.
(** ** C218: the list given (refuted) *)
Theorem C218_the_list_given_is_not_kept_refuted : exists (union : nat -> nat -> option nat) l fuel r left, union_list_of_shells union fuel l = Ok (r, left) /\ left <> l.
Proof. exact union_list_input. Qed.
Print Assumptions C218_the_list_given_is_not_kept_refuted.

(** ** C219: shells from faces *)
Theorem C219_the_shells_are_the_chains_of_faces_that_share_vertices {V} (close : V -> V -> bool) over faces : equivalence close -> (forall f, In f faces -> f <> []) -> exists shells, from_faces close over faces = Ok shells /\
  (forall i, (exists o c, In (o, c) shells /\ In i c) <-> exists j, next_face close faces i j) /\
  (forall o c, In (o, c) shells -> NoDup c /\ c <> [] /\ forall i, In i c -> forall j, In j c <-> chain close faces i j) /\
  (forall a b s t i, nth_error shells a = Some s -> nth_error shells b = Some t -> In i (snd s) -> In i (snd t) -> a = b) /\
  (forall o c, In (o, c) shells -> (o = true <-> exists i e, In i c /\ In e (nth i faces []) /\ forall j, next_face close faces i j -> over e j = false)).
Proof. exact (from_faces_ok close over faces). Qed.
Print Assumptions C219_the_shells_are_the_chains_of_faces_that_share_vertices.
Theorem C219_open_means_an_edge_with_no_face_beyond {V} (close : V -> V -> bool) over faces : equivalence close -> (forall f, In f faces -> f <> []) -> exists o, faces_open close over faces = Ok o /\
  (o = true <-> exists i e, (exists j, next_face close faces i j) /\ In e (nth i faces []) /\ forall j, next_face close faces i j -> over e j = false).
Proof. exact (faces_open_ok close over faces). Qed.
Print Assumptions C219_open_means_an_edge_with_no_face_beyond.
Theorem C219_a_face_without_edges_is_a_KeyError {V} (close : V -> V -> bool) over faces f : In f faces -> f = [] -> from_faces close over faces = Err KeyError.
Proof. exact (from_faces_empty close over faces f). Qed.
Print Assumptions C219_a_face_without_edges_is_a_KeyError.
Example C219_nonvacuous : equivalence Nat.eqb /\ from_faces Nat.eqb (fun _ _ => true) [[(0, 1); (1, 0)]; [(1, 2); (2, 1)]; [(7, 8)]; [(7, 9)]] = Ok [(false, [0; 1]); (false, [2; 3])].
Proof.
  split; [|reflexivity]. split; [intros a; apply Nat.eqb_refl|]. split; [intros a b H; rewrite Nat.eqb_sym; exact H|].
  intros a b c H1 H2. apply Nat.eqb_eq in H1, H2. apply Nat.eqb_eq. congruence.
Qed.
(** ** C220: faces that share no vertex (refuted) *)
Theorem C220_a_face_alone_is_lost_refuted : exists (close : nat -> nat -> bool) over f, equivalence close /\ f <> [] /\ from_faces close over [f] = Ok [].
Proof. exact isolated_lost. Qed.
Print Assumptions C220_a_face_alone_is_lost_refuted.
Theorem C220_a_face_alone_is_closed_refuted : exists (close : nat -> nat -> bool) over f, equivalence close /\ f <> [] /\ (forall e j, In e f -> over e j = false) /\ faces_open close over [f] = Ok false.
Proof. exact one_face_closed. Qed.
Print Assumptions C220_a_face_alone_is_closed_refuted.
(** ** C221: the cached graphs (refuted) *)
Theorem C221_the_graph_of_the_vertices_after_that_of_the_faces_refuted : exists (empty : nat -> bool) make_faces make_vertices verify, fst (vertices_graph empty make_vertices (snd (faces_graph empty make_faces no_graph verify))) <> Some make_vertices.
Proof. exact vertices_graph_refuted. Qed.
Print Assumptions C221_the_graph_of_the_vertices_after_that_of_the_faces_refuted.
Theorem C221_the_graph_of_the_faces_with_another_option_refuted : exists (empty : nat -> bool) make_faces v v', fst (faces_graph empty make_faces (snd (faces_graph empty make_faces no_graph v)) v') <> Some (make_faces v').
Proof. exact faces_graph_refuted. Qed.
Print Assumptions C221_the_graph_of_the_faces_with_another_option_refuted.
Theorem C221_the_graph_of_the_vertices_is_None_after_that_of_the_faces {G} empty (make_faces : bool -> G) make_vertices verify : empty (make_faces verify) = false ->
  fst (vertices_graph empty make_vertices (snd (faces_graph empty make_faces no_graph verify))) = None.
Proof. exact (vertices_graph_none empty make_faces make_vertices verify). Qed.
Print Assumptions C221_the_graph_of_the_vertices_is_None_after_that_of_the_faces.
Theorem C221_the_first_option_is_kept {G} empty (make_faces : bool -> G) v v' : empty (make_faces v) = false -> fst (faces_graph empty make_faces (snd (faces_graph empty make_faces no_graph v)) v') = Some (make_faces v).
Proof. exact (faces_graph_stale empty make_faces v v'). Qed.
Print Assumptions C221_the_first_option_is_kept.
Theorem C221_the_first_graph_of_the_vertices_is_right {G} empty (make_vertices : G) : fst (vertices_graph empty make_vertices no_graph) = Some make_vertices.
Proof. exact (vertices_graph_fresh empty make_vertices). Qed.
Print Assumptions C221_the_first_graph_of_the_vertices_is_right.
Theorem C221_the_first_graph_of_the_faces_is_right {G} empty (make_faces : bool -> G) make_vertices verify :
  fst (faces_graph empty make_faces no_graph verify) = Some (make_faces verify) /\ fst (faces_graph empty make_faces (snd (vertices_graph empty make_vertices no_graph)) verify) = Some (make_faces verify).
Proof. exact (faces_graph_fresh empty make_faces make_vertices verify). Qed.
Print Assumptions C221_the_first_graph_of_the_faces_is_right.

(** ** C222: boolean operations *)
Theorem C222_the_union_has_the_points_of_both {S P} (region : S -> P -> Prop) disjoint inside general a b : right_tests region disjoint inside ->
  (disjoint a b = false -> inside a b = false -> inside b a = false -> forall p, covered region (general a b) p <-> region a p \/ region b p) ->
  forall p, covered region (union disjoint inside general a b) p <-> region a p \/ region b p.
Proof. exact (union_ok region disjoint inside general a b). Qed.
Print Assumptions C222_the_union_has_the_points_of_both.
Theorem C222_the_intersection_has_the_common_points {S P} (region : S -> P -> Prop) disjoint inside general a b : right_tests region disjoint inside ->
  (disjoint a b = false -> inside a b = false -> inside b a = false -> forall p, covered region (general a b) p <-> region a p /\ region b p) ->
  forall p, covered region (intersection disjoint inside general a b) p <-> region a p /\ region b p.
Proof. exact (intersection_ok region disjoint inside general a b). Qed.
Print Assumptions C222_the_intersection_has_the_common_points.
Theorem C222_the_difference_as_a_closed_shell {S P} (region : S -> P -> Prop) disjoint inside general a b : right_tests region disjoint inside ->
  (disjoint a b = false -> forall p, covered region (general a b) p <-> region a p /\ ~ region b p) ->
  forall p, covered region (subtract_to_closed_shell disjoint inside general a b) p <-> region a p /\ ~ region b p.
Proof. exact (subtract_closed_ok region disjoint inside general a b). Qed.
Print Assumptions C222_the_difference_as_a_closed_shell.
Example C222_nonvacuous : right_tests (fun (s p : nat) => p < s) (fun a b => Nat.eqb (Nat.min a b) 0) Nat.leb /\
  intersection (fun a b => Nat.eqb (Nat.min a b) 0) Nat.leb (fun _ _ => []) 5 3 = [3].
Proof.
  split; [|reflexivity]. split.
  - intros a b H p. apply Nat.eqb_eq in H. lia.
  - intros a b H p. apply Nat.leb_le in H. lia.
Qed.
(** ** C223: subtract (refuted) *)
Theorem C223_the_difference_may_have_points_of_the_second_shell_refuted : exists (region : nat -> nat -> Prop) disjoint inside general a b p, right_tests region disjoint inside /\
  (forall q, covered region (general a b) q <-> region a q /\ ~ region b q) /\ region b p /\ covered region (subtract disjoint inside general a b) p.
Proof. exact subtract_wrong. Qed.
Print Assumptions C223_the_difference_may_have_points_of_the_second_shell_refuted.
Theorem C223_subtract_is_the_union_when_the_early_tests_answer {S} disjoint inside (general general' : S -> S -> list S) a b : disjoint a b = true \/ inside a b = true \/ inside b a = true -> subtract disjoint inside general a b = union disjoint inside general' a b.
Proof. exact (subtract_early disjoint inside general general' a b). Qed.
Print Assumptions C223_subtract_is_the_union_when_the_early_tests_answer.

(** ** C224: faces of the results *)
Theorem C224_no_face_covered_by_an_earlier_one_is_kept {F} (covers : F -> F -> bool) faces : let kept := validate_set_operations_faces covers faces in incl kept faces /\
  (forall f, In f faces -> In f kept \/ exists v, In v kept /\ covers v f = true) /\
  (forall l1 f l2, kept = l1 ++ f :: l2 -> forall v, In v l1 -> covers v f = false).
Proof. exact (validate_ok covers faces). Qed.
Print Assumptions C224_no_face_covered_by_an_earlier_one_is_kept.
Theorem C224_faces_with_and_without_intersections : forall F I (d : list (F * list I)), separate_faces d = (map fst (filter (fun e => negb (Nat.eqb (length (snd e)) 0)) d), map fst (filter (fun e => Nat.eqb (length (snd e)) 0) d)).
Proof. exact separate_ok. Qed.
Print Assumptions C224_faces_with_and_without_intersections.
Theorem C224_coincident_faces_are_merged_by_classes {F} eqb coincident covers merge (faces : list F) : decides_equality eqb -> equivalence coincident -> NoDup faces ->
  exists alone groups, classes coincident faces alone groups /\ forall fuel, 2 * length faces < fuel -> merge_faces eqb coincident covers merge fuel faces = clean_faces eqb covers alone (concat (map merge groups)).
Proof. exact (merge_faces_ok eqb coincident covers merge faces). Qed.
Print Assumptions C224_coincident_faces_are_merged_by_classes.
Theorem C224_covered_faces_are_removed {F} eqb (covers : F -> F -> bool) (us news : list F) : decides_equality eqb -> let removed := flat_map (fun f1 => flat_map (fun f2 => if covers f1 f2 then [f2] else if covers f2 f1 then [f1] else []) news) us in
  NoDup removed -> exists l, clean_faces eqb covers us news = Ok l /\ Permutation (removed ++ l) (news ++ us).
Proof. exact (clean_faces_ok eqb covers us news). Qed.
Print Assumptions C224_covered_faces_are_removed.
Example C224_nonvacuous : decides_equality Nat.eqb /\ merge_faces Nat.eqb (fun a b => Nat.eqb (Nat.div a 10) (Nat.div b 10)) (fun _ _ => false) (fun g => [list_sum g]) 9 [10; 20; 11; 30] = Ok [21; 20; 30].
Proof. split; [|reflexivity]. intros a b. apply Nat.eqb_eq. Qed.
(** ** C225: faces of the results (refuted) *)
Theorem C225_a_face_that_covers_a_later_one_refuted : exists (covers : nat -> nat -> bool) faces f g, (forall a, covers a a = true) /\ (forall a b c, covers a b = true -> covers b c = true -> covers a c = true) /\
  In f (validate_set_operations_faces covers faces) /\ In g (validate_set_operations_faces covers faces) /\ f <> g /\ covers f g = true.
Proof. exact validate_refuted. Qed.
Print Assumptions C225_a_face_that_covers_a_later_one_refuted.
Theorem C225_a_face_covered_twice_refuted : exists (covers : nat -> nat -> bool) us news, NoDup (us ++ news) /\ clean_faces Nat.eqb covers us news = Err ValueError.
Proof. exact clean_refuted. Qed.
Print Assumptions C225_a_face_covered_twice_refuted.

Open Scope R_scope.
(** ** C226: volume *)
Theorem C226_the_volume_is_at_least_that_of_the_solid_and_right_when_the_centre_sees_every_face ts : ts <> [] -> exists bb v,
  bbox_from_points (triangle_points ts) = Ok bb /\ triangle_shell_volume ts = Ok v /\
  v = fold_right Rplus 0 (map (fun t => Rabs (tetra6 (bbox_center bb) t) / 6) ts) /\
  (closed_surface ts -> forall o, Rabs (signed_volume o ts) <= v) /\
  (closed_surface ts -> sees (bbox_center bb) ts -> forall o, v = Rabs (signed_volume o ts)).
Proof. exact (triangle_volume_ok ts). Qed.
Print Assumptions C226_the_volume_is_at_least_that_of_the_solid_and_right_when_the_centre_sees_every_face.
Theorem C226_the_box_is_that_of_the_corners ts p : In p (triangle_points ts) <-> exists a b c, In (a, b, c) ts /\ (p = a \/ p = b \/ p = c).
Proof. exact (triangle_points_corners ts p). Qed.
Print Assumptions C226_the_box_is_that_of_the_corners.
Theorem C226_no_triangle_no_volume : triangle_shell_volume [] = Err ValueError.
Proof. exact triangle_volume_empty. Qed.
Print Assumptions C226_no_triangle_no_volume.
Theorem C226_the_volume_enclosed_does_not_depend_on_the_base_point o o' ts : closed_surface ts -> signed_volume o ts = signed_volume o' ts.
Proof. exact (signed_volume_base o o' ts). Qed.
Print Assumptions C226_the_volume_enclosed_does_not_depend_on_the_base_point.
Theorem C226_translations_keep_the_volume v ts : triangle_shell_volume (map (shift_tri v) ts) = triangle_shell_volume ts.
Proof. exact (triangle_volume_translation v ts). Qed.
Print Assumptions C226_translations_keep_the_volume.
Theorem C226_boxes p u v w : 0 <= u -> 0 <= v -> 0 <= w -> triangle_shell_volume (box_triangles p u v w) = Ok (u * v * w).
Proof. exact (box_volume p u v w). Qed.
Print Assumptions C226_boxes.
Theorem C226_the_sum_over_all_the_faces bb faces : shell_volume bb faces = fold_right Rplus 0 (map (fun t => Rabs (tetra6 (bbox_center bb) t) / 6) (concat faces)).
Proof. exact (shell_volume_sum bb faces). Qed.
Print Assumptions C226_the_sum_over_all_the_faces.
Example C226_nonvacuous : closed_surface (box_triangles (V3 1 2 3) 4 5 6) /\ triangle_shell_volume (box_triangles (V3 1 2 3) 4 5 6) = Ok (4 * 5 * 6).
Proof. split; [apply box_closed|apply box_volume; lra]. Qed.
(** ** C227: volume of convex solids (refuted) *)
Theorem C227_a_tetrahedron_has_twice_its_volume_refuted : exists ts, closed_surface ts /\ (exists o, sees o ts) /\ (forall o, signed_volume o ts = 1 / 6) /\ triangle_shell_volume ts = Ok (1 / 3).
Proof. exact volume_refuted. Qed.
Print Assumptions C227_a_tetrahedron_has_twice_its_volume_refuted.

Open Scope Z_scope.
(** ** C228: mesh data *)
Theorem C228_every_point_once_and_the_triangles_in_order rnd faces : exists (vs : list row) (ts : list tri3), to_mesh_data rnd faces = Ok (vs, ts) /\
  NoDup vs /\ (forall v, In v vs <-> exists t, In t (map (map3 rnd) faces) /\ In v (face_rows t)) /\
  shape {| mdim := 3; verts := vs; tris := ts |} (map (map3 rnd) faces).
Proof. exact (to_mesh_data_ok rnd faces). Qed.
Print Assumptions C228_every_point_once_and_the_triangles_in_order.
Theorem C228_equal_points_share_their_index rnd faces vs ts : to_mesh_data rnd faces = Ok (vs, ts) -> forall i j a b, nth_error vs i = Some a -> nth_error vs j = Some b -> a = b -> i = j.
Proof. exact (shared_index rnd faces vs ts). Qed.
Print Assumptions C228_equal_points_share_their_index.
Theorem C228_the_triangles_of_the_data_without_the_flat_ones {T} (make : row * row * row -> res T) d vs ts s : shape {| mdim := d; verts := vs; tris := ts |} s ->
  (forall t e, In t s -> make t = Err e -> e = ZeroDivisionError) -> exists l, from_mesh_data make vs ts = Ok l /\ made_of make s l.
Proof. exact (from_mesh_data_ok make d vs ts s). Qed.
Print Assumptions C228_the_triangles_of_the_data_without_the_flat_ones.
Theorem C228_round_trip {T} (make : row * row * row -> res T) rnd faces : (forall t e, In t (map (map3 rnd) faces) -> make t = Err e -> e = ZeroDivisionError) ->
  exists (vs : list row) (ts : list tri3) l, to_mesh_data rnd faces = Ok (vs, ts) /\ from_mesh_data make vs ts = Ok l /\ made_of make (map (map3 rnd) faces) l.
Proof. exact (mesh_data_round_trip make rnd faces). Qed.
Print Assumptions C228_round_trip.
Theorem C228_an_index_too_large {T} (make : row * row * row -> res T) vs t ts : (exists x, In x (flat_tri t) /\ Z.of_nat (length vs) <= x) -> from_mesh_data make vs (t :: ts) = Err IndexError.
Proof. exact (from_mesh_data_bad make vs t ts). Qed.
Print Assumptions C228_an_index_too_large.
Theorem C228_the_triangulation_of_a_triangle_shell : forall V (faces : list (V * V * V)), length (verts (shell_triangulation faces)) = (3 * length faces)%nat /\
  triangles_vertices (shell_triangulation faces) = Ok faces.
Proof. exact shell_triangulation_ok. Qed.
Print Assumptions C228_the_triangulation_of_a_triangle_shell.
Example C228_nonvacuous : to_mesh_data (fun v => v) [([0; 0; 0], [1; 0; 0], [0; 1; 0]); ([1; 0; 0], [0; 1; 0], [1; 1; 0])] =
  Ok ([[0; 0; 0]; [0; 1; 0]; [1; 0; 0]; [1; 1; 0]], [(0, 2, 1); (2, 1, 3)]).
Proof. reflexivity. Qed.

