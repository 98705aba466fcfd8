(** C108-C113: line segments of edges.py (statements only). *)
From Coq Require Import Reals Lra Lia List.
From Verif.Model Require Import Base RBase Vec Frame BBox Geometry Curves Edges.
From Verif.Spec Require Import VecSpec BBoxSpec PlaneSpec CurvesSpec EdgesSpec.
From Verif.Proofs Require Import VecP LineP GeometryP CurvesP EdgesP EdgesP3 EdgesP4 EdgesP5 EdgesP6 EdgesP7 EdgesP8 EdgesP9 EdgesP10 EdgesP11 EdgesP12 EdgesP13.
Import ListNotations.
Open Scope R_scope.

(** the unit segment, the one that crosses it in its middle, one that overlaps it; two crossing segments of space *)
Definition S0 : sg2 := (V2 0 0, V2 1 0).
Definition S1 : sg2 := (V2 (1 / 2) (- 1), V2 (1 / 2) 1).
Definition S2 : sg2 := (V2 2 0, V2 (1 / 2) 0).
Definition E0 : sg3 := (V3 0 0 0, V3 1 0 0).
Definition E1 : sg3 := (V3 (1 / 2) (- 1) 0, V3 (1 / 2) 1 0).

(** ** C108: ends, abscissas, discretization *)
Theorem C108_a_segment_joins_two_different_points s e : s <> e -> segment2 s e = Ok (s, e).
Proof. exact (segment2_ok s e). Qed.
Print Assumptions C108_a_segment_joins_two_different_points.
Theorem C108_a_segment_of_one_point_is_rejected s : segment2 s s = Err ValueError.
Proof. exact (segment2_err s). Qed.
Print Assumptions C108_a_segment_of_one_point_is_rejected.
Theorem C108_abscissa_0_is_the_start s : fst s <> snd s -> sg2_point_at_abscissa s 0 = Ok (fst s).
Proof. exact (sg2_pat_start s). Qed.
Print Assumptions C108_abscissa_0_is_the_start.
Theorem C108_abscissa_length_is_the_end s : fst s <> snd s -> sg2_point_at_abscissa s (sg2_length s) = Ok (snd s).
Proof. exact (sg2_pat_end s). Qed.
Print Assumptions C108_abscissa_length_is_the_end.
Theorem C108_the_middle_is_at_half_length s : fst s <> snd s -> sg2_point_at_abscissa s (sg2_length s / 2) = Ok (sg2_middle s).
Proof. exact (sg2_pat_middle s). Qed.
Print Assumptions C108_the_middle_is_at_half_length.
Theorem C108_abscissas_measure_distances s a b p q : fst s <> snd s ->
  sg2_point_at_abscissa s a = Ok p -> sg2_point_at_abscissa s b = Ok q -> point_distance2 p q = Rabs (a - b).
Proof. exact (sg2_pat_dist s a b p q). Qed.
Print Assumptions C108_abscissas_measure_distances.
Theorem C108_point_at_abscissa_is_on_the_line s a : fst s <> snd s ->
  sg2_point_at_abscissa s a = Ok (seg2 (fst s) (snd s) (a / sg2_length s)).
Proof. exact (sg2_pat_param s a). Qed.
Print Assumptions C108_point_at_abscissa_is_on_the_line.
Theorem C108_abscissa_of_point_at_abscissa s a p tol : fst s <> snd s -> 0 < tol -> 0 <= a <= sg2_length s ->
  sg2_point_at_abscissa s a = Ok p ->
  exists b, sg2_abscissa s p tol = Ok b /\ Rabs (b - a) < tol /\ (tol <= a <= sg2_length s - tol -> b = a).
Proof. exact (sg2_abscissa_of_pat s a p tol). Qed.
Print Assumptions C108_abscissa_of_point_at_abscissa.
Theorem C108_point_at_abscissa_of_abscissa s p tol : fst s <> snd s -> 0 < tol -> on_segment2 s p ->
  exists a q, sg2_abscissa s p tol = Ok a /\ 0 <= a <= sg2_length s /\ sg2_point_at_abscissa s a = Ok q /\ point_distance2 p q < tol.
Proof. exact (sg2_pat_of_abscissa s p tol). Qed.
Print Assumptions C108_point_at_abscissa_of_abscissa.
Theorem C108_abscissa_of_any_point_is_that_of_its_projection s p tol : fst s <> snd s ->
  tol <= point_distance2 p (fst s) -> tol <= point_distance2 p (snd s) ->
  let a := dot2 (sub2 p (fst s)) (sub2 (snd s) (fst s)) / sg2_length s in
  sg2_abscissa s p tol = if Rltb a (- / 10 ^ 9) || Rltb (sg2_length s + / 10 ^ 9) a then Err ValueError else Ok a.
Proof. exact (sg2_abscissa_outside s p tol). Qed.
Print Assumptions C108_abscissa_of_any_point_is_that_of_its_projection.
(** the projection decides *)
Theorem C139_abscissa_rejects_points_off_the_segment_refuted : exists s p a, proper2 s /\ ~ near_segment2 s p 4 /\ sg2_abscissa s p (/ 10 ^ 6) = Ok a.
Proof. exact sg2_abscissa_off. Qed.
Print Assumptions C139_abscissa_rejects_points_off_the_segment_refuted.
Theorem C108_discretization_is_regular s k r : fst s <> snd s ->
  let n := number_of_points k r (sg2_length s) in
  exists l, sg2_discretization s k r = Ok l /\ length l = Z.to_nat n /\
  (forall i d, (i < Z.to_nat n)%nat -> nth i l d = seg2 (fst s) (snd s) (INR i / IZR (n - 1))).
Proof. exact (sg2_discretization_is s k r). Qed.
Print Assumptions C108_discretization_is_regular.
Theorem C108_abscissa_discretization s a1 a2 n : proper2 s -> 0 <= a1 <= sg2_length s -> 0 <= a2 <= sg2_length s ->
  exists pts abs, sg2_abscissa_discretization s a1 a2 n = Ok (pts, abs) /\
    length pts = length abs /\
    (forall p, In p pts -> on_segment2 s p) /\
    (forall i d, (i < length abs)%nat -> sg2_point_at_abscissa s (nth i abs 0) = Ok (nth i pts d)) /\
    (forall a, In a abs -> exists i, (i < n)%nat /\ a = a1 + INR i * ((a2 - a1) / INR (n - 1))) /\
    ForallOrdPairs (fun p q => / 10 ^ 6 < point_distance2 p q) pts /\
    (forall i, (i < n)%nat -> exists p q, sg2_point_at_abscissa s (a1 + INR i * ((a2 - a1) / INR (n - 1))) = Ok p /\ In q pts /\ point_distance2 p q <= / 10 ^ 6).
Proof. exact (sg2_abscissa_discretization_spec s a1 a2 n). Qed.
Print Assumptions C108_abscissa_discretization.
Theorem C108_local_discretization s p1 p2 n : proper2 s -> on_segment2 s p1 -> on_segment2 s p2 -> (2 <= n)%nat ->
  exists pts, sg2_local_discretization s p1 p2 n = Ok pts /\
    (forall p, In p pts -> on_segment2 s p) /\
    ForallOrdPairs (fun p q => / 10 ^ 6 < point_distance2 p q) pts /\
    (forall p, In p pts -> exists i, (i < n)%nat /\ point_distance2 p (at_param2 (p1, p2) (INR i / INR (n - 1))) < / 10 ^ 6) /\
    (forall i, (i < n)%nat -> exists q, In q pts /\ point_distance2 (at_param2 (p1, p2) (INR i / INR (n - 1))) q < 2 * / 10 ^ 6).
Proof. exact (sg2_local_discretization_spec s p1 p2 n). Qed.
Print Assumptions C108_local_discretization.
Theorem C108_reverse s : proper2 s -> exists r, sg2_reverse s = Ok r /\ sg2_length r = sg2_length s /\ (forall p, on_segment2 r p <-> on_segment2 s p) /\
  (forall k, at_param2 r k = at_param2 s (1 - k)) /\ sg2_reverse r = Ok s.
Proof. exact (sg2_reverse_spec s). Qed.
Print Assumptions C108_reverse.
Theorem C108_direction_independent_is_close s t tol : proper2 s -> 0 <= tol -> exists b, sg2_is_close_any_direction s t tol = Ok b /\
  (b = true <-> joins2 s (fst t) (snd t) tol).
Proof. exact (sg2_any_direction_spec s t tol). Qed.
Print Assumptions C108_direction_independent_is_close.
Theorem C108_abscissa_0_is_the_start_3d s : fst s <> snd s -> sg3_point_at_abscissa s 0 = Ok (fst s).
Proof. exact (sg3_pat_start s). Qed.
Print Assumptions C108_abscissa_0_is_the_start_3d.
Theorem C108_abscissa_length_is_the_end_3d s : fst s <> snd s -> sg3_point_at_abscissa s (sg3_length s) = Ok (snd s).
Proof. exact (sg3_pat_end s). Qed.
Print Assumptions C108_abscissa_length_is_the_end_3d.
Theorem C108_the_middle_is_at_half_length_3d s : fst s <> snd s -> sg3_point_at_abscissa s (sg3_length s / 2) = Ok (sg3_middle s).
Proof. exact (sg3_pat_middle s). Qed.
Print Assumptions C108_the_middle_is_at_half_length_3d.
Theorem C108_abscissas_measure_distances_3d s a b p q : fst s <> snd s ->
  sg3_point_at_abscissa s a = Ok p -> sg3_point_at_abscissa s b = Ok q -> point_distance3 p q = Rabs (a - b).
Proof. exact (sg3_pat_dist s a b p q). Qed.
Print Assumptions C108_abscissas_measure_distances_3d.
Theorem C108_abscissa_of_point_at_abscissa_3d s a p tol : fst s <> snd s -> 0 < tol -> 0 <= a <= sg3_length s ->
  sg3_point_at_abscissa s a = Ok p ->
  exists b, sg3_abscissa s p tol = Ok b /\ Rabs (b - a) < tol /\ (tol <= a <= sg3_length s - tol -> b = a).
Proof. exact (sg3_abscissa_of_pat s a p tol). Qed.
Print Assumptions C108_abscissa_of_point_at_abscissa_3d.
Theorem C108_point_at_abscissa_of_abscissa_3d s p tol : fst s <> snd s -> 0 < tol -> on_segment3 s p ->
  exists a q, sg3_abscissa s p tol = Ok a /\ 0 <= a <= sg3_length s /\ sg3_point_at_abscissa s a = Ok q /\ point_distance3 p q < tol.
Proof. exact (sg3_pat_of_abscissa s p tol). Qed.
Print Assumptions C108_point_at_abscissa_of_abscissa_3d.
Theorem C108_abscissa_of_any_point_is_that_of_its_projection_3d s p tol : fst s <> snd s ->
  tol <= point_distance3 p (fst s) -> tol <= point_distance3 p (snd s) ->
  let a := dot3 (sub3 p (fst s)) (sub3 (snd s) (fst s)) / sg3_length s in
  sg3_abscissa s p tol = if Rltb a (- / 10 ^ 9) || Rltb (sg3_length s + / 10 ^ 9) a then Err ValueError else Ok a.
Proof. exact (sg3_abscissa_outside s p tol). Qed.
Print Assumptions C108_abscissa_of_any_point_is_that_of_its_projection_3d.
Theorem C108_discretization_is_regular_3d s k r : fst s <> snd s ->
  let n := number_of_points k r (sg3_length s) in
  exists l, sg3_discretization s k r = Ok l /\ length l = Z.to_nat n /\
  (forall i d, (i < Z.to_nat n)%nat -> nth i l d = seg3 (fst s) (snd s) (INR i / IZR (n - 1))).
Proof. exact (sg3_discretization_is s k r). Qed.
Print Assumptions C108_discretization_is_regular_3d.
Lemma S0_proper : proper2 S0. Proof. intros H. pose proof (f_equal x2 H) as X. cbn in X. lra. Qed.
Lemma S1_proper : proper2 S1. Proof. intros H. pose proof (f_equal y2 H) as X. cbn in X. lra. Qed.
Lemma S2_proper : proper2 S2. Proof. intros H. pose proof (f_equal x2 H) as X. cbn in X. lra. Qed.
Lemma E0_proper : proper3 E0. Proof. intros H. pose proof (f_equal x3 H) as X. cbn in X. lra. Qed.
Lemma E1_proper : proper3 E1. Proof. intros H. pose proof (f_equal y3 H) as X. cbn in X. lra. Qed.
Example C108_nonvacuous : fst S0 <> snd S0 /\ fst E0 <> snd E0 /\ on_segment2 S0 (V2 (1 / 2) 0) /\ 0 <= 1 / 2 <= sg2_length S0.
Proof.
  split; [exact S0_proper|]. split; [exact E0_proper|]. split; [exists (1 / 2); split; [lra|]; unfold S0, at_param2; vec; v_eq; field|].
  replace (sg2_length S0) with 1; [lra|]. symmetry. unfold sg2_length, point_distance2, norm2, S0. apply GeometryP.sqrt_of_sq; vec; lra.
Qed.

(** ** C109: belonging, splitting, trimming *)
Theorem C109_point_distance_is_the_distance s p : proper2 s ->
  exists d, sg2_point_distance s p = Ok d /\ (exists q, on_segment2 s q /\ d = point_distance2 p q) /\
    (forall q, on_segment2 s q -> d <= point_distance2 p q).
Proof. exact (sg2_distance_is s p). Qed.
Print Assumptions C109_point_distance_is_the_distance.
Theorem C109_point_distance_is_the_distance_3d s p : proper3 s ->
  exists d, sg3_point_distance s p = Ok d /\ (exists q, on_segment3 s q /\ d = point_distance3 p q) /\
    (forall q, on_segment3 s q -> d <= point_distance3 p q).
Proof. exact (sg3_distance_is s p). Qed.
Print Assumptions C109_point_distance_is_the_distance_3d.
Theorem C109_point_belongs_is_within_tolerance s p tol : proper2 s -> 0 <= tol ->
  exists b, sg2_point_belongs s p tol = Ok b /\ (b = true <-> near_segment2 s p tol).
Proof. exact (sg2_belongs_spec s p tol). Qed.
Print Assumptions C109_point_belongs_is_within_tolerance.
Theorem C109_point_belongs_is_within_tolerance_3d s p tol : proper3 s -> 0 <= tol ->
  exists b, sg3_point_belongs s p tol = Ok b /\ (b = true <-> near_segment3 s p tol).
Proof. exact (sg3_belongs_spec s p tol). Qed.
Print Assumptions C109_point_belongs_is_within_tolerance_3d.
Theorem C109_split_cuts_the_segment_in_two s p tol : proper2 s -> 0 <= tol -> on_segment2 s p ->
  (point_distance2 p (fst s) <= tol /\ sg2_split s p tol = Ok (None, Some s)) \/
  (tol < point_distance2 p (fst s) /\ point_distance2 p (snd s) <= tol /\ sg2_split s p tol = Ok (Some s, None)) \/
  (tol < point_distance2 p (fst s) /\ tol < point_distance2 p (snd s) /\
   sg2_split s p tol = Ok (Some (fst s, p), Some (p, snd s)) /\
   sg2_length (fst s, p) + sg2_length (p, snd s) = sg2_length s /\
   (forall q, on_segment2 s q <-> on_segment2 (fst s, p) q \/ on_segment2 (p, snd s) q)).
Proof. exact (sg2_split_spec s p tol). Qed.
Print Assumptions C109_split_cuts_the_segment_in_two.
Theorem C109_split_cuts_the_segment_in_two_3d s p tol : proper3 s -> 0 <= tol -> on_segment3 s p ->
  (point_distance3 p (fst s) <= tol /\ sg3_split s p tol = Ok (None, Some s)) \/
  (tol < point_distance3 p (fst s) /\ point_distance3 p (snd s) <= tol /\ sg3_split s p tol = Ok (Some s, None)) \/
  (tol < point_distance3 p (fst s) /\ tol < point_distance3 p (snd s) /\
   sg3_split s p tol = Ok (Some (fst s, p), Some (p, snd s)) /\
   sg3_length (fst s, p) + sg3_length (p, snd s) = sg3_length s /\
   (forall q, on_segment3 s q <-> on_segment3 (fst s, p) q \/ on_segment3 (p, snd s) q)).
Proof. exact (sg3_split_spec s p tol). Qed.
Print Assumptions C109_split_cuts_the_segment_in_two_3d.
(** a point off the segment is accepted *)
Theorem C140_split_keeps_the_points_refuted : exists s p, proper2 s /\ ~ near_segment2 s p (1 / 2) /\
  exists a b, sg2_split s p (/ 10 ^ 6) = Ok (Some a, Some b) /\ sg2_length s < sg2_length a.
Proof. exact sg2_split_off. Qed.
Print Assumptions C140_split_keeps_the_points_refuted.
Theorem C109_trim_joins_the_two_points s p q : proper2 s -> on_segment2 s p -> on_segment2 s q -> / 10 ^ 4 < point_distance2 p q ->
  exists r, sg2_trim s p q = Ok (Some r) /\ joins2 r p q (/ 10 ^ 6).
Proof. exact (sg2_trim_spec s p q). Qed.
Print Assumptions C109_trim_joins_the_two_points.
(** two points less than 1e-4 apart *)
Theorem C140_trim_of_any_two_points_refuted : exists s p q r, proper2 s /\ on_segment2 s p /\ on_segment2 s q /\
  / 20000 = point_distance2 p q /\ sg2_trim s p q = Ok (Some r) /\ fst r = fst s /\ snd r = q /\ / 3 < point_distance2 (fst r) p.
Proof. exact sg2_trim_close. Qed.
Print Assumptions C140_trim_of_any_two_points_refuted.
Example C109_nonvacuous : proper2 S0 /\ proper3 E0 /\ on_segment2 S0 (V2 0 0) /\ on_segment2 S0 (V2 1 0) /\ / 10 ^ 4 < point_distance2 (V2 0 0) (V2 1 0).
Proof.
  split; [exact S0_proper|]. split; [exact E0_proper|]. split; [exact (on_fst S0)|]. split; [exact (on_snd S0)|].
  replace (point_distance2 _ _) with 1; [lra|]. symmetry. unfold point_distance2, norm2. apply GeometryP.sqrt_of_sq; vec; lra.
Qed.

(** ** C110: intersections in the plane *)
Theorem C110_line_intersections_are_on_both s l q pts : proper2 s -> proper2 l -> / 10 ^ 15 < Rabs (den2 s l) -> sg2_line_intersections s l = Ok pts -> In q pts ->
  (exists t, q = at_param2 l t) /\ near_segment2 s q (reach s) /\ (exists t, q = at_param2 s t).
Proof. exact (sg2_line_sound s l q pts). Qed.
Print Assumptions C110_line_intersections_are_on_both.
Theorem C110_line_intersections_finds_the_common_point s l p : proper2 s -> proper2 l -> / 10 ^ 15 < Rabs (den2 s l) -> apart s l (/ 10 ^ 6) ->
  on_segment2 s p -> on_line2 l p -> sg2_line_intersections s l = Ok [p].
Proof. exact (sg2_line_complete s l p). Qed.
Print Assumptions C110_line_intersections_finds_the_common_point.
Theorem C110_line_intersections_of_a_line_that_stays_away s l : proper2 s -> proper2 l -> / 10 ^ 15 < Rabs (den2 s l) ->
  (forall q, (exists t, q = at_param2 l t) -> ~ near_segment2 s q (reach s)) -> sg2_line_intersections s l = Ok [].
Proof. exact (sg2_line_far s l). Qed.
Print Assumptions C110_line_intersections_of_a_line_that_stays_away.
Theorem C110_line_crossings_are_line_intersections s l pts q : sg2_line_crossings s l = Ok pts -> In q pts ->
  (exists pts', sg2_line_intersections s l = Ok pts' /\ In q pts') .
Proof. exact (sg2_crossings_sub s l pts q). Qed.
Print Assumptions C110_line_crossings_are_line_intersections.
Theorem C110_line_crossings_leave_out_the_ends s l p : proper2 s -> proper2 l -> / 10 ^ 15 < Rabs (den2 s l) -> apart s l (/ 10 ^ 6) ->
  on_segment2 s p -> on_line2 l p ->
  sg2_line_crossings s l = Ok (if is_close2 p (snd s) (/ 10 ^ 6) || is_close2 p (fst s) (/ 10 ^ 6) then [] else [p]).
Proof. exact (sg2_crossings_complete s l p). Qed.
Print Assumptions C110_line_crossings_leave_out_the_ends.
Theorem C110_intersections_are_on_both s t tol q pts : proper2 s -> proper2 t -> sg2_intersections s t tol = Ok pts -> In q pts ->
  near_segment2 s q (reach s) /\ near_segment2 t q (reach t) /\ (exists k, q = at_param2 s k) /\ (exists k, q = at_param2 t k).
Proof. exact (sg2_inter_sound s t tol q pts). Qed.
Print Assumptions C110_intersections_are_on_both.
Theorem C110_intersections_finds_the_common_point s t tol p : proper2 s -> proper2 t -> 0 <= tol -> / 10 ^ 15 < Rabs (den2 s t) -> apart s t tol ->
  on_segment2 s p -> on_segment2 t p -> sg2_intersections s t tol = Ok [p].
Proof. exact (sg2_inter_complete s t tol p). Qed.
Print Assumptions C110_intersections_finds_the_common_point.
Theorem C110_intersections_never_raises s t tol : proper2 s -> proper2 t -> exists pts, sg2_intersections s t tol = Ok pts /\ (length pts <= 1)%nat.
Proof. exact (sg2_inter_total s t tol). Qed.
Print Assumptions C110_intersections_never_raises.
(** segments that cross at a small angle *)
Theorem C141_intersections_finds_every_common_point_refuted : exists s t p, proper2 s /\ proper2 t /\ on_segment2 s p /\ on_segment2 t p /\
  sg2_length s = 2 /\ / 10 ^ 15 < Rabs (den2 s t) /\ sg2_intersections s t (/ 10 ^ 6) = Ok [] /\ sg2_line_intersections s t = Ok [].
Proof. exact sg2_inter_flat. Qed.
Print Assumptions C141_intersections_finds_every_common_point_refuted.
Theorem C110_bounding_rectangle_contains_the_segment s p : on_segment2 s p -> in_rect (sg2_rectangle s) p.
Proof. exact (sg2_rect_in s p). Qed.
Print Assumptions C110_bounding_rectangle_contains_the_segment.
Theorem C110_bounding_rectangle_is_the_least s r : (forall p, on_segment2 s p -> in_rect r p) -> rect_le (sg2_rectangle s) r.
Proof. exact (sg2_rect_least s r). Qed.
Print Assumptions C110_bounding_rectangle_is_the_least.
Example C110_nonvacuous : proper2 S0 /\ proper2 S1 /\ / 10 ^ 15 < Rabs (den2 S0 S1) /\ apart S0 S1 (/ 10 ^ 6) /\ on_segment2 S0 (V2 (1 / 2) 0) /\ on_segment2 S1 (V2 (1 / 2) 0).
Proof.
  split; [exact S0_proper|]. split; [exact S1_proper|]. split.
  { replace (den2 S0 S1) with 2 by (unfold den2, S0, S1; vec; ring). rewrite Rabs_right; lra. }
  split.
  { unfold apart. replace (dot2 _ _) with 0 by (unfold S0, S1; vec; ring). rewrite Rabs_R0. pose proof (sg2_length_pos S0 S0_proper). pose proof (sg2_length_pos S1 S1_proper).
    apply Rmult_lt_0_compat; [|apply Rmult_lt_0_compat; auto]. rewrite Rmax_left; lra. }
  split; exists (1 / 2); (split; [lra|]); unfold S0, S1, at_param2; vec; v_eq; field.
Qed.

(** ** C111: distances in the plane *)
Theorem C111_distance_between_segments_is_the_least s t : proper2 s -> proper2 t -> (apart s t (/ 10 ^ 6) /\ / 10 ^ 15 < Rabs (den2 s t)) \/ ~ (exists r, on_segment2 s r /\ on_segment2 t r) ->
  exists d p q m, sg2_distance s t = Ok (d, p, q) /\ d = point_distance2 p q /\ min_dist point_distance2 (on_segment2 s) (on_segment2 t) m /\
    Rabs (d - m) <= reach s + reach t.
Proof. exact (sg2_distance_total s t). Qed.
Print Assumptions C111_distance_between_segments_is_the_least.
Theorem C111_distance_between_disjoint_segments_is_exact s t : proper2 s -> proper2 t -> ~ (exists r, on_segment2 s r /\ on_segment2 t r) ->
  sg2_intersections s t (/ 10 ^ 6) = Ok [] ->
  exists d p q, sg2_distance s t = Ok (d, p, q) /\ d = point_distance2 p q /\ min_dist point_distance2 (on_segment2 s) (on_segment2 t) d.
Proof. exact (sg2_distance_disjoint s t). Qed.
Print Assumptions C111_distance_between_disjoint_segments_is_exact.
(** segments that cross at a small angle *)
Theorem C142_distance_of_crossing_segments_is_zero_refuted : exists s t d p q, proper2 s /\ proper2 t /\ min_dist point_distance2 (on_segment2 s) (on_segment2 t) 0 /\
  sg2_distance s t = Ok (d, p, q) /\ / 2000 <= d.
Proof. exact sg2_distance_flat. Qed.
Print Assumptions C142_distance_of_crossing_segments_is_zero_refuted.
Theorem C111_distance_to_a_line_is_the_least s l : proper2 s -> proper2 l -> den2 l s = 0 \/ / 10 ^ 15 < Rabs (den2 l s) ->
  exists d p q m, sg2_line_distance s l = Ok (d, p, q) /\ d = point_distance2 p q /\
    min_dist point_distance2 (on_segment2 s) (line2_has l) m /\ m <= / 10 ^ 6 + d /\ d <= m + / 10 ^ 6 /\ (d <> 0 -> d = m).
Proof. exact (sg2_line_distance_spec s l). Qed.
Print Assumptions C111_distance_to_a_line_is_the_least.
Example C111_nonvacuous : proper2 S0 /\ proper2 (V2 0 1, V2 1 1) /\ ~ (exists r, on_segment2 S0 r /\ on_segment2 (V2 0 1, V2 1 1) r) /\ den2 S0 (V2 0 1, V2 1 1) = 0.
Proof.
  split; [exact S0_proper|]. split; [intros H; pose proof (f_equal x2 H) as X; cbn in X; lra|]. split; [|unfold den2, S0; vec; ring].
  intros (r & (t & T & ->) & (u & U & E)). pose proof (f_equal y2 E) as Y. unfold S0, at_param2 in Y. vec. lra.
Qed.

(** ** C112: shared section *)
Theorem C112_the_shared_section_is_on_both s t tol l : proper2 s -> proper2 t -> 0 <= tol -> sg2_shared_section s t tol = Ok l -> both s t tol l.
Proof. exact (shared_sound s t tol l). Qed.
Print Assumptions C112_the_shared_section_is_on_both.
Theorem C112_the_shared_section_of_overlapping_segments s t tol : proper2 s -> proper2 t -> 0 <= tol ->
  (exists p q, p <> q /\ on_segment2 s p /\ on_segment2 s q /\ on_segment2 t p /\ on_segment2 t q) ->
  (forall e f, In e [fst s; snd s] -> In f [fst t; snd t] -> e = f \/ tol < point_distance2 e f) ->
  exists r, sg2_shared_section s t tol = Ok [r] /\ forall p, on_segment2 r p <-> on_segment2 s p /\ on_segment2 t p.
Proof. exact (shared_complete s t tol). Qed.
Print Assumptions C112_the_shared_section_of_overlapping_segments.
(** an end of the first is on the second, no end of the second on the first *)
Theorem C143_the_shared_section_never_raises_refuted : exists s t, proper2 s /\ proper2 t /\ sg2_shared_section s t (/ 10 ^ 6) = Err NotImplementedError.
Proof. exact shared_raises. Qed.
Print Assumptions C143_the_shared_section_never_raises_refuted.
Example C112_nonvacuous : proper2 S0 /\ proper2 S2 /\
  (exists p q, p <> q /\ on_segment2 S0 p /\ on_segment2 S0 q /\ on_segment2 S2 p /\ on_segment2 S2 q) /\
  (forall e f, In e [fst S0; snd S0] -> In f [fst S2; snd S2] -> e = f \/ / 10 ^ 6 < point_distance2 e f).
Proof.
  split; [exact S0_proper|]. split; [exact S2_proper|]. split.
  - exists (V2 (1 / 2) 0), (V2 1 0). split; [intros H; pose proof (f_equal x2 H) as X; cbn in X; lra|]. split; [exists (1 / 2)|split; [exists 1|split; [exists 1|exists (2 / 3)]]]; (split; [lra|]); unfold S0, S2, at_param2; vec; v_eq; field.
  - intros e f A B. right. assert (G : forall a b : R, 1 / 4 <= (a - b) * (a - b) -> / 10 ^ 6 < point_distance2 (V2 a 0) (V2 b 0)).
    { intros a b L. apply Rlt_le_trans with (1 / 2); [lra|]. unfold point_distance2, norm2. rewrite <- (sqrt_square (1 / 2)) by lra. apply sqrt_le_1_alt. vec. lra. }
    destruct A as [<- |[<- |[]]], B as [<- |[<- |[]]]; apply G; lra.
Qed.

(** ** C113: segments of space *)
Theorem C113_intersections_are_on_both s t tol q pts : proper3 s -> proper3 t -> 0 <= tol -> sg3_intersections s t tol = Ok pts -> In q pts ->
  near_segment3 s q tol /\ near_segment3 t q tol.
Proof. exact (sg3_inter_sound s t tol q pts). Qed.
Print Assumptions C113_intersections_are_on_both.
Theorem C113_intersections_finds_the_common_point s t tol p : proper3 s -> proper3 t -> 0 <= tol ->
  is_colinear_to3 (dir3 s) (dir3 t) (/ 10 ^ 6) = false -> cross3 (dir3 s) (dir3 t) <> V3 0 0 0 ->
  (dot3 (dir3 s) (dir3 t) = 0 \/ / 10 ^ 6 < Rabs (dot3 (dir3 s) (dir3 t))) ->
  on_segment3 s p -> on_segment3 t p -> sg3_intersections s t tol = Ok [p].
Proof. exact (sg3_inter_complete s t tol p). Qed.
Print Assumptions C113_intersections_finds_the_common_point.
Theorem C113_line_intersections_are_on_both s l tol : proper3 s -> fst l <> snd l -> 0 <= tol ->
  is_colinear_to3 (dir3 s) (dir3 l) (/ 10 ^ 6) = false -> cross3 (dir3 s) (dir3 l) <> V3 0 0 0 ->
  (dot3 (dir3 s) (dir3 l) = 0 \/ tol < Rabs (dot3 (dir3 s) (dir3 l))) ->
  exists pts, sg3_line_intersections s l tol = Ok pts /\ (length pts <= 1)%nat /\
   forall p, In p pts -> near_segment3 s p (/ 10 ^ 6) /\ exists q, on_line3 l q /\ point_distance3 p q <= Rmax tol (/ 10 ^ 6).
Proof. exact (sg3_line_sound s l tol). Qed.
Print Assumptions C113_line_intersections_are_on_both.
Theorem C113_line_intersections_finds_the_common_point s l tol r : proper3 s -> fst l <> snd l -> 0 <= tol ->
  is_colinear_to3 (dir3 s) (dir3 l) (/ 10 ^ 6) = false -> cross3 (dir3 s) (dir3 l) <> V3 0 0 0 ->
  (dot3 (dir3 s) (dir3 l) = 0 \/ tol < Rabs (dot3 (dir3 s) (dir3 l))) ->
  on_segment3 s r -> on_line3 l r -> sg3_line_intersections s l tol = Ok [r].
Proof. exact (sg3_line_complete s l tol r). Qed.
Print Assumptions C113_line_intersections_finds_the_common_point.
Theorem C113_bounding_box_contains_the_segment s p : on_segment3 s p -> in_box (sg3_bounding_box s) p.
Proof. exact (sg3_box_in s p). Qed.
Print Assumptions C113_bounding_box_contains_the_segment.
Theorem C113_bounding_box_is_the_least s b : (forall p, on_segment3 s p -> in_box b p) -> box_le (sg3_bounding_box s) b.
Proof. exact (sg3_box_least s b). Qed.
Print Assumptions C113_bounding_box_is_the_least.
Theorem C113_distance_when_the_common_perpendicular_meets_both s t p q : proper3 s -> proper3 t ->
  get_minimum_distance_points_lines (fst s) (snd s) (fst t) (snd t) = (p, q) ->
  line_point_belongs_with_points (fst s) (snd s) (fst t) = false -> line_point_belongs_with_points (fst s) (snd s) (snd t) = false ->
  cross3 (dir3 s) (dir3 t) <> V3 0 0 0 -> on_segment3 s p -> on_segment3 t q ->
  sg3_distance s t = Ok (point_distance3 p q, p, q) /\ min_dist point_distance3 (on_segment3 s) (on_segment3 t) (point_distance3 p q).
Proof. exact (sg3_distance_cross s t p q). Qed.
Print Assumptions C113_distance_when_the_common_perpendicular_meets_both.
Theorem C113_distance_is_never_too_small s t d p q m : proper3 s -> proper3 t -> sg3_distance s t = Ok (d, p, q) ->
  min_dist point_distance3 (on_segment3 s) (on_segment3 t) m -> m - 2 * / 10 ^ 6 <= d.
Proof. exact (sg3_distance_lower s t d p q m). Qed.
Print Assumptions C113_distance_is_never_too_small.
Theorem C113_points_returned_with_the_distance s t d p q a b : proper3 s -> proper3 t ->
  get_minimum_distance_points_lines (fst s) (snd s) (fst t) (snd t) = (a, b) -> sg3_distance s t = Ok (d, p, q) ->
  d = point_distance3 p q /\
  (near_segment3 s a (/ 10 ^ 6) -> p = a) /\ (near_segment3 t b (/ 10 ^ 6) -> q = b) /\
  (~ near_segment3 s a (/ 10 ^ 6) -> (p = fst s \/ p = snd s) /\ point_distance3 p a <= point_distance3 (fst s) a /\ point_distance3 p a <= point_distance3 (snd s) a) /\
  (~ near_segment3 t b (/ 10 ^ 6) -> (q = fst t \/ q = snd t) /\ point_distance3 q b <= point_distance3 (fst t) b /\ point_distance3 q b <= point_distance3 (snd t) b).
Proof. exact (sg3_distance_points s t d p q a b). Qed.
Print Assumptions C113_points_returned_with_the_distance.
(** the two points are clamped one after the other *)
Theorem C144_distance_is_the_least_refuted : exists s t d p q, proper3 s /\ proper3 t /\ min_dist point_distance3 (on_segment3 s) (on_segment3 t) 1 /\
  sg3_distance s t = Ok (d, p, q) /\ 14 / 10 < d.
Proof. exact sg3_distance_wrong. Qed.
Print Assumptions C144_distance_is_the_least_refuted.
Theorem C144_contains_is_membership_refuted : (exists s p, proper3 s /\ on_segment3 s p /\ sg3_contains s p = false) /\
  (exists s p, proper3 s /\ ~ near_segment3 s p 3 /\ sg3_contains s p = true).
Proof. exact sg3_contains_wrong. Qed.
Print Assumptions C144_contains_is_membership_refuted.
Theorem C144_to_bspline_curve_covers_the_segment_refuted : exists s n pts p, proper3 s /\ sg3_bspline_points s n = Ok pts /\ In p pts /\ ~ near_segment3 s p 8.
Proof. exact sg3_bspline_points_wrong. Qed.
Print Assumptions C144_to_bspline_curve_covers_the_segment_refuted.
Theorem C113_to_bspline_curve_points s n : proper3 s -> sg3_bspline_points s n =
  Ok (map (fun i => seg3 (fst s) (snd s) (INR i / (sg3_length s * sg3_length s))) (seq 0 (n + 1))).
Proof. exact (sg3_bspline_points_is s n). Qed.
Print Assumptions C113_to_bspline_curve_points.
Example C113_nonvacuous : proper3 E0 /\ proper3 E1 /\ cross3 (dir3 E0) (dir3 E1) <> V3 0 0 0 /\ dot3 (dir3 E0) (dir3 E1) = 0 /\ on_segment3 E0 (V3 (1 / 2) 0 0) /\ on_segment3 E1 (V3 (1 / 2) 0 0).
Proof.
  split; [exact E0_proper|]. split; [exact E1_proper|]. split; [intros H; pose proof (f_equal z3 H) as X; unfold E0, E1, dir3 in X; vec; lra|].
  split; [unfold E0, E1, dir3; vec; ring|]. split; exists (1 / 2); (split; [lra|]); unfold E0, E1; vec; v_eq; field.
Qed.

