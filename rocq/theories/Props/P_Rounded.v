(** C166-C171: rounded polylines of primitives.py and primitives2d.py (statements only). *)
From Coq Require Import Reals Lra Lia List ZArith Sorted.
From Verif.Model Require Import Base RBase Vec Frame Geometry Curves Edges Arcs Rounded.
From Verif.Spec Require Import VecSpec CurvesSpec ArcsSpec RoundedSpec.
From Verif.Proofs Require Import VecP CurvesP3 EdgesP ArcsP ArcsP4 RoundedP RoundedP2 RoundedP3 RoundedP4 RoundedP5 RoundedP6 RoundedP7 RoundedP8 RoundedP9 RoundedP10 RoundedP11 RoundedP12 RoundedP13 RoundedP14 RoundedP15.
Import ListNotations.
Open Scope R_scope.

(** ** C166: the rounding of a corner *)
Theorem C166_a_corner_is_rounded_by_the_tangent_arc pt1 pti pt2 r a : half_angle pt1 pti pt2 a -> 0 < r -> / 10 ^ 6 < 2 * cos a ->
  exists c p3 q p4, arc_features_of pt1 pti pt2 r = Ok (p3, q, p4, r / tan a, a) /\ rounds pt1 pti pt2 r (r / tan a) c p3 q p4.
Proof. exact (arc_features_ok pt1 pti pt2 r a). Qed.
Print Assumptions C166_a_corner_is_rounded_by_the_tangent_arc.
Theorem C166_the_three_points_of_the_arc_are_not_aligned pt1 pti pt2 r a c p3 q p4 : half_angle pt1 pti pt2 a -> 0 < r -> rounds pt1 pti pt2 r (r / tan a) c p3 q p4 ->
  det3p p3 q p4 <> 0.
Proof. exact (corner_circle pt1 pti pt2 r a c p3 q p4). Qed.
Print Assumptions C166_the_three_points_of_the_arc_are_not_aligned.
Theorem C166_the_arc_has_the_radius_and_the_center pt1 pti pt2 r d c p3 q p4 a : rounds pt1 pti pt2 r d c p3 q p4 -> arc2_from_3_points p3 q p4 = Ok a ->
  center2 (ac a) = c /\ cr2 (ac a) = r /\ ast a = p3 /\ aen a = p4.
Proof. exact (corner_arc pt1 pti pt2 r d c p3 q p4 a). Qed.
Print Assumptions C166_the_arc_has_the_radius_and_the_center.
Theorem C166_every_corner_has_a_half_angle pt1 pti pt2 : cross2 (sub2 pt1 pti) (sub2 pt2 pti) <> 0 -> exists a, half_angle pt1 pti pt2 a.
Proof. exact (half_angle_exists pt1 pti pt2). Qed.
Print Assumptions C166_every_corner_has_a_half_angle.
Theorem C166_the_half_angle_is_determined pt1 pti pt2 a b : half_angle pt1 pti pt2 a -> half_angle pt1 pti pt2 b -> a = b.
Proof. exact (half_angle_unique pt1 pti pt2 a b). Qed.
Print Assumptions C166_the_half_angle_is_determined.
Theorem C166_a_straight_corner_cannot_be_rounded lp s i r p1 p p2 : radapt s = false -> In (i, r) (rrad s) -> lookup i (rrad s) = Some r -> 0 < r -> corner s i p1 p p2 -> p1 <> p -> p2 <> p ->
  dot2 (sub2 p1 p) (sub2 p2 p) = - (point_distance2 p1 p * point_distance2 p2 p) -> ~ exists x, rounded_primitives lp s = Ok x.
Proof. exact (straight_corner_fails lp s i r p1 p p2). Qed.
Print Assumptions C166_a_straight_corner_cannot_be_rounded.
Example C166_nonvacuous : half_angle (V2 0 0) (V2 10 0) (V2 10 10) (PI / 4) /\ / 10 ^ 6 < 2 * cos (PI / 4) /\ cut good (rrad good) 1 2.
Proof.
  split; [|split; [exact cos4|exact (proj1 good_cut)]].
  replace (V2 0 0) with (add2 (V2 10 0) (mul2 (V2 (-1) 0) 10)) by (unfold add2, mul2; apply vec2_ext; cbn [x2 y2]; ring). replace (V2 10 10) with (add2 (V2 10 0) (mul2 (V2 0 1) 10)) by (unfold add2, mul2; apply vec2_ext; cbn [x2 y2]; ring).
  apply right_half; unfold axis; auto; try lra. unfold dot2; cbn [x2 y2]; ring.
Qed.

(** ** C167: the wire *)
Theorem C167_the_primitives_are_connected_in_order pts closed arcs l : (2 <= length pts)%nat -> primitives_from_arcs pts closed arcs = Ok l ->
  chained (2 / 10 ^ 6) l /\
  (forall a k b, l = a :: k -> (exists k', l = k' ++ [b]) -> closed = true -> point_distance2 (p_end b) (p_start a) <= 2 / 10 ^ 6) /\
  (forall a k p, l = a :: k -> meets pts arcs 0 p -> point_distance2 p (p_start a) <= / 10 ^ 6) /\
  (forall b k p, l = k ++ [b] -> closed = false -> meets pts arcs (length pts - 1) p -> point_distance2 (p_end b) p <= 2 / 10 ^ 6) /\
  arcs_of l = somes (map (fun i => lookup i arcs) (seq 0 (if closed then length pts else length pts - 1))).
Proof. exact (wire_connected pts closed arcs l). Qed.
Print Assumptions C167_the_primitives_are_connected_in_order.
Theorem C167_segments_lie_on_the_sides_and_arcs_are_tangent lp s rad l : rounded_primitives lp s = Ok (rad, l) -> (2 <= length (rpts s))%nat -> NoDup (map fst rad) -> (forall i j, is_side s i j -> side_fits s rad i j) ->
  (forall a b, In (PSeg (a, b)) l -> exists i j p q, is_side s i j /\ nth_error (rpts s) i = Some p /\ nth_error (rpts s) j = Some q /\ part_of p q a b) /\
  (forall a, In (PArc a) l -> exists i r d p1 pi p2 p3 q p4, In (i, r) rad /\ corner s i p1 pi p2 /\ rounds p1 pi p2 r d (center2 (ac a)) p3 q p4 /\ cr2 (ac a) = r /\ ast a = p3 /\ aen a = p4 /\ arc2_from_3_points p3 q p4 = Ok a).
Proof. exact (wire_geometry lp s rad l). Qed.
Print Assumptions C167_segments_lie_on_the_sides_and_arcs_are_tangent.
Example C167_nonvacuous : forall lp, (exists l, rounded_primitives lp good = Ok (rrad good, l) /\ length l = 5%nat) /\ NoDup (map fst (rrad good)) /\ (forall i j, is_side good i j -> side_fits good (rrad good) i j).
Proof.
  intros lp. split; [destruct (good_ok lp) as (a & b & E); eexists; split; [exact E|reflexivity]|]. split; [|exact good_fits].
  cbn. constructor; [cbn; lia|]. constructor; [cbn; tauto|constructor].
Qed.

(** ** C168: overlapping roundings are refused *)
Theorem C168_accepted_consecutive_corners_do_not_overlap lp s rad l i d1 d2 p q : StronglySorted lt (map fst (rrad s)) -> radapt s = false -> rounded_primitives lp s = Ok (rad, l) ->
  In i (map fst (rrad s)) -> In (S i) (map fst (rrad s)) -> cut s (rrad s) i d1 -> cut s (rrad s) (S i) d2 ->
  nth_error (rpts s) i = Some p -> nth_error (rpts s) (S i) = Some q -> rad = rrad s /\ d1 + d2 <= point_distance2 p q.
Proof. exact (check_sound lp s rad l i d1 d2 p q). Qed.
Print Assumptions C168_accepted_consecutive_corners_do_not_overlap.
Theorem C168_overlapping_consecutive_corners_are_refused lp s i d1 d2 p q : StronglySorted lt (map fst (rrad s)) -> radapt s = false -> (forall j, In j (map fst (rrad s)) -> exists d, cut s (rrad s) j d) ->
  In i (map fst (rrad s)) -> In (S i) (map fst (rrad s)) -> cut s (rrad s) i d1 -> cut s (rrad s) (S i) d2 ->
  nth_error (rpts s) i = Some p -> nth_error (rpts s) (S i) = Some q -> point_distance2 p q < d1 + d2 -> rounded_primitives lp s = Err ValueError.
Proof. exact (check_complete lp s i d1 d2 p q). Qed.
Print Assumptions C168_overlapping_consecutive_corners_are_refused.
Example C168_nonvacuous : StronglySorted lt (map fst (rrad good)) /\ radapt good = false /\ cut good (rrad good) 1 2 /\ cut good (rrad good) 2 3 /\ (forall lp, exists l, rounded_primitives lp good = Ok (rrad good, l)).
Proof.
  split; [cbn; repeat constructor|]. split; [reflexivity|]. split; [exact (proj1 good_cut)|]. split; [exact (proj2 good_cut)|]. intros lp. destruct (good_ok lp) as (a & b & E). eexists. exact E.
Qed.

(** ** C169: adapted radii *)
Theorem C169_adapted_radii_do_not_overlap lp s rad l : StronglySorted lt (map fst (rrad s)) -> radapt s = true -> (forall j, In j (map fst (rrad s)) -> exists d, cut s (rrad s) j d) ->
  (forall c rows bounds x, lp c rows bounds = Ok x -> lp_feasible rows bounds x) -> rounded_primitives lp s = Ok (rad, l) ->
  NoDup (map fst rad) /\
  (forall i r', In (i, r') rad -> exists r, In (i, r) (rrad s) /\ 0 < r' <= r) /\
  (forall i d1 d2 p q, In i (map fst rad) -> In (S i) (map fst rad) -> cut s rad i d1 -> cut s rad (S i) d2 -> nth_error (rpts s) i = Some p -> nth_error (rpts s) (S i) = Some q -> d1 + d2 <= point_distance2 p q) /\
  (forall i d p1 p p2, In i (map fst rad) -> ~ In (S i) (map fst (rrad s)) -> (forall k, i = S k -> ~ In k (map fst (rrad s))) -> cut s rad i d -> corner s i p1 p p2 -> d <= point_distance2 p1 p /\ d <= point_distance2 p p2).
Proof. exact (adapted lp s rad l). Qed.
Print Assumptions C169_adapted_radii_do_not_overlap.
Example C169_nonvacuous : lp_solves lp0 /\ radapt grp = true /\ cut grp (rrad grp) 1 5 /\ exists l, rounded_primitives lp0 grp = Ok ([(1%nat, 4); (2%nat, 6)], l).
Proof.
  split; [exact lp0_solves|]. split; [reflexivity|]. split; [apply grp_cut; [lra|left; reflexivity]|]. destruct grp_ok as (a & b & E). eexists. exact E.
Qed.

(** ** C170: what the check and the adaptation miss *)
Theorem C170_a_radius_too_large_for_its_sides_is_refused_refuted : exists s rad l a, radapt s = false /\ (forall lp, rounded_primitives lp s = Ok (rad, l)) /\ In (PSeg (V2 0 0, a)) l /\ nth_error (rpts s) 0 = Some (V2 0 0) /\ nth_error (rpts s) 1 = Some (V2 1 0) /\
  ~ (forall p q, In (PSeg (p, q)) l -> exists i j u v, is_side s i j /\ nth_error (rpts s) i = Some u /\ nth_error (rpts s) j = Some v /\ part_of u v p q).
Proof. exact overlap_missed. Qed.
Print Assumptions C170_a_radius_too_large_for_its_sides_is_refused_refuted.
Theorem C170_the_last_and_the_first_corner_are_checked_refuted : exists s rad l, radapt s = false /\ rclosed s = true /\ (forall lp, rounded_primitives lp s = Ok (rad, l)) /\
  cut s (rrad s) 3 9 /\ cut s (rrad s) 0 9 /\ nth_error (rpts s) 3 = Some (V2 0 10) /\ nth_error (rpts s) 0 = Some (V2 0 0) /\ length (rpts s) = 4%nat /\ In (PSeg (V2 0 1, V2 0 9)) l.
Proof. exact wrap_missed. Qed.
Print Assumptions C170_the_last_and_the_first_corner_are_checked_refuted.
Theorem C170_adapted_radii_fit_their_sides_refuted : exists lp s rad l, lp_solves lp /\ radapt s = true /\ rounded_primitives lp s = Ok (rad, l) /\ nth_error (rpts s) 0 = Some (V2 0 0) /\ nth_error (rpts s) 1 = Some (V2 1 0) /\
  cut s rad 0 0 /\ cut s rad 1 4 /\ In (PSeg (V2 0 0, V2 (-3) 0)) l.
Proof. exact adapted_missed. Qed.
Print Assumptions C170_adapted_radii_fit_their_sides_refuted.

(** ** C171: offset *)
Theorem C171_every_side_moves_by_the_offset s off s' : rls_offset s off = Ok s' -> (2 <= length (rpts s))%nat ->
  (forall i p1 p p2, corner s i p1 p p2 -> (rclosed s = true \/ 0 < i)%nat -> clear_corner p1 p p2) ->
  length (rpts s') = length (rpts s) /\ rclosed s' = rclosed s /\ radapt s' = radapt s /\
  forall i j p q p' q' n, is_side s i j -> nth_error (rpts s) i = Some p -> nth_error (rpts s) j = Some q -> nth_error (rpts s') i = Some p' -> nth_error (rpts s') j = Some q' ->
    left_normal p q n -> dot2 (sub2 p' p) n = off /\ dot2 (sub2 q' q) n = off.
Proof. exact (offset_sides s off s'). Qed.
Print Assumptions C171_every_side_moves_by_the_offset.
Theorem C171_radii_of_the_offset s off s' i r p1 p p2 : rls_offset s off = Ok s' -> (2 <= length (rpts s))%nat -> lookup i (rrad s) = Some r -> (rclosed s = true \/ 0 < i)%nat ->
  corner s i p1 p p2 -> clear_corner p1 p p2 ->
  (0 <= cross2 (sub2 p p1) (sub2 p2 p) -> (0 < r - off -> In (i, r - off) (rrad s')) /\ (r - off <= 0 -> radapt s = false -> ~ In i (map fst (rrad s')))) /\
  (cross2 (sub2 p p1) (sub2 p2 p) < 0 -> (0 < r + off -> In (i, r + off) (rrad s')) /\ (r + off <= 0 -> radapt s = false -> ~ In i (map fst (rrad s')))) /\
  forall r', In (i, r') (rrad s') -> 0 < r'.
Proof. exact (offset_radii s off s' i r p1 p p2). Qed.
Print Assumptions C171_radii_of_the_offset.
Theorem C171_the_offset_roundings_are_concentric p1 p p2 q1 q q2 n1 n2 off r d c p3 a p4 r' d' c' p3' a' p4' :
  left_normal p1 p n1 -> left_normal p p2 n2 -> dot2 (sub2 q p) n1 = off -> dot2 (sub2 q p) n2 = off ->
  same_direction (sub2 p p1) (sub2 q q1) -> same_direction (sub2 p2 p) (sub2 q2 q) -> 0 < r -> 0 < r' ->
  rounds p1 p p2 r d c p3 a p4 -> rounds q1 q q2 r' d' c' p3' a' p4' ->
  (0 < cross2 (sub2 p p1) (sub2 p2 p) /\ r' = r - off) \/ (cross2 (sub2 p p1) (sub2 p2 p) < 0 /\ r' = r + off) -> c' = c.
Proof. exact (offset_concentric p1 p p2 q1 q q2 n1 n2 off r d c p3 a p4 r' d' c' p3' a' p4'). Qed.
Print Assumptions C171_the_offset_roundings_are_concentric.
Example C171_nonvacuous : (exists s', rls_offset ell 1 = Ok s') /\ (forall i p1 p p2, corner ell i p1 p p2 -> (rclosed ell = true \/ 0 < i)%nat -> clear_corner p1 p p2) /\ left_normal (V2 0 0) (V2 10 0) (V2 0 1).
Proof.
  split; [exact ell_ok|]. split; [exact ell_clear|]. split; [apply norm2_of_sq; [lra|]; unfold dot2; cbn [x2 y2]; ring|]. split; [unfold dot2, sub2; cbn [x2 y2]; ring|unfold cross2, sub2; cbn [x2 y2]; lra].
Qed.

