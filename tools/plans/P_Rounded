(** C166-C171: rounded polylines of primitives.py and primitives2d.py (statements only). *)
From Coq Require Import Reals Lra Lia List ZArith Sorted.
From Verif.Model Require Import Base RBase Vec Frame Geometry Curves Edges Arcs Rounded.
From Verif.Spec Require Import VecSpec CurvesSpec ArcsSpec RoundedSpec.
From Verif.Proofs Require Import VecP CurvesP3 EdgesP ArcsP ArcsP4 RoundedP RoundedP2 RoundedP3 RoundedP4 RoundedP5 RoundedP6 RoundedP7 RoundedP8 RoundedP9 RoundedP10 RoundedP11 RoundedP12 RoundedP13 RoundedP14 RoundedP15.
Import ListNotations.
Open Scope R_scope.

(** ** C166: the rounding of a corner *)
@arc_features_ok C166_a_corner_is_rounded_by_the_tangent_arc
@corner_circle C166_the_three_points_of_the_arc_are_not_aligned
@corner_arc C166_the_arc_has_the_radius_and_the_center
@half_angle_exists C166_every_corner_has_a_half_angle
@half_angle_unique C166_the_half_angle_is_determined
@straight_corner_fails C166_a_straight_corner_cannot_be_rounded
Example C166_nonvacuous : half_angle (V2 0 0) (V2 10 0) (V2 10 10) (PI / 4) /\ / 10 ^ 6 < 2 * cos (PI / 4) /\ cut good (rrad good) 1 2.
Proof.
  split; [|split; [exact cos4|exact (proj1 good_cut)]].
  replace (V2 0 0) with (add2 (V2 10 0) (mul2 (V2 (-1) 0) 10)) by (unfold add2, mul2; apply vec2_ext; cbn [x2 y2]; ring). replace (V2 10 10) with (add2 (V2 10 0) (mul2 (V2 0 1) 10)) by (unfold add2, mul2; apply vec2_ext; cbn [x2 y2]; ring).
  apply right_half; unfold axis; auto; try lra. unfold dot2; cbn [x2 y2]; ring.
Qed.

(** ** C167: the wire *)
@wire_connected C167_the_primitives_are_connected_in_order
@wire_geometry C167_segments_lie_on_the_sides_and_arcs_are_tangent
Example C167_nonvacuous : forall lp, (exists l, rounded_primitives lp good = Ok (rrad good, l) /\ length l = 5%nat) /\ NoDup (map fst (rrad good)) /\ (forall i j, is_side good i j -> side_fits good (rrad good) i j).
Proof.
  intros lp. split; [destruct (good_ok lp) as (a & b & E); eexists; split; [exact E|reflexivity]|]. split; [|exact good_fits].
  cbn. constructor; [cbn; lia|]. constructor; [cbn; tauto|constructor].
Qed.

(** ** C168: overlapping roundings are refused *)
@check_sound C168_accepted_consecutive_corners_do_not_overlap
@check_complete C168_overlapping_consecutive_corners_are_refused
Example C168_nonvacuous : StronglySorted lt (map fst (rrad good)) /\ radapt good = false /\ cut good (rrad good) 1 2 /\ cut good (rrad good) 2 3 /\ (forall lp, exists l, rounded_primitives lp good = Ok (rrad good, l)).
Proof.
  split; [cbn; repeat constructor|]. split; [reflexivity|]. split; [exact (proj1 good_cut)|]. split; [exact (proj2 good_cut)|]. intros lp. destruct (good_ok lp) as (a & b & E). eexists. exact E.
Qed.

(** ** C169: adapted radii *)
@adapted C169_adapted_radii_do_not_overlap
Example C169_nonvacuous : lp_solves lp0 /\ radapt grp = true /\ cut grp (rrad grp) 1 5 /\ exists l, rounded_primitives lp0 grp = Ok ([(1%nat, 4); (2%nat, 6)], l).
Proof.
  split; [exact lp0_solves|]. split; [reflexivity|]. split; [apply grp_cut; [lra|left; reflexivity]|]. destruct grp_ok as (a & b & E). eexists. exact E.
Qed.

(** ** C170: what the check and the adaptation miss *)
@overlap_missed C170_a_radius_too_large_for_its_sides_is_refused_refuted
@wrap_missed C170_the_last_and_the_first_corner_are_checked_refuted
@adapted_missed C170_adapted_radii_fit_their_sides_refuted

(** ** C171: offset *)
@offset_sides C171_every_side_moves_by_the_offset
@offset_radii C171_radii_of_the_offset
@offset_concentric C171_the_offset_roundings_are_concentric
Example C171_nonvacuous : (exists s', rls_offset ell 1 = Ok s') /\ (forall i p1 p p2, corner ell i p1 p p2 -> (rclosed ell = true \/ 0 < i)%nat -> clear_corner p1 p p2) /\ left_normal (V2 0 0) (V2 10 0) (V2 0 1).
Proof.
  split; [exact ell_ok|]. split; [exact ell_clear|]. split; [apply norm2_of_sq; [lra|]; unfold dot2; cbn [x2 y2]; ring|]. split; [unfold dot2, sub2; cbn [x2 y2]; ring|unfold cross2, sub2; cbn [x2 y2]; lra].
Qed.
