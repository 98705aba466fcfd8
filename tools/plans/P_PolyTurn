(** C245-C249: the direction, convexity and self intersection tests of plane polygons (statements only). *)
From Coq Require Import List Arith Bool Reals Lra Lia.
From Verif.Model Require Import RBase Vec PolyTurn.
From Verif.Spec Require Import PolyTurnSpec.
From Verif.Proofs Require Import PolyTurnP PolyTurnP2 PolyTurnP3 PolyTurnP4 PolyTurnP5.
Import ListNotations.
Open Scope R_scope.

(** ** C245: is_trigo of polygons that always turn the same way *)
@trigo_left C245_a_polygon_that_turns_left_is_trigonometric
@trigo_right C245_a_polygon_that_turns_right_is_not
@trigo_convex C245_convex_polygons
@trigo_translation C245_translations
@trigo_rotation C245_rotations
@trigo_one_point C245_one_point_repeated
@trigo_few C245_two_points_or_less
@square_facts C245_the_unit_square
Example C245_nonvacuous : is_trigo [V2 0 0; V2 1 0; V2 1 1; V2 0 1] = Ok true.
Proof. destruct square_facts as (A & B & C & _). apply trigo_convex; [exact A|exact B|cbn; lia|exact C]. Qed.

(** ** C246: is_trigo of simple polygons *)
@trigo_refuted C246_the_direction_of_simple_polygons_refuted

(** ** C247: is_convex *)
@is_convex_spec C247_no_corner_turns_against_the_direction
@convex_one_point C247_one_point_repeated
@is_convex_convex C247_convex_polygons_are_convex
@no_points C247_no_points
@is_convex_mixed C247_polygons_that_turn_both_ways_are_not
Example C247_nonvacuous : is_convex [V2 0 0; V2 1 0; V2 1 1; V2 0 1] = Ok true.
Proof. destruct square_facts as (A & B & C & _). apply is_convex_convex; [exact A|exact B|cbn; lia|left; exact C]. Qed.

(** ** C248: is_convex of polygons that cross themselves *)
@convex_refuted C248_convex_refuted

(** ** C249: self_intersects *)
@self_refuted C249_self_intersects_refuted
@self_intersects_always C249_it_never_answers_no_in_general_position
@aligned_never_meet C249_it_never_answers_yes_for_aligned_points
