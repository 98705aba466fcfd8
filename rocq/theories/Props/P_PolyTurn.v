(** C245-C249: the direction, convexity and self intersection tests of plane polygons (statements only). *)
From Coq Require Import List Arith Bool Reals Lra Lia.
From Verif.Model Require Import RBase Vec PolyTurn.
From Verif.Spec Require Import PolyTurnSpec.
From Verif.Proofs Require Import PolyTurnP PolyTurnP2 PolyTurnP3 PolyTurnP4 PolyTurnP5.
Import ListNotations.
Open Scope R_scope.

(** ** C245: is_trigo of polygons that always turn the same way *)
Theorem C245_a_polygon_that_turns_left_is_trigonometric pts : no_repeat pts -> (3 <= length pts)%nat -> (forall i, 0 <= turn pts i /\ ~ goes_back pts i) -> (exists i, 0 < turn pts i) -> is_trigo pts = Ok true.
Proof. exact (trigo_left pts). Qed.
Print Assumptions C245_a_polygon_that_turns_left_is_trigonometric.
Theorem C245_a_polygon_that_turns_right_is_not pts : no_repeat pts -> (3 <= length pts)%nat -> (forall i, turn pts i <= 0 /\ ~ goes_back pts i) -> is_trigo pts = Ok false.
Proof. exact (trigo_right pts). Qed.
Print Assumptions C245_a_polygon_that_turns_right_is_not.
Theorem C245_convex_polygons pts : no_repeat pts -> not_flat pts -> (3 <= length pts)%nat -> (convex_trigo pts -> is_trigo pts = Ok true) /\ (convex_clockwise pts -> is_trigo pts = Ok false).
Proof. exact (trigo_convex pts). Qed.
Print Assumptions C245_convex_polygons.
Theorem C245_translations pts v : is_trigo (map (fun p => translation2 p v) pts) = is_trigo pts.
Proof. exact (trigo_translation pts v). Qed.
Print Assumptions C245_translations.
Theorem C245_rotations pts center a : is_trigo (map (fun p => rotation2 p center a) pts) = is_trigo pts.
Proof. exact (trigo_rotation pts center a). Qed.
Print Assumptions C245_rotations.
Theorem C245_one_point_repeated p n : is_trigo (repeat p n) = (if (n <? 3)%nat then Ok true else Err IndexError).
Proof. exact (trigo_one_point p n). Qed.
Print Assumptions C245_one_point_repeated.
Theorem C245_two_points_or_less pts : (length pts < 3)%nat -> is_trigo pts = Ok true.
Proof. exact (trigo_few pts). Qed.
Print Assumptions C245_two_points_or_less.
Theorem C245_the_unit_square : let pts := [V2 0 0; V2 1 0; V2 1 1; V2 0 1] in no_repeat pts /\ not_flat pts /\ convex_trigo pts /\ general_position pts.
Proof. exact square_facts. Qed.
Print Assumptions C245_the_unit_square.
Example C245_nonvacuous : is_trigo [V2 0 0; V2 1 0; V2 1 1; V2 0 1] = Ok true.
Proof. destruct square_facts as (A & B & C & _). apply trigo_convex; [exact A|exact B|cbn; lia|exact C]. Qed.

(** ** C246: is_trigo of simple polygons *)
Theorem C246_the_direction_of_simple_polygons_refuted : exists pts, simple_polygon pts /\ 0 < twice_area pts /\ is_trigo pts = Ok false /\ is_trigo (map (fun p => mul2 p (/ 1000)) pts) = Ok true.
Proof. exact trigo_refuted. Qed.
Print Assumptions C246_the_direction_of_simple_polygons_refuted.

(** ** C247: is_convex *)
Theorem C247_no_corner_turns_against_the_direction pts : no_repeat pts -> (3 <= length pts)%nat -> exists trigo convex, is_trigo pts = Ok trigo /\ is_convex pts = Ok convex /\
  (convex = true <-> forall i, if trigo then 0 <= turn pts i else turn pts i <= 0).
Proof. exact (is_convex_spec pts). Qed.
Print Assumptions C247_no_corner_turns_against_the_direction.
Theorem C247_one_point_repeated p n : is_convex (repeat p n) = Err IndexError.
Proof. exact (convex_one_point p n). Qed.
Print Assumptions C247_one_point_repeated.
Theorem C247_convex_polygons_are_convex pts : no_repeat pts -> not_flat pts -> (3 <= length pts)%nat -> convex_trigo pts \/ convex_clockwise pts -> is_convex pts = Ok true.
Proof. exact (is_convex_convex pts). Qed.
Print Assumptions C247_convex_polygons_are_convex.
Theorem C247_no_points : is_convex [] = Err IndexError /\ is_trigo [] = Ok true.
Proof. exact no_points. Qed.
Print Assumptions C247_no_points.
Theorem C247_polygons_that_turn_both_ways_are_not pts i j : no_repeat pts -> (3 <= length pts)%nat -> 0 < turn pts i -> turn pts j < 0 -> is_convex pts = Ok false.
Proof. exact (is_convex_mixed pts i j). Qed.
Print Assumptions C247_polygons_that_turn_both_ways_are_not.
Example C247_nonvacuous : is_convex [V2 0 0; V2 1 0; V2 1 1; V2 0 1] = Ok true.
Proof. destruct square_facts as (A & B & C & _). apply is_convex_convex; [exact A|exact B|cbn; lia|left; exact C]. Qed.

(** ** C248: is_convex of polygons that cross themselves *)
Theorem C248_convex_refuted : exists pts, no_repeat pts /\ is_convex pts = Ok true /\ ~ simple_polygon pts /\ ~ convex_trigo pts /\ ~ convex_clockwise pts.
Proof. exact convex_refuted. Qed.
Print Assumptions C248_convex_refuted.

(** ** C249: self_intersects *)
Theorem C249_self_intersects_refuted : exists pts pts', simple_polygon pts /\ simple_polygon pts' /\ self_intersects pts = Err IndexError /\ exists s, self_intersects pts' = Ok (Some s).
Proof. exact self_refuted. Qed.
Print Assumptions C249_self_intersects_refuted.
Theorem C249_it_never_answers_no_in_general_position pts : (3 <= length pts)%nat -> general_position pts -> self_intersects pts = Err IndexError \/ exists s, self_intersects pts = Ok (Some s).
Proof. exact (self_intersects_always pts). Qed.
Print Assumptions C249_it_never_answers_no_in_general_position.
Theorem C249_it_never_answers_yes_for_aligned_points : forall pts o d, (forall p, In p pts -> exists t, p = add2 o (mul2 d t)) -> forall s, self_intersects pts <> Ok (Some s).
Proof. exact aligned_never_meet. Qed.
Print Assumptions C249_it_never_answers_yes_for_aligned_points.

